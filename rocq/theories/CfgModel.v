(** Model of configuration line objects and of the configuration parser.

    Sources: /repo/ciscoconfparse/ccp_abc.py (class BaseCfgLine) and
    /repo/ciscoconfparse/ciscoconfparse.py (class ConfigList).

    Objects live in a heap (a list; the object id is the position).  Only
    [factory=False] is modelled here: every line is a plain *CfgLine whose
    behaviour is that of BaseCfgLine. *)
From Coq Require Import Ascii String Arith NArith ZArith Bool List.
From Verif Require Import PyStr PyBase.
Import ListNotations.
Local Open Scope nat_scope.

(** ciscoconfparse.py:168-178 ALL_VALID_SYNTAX, ALL_BRACE_SYNTAX *)
Inductive syntax := Ios | Nxos | Iosxr | Asa | Junos.

(** Options of CiscoConfParse()/ConfigList(): ciscoconfparse.py:615-626 and
    4880-4890.  [factory], [debug], [encoding], [read_only] are not modelled. *)
Record opts := mkOpts {
  o_comment : str;          (* comment delimiter characters, default "!" *)
  o_ignore_blank : bool;    (* ignore_blank_lines *)
  o_syntax : syntax
}.

(** The attributes of BaseCfgLine used by the modelled code: ccp_abc.py:60-97.
    [cl_parent] and [cl_children] are object ids. [cl_owned] says whether
    [confobj] is set (it is None on objects made by ConfigList.insert_before or insert_after). *)
Record cfgline := mkLine {
  cl_text : str;
  cl_linenum : Z;
  cl_indent : nat;
  cl_comment : bool;
  cl_parent : nat;
  cl_children : list nat;
  cl_child_indent : nat;
  cl_keep : bool;           (* blank_line_keep *)
  cl_owned : bool
}.

Definition set_linenum (z : Z) (o : cfgline) : cfgline :=
  mkLine (cl_text o) z (cl_indent o) (cl_comment o) (cl_parent o)
         (cl_children o) (cl_child_indent o) (cl_keep o) (cl_owned o).
Definition set_parent (p : nat) (o : cfgline) : cfgline :=
  mkLine (cl_text o) (cl_linenum o) (cl_indent o) (cl_comment o) p
         (cl_children o) (cl_child_indent o) (cl_keep o) (cl_owned o).
Definition set_keep (o : cfgline) : cfgline :=
  mkLine (cl_text o) (cl_linenum o) (cl_indent o) (cl_comment o) (cl_parent o)
         (cl_children o) (cl_child_indent o) true (cl_owned o).
(** [obj.children.append(c); obj.child_indent = n] *)
Definition push_child (c n : nat) (o : cfgline) : cfgline :=
  mkLine (cl_text o) (cl_linenum o) (cl_indent o) (cl_comment o) (cl_parent o)
         (cl_children o ++ [c]) n (cl_keep o) (cl_owned o).
Definition set_child_indent (n : nat) (o : cfgline) : cfgline :=
  mkLine (cl_text o) (cl_linenum o) (cl_indent o) (cl_comment o) (cl_parent o)
         (cl_children o) n (cl_keep o) (cl_owned o).

(** ccp_abc.py:215-226 set_comment_bool: the first character after leading
    whitespace is one of the delimiter characters.  (With an empty delimiter
    string Python leaves None, which is falsy, as [false] here.) *)
Definition text_is_comment (delims text : str) : bool :=
  match lstrip text with
  | c :: _ => has_char c delims
  | [] => false
  end.

(** ccp_abc.py:395-427 text setter: indent of the right-stripped text. *)
Definition text_indent (text : str) : nat :=
  length (rstrip text) - length (lstrip (rstrip text)).

(** ccp_abc.py:60-97 __init__ via the text setter 395-427, for object [id];
    a new object is its own parent (75). *)
Definition new_line (delims : str) (id : nat) (linenum : Z) (owned : bool) (line : str) : cfgline :=
  mkLine (rstrip line) linenum (text_indent line) (text_is_comment delims (rstrip line))
         id [] 0 false owned.

(** ccp_abc.py:546-554 is_config_line *)
Definition is_config_line (o : cfgline) : bool :=
  match strip (cl_text o) with [] => false | _ => negb (cl_comment o) end.

(** ** ConfigList.bootstrap_obj_init_ng: ciscoconfparse.py:5737-5831 *)

(** State of the loop 5758-5801: objects so far ([retval]), the dict
    [parents_cache] (association list indent -> parent id), [max_indent] and
    [macro_parent_idx_list]. *)
Record bstate := mkB {
  b_objs : list cfgline;
  b_cache : list (nat * nat);
  b_max : nat;
  b_macros : list nat
}.

(** [parents_cache.get(indent, None)] *)
Fixpoint cache_get (k : nat) (c : list (nat * nat)) : option nat :=
  match c with
  | [] => None
  | (k', v) :: c' => if k =? k' then Some v else cache_get k c'
  end.

(** ciscoconfparse.py:5676-5697 _maintain_bootstrap_parent_cache *)
Definition maintain_cache (cache : list (nat * nat)) (indent max_indent : nat)
    (is_cfg : bool) : list (nat * nat) * option nat :=
  if (indent <? max_indent) && is_cfg
  then (filter (fun kv => fst kv <? indent) cache, None)
  else (cache, cache_get indent cache).

(** ciscoconfparse.py:5713-5724 backward walk from index [k-1] *)
Fixpoint walk_back (objs : list cfgline) (indent k : nat) : option nat :=
  match k with
  | 0 => None
  | S k' =>
      match nth_error objs k' with
      | Some p => if (cl_indent p <? indent) && is_config_line p then Some k'
                  else walk_back objs indent k'
      | None => None
      end
  end.

(** ciscoconfparse.py:5855-5890 _add_child_to_parent; [obj] is not yet in
    [objs], so [_list[idx-1]] is the last element of [objs].  The branch 5884
    (child already assigned) cannot occur for a new object. *)
Definition add_child (objs : list cfgline) (indent : nat) (parent : option nat)
    (obj : cfgline) : list cfgline * cfgline :=
  match parent with
  | None => (objs, obj)
  | Some p =>
      let prev_deeper :=
        match nth_error objs (length objs - 1) with
        | Some q => indent <? cl_indent q
        | None => false
        end in
      if cl_comment obj && prev_deeper then (objs, obj)
      else (upd objs p (push_child (length objs) indent), set_parent p obj)
  end.

(** ciscoconfparse.py:5700-5733 _build_bootstrap_parent_child *)
Definition build_parent_child (objs : list cfgline) (cache : list (nat * nat))
    (parent : option nat) (indent : nat) (obj : cfgline)
    : list cfgline * list (nat * nat) * cfgline :=
  if 0 <? indent then
    match parent with
    | Some _ => let '(objs', obj') := add_child objs indent parent obj in (objs', cache, obj')
    | None =>
        let found := walk_back objs indent (length objs) in
        let cache' := match found with Some p => (indent, p) :: cache | None => cache end in
        let '(objs', obj') := add_child objs indent found obj in (objs', cache', obj')
    end
  else (objs, cache, obj).

(** ciscoconfparse.py:5778 [txt[0:11] == "macro name " and syntax == "ios"] (on
    the unstripped input line) *)
Definition is_macro_start (o : opts) (txt : str) : bool :=
  match o_syntax o with Ios => starts_with (lit "macro name ") txt | _ => false end.

(** One iteration of the loop ciscoconfparse.py:5758-5801. *)
Definition boot_step (o : opts) (st : bstate) (txt : str) : bstate :=
  let idx := length (b_objs st) in
  let obj := new_line (o_comment o) idx (Z.of_nat idx) true txt in
  let indent := cl_indent obj in
  let is_cfg := is_config_line obj in
  let macros := if is_macro_start o txt then b_macros st ++ [idx] else b_macros st in
  let '(cache, parent) := maintain_cache (b_cache st) indent (b_max st) is_cfg in
  let '(objs, cache', obj') := build_parent_child (b_objs st) cache parent indent obj in
  let max' := if (indent =? 0) && is_cfg then 0
              else if b_max st <? indent then indent else b_max st in
  mkB (objs ++ [obj']) cache' max' macros.

Definition boot_init : bstate := mkB [] [] 0 [].
Definition boot_loop (o : opts) (lines : list str) : bstate :=
  fold_left (boot_step o) lines boot_init.

(** ciscoconfparse.py:538 [obj.text.rstrip()[-1] == "{"] and 541
    [obj.text.strip()[0] == "}"], both false on empty text. *)
Definition opens (t : str) : bool :=
  match rev (rstrip t) with c :: _ => Ascii.eqb c "{" | [] => false end.
Definition closes (t : str) : bool :=
  match strip t with c :: _ => Ascii.eqb c "}" | [] => false end.

(** ciscoconfparse.py:506-548 assign_parent_to_closing_braces; [i] is the index
    of the line considered, [stack] the open lines, innermost first. *)
Fixpoint close_braces (todo : list str) (i : nat) (stack : list nat)
    (objs : list cfgline) : result (list cfgline) :=
  match todo with
  | [] => Ok objs
  | t :: todo' =>
      if opens t then close_braces todo' (S i) (i :: stack) objs
      else if closes t then
        match stack with
        | p :: stack' => close_braces todo' (S i) stack' (upd objs i (set_parent p))
        | [] => Err ValueError
        end
      else close_braces todo' (S i) stack objs
  end.

(** The prefix [(set\s+)*] of the banner patterns; [n] bounds the number of
    repetitions (the length of the text suffices). *)
Fixpoint skip_sets (n : nat) (s : str) : str :=
  match n with
  | 0 => s
  | S n' =>
      if starts_with (lit "set") s then
        match skipn 3 s with
        | c :: r => if is_space c then skip_sets n' (lstrip r) else s
        | [] => s
        end
      else s
  end.

(** ciscoconfparse.py:5835-5851 _build_banner_re_ios:
    [^(set\s+)*banner\s+(login|motd|incoming|exec|telnet|lcd)], or
    [aaa authentication fail-message] anywhere. *)
Definition is_banner_line (t : str) : bool :=
  let r := skip_sets (length t) t in
  (starts_with (lit "banner") r &&
   match skipn 6 r with
   | c :: r' => is_space c &&
       existsb (fun w => starts_with w (lstrip r'))
         [lit "login"; lit "motd"; lit "incoming"; lit "exec"; lit "telnet"; lit "lcd"]
   | [] => false
   end)
  || contains (lit "aaa authentication fail-message") t.

Fixpoint take_while (f : ascii -> bool) (s : str) : str :=
  match s with
  | c :: s' => if f c then c :: take_while f s' else []
  | [] => []
  end.

(** ciscoconfparse.py:5561
    [^(?:(?P<btype>(?:set\s+)*banner\s\w+\s+)(?P<bchar>\S))] : the delimiter. *)
Definition banner_delim (t : str) : option ascii :=
  let r := skip_sets (length t) t in
  if starts_with (lit "banner") r then
    match skipn 6 r with
    | c :: r1 =>
        if is_space c then
          match take_while is_word r1 with
          | [] => None
          | w =>
              match skipn (length w) r1 with
              | c2 :: r2 => if is_space c2 then hd_error (lstrip r2) else None
              | [] => None
              end
          end
        else None
    | [] => None
    end
  else None.

(** [parent.children.append(obj); parent.child_indent = 0; obj.parent = parent] *)
Definition adopt (p c : nat) (objs : list cfgline) : list cfgline :=
  upd (upd objs p (push_child c 0)) c (set_parent p).

(** ciscoconfparse.py:5605-5644, the lines after the banner line; [n] is the
    number of lines left. *)
Fixpoint banner_body (n : nat) (p : nat) (d : ascii) (idx : nat) (objs : list cfgline) : list cfgline :=
  match n with
  | 0 => objs
  | S n' =>
      match nth_error objs idx with
      | None => objs
      | Some o =>
          if has_char d (strip (cl_text o)) then adopt p idx objs
          else banner_body n' p d (S idx) (upd (adopt p idx objs) idx set_keep)
      end
  end.

(** ciscoconfparse.py:5562-5644 for one banner line [p]. *)
Definition mark_banner (objs : list cfgline) (p : nat) : list cfgline :=
  let objs1 := upd objs p set_keep in
  match nth_error objs p with
  | None => objs1
  | Some o =>
      match banner_delim (cl_text o) with
      | None => objs1
      | Some d =>
          if 2 <? length (split_on d (cl_text o)) then objs1
          else banner_body (length objs) p d (S p) objs1
      end
  end.

(** Positions of the elements satisfying [f]. *)
Fixpoint positions {A} (f : A -> bool) (i : nat) (l : list A) : list nat :=
  match l with
  | [] => []
  | x :: l' => if f x then i :: positions f (S i) l' else positions f (S i) l'
  end.

(** ciscoconfparse.py:5547-5644 _banner_mark_regex *)
Definition mark_banners (objs : list cfgline) : list cfgline :=
  fold_left mark_banner (positions (fun o => is_banner_line (cl_text o)) 0 objs) objs.

(** ciscoconfparse.py:5661-5672: the lines of one macro; running off the end of
    the list is an IndexError (5665). *)
Fixpoint macro_body (n : nat) (p : nat) (idx : nat) (objs : list cfgline) : result (list cfgline) :=
  match n with
  | 0 => Err IndexError
  | S n' =>
      match nth_error objs idx with
      | None => Err IndexError
      | Some o =>
          let objs' :=
            upd (upd (upd objs idx set_keep) idx (set_parent p)) p
                (fun q => push_child idx (cl_child_indent q) q) in
          if str_eqb (rstrip (cl_text o)) (lit "@") then Ok objs'
          else macro_body n' p (S idx) objs'
      end
  end.

(** ciscoconfparse.py:5648-5672 _macro_mark_children *)
Fixpoint mark_macros (macros : list nat) (objs : list cfgline) : result (list cfgline) :=
  match macros with
  | [] => Ok objs
  | p :: ms =>
      do objs' <- macro_body (length objs) p (S p)
                    (upd (upd objs p set_keep) p (set_child_indent 0));
      mark_macros ms objs'
  end.

(** ciscoconfparse.py:5823-5829: which objects stay in the list. *)
Definition stays (o : opts) (l : cfgline) : bool :=
  negb (o_ignore_blank o)
  || (match strip (cl_text l) with [] => false | _ => true end)
  || cl_keep l.

(** ciscoconfparse.py:5737-5831 bootstrap_obj_init_ng, with ids relative to the
    first new object: all objects made, and the ids of those kept. *)
Definition bootstrap (o : opts) (lines : list str) : result (list cfgline * list nat) :=
  let st := boot_loop o lines in
  do objs1 <- close_braces (map cl_text (b_objs st)) 0 [] (b_objs st);
  do objs2 <- (match o_syntax o with
               | Junos => Ok objs1
               | _ => mark_macros (b_macros st) (mark_banners objs1)
               end);
  Ok (objs2, positions (stays o) 0 objs2).

(** ** The parsed configuration as a heap of objects *)

Record world := mkW {
  w_opts : opts;
  w_heap : list cfgline;
  w_conf : list nat          (* ConfigList._list *)
}.

Definition relocate (base : nat) (l : cfgline) : cfgline :=
  mkLine (cl_text l) (cl_linenum l) (cl_indent l) (cl_comment l) (base + cl_parent l)
         (map (Nat.add base) (cl_children l)) (cl_child_indent l) (cl_keep l) (cl_owned l).

(** [self._list = self.bootstrap_obj_init_ng(lines)] on an existing heap: older
    objects stay allocated (the caller may hold references to them). *)
Definition reboot (w : world) (lines : list str) : result world :=
  do r <- bootstrap (w_opts w) lines;
  let base := length (w_heap w) in
  Ok (mkW (w_opts w) (w_heap w ++ map (relocate base) (fst r)) (map (Nat.add base) (snd r))).

(** ciscoconfparse.py:728-787, config given as a list of strings,
    [factory=False], not junos: zero-length lines are dropped first when
    [ignore_blank_lines] (759-760).  ConfigList.__init__ runs the bootstrap
    twice (4968, 4972) on the same input; the first result is discarded. *)
Definition input_lines (o : opts) (lines : list str) : list str :=
  if o_ignore_blank o
  then filter (fun l => match l with [] => false | _ => true end) lines
  else lines.

Definition parse (o : opts) (lines : list str) : result world :=
  reboot (mkW o [] []) (input_lines o lines).

Definition obj (w : world) (id : nat) : option cfgline := nth_error (w_heap w) id.

(** Text of an object ([""] for an id outside the heap, which no list of the
    model contains). *)
Definition text_of (w : world) (id : nat) : str :=
  match obj w id with Some l => cl_text l | None => [] end.

(** ciscoconfparse.py:953-964 ioscfg *)
Definition ioscfg (w : world) : list str := map (text_of w) (w_conf w).

(** ciscoconfparse.py:981-1008 atomic / commit *)
Definition commit (w : world) : result world := reboot w (ioscfg w).

(** ** Relations of one object *)

(** ccp_abc.py:129-157 __hash__ / __eq__: [str(linenum) + text]
    ([hash] idealised as injective). *)
Definition key (l : cfgline) : str := show_Z (cl_linenum l) ++ cl_text l.
Definition key_of (w : world) (id : nat) : str :=
  match obj w id with Some l => key l | None => [] end.
Definition obj_eqb (w : world) (a b : nat) : bool := str_eqb (key_of w a) (key_of w b).

Definition linenum_of (w : world) (id : nat) : Z :=
  match obj w id with Some l => cl_linenum l | None => (-1)%Z end.

(** Python [set] of line objects: [set.add] keeps the first of equal objects. *)
Definition set_add (w : world) (s : list nat) (x : nat) : list nat :=
  if existsb (obj_eqb w x) s then s else s ++ [x].
Definition set_of (w : world) (l : list nat) : list nat := fold_left (set_add w) l [].
(** [sorted(...)] uses __lt__ (ccp_abc.py:160-172), i.e. the line number. *)
Definition sorted_objs (w : world) (l : list nat) : list nat := sort_by (linenum_of w) l.

(** ccp_abc.py:514-521 all_parents: [while me.parent != me].  [n] is fuel. *)
Fixpoint parents_walk (n : nat) (w : world) (me : nat) (acc : list nat) : result (list nat) :=
  match n with
  | 0 => Err OutOfFuel
  | S n' =>
      match obj w me with
      | None => Err AttributeErr
      | Some l =>
          if obj_eqb w (cl_parent l) me then Ok acc
          else parents_walk n' w (cl_parent l) (set_add w acc (cl_parent l))
      end
  end.
Definition all_parents (w : world) (id : nat) : result (list nat) :=
  rmap (sorted_objs w) (parents_walk (S (length (w_heap w))) w id []).

(** ccp_abc.py:524-531 all_children.  [n] is fuel. *)
Fixpoint all_children_f (n : nat) (w : world) (id : nat) : result (list nat) :=
  match n with
  | 0 => Err OutOfFuel
  | S n' =>
      match obj w id with
      | None => Err AttributeErr
      | Some l =>
          rmap (sorted_objs w)
            (fold_left
               (fun acc c =>
                  do s <- acc;
                  do sub <- all_children_f n' w c;
                  Ok (fold_left (set_add w) sub (set_add w s c)))
               (cl_children l) (Ok []))
      end
  end.
Definition all_children (w : world) (id : nat) : result (list nat) :=
  all_children_f (S (length (w_heap w))) w id.

Definition children_of (w : world) (id : nat) : list nat :=
  match obj w id with Some l => cl_children l | None => [] end.
Definition parent_of (w : world) (id : nat) : nat :=
  match obj w id with Some l => cl_parent l | None => id end.
Definition indent_of (w : world) (id : nat) : nat :=
  match obj w id with Some l => cl_indent l | None => 0 end.

(** ccp_abc.py:480-488 family_endpoint *)
Definition family_endpoint (w : world) (id : nat) : result Z :=
  do l <- all_children w id;
  Ok (match rev l with [] => linenum_of w id | c :: _ => linenum_of w c end).

(** ccp_abc.py:1446-1456 lineage, 1459-1466 geneology, 1469-1475 geneology_text,
    1485 is_child, 1489-1492 siblings *)
Definition lineage (w : world) (id : nat) : result (list nat) :=
  do ps <- all_parents w id;
  do cs <- all_children w id;
  Ok (sorted_objs w (match children_of w id with
                     | [] => ps ++ [id]
                     | _ => ps ++ [id] ++ cs
                     end)).
Definition geneology (w : world) (id : nat) : result (list nat) :=
  do ps <- all_parents w id; Ok (sorted_objs w ps ++ [id]).
Definition geneology_text (w : world) (id : nat) : result (list str) :=
  rmap (map (text_of w)) (geneology w id).
Definition is_child (w : world) (id : nat) : bool := negb (obj_eqb w (parent_of w id) id).
Definition siblings (w : world) (id : nat) : list nat :=
  filter (fun c => indent_of w c =? indent_of w id) (children_of w (parent_of w id)).
