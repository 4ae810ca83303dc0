(** Python's [re] for the patterns written in the repository: a reader of pattern texts
    and a backtracking matcher.

    The subset: characters, escapes, character classes, ".", "^", "$", groups (plain,
    named, non-capturing), "|", the quantifiers "*", "+", "?", "{m}", "{m,n}", lazy
    forms of the first three, and the flags VERBOSE and IGNORECASE.  A negative
    lookahead at the beginning of a pattern is kept apart ([search_unless]).  A starred part that
    matches the empty text ends the repetition; no pattern used here has such a part.  This file models CPython's
    library, not the repository; it was compared with CPython on generated texts. *)
From Coq Require Import Ascii String Arith NArith ZArith Bool List.
From Verif Require Import PyStr PyBase SearchModel.
Import ListNotations.
Local Open Scope char_scope.

(** ** Expressions *)

Inductive cls :=
| CSpace | CNotSpace | CDigit | CNotDigit | CWord | CNotWord
| CRange (lo hi : ascii).
Definition cls_has (c : ascii) (k : cls) : bool :=
  match k with
  | CSpace => is_space c
  | CNotSpace => negb (is_space c)
  | CDigit => is_digit c
  | CNotDigit => negb (is_digit c)
  | CWord => is_word c
  | CNotWord => negb (is_word c)
  | CRange lo hi => ((code lo <=? code c) && (code c <=? code hi))%N
  end.
Definition upper_char (c : ascii) : ascii :=
  let n := code c in
  if ((97 <=? n) && (n <=? 122) || (224 <=? n) && (n <=? 246) || (248 <=? n) && (n <=? 254))%N
  then ascii_of_N (n - 32) else c.
(** A set of characters: negated or not, and whether case is ignored. *)
Record cset := mkSet { cs_neg : bool; cs_icase : bool; cs_items : list cls }.
Definition in_set (k : cset) (c : ascii) : bool :=
  let has x := existsb (cls_has x) (cs_items k) in
  xorb (cs_neg k) (if cs_icase k then has c || has (lower_char c) || has (upper_char c) else has c).

Inductive re :=
| REps
| RSet (k : cset)
| RCat (a b : re)
| RAlt (a b : re)
| RStar (greedy : bool) (a : re)
| RGrp (n : nat) (a : re)
| RBol
| REol.

(** ** The matcher *)

(** Captured groups; the last capture comes first. *)
Definition caps := list (nat * str).
Fixpoint cap (n : nat) (c : caps) : option str :=
  match c with
  | [] => None
  | (m, s) :: r => if Nat.eqb n m then Some s else cap n r
  end.

(** Repetition of [body], at most [fuel] times: every round takes a character, so the
    length of the text is enough. *)
Section Star.
  Context {R : Type}.
  Variable body : nat -> str -> caps -> (nat -> str -> caps -> option R) -> option R.
  Variable greedy : bool.
  Variable k : nat -> str -> caps -> option R.
  Fixpoint star_loop (fuel i : nat) (s : str) (c : caps) : option R :=
    let more := match fuel with
                | O => None
                | S f => body i s c (fun i' s' c' => if Nat.eqb i' i then None else star_loop f i' s' c')
                end in
    if greedy then match more with Some x => Some x | None => k i s c end
    else match k i s c with Some x => Some x | None => more end.
End Star.

(** [mat r i s c k]: match [r] at index [i], where [s] is the rest of the text, and go on
    with [k]; the alternatives are tried in Python's order. *)
Fixpoint mat {R} (r : re) (i : nat) (s : str) (c : caps) (k : nat -> str -> caps -> option R) {struct r} : option R :=
  match r with
  | REps => k i s c
  | RSet q => match s with x :: s' => if in_set q x then k (S i) s' c else None | [] => None end
  | RCat a b => mat a i s c (fun i' s' c' => mat b i' s' c' k)
  | RAlt a b => match mat a i s c k with Some x => Some x | None => mat b i s c k end
  | RStar greedy a => star_loop (mat a) greedy k (length s) i s c
  | RGrp n a => mat a i s c (fun i' s' c' => k i' s' ((n, firstn (i' - i) s) :: c'))
  | RBol => if Nat.eqb i 0 then k i s c else None
  | REol => match s with
            | [] => k i s c
            | [x] => if Ascii.eqb x "010" then k i s c else None
            | _ => None
            end
  end.

(** A match at one index: the matched text and the captures. *)
Definition match_at (r : re) (i : nat) (s : str) : option (str * caps) :=
  mat r i s [] (fun i' _ c => Some (firstn (i' - i) s, c)).
(** [re.search] *)
Fixpoint search_from (r : re) (i : nat) (s : str) : option (str * caps) :=
  match match_at r i s with
  | Some m => Some m
  | None => match s with [] => None | _ :: s' => search_from r (S i) s' end
  end.
Definition search (r : re) (s : str) : option (str * caps) := search_from r 0 s.
(** [re.search] of a pattern that begins with a negative lookahead [(?!look)] *)
Fixpoint search_unless (look r : re) (i : nat) (s : str) : option (str * caps) :=
  match (match match_at look i s with Some _ => None | None => match_at r i s end) with
  | Some m => Some m
  | None => match s with [] => None | _ :: s' => search_unless look r (S i) s' end
  end.

(** ** Reading a pattern *)

(** Numbers and names of the groups read so far. *)
Definition env := (nat * list (str * nat))%type.

Definition esc (c : ascii) : cls :=
  if Ascii.eqb c "s" then CSpace else if Ascii.eqb c "S" then CNotSpace
  else if Ascii.eqb c "d" then CDigit else if Ascii.eqb c "D" then CNotDigit
  else if Ascii.eqb c "w" then CWord else if Ascii.eqb c "W" then CNotWord
  else if Ascii.eqb c "n" then CRange "010" "010" else if Ascii.eqb c "t" then CRange "009" "009"
  else CRange c c.

(** A character class after "[" and "^"; a "]" in first place is not used here. *)
Fixpoint read_class (fuel : nat) (s : str) : option (list cls * str) :=
  match fuel with
  | O => None
  | S f =>
      match s with
      | [] => None
      | "]" :: r => Some ([], r)
      | "\" :: x :: r => match read_class f r with Some (l, r') => Some (esc x :: l, r') | None => None end
      | x :: "-" :: "]" :: r => Some ([CRange x x; CRange "-" "-"], r)
      | x :: "-" :: y :: r => match read_class f r with Some (l, r') => Some (CRange x y :: l, r') | None => None end
      | x :: r => match read_class f r with Some (l, r') => Some (CRange x x :: l, r') | None => None end
      end
  end.

Definition rplus (g : bool) (a : re) : re := RCat a (RStar g a).
Definition ropt (g : bool) (a : re) : re := if g then RAlt a REps else RAlt REps a.
(** [{m,n}]: [m] times, then up to [n - m] times more, as often as possible.  The atoms it is used
    on do not match the empty text and have no groups. *)
Fixpoint rupto (n : nat) (a : re) : re := match n with O => REps | S m => ropt true (RCat a (rupto m a)) end.
Fixpoint rtimes (m : nat) (a r : re) : re := match m with O => r | S k => RCat a (rtimes k a r) end.
Definition rrep (m n : nat) (a : re) : re := rtimes m a (rupto (n - m) a).
(** The numbers between braces: [m] or [m,n], one digit each *)
Definition one_digit (c : ascii) : option nat :=
  if is_digit c then Some (N.to_nat (digit_val c)) else None.
Definition read_counts (s : str) : option (nat * nat * str) :=
  match s with
  | a :: "}" :: r => match one_digit a with Some m => Some (m, m, r) | None => None end
  | a :: "," :: b :: "}" :: r => match one_digit a, one_digit b with Some m, Some n => Some (m, n, r) | _, _ => None end
  | _ => None
  end.
(** The quantifiers after an atom. *)
Definition quantify (a : re) (s : str) : re * str :=
  match s with
  | "*" :: "?" :: r => (RStar false a, r)
  | "*" :: r => (RStar true a, r)
  | "+" :: "?" :: r => (rplus false a, r)
  | "+" :: r => (rplus true a, r)
  | "?" :: "?" :: r => (ropt false a, r)
  | "?" :: r => (ropt true a, r)
  | "{" :: "0" :: "," :: "1" :: "}" :: r => (ropt true a, r)
  | "{" :: r => match read_counts r with Some (m, n, r') => (rrep m n a, r') | None => (a, s) end
  | _ => (a, s)
  end.

(** A group name up to ">". *)
Fixpoint read_name (s : str) : str * str :=
  match s with
  | [] => ([], [])
  | ">" :: r => ([], r)
  | x :: r => let (n, r') := read_name r in (x :: n, r')
  end.

Section Reader.
  (** the flag IGNORECASE *)
  Variable icase : bool.

  Fixpoint read_alt (fuel : nat) (e : env) (s : str) {struct fuel} : option (re * env * str) :=
    match fuel with
    | O => None
    | S f =>
        match read_seq f e s with
        | Some (a, e1, "|" :: r) =>
            match read_alt f e1 r with
            | Some (b, e2, r2) => Some (RAlt a b, e2, r2)
            | None => None
            end
        | x => x
        end
    end
  with read_seq (fuel : nat) (e : env) (s : str) {struct fuel} : option (re * env * str) :=
    match fuel with
    | O => None
    | S f =>
        match s with
        | [] => Some (REps, e, s)
        | "|" :: _ | ")" :: _ => Some (REps, e, s)
        | _ =>
            match read_atom f e s with
            | Some (a, e1, r) =>
                let (b, r1) := quantify a r in
                match r1 with
                | [] => Some (b, e1, r1)
                | "|" :: _ | ")" :: _ => Some (b, e1, r1)
                | _ => match read_seq f e1 r1 with
                       | Some (d, e2, r2) => Some (RCat b d, e2, r2)
                       | None => None
                       end
                end
            | None => None
            end
        end
    end
  with read_atom (fuel : nat) (e : env) (s : str) {struct fuel} : option (re * env * str) :=
    match fuel with
    | O => None
    | S f =>
        let one k r := Some (RSet (mkSet false icase [k]), e, r) in
        match s with
        | [] => None
        | "^" :: r => Some (RBol, e, r)
        | "$" :: r => Some (REol, e, r)
        | "." :: r => Some (RSet (mkSet true false [CRange "010" "010"]), e, r)
        | "\" :: x :: r => one (esc x) r
        | "[" :: "^" :: r =>
            match read_class f r with Some (l, r') => Some (RSet (mkSet true icase l), e, r') | None => None end
        | "[" :: r =>
            match read_class f r with Some (l, r') => Some (RSet (mkSet false icase l), e, r') | None => None end
        | "(" :: "?" :: ":" :: r =>
            match read_alt f e r with Some (a, e1, ")" :: r1) => Some (a, e1, r1) | _ => None end
        | "(" :: "?" :: "P" :: "<" :: r =>
            let (nm, r0) := read_name r in
            let n := S (fst e) in
            match read_alt f (n, (nm, n) :: snd e) r0 with Some (a, e1, ")" :: r1) => Some (RGrp n a, e1, r1) | _ => None end
        | "(" :: r =>
            let n := S (fst e) in
            match read_alt f (n, snd e) r with Some (a, e1, ")" :: r1) => Some (RGrp n a, e1, r1) | _ => None end
        (* "nothing to repeat" and "multiple repeat": a quantifier where an atom is due.  The
           possessive quantifiers of later Python versions are not read either. *)
        | "*" :: _ | "+" :: _ | "?" :: _ => None
        | x :: r => one (CRange x x) r
        end
    end.
End Reader.

(** The flag VERBOSE: white space and comments outside classes are dropped. *)
Fixpoint unverbose (in_class in_comment : bool) (s : str) : str :=
  match s with
  | [] => []
  | x :: r =>
      if in_comment then unverbose in_class (negb (Ascii.eqb x "010")) r
      else match x, r with
           | "\", y :: r' => x :: y :: unverbose in_class false r'
           | _, _ =>
               if in_class then x :: unverbose (negb (Ascii.eqb x "]")) false r
               else if is_space x then unverbose false false r
               else if Ascii.eqb x "#" then unverbose false true r
               else x :: unverbose (Ascii.eqb x "[") false r
           end
  end.

(** [re.compile(p)]: the expression, the number of groups and their names *)
Definition compile (icase : bool) (p : str) : option (re * env) :=
  match read_alt icase (4 * S (length p)) (0, []) p with
  | Some (r, e, []) => Some (r, e)
  | _ => None
  end.

(** The compiled pattern as the searches of SearchModel take it. *)
Definition pattern (icase : bool) (p : str) : regex :=
  mkRx p (fun t =>
    match compile icase p with
    | Some (r, e) =>
        match search r t with
        | Some (m, c) => Some (mkMatch m (map (fun n => cap n c) (seq 1 (fst e))))
        | None => None
        end
    | None => None
    end).
(** [mm.groupdict()[name]] *)
Definition named (p : str) (nm : str) (m : rmatch) : option str :=
  match compile false p with
  | Some (_, e) =>
      match find (fun x => str_eqb (fst x) nm) (snd e) with
      | Some (_, n) => nth (pred n) (m_groups m) None
      | None => None
      end
  | None => None
  end.
