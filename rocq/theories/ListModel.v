(** Model of the list operations of a configuration (ciscoconfparse.py:5000-5206, 5892-5923).

    Only the elements count: the operations of Python's list on [ConfigList._list]. *)
From Coq Require Import Ascii String Arith ZArith Bool List.
From Verif Require Import PyStr PyBase CfgModel MutModel.
Import ListNotations.
Local Open Scope Z_scope.

(** ** Comparison *)

(** What the comparison of two lines looks at: line number and text. *)
Definition cell : Type := Z * str.
Definition cells (w : world) : list cell := map (fun x => (linenum_of w x, text_of w x)) (w_conf w).
(** ccp_abc.py:145-157 [__eq__], [hash] idealised as injective; 160-172 [__gt__] and [__lt__].
    There is no [__ge__] and no [__le__]. *)
Definition cell_eqb (a b : cell) : bool := str_eqb (show_Z (fst a) ++ snd a) (show_Z (fst b) ++ snd b).
Definition cell_ltb (a b : cell) : bool := fst a <? fst b.
Definition cell_gtb (a b : cell) : bool := fst b <? fst a.
(** Python's comparison of lists: the first two elements that are not equal decide, by the
    comparison [f]; if there are none, the lengths do, by [g]. *)
Fixpoint list_cmp (f : cell -> cell -> result bool) (g : nat -> nat -> bool) (a b : list cell) : result bool :=
  match a, b with
  | x :: a', y :: b' => if cell_eqb x y then list_cmp f g a' b' else f x y
  | _, _ => Ok (g (length a) (length b))
  end.
Fixpoint list_eqb (a b : list cell) : bool :=
  match a, b with
  | [], [] => true
  | x :: a', y :: b' => cell_eqb x y && list_eqb a' b'
  | _, _ => false
  end.
(** 5017-5018 *)
Definition cfg_eq (v w : world) : bool := list_eqb (cells v) (cells w).
(** 5007-5008 *)
Definition cfg_lt (v w : world) : result bool := list_cmp (fun x y => Ok (cell_ltb x y)) Nat.ltb (cells v) (cells w).
(** 5012-5013: [<], not [<=] *)
Definition cfg_le (v w : world) : result bool := list_cmp (fun x y => Ok (cell_ltb x y)) Nat.ltb (cells v) (cells w).
(** 5022-5023 *)
Definition cfg_gt (v w : world) : result bool := list_cmp (fun x y => Ok (cell_gtb x y)) (fun m n => Nat.ltb n m) (cells v) (cells w).
(** 5027-5028: [>=] between two lines is a TypeError *)
Definition cfg_ge (v w : world) : result bool := list_cmp (fun _ _ => Err TypeErr) (fun m n => Nat.leb n m) (cells v) (cells w).

(** ** New lists from old ones *)

(** 4881-4975 [ConfigList(initlist)] with the other arguments left out; an element is a line
    object or a text.  5759-5760: an element that is no text is refused. *)
Definition dflt : opts := mkOpts (lit "!") true Ios.
Definition construct (l : list (nat + str)) : result world :=
  if existsb (fun x => match x with inl _ => true | inr _ => false end) l then Err ValueError
  else reboot (mkW dflt [] []) (flat_map (fun x => match x with inl _ => [] | inr s => [s] end) l).
(** [slice.indices] without a step *)
Definition clamp (n z : Z) : Z := if z <? 0 then Z.max 0 (z + n) else Z.min z n.
Definition slice_of {T} (a b : option Z) (l : list T) : list T :=
  let n := Z.of_nat (length l) in
  let lo := match a with Some z => clamp n z | None => 0 end in
  let hi := match b with Some z => clamp n z | None => n end in
  firstn (Z.to_nat (hi - lo)) (skipn (Z.to_nat lo) l).
(** 5042-5046 *)
Definition get_slice (w : world) (a b : option Z) : result world := construct (map inl (slice_of a b (w_conf w))).
Definition get_item (w : world) (z : Z) : result nat :=
  match py_index (length (w_conf w)) z with
  | Some i => match nth_error (w_conf w) i with Some x => Ok x | None => Err IndexError end
  | None => Err IndexError
  end.
(** 5062-5067 [+]: another configuration, or a list of lines and texts *)
Definition plus (w : world) (l : list (nat + str)) : result world := construct (map inl (w_conf w) ++ l).
(** 5091-5092 [*] *)
Fixpoint times {T} (n : nat) (l : list T) : list T := match n with O => [] | S m => l ++ times m l end.
Definition mul (w : world) (z : Z) : result world := construct (map inl (times (Z.to_nat z) (w_conf w))).
(** 5178-5179 copy *)
Definition copy (w : world) : result world := construct (map inl (w_conf w)).

(** ** Changes in place *)

(** 5050-5051 *)
Definition set_item (w : world) (z : Z) (x : nat) : result world :=
  match py_index (length (w_conf w)) z with
  | Some i => Ok (set_conf (firstn i (w_conf w) ++ x :: skipn (S i) (w_conf w)) w)
  | None => Err IndexError
  end.
(** 5080-5087 [+=], 5201-5206 extend *)
Definition extend (w : world) (l : list nat) : world := set_conf (w_conf w ++ l) w.
(** 5097-5099 [*=] *)
Definition imul (w : world) (z : Z) : world := set_conf (times (Z.to_nat z) (w_conf w)) w.
(** 5155-5159 append; the decorator (ccp_util.py:452-469) only warns *)
Definition append (w : world) (x : nat) : world := set_conf (w_conf w ++ [x]) w.
(** 5168-5169 *)
Fixpoint remove_first (w : world) (x : nat) (l : list nat) : result (list nat) :=
  match l with
  | [] => Err ValueError
  | y :: r => if obj_eqb w y x then Ok r else do r' <- remove_first w x r; Ok (y :: r')
  end.
Definition remove (w : world) (x : nat) : result world := do c <- remove_first w x (w_conf w); Ok (set_conf c w).
(** 5173-5174, 5193-5194 *)
Definition clear (w : world) : world := set_conf [] w.
Definition reverse (w : world) : world := set_conf (rev (w_conf w)) w.
(** 5198-5199 with one argument, which is ignored *)
Definition sort (w : world) : world := set_conf (sorted_objs w (w_conf w)) w.

(** ** Questions *)

(** 5037-5038, 5922-5923 *)
Definition len (w : world) : Z := Z.of_nat (length (w_conf w)).
Definition last_index (w : world) : Z := len w - 1.
(** 5183-5184 *)
Definition count (w : world) (x : nat) : nat := length (filter (fun y => obj_eqb w y x) (w_conf w)).
(** 5188-5189 *)
Fixpoint index_from (w : world) (x : nat) (l : list nat) (i : nat) : result nat :=
  match l with
  | [] => Err ValueError
  | y :: r => if obj_eqb w y x then Ok i else index_from w x r (S i)
  end.
Definition index (w : world) (x : nat) : result nat := index_from w x (w_conf w) 0.
(** [x in configuration]: the mixin method of collections.abc *)
Definition is_in (w : world) (x : nat) : bool := existsb (fun y => obj_eqb w y x) (w_conf w).
Definition is_comment (w : world) (x : nat) : bool := match obj w x with Some l => cl_comment l | None => false end.
(** 5894-5904: [enumerate] and a test of the position *)
Fixpoint from_index (keep : nat -> bool) (begin : Z) (i : Z) (l : list nat) : list nat :=
  match l with
  | [] => []
  | x :: r => if (begin <=? i) && keep x then x :: from_index keep begin (i + 1) r else from_index keep begin (i + 1) r
  end.
Definition iter_with_comments (w : world) (begin : Z) : list nat := from_index (fun _ => true) begin 0 (w_conf w).
Definition iter_no_comments (w : world) (begin : Z) : list nat := from_index (fun x => negb (is_comment w x)) begin 0 (w_conf w).
(** 5916-5917 *)
Definition conf_parents (w : world) : list nat := filter (fun x => negb (Nat.eqb (length (children_of w x)) 0)) (w_conf w).
