(** Specification for CharClass: a class is a set of code points. *)
From Verif Require Import Py CharClass.

Definition cset := Z -> Prop.

(** The characters between two end points, given in either order. *)
Definition between (a z : Z) : cset := fun c => Z.min a z <= c <= Z.max a z.

Definition empty : cset := fun _ => False.
Definition singleton (x : Z) : cset := fun c => c = x.
Definition union (s t : cset) : cset := fun c => s c \/ t c.
Definition diff (s t : cset) : cset := fun c => s c /\ ~ t c.
Definition compl (M : Z) (s : cset) : cset := fun c => 0 <= c <= M /\ ~ s c.

(** Lists of ranges: non-empty, within 0..M, strictly increasing, disjoint. *)
Definition ranges_ok (M : Z) (l : list (Z * Z)) : Prop :=
  (forall i a z, nth_error l i = Some (a, z) -> 0 <= a /\ a <= z /\ z <= M) /\
  (forall i j a z b y, (i < j)%nat -> nth_error l i = Some (a, z) ->
     nth_error l j = Some (b, y) -> z < b).

(** The set a list of ranges denotes, by linear search. *)
Definition covers (l : list (Z * Z)) : cset :=
  fun c => exists a z, In (a, z) l /\ a <= c <= z.

(** No two consecutive ranges touch. *)
Definition no_touch (l : list (Z * Z)) : Prop :=
  forall i a z b y, nth_error l i = Some (a, z) -> nth_error l (S i) = Some (b, y) -> z + 1 < b.

(** The mathematical set a history of calls builds. *)
Fixpoint denote_op (M : Z) (s : cset) (o : op) {struct o} : cset :=
  let denote_all := fix denote_all (s : cset) (l : list op) {struct l} : cset :=
    match l with [] => s | o :: l' => denote_all (denote_op M s o) l' end in
  match o with
  | AddRange a z => union s (between a z)
  | SubtractRange a z => diff s (between a z)
  | AddChar c => union s (singleton c)
  | SubtractChar c => diff s (singleton c)
  | AddClass h => union s (denote_all empty h)
  | SubtractClass h => diff s (denote_all empty h)
  | Negate => compl M s
  end.

Fixpoint denote_ops (M : Z) (s : cset) (l : list op) : cset :=
  match l with [] => s | o :: l' => denote_ops M (denote_op M s o) l' end.

(** Every argument is a character the Python build has. *)
Fixpoint op_ok (M : Z) (o : op) : Prop :=
  let ops_ok := fix ops_ok (l : list op) : Prop :=
    match l with [] => True | o :: l' => op_ok M o /\ ops_ok l' end in
  match o with
  | AddRange a z | SubtractRange a z => 0 <= a <= M /\ 0 <= z <= M
  | AddChar c | SubtractChar c => 0 <= c <= M
  | AddClass h | SubtractClass h => ops_ok h
  | Negate => True
  end.

Fixpoint ops_ok (M : Z) (l : list op) : Prop :=
  match l with [] => True | o :: l' => op_ok M o /\ ops_ok M l' end.
