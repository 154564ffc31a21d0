(** Specifications for test forms. *)
From Verif Require Import Py TestForm.
From Coq Require Import Sorted Permutation.
Open Scope Z_scope.

(** ** Selection *)

(** The number of children to select. *)
Definition target (sel : option (Z * bool)) (children : list part) : Z :=
  match sel with Some (n, _) => n | None => Z.of_nat (length children) end.
Definition may_repeat (sel : option (Z * bool)) : bool :=
  match sel with Some (_, r) => r | None => false end.

(** The positions of the selected children: in document order, as many as asked for, all
    the required ones, and none twice unless the rule allows it. *)
Record selection_ok (sel : option (Z * bool)) (children : list part) (s : list nat) : Prop := {
  s_order : Sorted le s;
  s_range : Forall (fun i => (i < length children)%nat) s;
  s_size : Z.of_nat (length s) = target sel children;
  s_required : forall i c, nth_error children i = Some c -> required c = true -> In i s;
  s_once : may_repeat sel = false -> NoDup s
}.

(** ** Forms *)

Section Forms.
Variable parts : str -> option part.

Definition item_id (id : str) : Prop := exists r f, parts id = Some (Item id r f).

(** One selected child: the identifiers that stand in its place in the form, and the
    identifiers that it adds to those that are shuffled. *)
Record row := mkRow { r_child : nat; r_block : list str; r_pool : list str }.

Definition in_place (shuffle : bool) (c : part) : bool := negb shuffle || fixed c.

(** The identifiers in the place of a child that is not shuffled: a section is shown with
    its own selection if [expand]. *)
Definition block_ok (c : part) (sub : bool -> list str -> Prop) (expand : bool)
    (block : list str) : Prop :=
  if is_section c && expand
  then exists l, sub true l /\ block = ident c :: l ++ [close (ident c)]
  else block = [ident c].

(** What a shuffled child adds to those that are shuffled: itself, or its own selection if
    it is an invisible section that need not be kept together. *)
Definition pool_ok (c : part) (sub : bool -> list str -> Prop) (pool : list str) : Prop :=
  Forall item_id pool /\ if split c then sub false pool else pool = [ident c].

Definition row_ok (shuffle expand : bool) (children : list part)
    (subs : list (bool -> list str -> Prop)) (r : row) : Prop :=
  exists c sub, nth_error children (r_child r) = Some c /\ nth_error subs (r_child r) = Some sub /\
    if in_place shuffle c
    then block_ok c sub expand (r_block r) /\ r_pool r = []
    else pool_ok c sub (r_pool r) /\ r_block r <> [].

Definition moves (shuffle : bool) (children : list part) (r : row) : bool :=
  match nth_error children (r_child r) with Some c => negb (in_place shuffle c) | None => false end.

(** The form of a section: a selection, each child that is not shuffled in its place, and
    the shuffled ones in any order in the places that are left. *)
Definition form_body (sel : option (Z * bool)) (shuffle : bool) (children : list part)
    (subs : list (bool -> list str -> Prop)) (expand : bool) (l : list str) : Prop :=
  exists rows,
    selection_ok sel children (map r_child rows) /\
    Forall (row_ok shuffle expand children subs) rows /\
    l = concat (map r_block rows) /\
    Permutation (concat (map r_pool rows))
                (concat (map r_block (filter (moves shuffle children) rows))).

Fixpoint form (p : part) {struct p} : bool -> list str -> Prop :=
  match p with
  | Item _ _ _ => fun _ _ => False
  | Sect _ _ _ _ _ sel shuffle children =>
      form_body sel shuffle children (map form children)
  end.

End Forms.

(** ** Properly nested identifiers: items, and groups between their identifier and their
    closing identifier. *)
Inductive nested (item group : str -> Prop) : list str -> Prop :=
| nested_nil : nested item group []
| nested_item id l : item id -> nested item group l -> nested item group (id :: l)
| nested_group id l l' : group id -> nested item group l -> nested item group l' ->
    nested item group (id :: l ++ close id :: l').

(** The parts of a section, at any depth. *)
Fixpoint subparts (p : part) : list part :=
  p :: match p with
       | Item _ _ _ => []
       | Sect _ _ _ _ _ _ _ cs => flat_map subparts cs
       end.

(** Every part can be looked up by its identifier (they are registered, tests.py 73-79). *)
Definition registered (parts : str -> option part) (p : part) : Prop :=
  forall q, In q (subparts p) -> parts (ident q) = Some q.

(** Invisible sections that may be split select at least one child. *)
Definition populated (p : part) : Prop :=
  forall q, In q (subparts p) -> split q = true ->
    match q with
    | Sect _ _ _ _ _ sel _ cs => 1 <= target sel cs
    | Item _ _ _ => True
    end.

(** ** Sections of items *)

Definition ident_at (cs : list part) (i : nat) : str :=
  match nth_error cs i with Some c => ident c | None => [] end.
Definition stays (shuffle : bool) (cs : list part) (i : nat) : bool :=
  match nth_error cs i with Some c => in_place shuffle c | None => false end.

(** An order for the selected children: the children that are not shuffled keep their
    place. *)
Record arrangement (shuffle : bool) (cs : list part) (s : list nat) (l : list str) : Prop := {
  a_perm : Permutation (map (ident_at cs) s) l;
  a_stay : forall k i, nth_error s k = Some i -> stays shuffle cs i = true ->
             nth_error l k = Some (ident_at cs i)
}.

(** ** The form of a test *)
Section TestForms.
Variable parts : str -> option part.

Fixpoint sections_form (ss : list part) (l : list str) : Prop :=
  match ss with
  | [] => l = []
  | s :: ss' => exists l1 l2, form parts s true l1 /\ sections_form ss' l2 /\
      l = ident s :: l1 ++ close (ident s) :: l2
  end.
Fixpoint parts_form (ps : list testPart) (l : list str) : Prop :=
  match ps with
  | [] => l = []
  | p :: ps' => exists l1 l2, sections_form (tp_sections p) l1 /\ parts_form ps' l2 /\
      l = tp_id p :: l1 ++ close (tp_id p) :: l2
  end.
End TestForms.

(** The sections and items of a test. *)
Definition all_parts (ps : list testPart) : list part :=
  flat_map (fun p => flat_map subparts (tp_sections p)) ps.
Definition registered_test (parts : str -> option part) (ps : list testPart) : Prop :=
  forall q, In q (all_parts ps) -> parts (ident q) = Some q.
Definition populated_test (ps : list testPart) : Prop :=
  forall p s, In p ps -> In s (tp_sections p) -> populated s.
(** The identifiers of parts and sections. *)
Definition group_id (ps : list testPart) (id : str) : Prop :=
  In id (map tp_id ps) \/ exists q, In q (all_parts ps) /\ is_section q = true /\ ident q = id.
