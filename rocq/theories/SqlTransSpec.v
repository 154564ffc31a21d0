(** What a method does to a database when nothing goes wrong with transactions: its statements one after
    the other, or an exception. *)
From Coq Require Import List.
From Verif Require Import SqlTrans.
Import ListNotations.

Section Spec.
Variables (Q DB : Type).
Variable execute : Q -> DB -> (DB * list nat) + err.

(** The exception a caller sees: errors of the database module are replaced *)
Definition reported (integrity : option err) (e : err) : err :=
  match e, integrity with
  | Integrity, Some e' => e'
  | Integrity, None | DbError, _ => SQLErr
  | _, _ => e
  end.
Fixpoint plain_method (m : method Q) (d : DB) : (DB * list nat) + err :=
  match m with
  | Method integrity b => match plain_body b d with inl x => inl x | inr e => inr (reported integrity e) end
  end
with plain_body (b : body Q) (d : DB) : (DB * list nat) + err :=
  match b with
  | Return rows => inl (d, rows)
  | Raise e => inr e
  | Execute q k => match execute q d with inl (d', rows) => plain_body (k rows) d' | inr e => inr e end
  | Mark _ k => plain_body k d
  | Call _ m k => match plain_method m d with inl (d', rows) => plain_body (k rows) d' | inr e => inr e end
  end.
End Spec.

(** The method passes its transaction to every method it calls *)
Fixpoint passes {Q} (m : method Q) : Prop := match m with Method _ b => passes_body b end
with passes_body {Q} (b : body Q) : Prop :=
  match b with
  | Return _ | Raise _ => True
  | Execute _ k => forall rows, passes_body (k rows)
  | Mark _ k => passes_body k
  | Call shared m k => shared = true /\ passes m /\ forall rows, passes_body (k rows)
  end.

(** Entities whose bindings are entities, not keys; whose new entities are not bound in auxiliary tables *)
Fixpoint no_keys (e : entity) : Prop :=
  match e with
  | Entity _ bs => (fix all l := match l with [] => True | (_, b) :: l' => match b with ByKey _ => False | Existing _ => True | New e' => no_keys e' end /\ all l' end) bs
  end.
Definition binding_no_keys (b : binding) : Prop := match b with ByKey _ => False | Existing _ => True | New e => no_keys e end.
Definition not_new_aux (w : where_kept) (b : binding) : Prop := match w, b with Aux, New _ => False | _, _ => True end.

(** A small database: rows, and links with at most one from each side *)
Definition database := (list nat * list (nat * nat * nat))%type.
Definition has (x : nat) (l : list nat) : bool := existsb (Nat.eqb x) l.
Definition link_eq (a b : nat * nat * nat) : bool :=
  let '(l, x, y) := a in let '(l', x', y') := b in andb (Nat.eqb l l') (andb (Nat.eqb x x') (Nat.eqb y y')).
Definition execute0 (q : statement) (d : database) : (database * list nat) + err :=
  let '(rows, ls) := d in
  match q with
  | InsertRow x fk => if has x rows then inr Integrity else if forallb (fun y => has y rows) fk then inl ((x :: rows, ls), [x]) else inr Integrity
  | SelectRow x => inl (d, if has x rows then [x] else [])
  | UpdateRow x fk => inl (d, if has x rows then [x] else [])
  | DeleteRow x =>
      if existsb (fun p => orb (Nat.eqb (snd p) x) (Nat.eqb (snd (fst p)) x)) ls then inr Integrity
      else inl ((filter (fun y => negb (Nat.eqb y x)) rows, ls), if has x rows then [x] else [])
  | SetLink l x y => if andb (has x rows) (has y rows) then if existsb (link_eq (l, x, y)) ls then inr Integrity else inl ((rows, (l, x, y) :: ls), [x]) else inr Integrity
  | UnsetLink l x y => inl ((rows, filter (fun p => negb (link_eq (l, x, y) p)) ls), if existsb (link_eq (l, x, y)) ls then [x] else [])
  | UnsetLinks l x => inl ((rows, filter (fun p => negb (andb (Nat.eqb (fst (fst p)) l) (Nat.eqb (snd (fst p)) x))) ls), [])
  | SelectLinks l x => inl (d, map snd (filter (fun p => andb (Nat.eqb (fst (fst p)) l) (Nat.eqb (snd (fst p)) x)) ls))
  end.

(** A database that also keeps the statements it has executed *)
Definition logged {DB} (execute : statement -> DB -> (DB * list nat) + err) (q : statement) (d : DB * list statement) : ((DB * list statement) * list nat) + err :=
  match execute q (fst d) with inl (d', rows) => inl ((d', snd d ++ [q]), rows) | inr e => inr e end.
Definition change (q : statement) : bool := match q with SelectRow _ | SelectLinks _ _ => false | _ => true end.
Definition changes (l : list statement) : list statement := filter change l.

(** What inserting an entity has to store: a row for it and for every new entity bound to it, with the
    keys it holds, and the links that are not held as keys in rows that are inserted *)
Fixpoint new_rows (e : entity) (fk : list nat) : list statement :=
  match e with
  | Entity x bs =>
      InsertRow x (fk ++ foreign_keys bs) ::
      (fix all l := match l with
                    | [] => []
                    | (_, w, New e') :: l' => new_rows e' (match w with There => [x] | _ => [] end) ++ all l'
                    | _ :: l' => all l'
                    end) bs
  end.
Fixpoint new_links (e : entity) : list statement :=
  match e with
  | Entity x bs =>
      (fix all l := match l with
                    | [] => []
                    | (n, w, b) :: l' =>
                        match w, b with
                        | Here, _ | There, New _ => []
                        | _, _ => [SetLink n x (target b)]
                        end ++ match b with New e' => new_links e' | _ => [] end ++ all l'
                    end) bs
  end.
(** What updating an entity has to store *)
Definition update_changes (multi : nat -> bool) (x : nat) (bs : list (nat * where_kept * binding)) : list statement :=
  UpdateRow x (foreign_keys bs) ::
  flat_map (fun p : nat * where_kept * binding =>
    let '(n, w, b) := p in
    match w with
    | Here => []
    | There | Aux => (if multi n then [] else [UnsetLinks n x]) ++ match w, b with There, New _ => [] | _, _ => [SetLink n x (target b)] end
    end ++
    match b with New e' => new_rows e' (match w with There => [x] | _ => [] end) ++ new_links e' | _ => [] end) bs.

(** A database that keeps the statements it has executed with its answers *)
Definition answered {DB} (execute : statement -> DB -> (DB * list nat) + err) (q : statement) (d : DB * list (statement * list nat)) : ((DB * list (statement * list nat)) * list nat) + err :=
  match execute q (fst d) with inl (d', rows) => inl ((d', snd d ++ [(q, rows)]), rows) | inr e => inr e end.
(** What deleting an entity has to do: drop its links, or look up the entities that depend on it and, for
    each of them, drop the link and delete it in the same way; then delete its row, of which there is one *)
Inductive deleted : links -> nat -> list (statement * list nat) -> Prop :=
| D_row l x part r : ends_done l x part -> deleted (Links l) x (part ++ [(DeleteRow x, [r])])
with ends_done : list (nat * (bool + links)) -> nat -> list (statement * list nat) -> Prop :=
| E_nil x : ends_done [] x []
| E_drop n a l x r part : ends_done l x part -> ends_done ((n, inl a) :: l) x ((UnsetLinks n x, r) :: part)
| E_cascade n s l x ys sub part : each_done s n x ys sub -> ends_done l x part -> ends_done ((n, inr s) :: l) x ((SelectLinks n x, ys) :: sub ++ part)
with each_done : links -> nat -> nat -> list nat -> list (statement * list nat) -> Prop :=
| A_nil s n x : each_done s n x [] []
| A_cons s n x y ys r rs sub rest : deleted s y sub -> each_done s n x ys rest -> each_done s n x (y :: ys) ((UnsetLink n x y, r :: rs) :: sub ++ rest).
