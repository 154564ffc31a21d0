(** Specifications for test sessions. *)
From Verif Require Import Py TestForm TestFormSpec TestSession.
Open Scope Z_scope.

Section Spec.
Context {V P : Type}.
Variable form : list str.
Variable parts : str -> option (tpart V).

(** ** Well-formed tests *)

(** An identifier is not empty and does not begin like a closing identifier. *)
Definition plain (id : str) : Prop := match id with [] => False | c :: _ => c <> 45 end.

Definition is_item (id : str) : Prop :=
  plain id /\ exists p, parts id = Some p /\ p_kind V p = KItem.
Definition is_group (id : str) : Prop :=
  plain id /\ exists p, parts id = Some p /\ p_kind V p <> KItem.
Definition is_part (id : str) : Prop :=
  plain id /\ exists p l i, parts id = Some p /\ p_kind V p = KPart l i.

(** The form begins with the test itself, followed by properly nested parts. *)
Definition form_ok : Prop := exists l, form = [] :: l /\ nested is_item is_group l.

(** The item or group at an index. *)
Definition item_at (i : nat) (id : str) : Prop := nth_error form i = Some id /\ is_item id.

(** The group that opens at index [o] contains index [i]. *)
Definition contains (o i : nat) : Prop :=
  exists pre g body post, form = pre ++ g :: body ++ close g :: post /\
    length pre = o /\ is_group g /\ nested is_item is_group body /\
    (o < i <= o + length body)%nat.

(** ** Branch rules *)

Definition is_section (id : str) : Prop :=
  plain id /\ exists p, parts id = Some p /\ p_kind V p = KSection.

(** The identifier at an index opens or closes a part (or is an item). *)
Definition stands_for (i : nat) (p : tpart V) : Prop :=
  exists id, parts id = Some p /\ plain id /\
    (nth_error form i = Some id \/ nth_error form i = Some (close id)).

(** The first rule whose condition is true. *)
Definition fires (p : tpart V) (v : vars V) (t : str) : Prop :=
  exists before c after, p_rules V p = before ++ (c, t) :: after /\
    Forall (fun r => fst r v = Ok false) before /\ c v = Ok true.
Definition no_rule (p : tpart V) (v : vars V) : Prop :=
  Forall (fun r => fst r v = Ok false) (p_rules V p).

(** Branch rules are obeyed in the linear parts of the test, and in test parts. *)
Definition obeys (p : tpart V) : Prop :=
  match p_kind V p with
  | KPart _ _ => True
  | _ => exists q i, parts (p_home V p) = Some q /\ p_kind V q = KPart true i
  end.

Definition is_kpart (p : tpart V) : Prop := exists l i, p_kind V p = KPart l i.

(** A test part may only exit the test or go to another test part; the other parts may
    also exit their section or test part, or go to a section or item of their own test
    part. *)
Definition may_go (p : tpart V) (t : str) : Prop :=
  t = lit "EXIT_TEST" \/
  (is_kpart p /\ exists q, parts t = Some q /\ is_kpart q) \/
  (~ is_kpart p /\ (t = lit "EXIT_SECTION" \/ t = lit "EXIT_TESTPART" \/
     exists q, parts t = Some q /\ ~ is_kpart q /\ p_home V q = p_home V p)).

Definition reserved : Prop :=
  parts (lit "EXIT_TEST") = None /\ parts (lit "EXIT_SECTION") = None /\
  parts (lit "EXIT_TESTPART") = None.

(** ** Events *)
Definition ev_key (e : event P) : option str :=
  match e with
  | Begin _ k _ => Some k
  | Handle _ (Some k) _ _ _ => Some k
  | Handle _ None k _ _ => k
  end.
Definition ev_time (e : event P) : Z :=
  match e with Begin _ _ t => t | Handle _ _ _ t _ => t end.

(** The duration at an index. *)
Definition duration (v : vars V) (i : nat) : option Z :=
  match nth_error (dur V v) i with Some d => d | None => None end.
(** One duration for each index. *)
Definition sized (v : vars V) : Prop := length (dur V v) = length form.

Definition or_zero (d : option Z) : Z := match d with Some x => x | None => 0 end.

End Spec.

(** ** Histories *)
Section History.
Context {V P : Type}.
Variable step : event P -> session V -> session V * result unit.

Definition accepts (e : event P) (s : session V) : bool :=
  match ev_key e with Some k => str_eqb k (s_key V s) | None => false end.

(** The key and time of each event that carries the current key. *)
Fixpoint accepted (es : list (event P)) (s : session V) : list (str * Z) :=
  match es with
  | [] => []
  | e :: es' =>
      match ev_key e with
      | Some k => if str_eqb k (s_key V s) then [(k, ev_time e)] else []
      | None => []
      end ++ accepted es' (fst (step e s))
  end.

(** The time between an accepted event other than the beginning of the test and the last
    event before it belongs to the question that was current. *)
Definition interval (e : event P) (s : session V) : list (nat * Z) :=
  match e with
  | Begin _ _ _ => []
  | Handle _ _ _ t _ =>
      match s_q V s with
      | Some (S i) => if accepts e s then [(S i, t - s_t V s)] else []
      | _ => []
      end
  end.
Fixpoint intervals (es : list (event P)) (s : session V) : list (nat * Z) :=
  match es with
  | [] => []
  | e :: es' => interval e s ++ intervals es' (fst (step e s))
  end.
(** The time spent on some questions. *)
Definition total (f : nat -> bool) (l : list (nat * Z)) : Z :=
  fold_right Z.add 0 (map snd (filter (fun x => f (fst x)) l)).

End History.

(** A test is before another when its question is earlier; a finished test is last. *)
Definition not_before (q q' : option nat) : Prop :=
  match q, q' with
  | _, None => True
  | Some i, Some j => (i <= j)%nat
  | None, Some _ => False
  end.
Definition handles {P} (e : event P) : Prop :=
  match e with Begin _ _ _ => False | Handle _ _ _ _ _ => True end.
