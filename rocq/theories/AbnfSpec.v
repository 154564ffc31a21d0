(** What the rules of RFC 2234 mean, and what rule bases are to do with them. *)
From Coq Require Import List Arith Bool ZArith.
From Verif Require Import Py Abnf.
Import ListNotations.
Open Scope nat_scope.

(** The strings of a literal: letters in either case (RFC 2234 2.3). *)
Definition same_letter (a b : Z) : Prop :=
  a = b \/ (65 <= a <= 90 /\ b = a + 32)%Z \/ (97 <= a <= 122 /\ b = a - 32)%Z.
(** The strings of a rule, and of some rules one after another. *)
Inductive derive (R : list (option str * body)) : nat -> str -> Prop :=
| derive_terminal r n s : nth_error R r = Some (n, Terminal s) -> derive R r s
| derive_literal r n s t : nth_error R r = Some (n, Literal s) -> Forall2 same_letter s t -> derive R r t
| derive_range r n lo hi c :
    nth_error R r = Some (n, ValueRange lo hi) -> (lo <= c <= hi)%Z -> (0 <= c <= 1114111)%Z -> derive R r [c]
| derive_sequence r n l s : nth_error R r = Some (n, Sequence l) -> derives R l s -> derive R r s
| derive_alternative r n l q s : nth_error R r = Some (n, Alternative l) -> In q l -> derive R q s -> derive R r s
| derive_repeat r n min max q k s :
    nth_error R r = Some (n, Repeat min max q) -> min <= k -> (forall m, max = Some m -> k <= m) ->
    derives R (repeat q k) s -> derive R r s
| derive_alias r n q s : nth_error R r = Some (n, Alias q) -> derive R q s -> derive R r s
with derives (R : list (option str * body)) : list nat -> str -> Prop :=
| derives_none : derives R [] []
| derives_more q l s t : derive R q s -> derives R l t -> derives R (q :: l) (s ++ t).
(** The strings of the rule of a name. *)
Definition language (B : rulebase) (name s : str) : Prop :=
  exists r, lookup (lowers name) (ids B) = Some r /\ derive (rules B) r s.

(** What sorting the states comes to: one with the least position is taken out of them. *)
Definition picks (first : list (nat * list (nat * pos)) -> option ((nat * list (nat * pos)) * list (nat * list (nat * pos)))) : Prop :=
  forall l,
    match first l with
    | None => l = []
    | Some (x, rest) => (exists a b, l = a ++ x :: b /\ rest = a ++ b) /\ forall y, In y l -> fst x <= fst y
    end.
(** The strings a rule as it is given to AddRule stands for. *)
Definition means (R : list (option str * body)) (b : body) (s : str) : Prop :=
  match b with
  | Undefined | Prose _ => False
  | Terminal t => s = t
  | Literal t => Forall2 same_letter t s
  | ValueRange lo hi => exists c, s = [c] /\ (lo <= c <= hi)%Z /\ (0 <= c <= 1114111)%Z
  | Sequence l => derives R l s
  | Alternative l => exists q, In q l /\ derive R q s
  | Repeat min max q => exists k, min <= k /\ (forall m, max = Some m -> k <= m) /\ derives R (repeat q k) s
  | Alias q => derive R q s
  end.

(** The calls made to a rule base, with what they returned. *)
Inductive call :=
| Added (b : body) (r : nat)
| Declared (name : str) (r : nat)
| Defined (name : str) (incremental : bool) (r : nat)
| Refused (name : str) (incremental : bool) (r : nat).
Inductive calls : rulebase -> list call -> rulebase -> Prop :=
| calls_none B : calls B [] B
| calls_add B b r B' log B'' : b <> Undefined -> AddRule b B = (B', r) -> calls B' log B'' -> calls B (Added b r :: log) B''
| calls_declare B n r B' log B'' : DeclareRule n B = (B', r) -> calls B' log B'' -> calls B (Declared n r :: log) B''
| calls_define B n i r B' log B'' : DefineRule n i r B = inl B' -> calls B' log B'' -> calls B (Defined n i r :: log) B''
| calls_refused B n i r e log B'' : DefineRule n i r B = inr e -> calls B log B'' -> calls B (Refused n i r :: log) B''.

(** Rules for which repeat counts make sense and alternatives exist; the parser makes no others but 3*2. *)
Definition sensible (R : list (option str * body)) : Prop :=
  forall r n b, nth_error R r = Some (n, b) ->
    match b with Alternative l => l <> [] | Repeat min (Some max) _ => min <= max | _ => True end.
(** Rules that only name rules there are. *)
Definition closed (B : rulebase) : Prop :=
  (forall n r, lookup n (ids B) = Some r -> r < length (rules B)) /\
  forall r n b, nth_error (rules B) r = Some (n, b) ->
    match b with
    | Sequence l | Alternative l => forall q, In q l -> q < length (rules B)
    | Repeat _ _ q | Alias q => q < length (rules B)
    | _ => True
    end.
