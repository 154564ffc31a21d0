(** What the operators and methods of $filter and $orderby should give: the words in which the
    theorems about OdEval.v are stated.  Numbers are rational numbers here. *)
From Coq Require Import ZArith List Bool QArith Qabs.
From Coq Require Floats.SpecFloat.
From Verif Require Import Py Iso OdExpr OdEval.
Import ListNotations Floats.SpecFloat.
Open Scope Z_scope.
Open Scope list_scope.

(** ** Types *)
(** The numeric types in the order in which they are promoted *)
Definition tower : list edm_type := [TByte; TInt16; TInt32; TInt64; TDecimal; TSingle; TDouble].
Definition wider (a b : edm_type) : Prop := exists l1 l2 l3, tower = l1 ++ a :: l2 ++ b :: l3.
(** [t] is the type that [a] and [b] are promoted to *)
Definition joins (a b t : edm_type) : Prop := a = b /\ t = a \/ wider a b /\ t = b \/ wider b a /\ t = a.
(** The integers of a type *)
Definition in_type (t : edm_type) (n : Z) : Prop :=
  match t with
  | TByte => 0 <= n <= 255
  | TSByte => -128 <= n <= 127
  | TInt16 => - 2 ^ 15 <= n < 2 ^ 15
  | TInt32 => - 2 ^ 31 <= n < 2 ^ 31
  | TInt64 => - 2 ^ 63 <= n < 2 ^ 63
  | _ => False
  end.

(** ** Values *)
Section Values.
Context {E : Type}.
Definition int_v (t : edm_type) (n : Z) : data E := DSimple E (mkV (Some t) (Some (PInt n))).
Definition str_v (s : str) : data E := DSimple E (mkV (Some TString) (Some (PStr s))).
Definition bool_v (b : bool) : data E := DSimple E (mkV (Some TBoolean) (Some (PBool b))).
Definition dec_v (d : dec) : data E := DSimple E (mkV (Some TDecimal) (Some (PX (XD d)))).
Definition fl_v (t : edm_type) (f : spec_float) : data E := DSimple E (mkV (Some t) (Some (PX (XF f)))).
Definition time_v (p : timepoint) : data E := DSimple E (mkV (Some TDateTime) (Some (PX (XT p)))).
Definition null_v (t : option edm_type) : data E := DSimple E (mkV t None).
End Values.
(** The rational number that a Decimal and a float stand for *)
Definition dec_value (d : dec) : Q := inject_Z (d_coef d) * (10 # 1) ^ d_exp d.
Definition fl_value (f : spec_float) : option Q :=
  match f with
  | S754_zero _ => Some 0%Q
  | S754_finite s m e => Some (inject_Z (if s then Z.neg m else Z.pos m) * (2 # 1) ^ e)%Q
  | _ => None
  end.
(** A Decimal that the EDM allows *)
Definition dec_ok (d : dec) : Prop := (- inject_Z (10 ^ 29 - 1) <= dec_value d <= inject_Z (10 ^ 29 - 1))%Q.
(** [d] is [r] with a relative error of at most [bound], and [r] itself if 28 digits are enough to
    write it *)
Definition nearly (bound : Q) (d : dec) (r : Q) : Prop :=
  (Qabs (dec_value d - r) <= bound * Qabs r)%Q /\
  (forall m e, (r == inject_Z m * (10 # 1) ^ e)%Q -> Z.abs m < 10 ^ 28 -> (dec_value d == r)%Q).
(** half a unit of the 28th digit *)
Definition unit_28 : Q := (5 # 1) * (10 # 1) ^ (-28).
(** An integer or a Decimal with its type and its number *)
Definition exact {E} (d : data E) (t : edm_type) (q : Q) : Prop :=
  (exists n, d = int_v t n /\ in_type t n /\ q = inject_Z n) \/
  (exists x, d = dec_v x /\ t = TDecimal /\ dec_ok x /\ q = dec_value x).

(** ** Expressions *)
Definition bin (o : operator) (a b : expr ext) : expr ext := EOp false o [Some a; Some b].
Definition un (o : operator) (a : expr ext) : expr ext := EOp true o [Some a].
Definition call (m : string) (l : list (expr ext)) : expr ext := ECall (lit m) l.

(** ** Relations *)
(** the sense of an operator between two things of which we know whether one is less, and whether
    they are equal *)
Definition sense (o : operator) (lt gt eq : Prop) : Prop :=
  match o with
  | OLt => lt
  | OGt => gt
  | OLe => lt \/ eq
  | OGe => gt \/ eq
  | OEq => eq
  | ONe => ~ eq
  | _ => False
  end.
Definition comparisons : list operator := [OLt; OGt; OLe; OGe; OEq; ONe].
Definition z_rel (o : operator) (x y : Z) : Prop := sense o (x < y) (x > y) (x = y).
Definition q_rel (o : operator) (x y : Q) : Prop := sense o (x < y)%Q (y < x)%Q (x == y)%Q.
(** [s] comes before [t] in a dictionary: it is a beginning of [t], or its first character that
    differs is less *)
Definition before (s t : str) : Prop :=
  (exists c u, t = s ++ c :: u) \/
  exists p c d u v, s = p ++ c :: u /\ t = p ++ d :: v /\ c < d.
Definition s_rel (o : operator) (s t : str) : Prop := sense o (before s t) (before t s) (s = t).

(** ** Texts *)
(** [i] is the place of the first occurrence of [p] in [s], -1 if there is none *)
Definition first_place (p s : str) (i : Z) : Prop :=
  (i = -1 /\ forall u v, s <> u ++ p ++ v) \/
  (exists u v, s = u ++ p ++ v /\ i = Z.of_nat (length u) /\
     forall u' v', s = u' ++ p ++ v' -> (length u <= length u')%nat).
(** every [p], from left to right, is replaced by [r] *)
Inductive replaced (p r : str) : str -> str -> Prop :=
| R_none : forall s, (forall u v, s <> u ++ p ++ v) -> replaced p r s s
| R_first : forall u v t, first_place p (u ++ p ++ v) (Z.of_nat (length u)) -> replaced p r v t ->
    replaced p r (u ++ p ++ v) (u ++ r ++ t).
(** [r] is [s] without the white space at both ends *)
Definition trimmed (space : Z -> bool) (s r : str) : Prop :=
  exists u v, s = u ++ r ++ v /\ Forall (fun c => space c = true) u /\ Forall (fun c => space c = true) v /\
    (forall c w, r = c :: w -> space c = false) /\ (forall c w, r = w ++ [c] -> space c = false).

(** ** Rounding *)
Definition is_floor (q : Q) (n : Z) : Prop := (inject_Z n <= q /\ q < inject_Z (n + 1))%Q.
Definition is_ceiling (q : Q) (n : Z) : Prop := (inject_Z (n - 1) < q /\ q <= inject_Z n)%Q.
(** the nearest integer; of two, the one that is farther from zero *)
Definition is_round_up (q : Q) (n : Z) : Prop :=
  let d := (q - inject_Z n)%Q in
  ((- (1 # 2) <= d <= 1 # 2) /\ (d == 1 # 2 -> n < 0)%Z /\ (d == - (1 # 2) -> 0 < n)%Z)%Q.
(** the nearest integer; of two, the even one *)
Definition is_round_even (q : Q) (n : Z) : Prop :=
  let d := (q - inject_Z n)%Q in
  ((- (1 # 2) <= d <= 1 # 2) /\ (d == 1 # 2 \/ d == - (1 # 2) -> Z.Even n))%Q.

(** ** Arithmetic *)
Definition sums : list operator := [OAdd; OSub; OMul].
Definition z_op (o : operator) : Z -> Z -> Z := match o with OAdd => Z.add | OSub => Z.sub | _ => Z.mul end.
Definition q_op (o : operator) : Q -> Q -> Q := match o with OAdd => Qplus | OSub => Qminus | _ => Qmult end.
(** one unit of the 28th digit *)
Definition unit_27 : Q := (10 # 1) ^ (-27).
(** what an operator on Decimals gives: its number, or ValueError if the EDM does not allow it *)
Definition decimal_result {E} (bound r : Q) (res : result (data E)) : Prop :=
  exists d, nearly bound d r /\ ((dec_ok d /\ res = Ok (dec_v d)) \/ (~ dec_ok d /\ res = Err ValueError)).
(** the operators with two operands, except isof, cast and members *)
Definition binaries : list operator :=
  [OMul; ODiv; OMod; OAdd; OSub; OLt; OGt; OLe; OGe; OEq; ONe; OAnd; OOr].
