(** What the literals of the simple values of OData are, in terms of their text. *)
From Verif Require Import Py Iso Dec OdExpr OdExprSpec EdmLit.
Open Scope Z_scope.
Open Scope list_scope.

(** An integer of a type is written with decimal digits, after a minus sign if need be (a Byte
    has none), and is inside the type's range.  Int32 and Int64 have at most 10 and 19 digits;
    leading zeros are allowed. *)
Definition most_digits (t : int_type) (d : str) : Prop :=
  match t with Int32 => (length d <= 10)%nat | Int64 => (length d <= 19)%nat | _ => True end.
Definition least (t : int_type) : Z :=
  match t with Byte => 0 | SByte => - 2 ^ 7 | Int16 => - 2 ^ 15 | Int32 => - 2 ^ 31 | Int64 => - 2 ^ 63 end.
Definition greatest (t : int_type) : Z :=
  match t with Byte => 2 ^ 8 - 1 | SByte => 2 ^ 7 - 1 | Int16 => 2 ^ 15 - 1 | Int32 => 2 ^ 31 - 1 | Int64 => 2 ^ 63 - 1 end.
Definition in_range (t : int_type) (n : Z) : Prop := least t <= n <= greatest t.
Definition writes_int (t : int_type) (n : Z) (s : str) : Prop :=
  in_range t n /\
  exists d, digits d /\ d <> [] /\ most_digits t d /\
    (s = d /\ n = dval d \/ t <> Byte /\ s = 45 :: d /\ n = - dval d).
(** n is p/q without its fraction *)
Definition truncated (p : Z) (q : positive) (n : Z) : Prop :=
  (0 <= p -> n * Zpos q <= p < (n + 1) * Zpos q) /\
  (p < 0 -> (n - 1) * Zpos q < p <= n * Zpos q).

(** A Decimal is written with at most 29 digits before the point and at most 29 after it, at
    least one altogether, and a point only if digits follow it *)
Inductive writes_dec : dec -> str -> Prop :=
| WritesDec : forall neg l r, digits l -> digits r -> (length l <= 29)%nat -> (length r <= 29)%nat -> l ++ r <> [] ->
    writes_dec (mkDec neg (dval (l ++ r)) (- Z.of_nat (length r)))
      ((if neg then [45] else []) ++ l ++ (if r then [] else 46 :: r)).
(** A Decimal object: its coefficient is a natural number *)
Definition dec_ok (d : dec) : Prop := 0 <= d_int d.
(** The number is below 10^29, leaving its sign aside *)
Definition below29 (d : dec) : Prop :=
  d_int d * 10 ^ Z.max 0 (d_exp d) < 10 ^ 29 * 10 ^ Z.max 0 (- d_exp d).
(** The same number, written without a positive exponent *)
Definition same_number (d d' : dec) : Prop :=
  d_neg d' = d_neg d /\
  (d_exp d <= 0 /\ d_int d' = d_int d /\ d_exp d' = d_exp d \/
   0 < d_exp d /\ d_int d' = d_int d * 10 ^ d_exp d /\ d_exp d' = 0).
(** d' is a nearest number with 29 places to a d with more places *)
Definition nearest29 (d d' : dec) : Prop :=
  d_neg d' = d_neg d /\ d_exp d' = -29 /\
  2 * Z.abs (d_int d - d_int d' * 10 ^ (-29 - d_exp d)) <= 10 ^ (-29 - d_exp d).

(** A string of hexadecimal digits, in either case, and its number *)
Inductive hex_string : Z -> str -> Prop :=
| Hex0 : hex_string 0 []
| HexS : forall n s v c, hex_string n s -> hex_digit v c -> hex_string (n * 16 + v) (s ++ [c]).
(** A Guid: groups of 8, 4, 4, 4 and 12 digits, with what stands between them *)
Definition guid_groups (n : Z) (between : list str) (s : str) : Prop :=
  exists a b c d e, hex_string n (a ++ b ++ c ++ d ++ e) /\
    length a = 8%nat /\ length b = 4%nat /\ length c = 4%nat /\ length d = 4%nat /\ length e = 12%nat /\
    exists w x y z, between = [w; x; y; z] /\ s = a ++ w ++ b ++ x ++ c ++ y ++ d ++ z ++ e.
Definition writes_guid (n : Z) (s : str) : Prop := guid_groups n [[45]; [45]; [45]; [45]] s.
