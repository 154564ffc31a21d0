(** The real numbers that floats stand for, and the rounding of IEEE 754 binary64, in the words of
    Flocq: more of the specification of OdEval.v *)
From Coq Require Import ZArith Reals QArith Qreals Floats.SpecFloat.
From Flocq Require Import Core BinarySingleNaN.
From Verif Require Import Py Iso OdExpr OdEval OdEvalSpec.
Open Scope Z_scope.

(** a real number rounded to 53 bits, ties to even, with exponents from -1074 *)
Definition rnd (x : R) : R := round radix2 (FLT_exp (-1074) 53) ZnearestE x.
(** the real number of a float; it is neither an infinity nor NaN; it is a binary64 number *)
Definition real (x : spec_float) : R := SF2R radix2 x.
Definition finite (x : spec_float) : Prop := is_finite_SF x = true.
Definition valid (x : spec_float) : Prop := valid_binary 53 1024 x = true.
(** [z] is [r] rounded, if that is a binary64 number, and an infinity otherwise *)
Definition rounds (r : R) (z : spec_float) : Prop :=
  valid z /\
  (((Rabs (rnd r) < bpow radix2 1024)%R /\ finite z /\ real z = rnd r) \/
   ((bpow radix2 1024 <= Rabs (rnd r))%R /\ exists s, z = S754_infinity s)).
(** A number with its type, and the real number that a Double for it stands for: integers and Decimals
    are rounded *)
Definition as_real {E} (d : data E) (t : edm_type) (r : R) : Prop :=
  (exists f, d = fl_v t f /\ (t = TDouble \/ t = TSingle) /\ valid f /\ finite f /\ r = real f) \/
  (exists q, exact d t q /\ r = rnd (Q2R q)).
Definition r_rel (o : operator) (x y : R) : Prop := sense o (x < y)%R (y < x)%R (x = y).
(** the remainder that has the sign of [x] *)
Definition remainder (x y : R) : R := (x - IZR (Ztrunc (x / y)) * y)%R.
Definition r_op (o : operator) : R -> R -> R := match o with OAdd => Rplus | OSub => Rminus | _ => Rmult end.
