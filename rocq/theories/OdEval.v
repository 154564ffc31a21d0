(** Model of the evaluation of the expressions of $filter and $orderby:
    pyslet/pyslet/odata2/core.py 51-118 (promotion), 328-365 (unary), 410-725 (binary), 757-795
    (literals and properties), 798-1090 (method calls), 2411-2429 (CheckFilter,
    CalculateOrderKey); odata2/csdl.py 437-532 (SimpleType), 848-874 (SimpleCast), 900-1625
    (SetFromValue), 1641-1690, 2051-2060 (members).

    Simplifications.
    - A float is a binary64 number ([spec_float] of the standard library, with 53 bits and a largest
      exponent of 1024).
    - A Decimal is a coefficient and an exponent: no sign of zero, no infinity, no NaN.  The context
      is the default one: 28 digits, ties to even; its limits of exponents are left out.
    - The seconds of times are whole numbers, as in Iso.v.
    - The maps of characters to lower and upper case, and the white space of strip(), are parameters.
    - The entities are those of a parameter: a navigation property of an entity gives an entity, None
      or an exception. *)
From Coq Require Floats.SpecFloat.
From Verif Require Import Py Iso Dec Shapes XmlChars OdExpr.
Import Floats.SpecFloat.
Open Scope Z_scope.
Open Scope list_scope.

(** core.py 51 EvaluationError; decimal.InvalidOperation: names of exceptions that nothing else in
    this file raises *)
Definition EvaluationError : exn := ProcessingError.
Definition InvalidOperation : exn := AssertionError.

(** ** Python's numbers *)
(** *** float *)
Definition flt := spec_float.
Definition fl_add : flt -> flt -> flt := SFadd 53 1024.
Definition fl_sub : flt -> flt -> flt := SFsub 53 1024.
Definition fl_mul : flt -> flt -> flt := SFmul 53 1024.
(** [x/y]: ZeroDivisionError if y is zero *)
Definition fl_div (x y : flt) : result flt :=
  match y with S754_zero _ => Err ZeroDivisionError | _ => Ok (SFdiv 53 1024 x y) end.
(** [float(n)] for an int or a long *)
Definition fl_of_int (n : Z) : flt := binary_normalize 53 1024 n 0 false.
(** a number that has a sign *)
Definition signed (s : bool) (n : Z) : Z := if s then - n else n.
(** [m*2^e] rounded towards zero *)
Definition whole (m : positive) (e : Z) : Z :=
  if 0 <=? e then Z.pos m * 2 ^ e else Z.pos m / 2 ^ (- e).
(** [int(x)] *)
Definition fl_int (x : flt) : result Z :=
  match x with
  | S754_nan => Err ValueError
  | S754_infinity _ => Err OverflowError
  | S754_zero _ => Ok 0
  | S754_finite s m e => Ok (signed s (whole m e))
  end.
(** [math.fmod(x,y)] *)
Definition fl_fmod (x y : flt) : result flt :=
  match x, y with
  | S754_nan, _ | _, S754_nan => Ok S754_nan
  | S754_infinity _, _ => Err ValueError
  | _, S754_zero _ => Err ValueError
  | _, S754_infinity _ => Ok x
  | S754_zero _, _ => Ok x
  | S754_finite s m e, S754_finite _ m' e' =>
      let k := Z.min e e' in
      let r := (Z.pos m * 2 ^ (e - k)) mod (Z.pos m' * 2 ^ (e' - k)) in
      Ok (binary_normalize 53 1024 (signed s r) k s)
  end.
(** the ratio of two integers, the second one positive: the integer below, the integer above and the
    nearest integer, ties to even *)
Definition below (n d : Z) : Z := n / d.
Definition above (n d : Z) : Z := - ((- n) / d).
Definition half_even (n d : Z) : Z :=
  let q := n / d in
  match Z.compare (2 * (n mod d)) d with
  | Lt => q
  | Gt => q + 1
  | Eq => if Z.even q then q else q + 1
  end.
(** ties away from zero *)
Definition half_up (n d : Z) : Z :=
  if n <? 0 then - ((2 * (- n) + d) / (2 * d)) else (2 * n + d) / (2 * d).
(** a float with the value of an integer: math.floor(x), math.ceil(x) and float(to_integral(...)) *)
Definition fl_integral (f : Z -> Z -> Z) (x : flt) : flt :=
  match x with
  | S754_finite s m e => if 0 <=? e then x else binary_normalize 53 1024 (f (signed s (Z.pos m)) (2 ^ (- e))) 0 s
  | _ => x
  end.
(** [x<n], [x==n], [x>n] for an integer: None for NaN *)
Definition fl_compare_int (x : flt) (n : Z) : option comparison :=
  match x with
  | S754_nan => None
  | S754_infinity s => Some (if s then Lt else Gt)
  | S754_zero _ => Some (Z.compare 0 n)
  | S754_finite s m e =>
      Some (if 0 <=? e then Z.compare (signed s (Z.pos m) * 2 ^ e) n
            else Z.compare (signed s (Z.pos m)) (n * 2 ^ (- e)))
  end.

(** *** Decimal *)
Record dec := mkDec { d_coef : Z; d_exp : Z }.
(** the coefficient at an exponent that is not greater *)
Definition at_exp (a : dec) (x : Z) : Z := d_coef a * 10 ^ (d_exp a - x).
Definition dec_compare (a b : dec) : comparison :=
  let x := Z.min (d_exp a) (d_exp b) in Z.compare (at_exp a x) (at_exp b x).
(** the number of digits of a non-negative integer *)
Fixpoint digits_loop (fuel : nat) (n : Z) : Z :=
  match fuel with
  | O => 1
  | S f => if n <? 10 then 1 else 1 + digits_loop f (n / 10)
  end.
Definition ndigits (n : Z) : Z := digits_loop (Z.to_nat (Z.log2 n)) n.
(** Decimal._fix *)
Definition dec_prec : Z := 28.
Definition dec_fix (a : dec) : dec :=
  let n := ndigits (Z.abs (d_coef a)) in
  if n <=? dec_prec then a
  else
    let k := n - dec_prec in
    let q := half_even (Z.abs (d_coef a)) (10 ^ k) in
    if ndigits q <=? dec_prec then mkDec (signed (d_coef a <? 0) q) (d_exp a + k)
    else mkDec (signed (d_coef a <? 0) (q / 10)) (d_exp a + k + 1).
Definition dec_add (a b : dec) : dec :=
  let x := Z.min (d_exp a) (d_exp b) in dec_fix (mkDec (at_exp a x + at_exp b x) x).
Definition dec_sub (a b : dec) : dec := dec_add a (mkDec (- d_coef b) (d_exp b)).
Definition dec_mul (a b : dec) : dec := dec_fix (mkDec (d_coef a * d_coef b) (d_exp a + d_exp b)).
(** Decimal.__div__ *)
Fixpoint strip_zeros (fuel : nat) (q x ideal : Z) : dec :=
  match fuel with
  | O => mkDec q x
  | S f => if (x <? ideal) && (q mod 10 =? 0) then strip_zeros f (q / 10) (x + 1) ideal else mkDec q x
  end.
Definition dec_div (a b : dec) : result dec :=
  if d_coef b =? 0 then if d_coef a =? 0 then Err InvalidOperation else Err ZeroDivisionError
  else if d_coef a =? 0 then Ok (mkDec 0 (d_exp a - d_exp b))
  else
    let n := Z.abs (d_coef a) in let d := Z.abs (d_coef b) in
    let shift := ndigits d - ndigits n + dec_prec + 1 in
    let x := d_exp a - d_exp b - shift in
    let '(q, r) := if 0 <=? shift then (n * 10 ^ shift / d, n * 10 ^ shift mod d)
                   else (n / (d * 10 ^ (- shift)), n mod (d * 10 ^ (- shift))) in
    let v := if negb (r =? 0) then mkDec (if q mod 5 =? 0 then q + 1 else q) x
             else strip_zeros (Z.to_nat shift) q x (d_exp a - d_exp b) in
    Ok (dec_fix (mkDec (signed (xorb (d_coef a <? 0) (d_coef b <? 0)) (d_coef v)) (d_exp v))).
(** to_integral *)
Definition dec_integral (f : Z -> Z -> Z) (a : dec) : dec :=
  if 0 <=? d_exp a then a else mkDec (f (d_coef a) (10 ^ (- d_exp a))) 0.
Definition dec_of_int (n : Z) : dec := mkDec n 0.
(** Decimal(x), exactly: None for an infinity or NaN *)
Definition dec_of_fl (x : flt) : option dec :=
  match x with
  | S754_zero _ => Some (mkDec 0 0)
  | S754_finite s m e =>
      Some (if 0 <=? e then mkDec (signed s (Z.pos m) * 2 ^ e) 0 else mkDec (signed s (Z.pos m) * 5 ^ (- e)) e)
  | _ => None
  end.
(** float(d) *)
Definition fl_of_dec (a : dec) : flt :=
  match d_coef a with
  | Z0 => S754_zero false
  | Z.pos p | Z.neg p =>
      let s := d_coef a <? 0 in
      if 0 <=? d_exp a then binary_normalize 53 1024 (d_coef a * 10 ^ d_exp a) 0 false
      else SFdiv 53 1024 (S754_finite s p 0) (S754_finite false (Z.to_pos (10 ^ (- d_exp a))) 0)
  end.
(** int(d) *)
Definition dec_int (a : dec) : Z :=
  if 0 <=? d_exp a then d_coef a * 10 ^ d_exp a else Z.quot (d_coef a) (10 ^ (- d_exp a)).

(** ** Values *)
(** float, Decimal, TimePoint, Time and UUID *)
Inductive ext := XF (f : flt) | XD (d : dec) | XT (p : timepoint) | XC (t : time) | XG (g : Z).
Notation pyv := (pv ext).
Notation simple := (value ext).
Definition PF (f : flt) : pyv := PX (XF f).
Definition PD (d : dec) : pyv := PX (XD d).
Definition simple_v (t : edm_type) (v : option pyv) : simple := mkV (Some t) v.

(** core.py 54-61 *)
Definition NUMERIC_TYPES : list edm_type := [TDouble; TSingle; TDecimal; TInt64; TInt32; TInt16; TByte].
Definition type_eqb (a b : edm_type) : bool :=
  match a, b with
  | TBinary, TBinary | TBoolean, TBoolean | TByte, TByte | TDateTime, TDateTime | TDecimal, TDecimal
  | TDouble, TDouble | TSingle, TSingle | TGuid, TGuid | TInt16, TInt16 | TInt32, TInt32
  | TInt64, TInt64 | TSByte, TSByte | TString, TString | TTime, TTime
  | TDateTimeOffset, TDateTimeOffset => true
  | _, _ => false
  end.
Definition one_of (t : edm_type) (l : list edm_type) : bool := existsb (type_eqb t) l.
(** core.py 63-92 PromoteTypes *)
Definition PromoteTypes (a b : option edm_type) : result (option edm_type) :=
  match a, b with
  | None, b => Ok b
  | a, None => Ok a
  | Some a, Some b =>
      if type_eqb a b then Ok (Some a)
      else if negb (one_of a NUMERIC_TYPES) || negb (one_of b NUMERIC_TYPES) then Err EvaluationError
      else if one_of TDouble [a; b] then Ok (Some TDouble)
      else if one_of TSingle [a; b] then Ok (Some TSingle)
      else if one_of TDecimal [a; b] then Ok (Some TDecimal)
      else if one_of TInt64 [a; b] then Ok (Some TInt64)
      else if one_of TInt32 [a; b] then Ok (Some TInt32)
      else if one_of TInt16 [a; b] then Ok (Some TInt16)
      else Ok None
  end.
(** core.py 95-118 CanCastMethodArgument *)
Definition CanCastMethodArgument (a : option edm_type) (b : edm_type) : bool :=
  match a with
  | None => true
  | Some a =>
      if type_eqb a b then true
      else match b with
           | TDouble | TSingle | TInt64 | TInt32 | TInt16 | TByte => one_of a NUMERIC_TYPES
           | TDecimal => one_of a [TDecimal; TInt64; TInt32; TInt16]
           | _ => false
           end
  end.

(** int, long, float or Decimal *)
Inductive num := NI (n : Z) | NF (f : flt) | ND (d : dec).
Definition num_of (v : pyv) : option num :=
  match v with PInt n => Some (NI n) | PX (XF f) => Some (NF f) | PX (XD d) => Some (ND d) | _ => None end.
(** comparison with an integer, and int() *)
Definition num_compare (v : num) (n : Z) : option comparison :=
  match v with
  | NI m => Some (Z.compare m n)
  | NF f => fl_compare_int f n
  | ND d => Some (dec_compare d (dec_of_int n))
  end.
Definition num_int (v : num) : result Z :=
  match v with NI m => Ok m | NF f => fl_int f | ND d => Ok (dec_int d) end.
Definition is_c (c : comparison) (r : option comparison) : bool :=
  match r, c with Some Lt, Lt | Some Eq, Eq | Some Gt, Gt => true | _, _ => false end.
(** csdl.py ByteValue, Int16Value, Int32Value, Int64Value, SByteValue SetFromValue *)
Definition set_int (lo hi : Z) (v : pyv) : result pyv :=
  match num_of v with
  | None => Err TypeError
  | Some n =>
      if is_c Lt (num_compare n lo) || is_c Gt (num_compare n hi) then Err ValueError
      else z <- num_int n ;; Ok (PInt z)
  end.
(** 1296-1313: DecimalValue.SetFromValue *)
Definition dec_max : Z := 10 ^ 29 - 1.
Definition set_dec (v : pyv) : result pyv :=
  match num_of v with
  | None => Err TypeError
  | Some n =>
      d <- match n with
           | ND d => Ok d
           | NI z => Ok (dec_of_int z)
           | NF f => match dec_of_fl f with
                     | Some d => Ok d
                     | None => match f with S754_nan => Err InvalidOperation | _ => Err ValueError end
                     end
           end ;;
      match dec_compare (mkDec (Z.abs (d_coef d)) (d_exp d)) (dec_of_int dec_max) with
      | Gt => Err ValueError
      | _ => Ok (PD d)
      end
  end.
(** 1332-1346: FloatValue.SetFromValue *)
Definition set_float (max : Z) (v : pyv) : result pyv :=
  match num_of v with
  | None => Err TypeError
  | Some (NF (S754_nan as f)) | Some (NF (S754_infinity _ as f)) => Ok (PF f)
  | Some n =>
      if is_c Lt (num_compare n (- max)) || is_c Gt (num_compare n max) then Err ValueError
      else Ok (PF (match n with NI z => fl_of_int z | ND d => fl_of_dec d | NF f => f end))
  end.
Definition double_max : Z := 2 ^ 1024 - 2 ^ 971.
Definition single_max : Z := 2 ^ 128 - 2 ^ 104.
(** SetFromValue of the classes of the types, csdl.py 948-1610.  A number as a date or a time, a
    pickled object as Binary, bytes or hexadecimal text as a Guid and another object as a String are
    not modelled. *)
Definition set_value (t : edm_type) (v : option pyv) : result (option pyv) :=
  match v with
  | None => Ok None
  | Some v =>
      r <- match t with
           | TBinary => match v with PBytes _ => Ok v | _ => Err Unmodelled end
           | TBoolean =>
               match v with
               | PBool _ => Ok v
               | _ => match num_of v with
                      | Some n => Ok (PBool (negb (is_c Eq (num_compare n 0))))
                      | None => Err TypeError
                      end
               end
           | TByte => set_int 0 255 v
           | TSByte => set_int (-128) 127 v
           | TInt16 => set_int (-32768) 32767 v
           | TInt32 => set_int (-2147483648) 2147483647 v
           | TInt64 => set_int (-9223372036854775808) 9223372036854775807 v
           | TDecimal => set_dec v
           | TDouble => set_float double_max v
           | TSingle => set_float single_max v
           | TDateTime =>
               match v with
               | PX (XT p) => p <- p_WithZone p None None None ;; Ok (PX (XT p))
               | _ => match num_of v with Some _ => Err Unmodelled | None => Err TypeError end
               end
           | TDateTimeOffset =>
               match v with
               | PX (XT p) =>
                   if is_none (t_zoff (p_time p)) then Err ValueError
                   else if precision_eqb (t_GetPrecision (p_time p)) PComplete then Ok v else Err ValueError
               | _ => match num_of v with Some _ => Err Unmodelled | None => Err TypeError end
               end
           | TTime =>
               match v with
               | PX (XC _) => Ok v
               | _ => match num_of v with Some _ => Err Unmodelled | None => Err TypeError end
               end
           | TGuid => match v with PX (XG _) => Ok v | PStr _ | PBytes _ => Err Unmodelled | _ => Err TypeError end
           | TString => match v with PStr _ => Ok v | _ => Err Unmodelled end
           end ;;
      Ok (Some r)
  end.
(** csdl.py 848-872 SimpleCast, Cast *)
Definition SimpleCast (t : edm_type) (v : simple) : result simple :=
  match v_type v with
  | None => Ok (simple_v t None)
  | Some t' => if type_eqb t' t then Ok (simple_v t (v_val v))
               else x <- set_value t (v_val v) ;; Ok (simple_v t x)
  end.

(** ** Python's operators on values *)
Definition py_add (a b : pyv) : result pyv :=
  match num_of a, num_of b with
  | Some (NI x), Some (NI y) => Ok (PInt (x + y))
  | Some (NF x), Some (NF y) => Ok (PF (fl_add x y))
  | Some (ND x), Some (ND y) => Ok (PD (dec_add x y))
  | _, _ => Err TypeError
  end.
Definition py_sub (a b : pyv) : result pyv :=
  match num_of a, num_of b with
  | Some (NI x), Some (NI y) => Ok (PInt (x - y))
  | Some (NF x), Some (NF y) => Ok (PF (fl_sub x y))
  | Some (ND x), Some (ND y) => Ok (PD (dec_sub x y))
  | _, _ => Err TypeError
  end.
Definition py_mul (a b : pyv) : result pyv :=
  match num_of a, num_of b with
  | Some (NI x), Some (NI y) => Ok (PInt (x * y))
  | Some (NF x), Some (NF y) => Ok (PF (fl_mul x y))
  | Some (ND x), Some (ND y) => Ok (PD (dec_mul x y))
  | _, _ => Err TypeError
  end.
(** [x/y] for floats and Decimals *)
Definition py_div (a b : pyv) : result pyv :=
  match num_of a, num_of b with
  | Some (NF x), Some (NF y) => r <- fl_div x y ;; Ok (PF r)
  | Some (ND x), Some (ND y) => r <- dec_div x y ;; Ok (PD r)
  | _, _ => Err TypeError
  end.
Definition to_float (a : pyv) : result flt :=
  match num_of a with
  | Some (NI x) => Ok (fl_of_int x)
  | Some (NF x) => Ok x
  | Some (ND x) => Ok (fl_of_dec x)
  | None => Err TypeError
  end.
(** [int(float(x)/float(y))] and [int(math.fmod(float(x),float(y)))] *)
Definition int_div (a b : pyv) : result pyv :=
  x <- to_float a ;; y <- to_float b ;; q <- fl_div x y ;; z <- fl_int q ;; Ok (PInt z).
Definition int_mod (a b : pyv) : result pyv :=
  x <- to_float a ;; y <- to_float b ;; q <- fl_fmod x y ;; z <- fl_int q ;; Ok (PInt z).
(** [math.fmod(x,y)] *)
Definition py_fmod (a b : pyv) : result pyv :=
  x <- to_float a ;; y <- to_float b ;; q <- fl_fmod x y ;; Ok (PF q).
(** [0-x] *)
Definition py_neg (a : pyv) : result pyv :=
  match num_of a with
  | Some (NI x) => Ok (PInt (0 - x))
  | Some (NF x) => Ok (PF (fl_sub (S754_zero false) x))
  | Some (ND x) => Ok (PD (dec_sub (dec_of_int 0) x))
  | None => Err TypeError
  end.
Fixpoint str_compare (a b : str) : comparison :=
  match a, b with
  | [], [] => Eq
  | [], _ => Lt
  | _, [] => Gt
  | x :: a', y :: b' => match Z.compare x y with Eq => str_compare a' b' | c => c end
  end.
(** iso8601.py 2289-2311; None stands for TimePoint() *)
Definition origin : timepoint := mkTP (mkDate 0 (Some 1) (Some 1) None (Some 1)) (mkTime 0 (Some 0) (Some 0) None None).
Definition tp_compare (p q : timepoint) : result (option comparison) :=
  z <- tp_cmp p q ;; Ok (Some (Z.compare z 0)).
(** The comparison of two values, of which each may be None.  In Python 2 None is less than anything
    else, except that a TimePoint makes a TimePoint of it.  None if the values are not ordered (NaN). *)
Definition py_compare (a b : option pyv) : result (option comparison) :=
  match a, b with
  | None, None => Ok (Some Eq)
  | None, Some (PX (XT q)) => r <- tp_compare q origin ;; Ok (match r with Some c => Some (CompOpp c) | None => None end)
  | Some (PX (XT p)), None => tp_compare p origin
  | None, Some _ => Ok (Some Lt)
  | Some _, None => Ok (Some Gt)
  | Some a, Some b =>
      match num_of a, num_of b with
      | Some (NI x), Some (NI y) => Ok (Some (Z.compare x y))
      | Some (NF x), Some (NF y) => Ok (SFcompare x y)
      | Some (ND x), Some (ND y) => Ok (Some (dec_compare x y))
      | _, _ =>
          match a, b with
          | PStr x, PStr y => Ok (Some (str_compare x y))
          | PBytes x, PBytes y => Ok (Some (str_compare x y))
          | PBool x, PBool y => Ok (Some (Z.compare (if x then 1 else 0) (if y then 1 else 0)))
          | PX (XT p), PX (XT q) => tp_compare p q
          | PX (XG x), PX (XG y) => Ok (Some (Z.compare x y))
          | PX (XC x), PX (XC y) => z <- time_cmp x y ;; Ok (Some (Z.compare z 0))
          | _, _ => Err Unmodelled
          end
      end
  end.
(** core.py 574-584: the lambdas of EvaluateLt, EvaluateGt, EvaluateLe, EvaluateGe *)
Definition rel_lt (c : option comparison) : bool := is_c Lt c.
Definition rel_gt (c : option comparison) : bool := is_c Gt c.
Definition rel_le (c : option comparison) : bool := is_c Lt c || is_c Eq c.
Definition rel_ge (c : option comparison) : bool := is_c Gt c || is_c Eq c.

(** Python's [t.startswith(p)], [t.endswith(p)], [t.find(p)] and [t.replace(p,r)] *)
Fixpoint starts (p t : str) : bool :=
  match p, t with
  | [], _ => true
  | a :: p', b :: t' => (a =? b) && starts p' t'
  | _, [] => false
  end.
Definition ends (p t : str) : bool := starts (rev p) (rev t).
Fixpoint find_from (i : Z) (p t : str) : Z :=
  if starts p t then i
  else match t with [] => -1 | _ :: t' => find_from (i + 1) p t' end.
Fixpoint replace_loop (fuel : nat) (p r t : str) : str :=
  match fuel with
  | O => t
  | S f =>
      if starts p t then r ++ replace_loop f p r (skipn (length p) t)
      else match t with [] => [] | c :: t' => c :: replace_loop f p r t' end
  end.
Definition replace (p r t : str) : str :=
  match p with
  | [] => r ++ flat_map (fun c => c :: r) t
  | _ => replace_loop (length t) p r t
  end.
(** [s[i:]] and [s[i:j]] *)
Definition clip (n i : Z) : Z := if i <? 0 then Z.max 0 (i + n) else Z.min i n.
Definition slice_from (s : str) (i : Z) : str := skipn (Z.to_nat (clip (Z.of_nat (length s)) i)) s.
Definition slice (s : str) (i j : Z) : str :=
  let n := Z.of_nat (length s) in
  firstn (Z.to_nat (clip n j - clip n i)) (skipn (Z.to_nat (clip n i)) s).

(** csdl.py 457-532, xsdatatypes20041028.py 455-466: SimpleType.DecodeValue *)
Definition type_names : list (edm_type * str) :=
  [(TBinary, lit "Binary"); (TBoolean, lit "Boolean"); (TByte, lit "Byte"); (TDateTime, lit "DateTime");
   (TDateTimeOffset, lit "DateTimeOffset"); (TTime, lit "Time"); (TDecimal, lit "Decimal");
   (TDouble, lit "Double"); (TSingle, lit "Single"); (TGuid, lit "Guid"); (TInt16, lit "Int16");
   (TInt32, lit "Int32"); (TInt64, lit "Int64"); (TString, lit "String"); (TSByte, lit "SByte")].
Section Eval.
(** unicode.lower() and unicode.upper() of a character; the white space of unicode.strip() *)
Variable lower_char upper_char : Z -> Z.
Variable space : Z -> bool.
Fixpoint lstrip (s : str) : str := match s with c :: s' => if space c then lstrip s' else s | [] => [] end.
Definition strip (s : str) : str := rev (lstrip (rev (lstrip s))).
Definition DecodeType (s : str) : result edm_type :=
  let s := strip s in
  match find (fun p => let n := snd p in
                       str_eqb s (lit "Edm." ++ n) || str_eqb s n
                       || str_eqb s (lit "edm." ++ lower n) || str_eqb s (lower n)) type_names with
  | Some p => Ok (fst p)
  | None => Err ValueError
  end.

(** ** Entities *)
Variable E : Type.
(** A value of an expression: a SimpleValue, a Complex or an Entity *)
Inductive data := DSimple (v : simple) | DComplex (fields : list (str * data)) | DEntity (e : E).
(** A property of an entity: a data property; a navigation property to one entity, with what
    GetEntity returns or raises; a navigation property to a collection *)
Inductive field := FData (d : data) | FOne (r : result (option E)) | FMany.
Variable property : E -> str -> option field.
(** len(entity); typeDef.GetFQName(); entitySet; Key() *)
Variable e_len : E -> Z.
Variable e_type : E -> str.
Variable e_set : E -> Z.
Variable e_key : E -> result (list (option pyv)).

Definition boolean (b : bool) : data := DSimple (simple_v TBoolean (Some (PBool b))).
Definition null_of (t : edm_type) : data := DSimple (simple_v t None).
(** a new value that is set by SetFromValue *)
Definition new_value (t : edm_type) (v : option pyv) : result data :=
  x <- set_value t v ;; Ok (DSimple (simple_v t x)).
(** csdl.py 735-741 __nonzero__; an Entity has __len__ only *)
Definition truth (d : data) : bool :=
  match d with
  | DSimple v => match v_val v with Some _ => true | None => false end
  | DComplex _ => true
  | DEntity e => negb (e_len e =? 0)
  end.

(** *** Unary operators: core.py 334-365 *)
Definition EvaluateNegate (r : data) : result data :=
  match r with
  | DSimple v =>
      v <- match v_type v with
           | Some TByte | Some TInt16 => SimpleCast TInt32 v
           | Some TSingle => SimpleCast TDouble v
           | _ => Ok v
           end ;;
      match v_type v with
      | Some ((TInt32 | TInt64 | TDouble | TDecimal) as t) =>
          match v_val v with
          | Some x => y <- py_neg x ;; new_value t (Some y)
          | None => Ok (null_of t)
          end
      | None => Ok (null_of TInt32)
      | _ => Err EvaluationError
      end
  | _ => Err AttributeError
  end.
Definition EvaluateNot (r : data) : result data :=
  match r with
  | DSimple v =>
      match v_val v with
      | Some x =>
          match v_type v with
          | Some TBoolean => match x with PBool b => new_value TBoolean (Some (PBool (negb b))) | _ => Err TypeError end
          | _ => Err EvaluationError
          end
      | None => Ok (null_of TBoolean)
      end
  | _ => Err EvaluationError
  end.

(** *** Binary operators *)
(** 430-434 PromoteOperands, with the two simple values *)
Definition PromoteOperands (l r : data) : result (option edm_type * simple * simple) :=
  match l, r with
  | DSimple a, DSimple b => t <- PromoteTypes (v_type a) (v_type b) ;; Ok (t, a, b)
  | _, _ => Err EvaluationError
  end.
(** 471-473 *)
Definition computes (t : edm_type) : bool := one_of t [TInt32; TInt64; TSingle; TDouble; TDecimal].
(** 469-484 EvaluateMul, 536-566 EvaluateAdd and EvaluateSub *)
Definition arithmetic (op : pyv -> pyv -> result pyv) (l r : data) : result data :=
  '(t, a, b) <- PromoteOperands l r ;;
  match t with
  | Some t =>
      if computes t then
        a <- SimpleCast t a ;; b <- SimpleCast t b ;;
        match v_val a, v_val b with
        | Some x, Some y => z <- op x y ;; new_value t (Some z)
        | _, _ => Ok (null_of t)
        end
      else Err EvaluationError
  | None => Ok (null_of TInt32)
  end.
Definition EvaluateMul := arithmetic py_mul.
Definition EvaluateAdd := arithmetic py_add.
Definition EvaluateSub := arithmetic py_sub.
Definition is_int (t : edm_type) : bool := one_of t [TInt32; TInt64].
(** 486-510 EvaluateDiv *)
Definition EvaluateDiv (l r : data) : result data :=
  match
    '(t, a, b) <- PromoteOperands l r ;;
    match t with
    | Some t =>
        if computes t then
          a <- SimpleCast t a ;; b <- SimpleCast t b ;;
          match v_val a, v_val b with
          | Some x, Some y => z <- (if is_int t then int_div x y else py_div x y) ;; new_value t (Some z)
          | _, _ => Ok (null_of t)
          end
        else Err EvaluationError
    | None => Ok (null_of TInt32)
    end
  with
  | Err ZeroDivisionError => Err EvaluationError
  | x => x
  end.
(** 512-534 EvaluateMod *)
Definition EvaluateMod (l r : data) : result data :=
  match
    '(t, a, b) <- PromoteOperands l r ;;
    match t with
    | Some t =>
        if computes t then
          a <- SimpleCast t a ;; b <- SimpleCast t b ;;
          match v_val a, v_val b with
          | Some x, Some y => z <- (if is_int t then int_mod x y else py_fmod x y) ;; new_value t (Some z)
          | _, _ => Ok (null_of t)
          end
        else Err EvaluationError
    | None => Ok (null_of TInt32)
    end
  with
  | Err ZeroDivisionError | Err ValueError => Err EvaluationError
  | x => x
  end.
(** 586-611 EvaluateRelation *)
Definition EvaluateRelation (rel : option comparison -> bool) (l r : data) : result data :=
  '(t, a, b) <- PromoteOperands l r ;;
  match t with
  | Some t =>
      if computes t then
        a <- SimpleCast t a ;; b <- SimpleCast t b ;;
        match v_val a, v_val b with
        | Some x, Some y => c <- py_compare (Some x) (Some y) ;; Ok (boolean (rel c))
        | _, _ => Ok (boolean false)
        end
      else if one_of t [TString; TDateTime; TGuid] then
        c <- py_compare (v_val a) (v_val b) ;; Ok (boolean (rel c))
      else Err EvaluationError
  | None => Ok (boolean false)
  end.
(** 643-673 EvaluateEq *)
Fixpoint key_eq (a b : list (option pyv)) : result bool :=
  match a, b with
  | [], [] => Ok true
  | x :: a', y :: b' => c <- py_compare x y ;; if is_c Eq c then key_eq a' b' else Ok false
  | _, _ => Ok false
  end.
Definition EvaluateEq (l r : data) : result data :=
  match l, r with
  | DEntity e, DEntity e' =>
      if e_set e =? e_set e' then
        k <- e_key e ;; k' <- e_key e' ;; b <- key_eq k k' ;; Ok (boolean b)
      else Ok (boolean false)
  | _, _ =>
      '(t, a, b) <- PromoteOperands l r ;;
      match t with
      | Some t =>
          if computes t then
            a <- SimpleCast t a ;; b <- SimpleCast t b ;;
            c <- py_compare (v_val a) (v_val b) ;; Ok (boolean (is_c Eq c))
          else if one_of t [TString; TDateTime; TGuid; TBinary] then
            c <- py_compare (v_val a) (v_val b) ;; Ok (boolean (is_c Eq c))
          else Err EvaluationError
      | None => Ok (boolean true)
      end
  end.
(** 675-678 EvaluateNe: [not result.value] *)
Definition EvaluateNe (l r : data) : result data :=
  d <- EvaluateEq l r ;;
  match d with
  | DSimple (mkV t (Some (PBool b))) => Ok (DSimple (mkV t (Some (PBool (negb b)))))
  | _ => Err Unmodelled
  end.
(** 680-706 EvaluateAnd, EvaluateOr *)
Definition logic (op : bool -> bool -> bool) (l r : data) : result data :=
  '(t, a, b) <- PromoteOperands l r ;;
  match t with
  | Some TBoolean =>
      match v_val a, v_val b with
      | Some (PBool x), Some (PBool y) => Ok (boolean (op x y))
      | Some _, Some _ => Err Unmodelled
      | _, _ => Ok (boolean false)
      end
  | None => Ok (boolean false)
  | Some _ => Err EvaluationError
  end.
Definition EvaluateAnd := logic andb.
Definition EvaluateOr := logic orb.
(** the value of the right operand of isof and cast *)
Definition type_name (r : data) : result str :=
  match r with DSimple (mkV _ (Some (PStr s))) => Ok s | _ => Err AttributeError end.
(** 436-467 EvaluateCast; [l] is None if there is no entity in context *)
Definition EvaluateCast (l : option data) (r : data) : result data :=
  match l with
  | Some l =>
      if negb (truth l) then
        s <- type_name r ;;
        match DecodeType s with
        | Ok t => Ok (null_of t)
        | Err _ => Ok (DSimple null)
        end
      else
        match l with
        | DEntity e => s <- type_name r ;; if str_eqb (e_type e) s then Ok l else Err EvaluationError
        | DSimple v =>
            s <- type_name r ;;
            match DecodeType s with
            | Err _ => Err EvaluationError
            | Ok t =>
                n <- PromoteTypes (Some t) (v_type v) ;;
                match n with
                | Some n => if type_eqb t n then new_value t (v_val v) else Err EvaluationError
                | None => Err EvaluationError
                end
            end
        | DComplex _ => Err EvaluationError
        end
  | None =>
      s <- type_name r ;;
      match DecodeType s with
      | Ok t => Ok (null_of t)
      | Err _ => Ok (DSimple null)
      end
  end.
(** 613-641 EvaluateIsOf *)
Definition EvaluateIsOf (l : option data) (r : data) : result data :=
  match l with
  | Some l =>
      if negb (truth l) then Ok (boolean false)
      else
        match l with
        | DEntity e => s <- type_name r ;; Ok (boolean (str_eqb (e_type e) s))
        | DSimple v =>
            s <- type_name r ;;
            match DecodeType s with
            | Err _ => Err EvaluationError
            | Ok t =>
                match PromoteTypes (Some t) (v_type v) with
                | Ok (Some n) => Ok (boolean (type_eqb t n))
                | _ => Ok (boolean false)
                end
            end
        | DComplex _ => Err EvaluationError
        end
  | None => Ok (boolean false)
  end.

(** *** Members: core.py 773-795 *)
Definition EvaluateProperty (name : str) (ctx : option data) : result data :=
  match ctx with
  | Some d =>
      if truth d then
        match d with
        | DEntity e =>
            match property e name with
            | Some FMany => Err EvaluationError
            | Some (FData d) => Ok d
            | Some (FOne r) => x <- r ;; match x with Some e => Ok (DEntity e) | None => Ok (DSimple null) end
            | None => Err KeyError
            end
        | DComplex fs =>
            match find (fun p => str_eqb (fst p) name) fs with
            | Some p => Ok (snd p)
            | None => Err EvaluationError
            end
        | DSimple _ => Err TypeError
        end
      else Err EvaluationError
  | None => Err EvaluationError
  end.

(** *** Method calls: core.py 816-1067 *)
(** 816-827 PromoteParameter, CheckStrictParameter *)
Definition PromoteParameter (d : data) (t : edm_type) : result simple :=
  match d with
  | DSimple v => if CanCastMethodArgument (v_type v) t then SimpleCast t v else Err EvaluationError
  | _ => Err EvaluationError
  end.
Definition CheckStrictParameter (d : data) (t : edm_type) : result simple :=
  match d with
  | DSimple v => match v_type v with
                 | Some t' => if type_eqb t' t then Ok v else Err EvaluationError
                 | None => Err EvaluationError
                 end
  | _ => Err EvaluationError
  end.
(** the text of a String that is not NULL *)
Definition text_of (v : simple) : result (option str) :=
  match v_val v with
  | None => Ok None
  | Some (PStr s) => Ok (Some s)
  | Some _ => Err AttributeError
  end.
Definition int_of (v : simple) : result (option Z) :=
  match v_val v with
  | None => Ok None
  | Some (PInt n) => Ok (Some n)
  | Some _ => Err TypeError
  end.
Definition point_of (v : simple) : result (option timepoint) :=
  match v_val v with
  | None => Ok None
  | Some (PX (XT p)) => Ok (Some p)
  | Some _ => Err AttributeError
  end.
(** a result that is NULL unless both texts are there *)
Definition of_text (t : edm_type) (f : str -> pyv) (a : option str) : result data :=
  match a with Some a => new_value t (Some (f a)) | None => Ok (null_of t) end.
Definition of_texts (t : edm_type) (f : str -> str -> pyv) (a b : option str) : result data :=
  match a, b with Some a, Some b => new_value t (Some (f a b)) | _, _ => Ok (null_of t) end.
Definition texts (strict : bool) (a b : data) : result (option str * option str) :=
  let get := if strict then CheckStrictParameter else PromoteParameter in
  x <- get a TString ;; y <- get b TString ;; s <- text_of x ;; t <- text_of y ;; Ok (s, t).
(** 829-884, 929-963 *)
Definition EvaluateEndswith (args : list data) : result data :=
  match args with
  | [a; b] => '(s, p) <- texts false a b ;; of_texts TBoolean (fun s p => PBool (ends p s)) s p
  | _ => Err EvaluationError
  end.
Definition EvaluateIndexof (args : list data) : result data :=
  match args with
  | [a; b] => '(s, p) <- texts false a b ;; of_texts TInt32 (fun s p => PInt (find_from 0 p s)) s p
  | _ => Err EvaluationError
  end.
Definition EvaluateReplace (args : list data) : result data :=
  match args with
  | [a; b; c] =>
      '(s, p) <- texts false a b ;; z <- PromoteParameter c TString ;; r <- text_of z ;;
      match s, p, r with
      | Some s, Some p, Some r => new_value TString (Some (PStr (replace p r s)))
      | _, _, _ => Ok (null_of TString)
      end
  | _ => Err EvaluationError
  end.
Definition EvaluateStartswith (args : list data) : result data :=
  match args with
  | [a; b] => '(s, p) <- texts false a b ;; of_texts TBoolean (fun s p => PBool (starts p s)) s p
  | _ => Err EvaluationError
  end.
Definition one_text (f : str -> str) (args : list data) : result data :=
  match args with
  | [a] => x <- PromoteParameter a TString ;; s <- text_of x ;; of_text TString (fun s => PStr (f s)) s
  | _ => Err EvaluationError
  end.
Definition EvaluateTolower := one_text (map lower_char).
Definition EvaluateToupper := one_text (map upper_char).
Definition EvaluateTrim := one_text strip.
Definition EvaluateSubstring (args : list data) : result data :=
  match args with
  | a :: b :: rest =>
      match rest with
      | _ :: _ :: _ => Err EvaluationError
      | _ =>
          x <- CheckStrictParameter a TString ;; y <- CheckStrictParameter b TInt32 ;;
          len <- match rest with
                 | [c] => z <- CheckStrictParameter c TInt32 ;; int_of z
                 | _ => Ok None
                 end ;;
          s <- text_of x ;; i <- int_of y ;;
          match s, i with
          | Some s, Some i =>
              new_value TString (Some (PStr (match len with Some n => slice s i (i + n) | None => slice_from s i end)))
          | _, _ => Ok (null_of TString)
          end
      end
  | _ => Err EvaluationError
  end.
Definition EvaluateSubstringof (args : list data) : result data :=
  match args with
  | [a; b] => '(p, s) <- texts false a b ;; of_texts TBoolean (fun p s => PBool (0 <=? find_from 0 p s)) p s
  | _ => Err EvaluationError
  end.
Definition EvaluateConcat (args : list data) : result data :=
  match args with
  | [a; b] => '(s, t) <- texts true a b ;; of_texts TString (fun s t => PStr (s ++ t)) s t
  | _ => Err EvaluationError
  end.
Definition EvaluateLength (args : list data) : result data :=
  match args with
  | [a] => x <- CheckStrictParameter a TString ;; s <- text_of x ;;
           of_text TInt32 (fun s => PInt (Z.of_nat (length s))) s
  | _ => Err EvaluationError
  end.
(** 965-1023 *)
Definition of_point (f : timepoint -> result (option Z)) (args : list data) : result data :=
  match args with
  | [a] =>
      x <- CheckStrictParameter a TDateTime ;; p <- point_of x ;;
      match p with
      | Some p => n <- f p ;; new_value TInt32 (match n with Some n => Some (PInt n) | None => None end)
      | None => Ok (null_of TInt32)
      end
  | _ => Err EvaluationError
  end.
Definition EvaluateYear := of_point (fun p =>
  match d_year (p_date p) with Some y => Ok (Some (d_century (p_date p) * 100 + y)) | None => Err TypeError end).
Definition EvaluateMonth := of_point (fun p => Ok (d_month (p_date p))).
Definition EvaluateDay := of_point (fun p => Ok (d_day (p_date p))).
Definition EvaluateHour := of_point (fun p => Ok (Some (t_hour (p_time p)))).
Definition EvaluateMinute := of_point (fun p => Ok (t_minute (p_time p))).
Definition EvaluateSecond := of_point (fun p => Ok (t_second (p_time p))).
(** 1025-1067 EvaluateRound, EvaluateFloor, EvaluateCeiling *)
Definition integral (fd ff : Z -> Z -> Z) (args : list data) : result data :=
  match args with
  | [a] =>
      match
        v <- PromoteParameter a TDecimal ;;
        match v_val v with
        | Some (PX (XD d)) => new_value TDecimal (Some (PD (dec_integral fd d)))
        | Some _ => Err AttributeError
        | None => Ok (null_of TDecimal)
        end
      with
      | Err ProcessingError =>
          v <- PromoteParameter a TDouble ;;
          match v_val v with
          | Some (PX (XF f)) => new_value TDouble (Some (PF (fl_integral ff f)))
          | Some _ => Err TypeError
          | None => Ok (null_of TDouble)
          end
      | x => x
      end
  | _ => Err EvaluationError
  end.
Definition EvaluateRound := integral half_up half_even.
Definition EvaluateFloor := integral below below.
Definition EvaluateCeiling := integral above above.
(** 1069-1090 *)
Definition call_methods : list (str * (list data -> result data)) :=
  [(lit "endswith", EvaluateEndswith); (lit "indexof", EvaluateIndexof); (lit "replace", EvaluateReplace);
   (lit "startswith", EvaluateStartswith); (lit "tolower", EvaluateTolower); (lit "toupper", EvaluateToupper);
   (lit "trim", EvaluateTrim); (lit "substring", EvaluateSubstring); (lit "substringof", EvaluateSubstringof);
   (lit "concat", EvaluateConcat); (lit "length", EvaluateLength); (lit "year", EvaluateYear);
   (lit "month", EvaluateMonth); (lit "day", EvaluateDay); (lit "hour", EvaluateHour);
   (lit "minute", EvaluateMinute); (lit "second", EvaluateSecond); (lit "round", EvaluateRound);
   (lit "floor", EvaluateFloor); (lit "ceiling", EvaluateCeiling)].
(** 709-724 *)
Definition binary_method (o : operator) : option (data -> data -> result data) :=
  match o with
  | OMul => Some EvaluateMul | ODiv => Some EvaluateDiv | OMod => Some EvaluateMod
  | OAdd => Some EvaluateAdd | OSub => Some EvaluateSub
  | OLt => Some (EvaluateRelation rel_lt) | OGt => Some (EvaluateRelation rel_gt)
  | OLe => Some (EvaluateRelation rel_le) | OGe => Some (EvaluateRelation rel_ge)
  | OEq => Some EvaluateEq | ONe => Some EvaluateNe
  | OAnd => Some EvaluateAnd | OOr => Some EvaluateOr
  | _ => None
  end.

(** ** Evaluate: core.py 328-330, 410-428, 757-759, 773-795, 812-814 *)
Fixpoint Evaluate (e : expr ext) (ctx : option data) {struct e} : result data :=
  match e with
  | ELit v => Ok (DSimple v)
  | EProp n => EvaluateProperty n ctx
  | ECall m args =>
      match find (fun p => str_eqb (fst p) m) call_methods with
      | Some p =>
          l <- (fix all (l : list (expr ext)) : result (list data) :=
                  match l with
                  | [] => Ok []
                  | a :: l' => x <- Evaluate a ctx ;; xs <- all l' ;; Ok (x :: xs)
                  end) args ;;
          snd p l
      | None => Err KeyError
      end
  | EOp unary o ops =>
      let operand (x : option (expr ext)) (c : option data) : result data :=
        match x with Some a => Evaluate a c | None => Err AttributeError end in
      match ops with
      | [] => Err IndexError
      | x :: rest =>
          l <- operand x ctx ;;
          if unary then
            match o with ONegate => EvaluateNegate l | ONot => EvaluateNot l | _ => Err KeyError end
          else
            match o with
            | OMember => match rest with y :: _ => operand y (Some l) | [] => Err IndexError end
            | OIsof | OCast =>
                let f := match o with OIsof => EvaluateIsOf | _ => EvaluateCast end in
                match rest with
                | [] => f ctx l
                | y :: _ => r <- operand y ctx ;; f (Some l) r
                end
            | _ =>
                match rest with
                | [] => Err IndexError
                | y :: _ =>
                    r <- operand y ctx ;;
                    match binary_method o with Some f => f l r | None => Err KeyError end
                end
            end
      end
  end.

(** core.py 2411-2425 CheckFilter *)
Definition CheckFilter (filter : option (expr ext)) (e : E) : result bool :=
  match filter with
  | None => Ok true
  | Some f =>
      d <- Evaluate f (Some (DEntity e)) ;;
      match d with
      | DSimple (mkV (Some TBoolean) v) => match v with Some (PBool b) => Ok b | _ => Ok false end
      | _ => Err ValueError
      end
  end.
(** 2427-2429 CalculateOrderKey *)
Definition CalculateOrderKey (e : E) (order : expr ext) : result (option pyv) :=
  d <- Evaluate order (Some (DEntity e)) ;;
  match d with DSimple v => Ok (v_val v) | _ => Err AttributeError end.
End Eval.
