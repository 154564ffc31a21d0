(** Model of the literal forms of the simple values of odata2/csdl.py: Boolean, Binary, Byte,
    SByte, Int16, Int32, Int64, Decimal and Guid (csdl.py 934-1077, 1259-1318, 1460-1562,
    1589-1610), with the parser that reads them (csdl.py 545-689, unicode5.py 621-820).

    Simplifications.
    - A value object is its [value]; a method that raises leaves it alone, and so gives only the
      exception here.  NULL values are left out: their unicode raises ValueError.
    - A parser is the text that remains (see OdExpr.v, whose ParseNumericLiteral, hex digits and
      binary literal are used).
    - A finite number given to SetFromValue (int, long, float or Decimal) is a fraction.
    - Decimals are finite and their exponents inside the limits of the default context
      (28 digits, half even, traps InvalidOperation, DivisionByZero and Overflow).
    - lower() changes ASCII letters only. *)
From Verif Require Import Py Iso Dec OdExpr.
Open Scope Z_scope.
Open Scope list_scope.

(** unicode5.py 646-652 RequireProductionEnd (with RequireProduction, 621-632, and RequireEnd,
    813-819) of a production that gave a result, or None *)
Definition RequireProductionEnd {A} (r : option (A * str)) : result A :=
  match r with
  | Some (v, []) => Ok v
  | _ => Err ValueError
  end.

(** ** Booleans *)
(** csdl.py 982-985 BooleanValue.__unicode__ *)
Definition bool_text (b : bool) : str := if b then lit "true" else lit "false".
(** csdl.py 987-994 BooleanValue.SetFromLiteral *)
Definition bool_literal (s : str) : result bool :=
  if str_eqb (lower s) (lit "true") then Ok true
  else if str_eqb (lower s) (lit "false") then Ok false
  else Err ValueError.

(** ** Integers *)
Inductive int_type : Set := Byte | SByte | Int16 | Int32 | Int64.
(** The limits of SetFromValue: csdl.py 1073, 1604, 1512, 1535, 1558 *)
Definition lowest (t : int_type) : Z :=
  match t with
  | Byte => 0 | SByte => -128 | Int16 => -32768 | Int32 => -2147483648 | Int64 => -9223372036854775808
  end.
Definition highest (t : int_type) : Z :=
  match t with
  | Byte => 255 | SByte => 127 | Int16 => 32767 | Int32 => 2147483647 | Int64 => 9223372036854775807
  end.
(** SetFromValue of the integer types, of the number p/q: csdl.py 1068-1077, 1508-1516,
    1531-1539, 1554-1562, 1600-1608.  int() and long() round towards zero. *)
Definition set_int (t : int_type) (p : Z) (q : positive) : result Z :=
  if (p <? lowest t * Zpos q) || (p >? highest t * Zpos q) then Err ValueError
  else Ok (Z.quot p (Zpos q)).
(** int(JoinNumericLiteral) of a sign and digits (csdl.py 1034-1045) *)
Definition signed (n : numeric) : Z := match n_sign n with [] => dval (n_left n) | _ => - dval (n_left n) end.
(** str.isalpha() of lDigits, which is digits, "inf" or "nan" *)
Definition isalpha (s : str) : bool :=
  match s with [] => false | _ => forallb (fun c => (65 <=? c) && (c <=? 90) || (97 <=? c) && (c <=? 122)) s end.
(** SetFromNumericLiteral of the integer types: csdl.py 1059-1066 (Byte), 1500-1506 (Int16),
    1522-1529 (Int32), 1545-1552 (Int64), 1592-1598 (SByte) *)
Definition int_of_numeric (t : int_type) (n : numeric) : result Z :=
  if (match t with Byte => negb (str_eqb (n_sign n) []) | _ => false end
      || str_eqb (n_left n) []
      || match t with Int32 => (10 <? length (n_left n))%nat | Int64 => (19 <? length (n_left n))%nat | _ => false end
      || isalpha (n_left n)
      || match n_right n with Some _ => true | None => false end
      || match n_exp n with Some _ => true | None => false end)%bool
  then Err ValueError
  else set_int t (match t with Byte => dval (n_left n) | _ => signed n end) 1.
(** csdl.py 1024-1027 NumericValue.SetFromLiteral *)
Definition int_from_literal (t : int_type) (s : str) : result Z :=
  n <- RequireProductionEnd (ParseNumericLiteral s) ;; int_of_numeric t n.
(** csdl.py 895-902, 1054-1057 __unicode__; xsdatatypes20041028.py 440-442 EncodeInteger *)
Definition int_text (n : Z) : str := pystr n.

(** ** Decimals *)
(** decimal.Decimal: a sign, the coefficient and the exponent *)
Record dec := mkDec { d_neg : bool; d_int : Z; d_exp : Z }.
(** The digits of as_tuple(); their number *)
Definition d_digits (d : dec) : str := fmt (d_int d).
Definition d_len (d : dec) : Z := Z.of_nat (length (d_digits d)).
(** A coefficient divided by a power of ten, rounded half to even *)
Definition round_div (c m : Z) : Z :=
  let q := c / m in
  let r := c mod m in
  if 2 * r <? m then q
  else if 2 * r >? m then q + 1
  else if Z.even q then q else q + 1.
(** The coefficient is greater than 10^29: csdl.py 1266 Max.  Decimal(10)**29-1 has 29 digits,
    which the 28 digits of the default context round to 10^29. *)
Definition above_max (c e : Z) : bool :=
  if 0 <=? e then c * 10 ^ e >? 10 ^ 29 else c >? 10 ^ 29 * 10 ^ (- e).
(** csdl.py 1269-1274 abs: the negation of a negative number is rounded to 28 digits *)
Definition dec_abs (d : dec) : Z * Z :=
  if (d_neg d && negb (d_int d =? 0))%bool then
    let k := d_len d - 28 in
    if 0 <? k then (round_div (d_int d) (10 ^ k), d_exp d + k) else (d_int d, d_exp d)
  else (d_int d, d_exp d).
(** csdl.py 1303-1318 DecimalValue.SetFromValue *)
Definition set_dec (d : dec) : result dec :=
  let '(c, e) := dec_abs d in
  if above_max c e then Err ValueError else Ok d.
(** decimal.Decimal(dStr) of a number with no exponent *)
Definition dec_of (n : numeric) : dec :=
  let r := match n_right n with Some r => r | None => [] end in
  mkDec (match n_sign n with [] => false | _ => true end) (dval (n_left n ++ r)) (- Z.of_nat (length r)).
(** csdl.py 1291-1301 DecimalValue.SetFromNumericLiteral *)
Definition dec_of_numeric (n : numeric) : result dec :=
  if (isalpha (n_left n) || (29 <? length (n_left n))%nat
      || match n_right n with Some r => (29 <? length r)%nat || str_eqb r [] | None => false end
      || match n_exp n with Some _ => true | None => false end)%bool
  then Err ValueError
  else set_dec (dec_of n).
(** csdl.py 1024-1027 *)
Definition dec_from_literal (s : str) : result dec :=
  n <- RequireProductionEnd (ParseNumericLiteral s) ;; dec_of_numeric n.
(** Decimal.__format__('f') of the standard library *)
Definition format_f (d : dec) : str :=
  let d := if (d_int d =? 0) && (d_exp d >? 0) then mkDec (d_neg d) 0 0 else d in
  let ds := d_digits d in
  let dot := d_exp d + d_len d in
  let '(i, f) :=
    if dot <? 0 then ([48], repeat 48 (Z.to_nat (- dot)) ++ ds)
    else if dot >? d_len d then (ds ++ repeat 48 (Z.to_nat (dot - d_len d)), [])
    else (match firstn (Z.to_nat dot) ds with [] => [48] | i => i end, skipn (Z.to_nat dot) ds) in
  (if d_neg d then [45] else []) ++ i ++ (match f with [] => [] | _ => 46 :: f end).
(** What unicode() of a Decimal value does: a literal, ValueError, or decimal.InvalidOperation *)
Inductive written := Written (s : str) | TooLarge | InvalidOperation.
(** Decimal.quantize(Decimal(10)**-29) of the standard library, in the default context *)
Definition quantize29 (d : dec) : option dec :=
  if d_int d =? 0 then Some (mkDec (d_neg d) 0 (-29))
  else if d_exp d + d_len d - 1 + 29 + 1 >? 28 then None
  else
    let r := mkDec (d_neg d) (round_div (d_int d) (10 ^ (-29 - d_exp d))) (-29) in
    if d_len r >? 28 then None else Some r.
(** csdl.py 1276-1289 DecimalValue.__unicode__ *)
Definition dec_text (d : dec) : written :=
  if d_exp d <? -29 then
    match quantize29 d with Some r => Written (format_f r) | None => InvalidOperation end
  else if d_exp d + d_len d >? 29 then TooLarge
  else Written (format_f d).

(** ** Guids *)
(** '%032x' of a UUID's 128-bit integer: k hexadecimal digits *)
Definition hex_char (v : Z) : Z := if v <? 10 then 48 + v else 87 + v.
Fixpoint hexk (k : nat) (n : Z) : str :=
  match k with
  | O => []
  | S k' => hexk k' (n / 16) ++ [hex_char (n mod 16)]
  end.
(** csdl.py 1470-1473 GuidValue.__unicode__; uuid.UUID.__str__ of the standard library *)
Definition guid_text (n : Z) : str :=
  let h := hexk 32 n in
  firstn 8 h ++ 45 :: firstn 4 (skipn 8 h) ++ 45 :: firstn 4 (skipn 12 h) ++ 45 ::
  firstn 4 (skipn 16 h) ++ 45 :: skipn 20 h.
(** unicode5.py 791-808 ParseHexDigits(k,k) *)
Fixpoint hex_exact (k : nat) (s : str) : option (str * str) :=
  match k with
  | O => Some ([], s)
  | S k' =>
      match s with
      | c :: s' => if is_hex c then match hex_exact k' s' with Some (h, r) => Some (c :: h, r) | None => None end else None
      | [] => None
      end
  end.
(** csdl.py 632 RequireProduction(Parse('-')): Parse gives the empty string when there is no
    hyphen (unicode5.py 661-670), which is not None, so that nothing is required *)
Definition hyphen (s : str) : str := match s with 45 :: s' => s' | _ => s end.
(** int(hex,16) in uuid.UUID of the standard library *)
Definition hex_number (s : str) : Z := fold_left (fun v c => v * 16 + hex_val c) s 0.
(** csdl.py 621-643 ParseGuidLiteral *)
Definition ParseGuidLiteral (s : str) : option (Z * str) :=
  match hex_exact 8 s with
  | None => None
  | Some (a, s) =>
      match hex_exact 4 (hyphen s) with
      | None => None
      | Some (b, s) =>
          match hex_exact 4 (hyphen s) with
          | None => None
          | Some (c, s) =>
              match hex_exact 4 (hyphen s) with
              | None => None
              | Some (d, s) =>
                  match hex_exact 12 (hyphen s) with
                  | None => None
                  | Some (e, s) => Some (hex_number (a ++ b ++ c ++ d ++ e), s)
                  end
              end
          end
      end
  end.
(** csdl.py 1475-1477 GuidValue.SetFromLiteral *)
Definition guid_from_literal (s : str) : result Z := RequireProductionEnd (ParseGuidLiteral s).

(** ** Binary data *)
(** csdl.py 945-956 BinaryValue.__unicode__: "%02X" of each byte *)
Definition binary_text (b : str) : str := concat (map hex2 b).
(** csdl.py 552-566 ParseBinaryLiteral, 958-960 BinaryValue.SetFromLiteral *)
Definition binary_from_literal (s : str) : result str :=
  let '(h, s') := run is_hex s in
  b <- bytes_of_hex h ;; RequireProductionEnd (Some (b, s')).
