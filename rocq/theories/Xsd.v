(** Model of pyslet/pyslet/xsdatatypes20041028.py: lexical forms, enumerations, white space
    and the digit handling of decimals.  Floating point numbers are not modelled. *)
From Verif Require Import Py Dec XmlUtils.

(** 16-31 DecodeBoolean *)
Definition DecodeBoolean (src : option str) : result (option bool) :=
  match src with
  | None => Ok None
  | Some s =>
      if str_eqb s (lit "true") then Ok (Some true)
      else if str_eqb s (lit "false") then Ok (Some false)
      else if str_eqb s (lit "1") then Ok (Some true)
      else if str_eqb s (lit "0") then Ok (Some false)
      else Err ValueError
  end.
(** 34-44 EncodeBoolean *)
Definition EncodeBoolean (src : option bool) : result str :=
  match src with
  | None => Err ValueError
  | Some true => Ok (lit "true")
  | Some false => Ok (lit "false")
  end.

(** Python's [int(s)] for a string of signs and decimal digits *)
Definition int_digits10 (s : str) : result Z :=
  match s with
  | [] => Err ValueError
  | _ => if forallb is_digit s then Ok (dval s) else Err ValueError
  end.
Definition int_of (s : str) : result Z :=
  match s with
  | [] => Err ValueError
  | c :: t => if c =? 43 then int_digits10 t
              else if c =? 45 then v <- int_digits10 t ;; Ok (- v)
              else int_digits10 s
  end.
(** 419-438 DecodeInteger: the loop over the characters, then [int] *)
Fixpoint integer_scan (sign : bool) (s : str) : bool :=
  match s with
  | [] => true
  | v :: s' =>
      if (v =? 0x2B) || (v =? 0x2D) then if sign then false else integer_scan true s'
      else if (v <? 0x30) || (v >? 0x39) then false
      else integer_scan true s'
  end.
Definition DecodeInteger (src : str) : result Z :=
  if integer_scan false src then int_of src else Err ValueError.
(** 440-442 EncodeInteger *)
Definition EncodeInteger (value : Z) : str := pystr value.

(** 47-76 DecodeDecimal: the loop over the characters.  [float] of such a string is given as
    the exact decimal number mantissa / 10^scale, before the conversion to floating point;
    it accepts [sign] digits [. digits] with at least one digit. *)
Fixpoint decimal_scan (sign point digit : bool) (s : str) : bool :=
  match s with
  | [] => digit
  | v :: s' =>
      if (v =? 0x2B) || (v =? 0x2D) then if sign then false else decimal_scan true point digit s'
      else if v =? 0x2E then if point then false else decimal_scan sign true digit s'
      else if (v <? 0x30) || (v >? 0x39) then false
      else decimal_scan true point true s'
  end.
Fixpoint before_point (s : str) : str * str :=
  match s with
  | [] => ([], [])
  | c :: s' => if c =? 0x2E then ([], s') else let '(a, b) := before_point s' in (c :: a, b)
  end.
Definition float_unsigned (s : str) : result (Z * Z) :=
  let '(a, b) := before_point s in
  match a ++ b with
  | [] => Err ValueError
  | ds => if forallb is_digit ds then Ok (dval ds, Z.of_nat (length b)) else Err ValueError
  end.
Definition float_of (s : str) : result (Z * Z) :=
  match s with
  | [] => Err ValueError
  | c :: t => if c =? 43 then float_unsigned t
              else if c =? 45 then '(m, k) <- float_unsigned t ;; Ok (- m, k)
              else float_unsigned s
  end.
Definition DecodeDecimal (src : str) : result (Z * Z) :=
  if decimal_scan false false false src then float_of src else Err ValueError.

(** 79-107 _RoundDigits, with [float_info.dig] = 15.  The loop goes from the last position
    down; the positions below [pos] are given reversed.  The second component is true when
    the number of digits has grown; when the digits are rounded without overflow the function
    returns None, which counts as false. *)
Definition float_dig : nat := 15.
Fixpoint round_loop (rdigits : str) : str * bool :=
  (* rdigits: the digits from the current position down to position 0; the result is in the
     same order; true means that position -1 was reached *)
  match rdigits with
  | [] => ([], true)
  | d :: rest =>
      let pos := length rest in
      if Nat.ltb float_dig pos then let '(r, o) := round_loop rest in (48 :: r, o)
      else if Nat.eqb pos float_dig then
        if d <? 0x35 then (48 :: rest, false)
        else let '(r, o) := round_loop rest in (48 :: r, o)
      else if d =? 57 then let '(r, o) := round_loop rest in (48 :: r, o)
      else (d + 1 :: rest, false)
  end.
Definition RoundDigits (digits : str) : str * bool :=
  if Nat.ltb float_dig (length digits)
  then let '(r, o) := round_loop (rev digits) in
       if o then (49 :: rev r, true) else (rev r, false)
  else (digits, false).

(** 110-121 _StripZeros.  [digits[pos]] goes on from the end when pos becomes negative, so a
    list of zeros only (or the empty list) raises IndexError. *)
Fixpoint drop_zeros (r : str) : str :=
  match r with [] => [] | c :: r' => if c =? 48 then drop_zeros r' else r end.
Definition StripZeros (digits : str) : result str :=
  let r := drop_zeros (rev digits) in
  match r with
  | [] => Err IndexError
  | c :: _ =>
      if c =? 46 then Ok (firstn (length r + 1) digits)
      else Ok (rev r)
  end.

(** 163-192 EncodeDecimal, from the integer i onwards (i is the value scaled by 10^digits and
    rounded, a floating point computation); the value is not zero. *)
Definition EncodeDecimalDigits (negative : bool) (i : Z) (digits : nat) (stripZeros : bool) : result str :=
  let '(dString, _) := RoundDigits (pystr i) in
  let dString := if Nat.leb (length dString) digits
                 then repeat 48 (digits + 1 - length dString) ++ dString else dString in
  let dLen := length dString in
  let dString := firstn (dLen - digits) dString ++ [46] ++ skipn (dLen - digits) dString in
  let dString := if negative then 45 :: dString else dString in
  if stripZeros then StripZeros dString else Ok dString.

(** *** Enumerations.  A dict is an association list with distinct keys, in any order. *)
Fixpoint set_key (k : str) (v : Z) (m : list (str * Z)) : list (str * Z) :=
  match m with
  | [] => [(k, v)]
  | (k', v') :: m' => if str_eqb k k' then (k, v) :: m' else (k', v') :: set_key k v m'
  end.
Fixpoint zassoc (v : Z) (m : list (Z * str)) : option str :=
  match m with [] => None | (v', k) :: m' => if v =? v' then Some k else zassoc v m' end.
Fixpoint set_zkey (v : Z) (k : str) (m : list (Z * str)) : list (Z * str) :=
  match m with
  | [] => [(v, k)]
  | (v', k') :: m' => if v =? v' then (v, k) :: m' else (v', k') :: set_zkey v k m'
  end.

(** 445-580 Enumeration: the class attributes decode, encode and DEFAULT *)
Record enumeration := mkEnum { decode : list (str * Z); encode : list (Z * str); DEFAULT : option Z }.

(** 584-597 MakeEnumeration *)
Definition MakeEnumeration (d : list (str * Z)) (defaultValue : option str) : result enumeration :=
  let e := fold_left (fun m kv => set_zkey (snd kv) (fst kv) m) d [] in
  match defaultValue with
  | Some (c :: s) => match assoc (c :: s) d with
                     | Some v => Ok (mkEnum d e (Some v))
                     | None => Err KeyError
                     end
  | _ => Ok (mkEnum d e None)
  end.
(** 599-608 MakeEnumerationAliases *)
Fixpoint MakeEnumerationAliases (e : enumeration) (aliases : list (str * str)) : result enumeration :=
  match aliases with
  | [] => Ok e
  | (alias, key) :: rest =>
      match assoc key (decode e) with
      | None => Err KeyError
      | Some v => MakeEnumerationAliases (mkEnum (set_key alias v (decode e)) (encode e) (DEFAULT e)) rest
      end
  end.
(** [lower()] and [upper()] on ASCII letters *)
Definition upper (s : str) : str := map (fun c => if (c >=? 97) && (c <=? 122) then c - 32 else c) s.
(** 610-622 MakeLowerAliases; [e.decode.keys()] is a list made before the loop *)
Fixpoint lower_aliases (keys : list str) (d : list (str * Z)) : result (list (str * Z)) :=
  match keys with
  | [] => Ok d
  | key :: rest =>
      match assoc (lower key) d with
      | Some _ => lower_aliases rest d
      | None => match assoc key d with
                | Some v => lower_aliases rest (set_key (lower key) v d)
                | None => Err KeyError
                end
      end
  end.
Definition MakeLowerAliases (e : enumeration) : result enumeration :=
  d <- lower_aliases (map fst (decode e)) (decode e) ;;
  Ok (mkEnum d (encode e) (DEFAULT e)).

(** White space of [str.strip] and [str.split] *)
Definition is_ws (c : Z) : bool := ((c >=? 9) && (c <=? 13)) || (c =? 32).
Fixpoint lstrip (s : str) : str :=
  match s with [] => [] | c :: s' => if is_ws c then lstrip s' else s end.
Definition strip (s : str) : str := rev (lstrip (rev (lstrip s))).
(** [str.split()]: the maximal runs of characters that are not white space *)
Fixpoint split_ws (s : str) : list str :=
  match s with
  | [] => []
  | c :: s' =>
      if is_ws c then split_ws s'
      else match s' with
           | d :: _ => if is_ws d then [c] :: split_ws s'
                       else match split_ws s' with w :: ws => (c :: w) :: ws | [] => [[c]] end
           | [] => [[c]]
           end
  end.

Definition decode_key (e : enumeration) (s : str) : result Z :=
  match assoc s (decode e) with Some v => Ok v | None => Err ValueError end.
(** 461-470 DecodeValue, 472-482 DecodeLowerValue, 484-494 DecodeUpperValue, 496-507
    DecodeTitleValue *)
Definition DecodeValue (e : enumeration) (src : str) : result Z := decode_key e (strip src).
Definition DecodeLowerValue (e : enumeration) (src : str) : result Z := decode_key e (lower (strip src)).
Definition DecodeUpperValue (e : enumeration) (src : str) : result Z := decode_key e (upper (strip src)).
Definition DecodeTitleValue (e : enumeration) (src : str) : result Z :=
  match strip src with
  | [] => Err IndexError
  | c :: s => decode_key e (upper [c] ++ lower s)
  end.
(** 509-518 DecodeValueList *)
Fixpoint map_result {A B} (f : A -> result B) (l : list A) : result (list B) :=
  match l with
  | [] => Ok []
  | x :: l' => y <- f x ;; ys <- map_result f l' ;; Ok (y :: ys)
  end.
Definition DecodeValueList (decoder : str -> result Z) (src : str) : result (list Z) :=
  map_result decoder (split_ws src).
(** 521-538 DecodeValueDict: the test is outside the loop, after which [sv] is the last value
    and [s] the last word; without words [sv] is undefined *)
Definition DecodeValueDict (decoder : str -> result Z) (src : str) : result (list (Z * str)) :=
  svs <- map_result decoder (split_ws src) ;;
  match rev svs, rev (split_ws src) with
  | sv :: _, s :: _ => Ok [(sv, s)]
  | _, _ => Err NameError
  end.
(** 541-546 EncodeValue; None is the result for values outside the enumeration without a
    default *)
Definition EncodeValue (e : enumeration) (value : Z) : option str :=
  match zassoc value (encode e) with
  | Some s => Some s
  | None => match DEFAULT e with Some d => zassoc d (encode e) | None => None end
  end.

(** 624-632 WhiteSpaceReplace *)
Definition WhiteSpaceReplace (value : str) : str :=
  map (fun c => if mem c [9; 10; 13] then 32 else c) value.
(** 635-648 WhiteSpaceCollapse *)
Fixpoint collapse_loop (output : str) (gotSpace : bool) (s : str) : str :=
  match s with
  | [] => output
  | c :: s' =>
      if mem c [9; 10; 13; 32] then collapse_loop output true s'
      else match output with
           | [] => collapse_loop [c] gotSpace s'
           | _ => if gotSpace then collapse_loop (output ++ [32; c]) false s'
                  else collapse_loop (output ++ [c]) gotSpace s'
           end
  end.
Definition WhiteSpaceCollapse (value : str) : str := collapse_loop [] false value.
