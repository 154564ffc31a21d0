(** Model of the expressions of $filter and $orderby: pyslet/pyslet/odata2/core.py 121-320
    (operators, CommonExpression), 300-420 (formatting), 708-745 (literals), 1092-1540 (Parser),
    odata2/csdl.py 545-700 (numbers and binary data), 1396-1530 (Int32, Int64), unicode5.py
    587-800 (BasicParser).

    Simplifications.
    - A parser is the text that remains: [self.pos] moves forward only, and is reset only to
      where it was when a production began.
    - The source is a unicode string.  The character classes of identifiers are parameters.
    - lower() changes ASCII letters only.
    - The literals of Double, Single, Decimal, DateTime, DateTimeOffset, Time and Guid are read
      and written by parameters.
    - RequireProduction raises ValueError; its messages are left out. *)
From Verif Require Import Py Iso Dec Shapes XmlChars.
Open Scope Z_scope.
Open Scope list_scope.

(** ** Types and operators *)
(** csdl.py SimpleType *)
Inductive edm_type : Set :=
| TBinary | TBoolean | TByte | TDateTime | TDecimal | TDouble | TSingle | TGuid | TInt16 | TInt32
| TInt64 | TSByte | TString | TTime | TDateTimeOffset.
(** core.py 157-195: the names; the aliases can be decoded as well
    (xsdatatypes20041028.py 599-608) *)
Inductive operator : Set :=
| OParen | OMember | OCall | ONegate | ONot | OCast | OMul | ODiv | OMod | OAdd | OSub | OLt | OGt | OLe | OGe
| OIsof | OEq | ONe | OAnd | OOr.
Definition operators : list (operator * str) :=
  [(OParen, lit "paren"); (OMember, lit "member"); (OCall, lit "methodCall"); (ONegate, lit "negate");
   (ONot, lit "not"); (OCast, lit "cast"); (OMul, lit "mul"); (ODiv, lit "div"); (OMod, lit "mod");
   (OAdd, lit "add"); (OSub, lit "sub"); (OLt, lit "lt"); (OGt, lit "gt"); (OLe, lit "le"); (OGe, lit "ge");
   (OIsof, lit "isof"); (OEq, lit "eq"); (ONe, lit "ne"); (OAnd, lit "and"); (OOr, lit "or");
   (OParen, lit "boolParen"); (OCall, lit "boolMethodCall"); (ONot, lit "boolNot"); (OAnd, lit "boolAnd");
   (OOr, lit "boolOr")].
(** Operator.EncodeValue *)
Definition op_name (o : operator) : str :=
  match o with
  | OParen => lit "paren" | OMember => lit "member" | OCall => lit "methodCall" | ONegate => lit "negate"
  | ONot => lit "not" | OCast => lit "cast" | OMul => lit "mul" | ODiv => lit "div" | OMod => lit "mod"
  | OAdd => lit "add" | OSub => lit "sub" | OLt => lit "lt" | OGt => lit "gt" | OLe => lit "le" | OGe => lit "ge"
  | OIsof => lit "isof" | OEq => lit "eq" | ONe => lit "ne" | OAnd => lit "and" | OOr => lit "or"
  end.
(** Operator.DecodeValue *)
Definition op_of_name (s : str) : option operator :=
  match find (fun p => str_eqb (snd p) s) operators with Some p => Some (fst p) | None => None end.
(** 127-141, 197-217 *)
Definition category (o : operator) : Z :=
  match o with
  | OParen => 10
  | OMember | OCall => 9
  | ONegate | ONot | OCast => 8
  | OMul | ODiv | OMod => 7
  | OAdd | OSub => 6
  | OLt | OGt | OLe | OGe | OIsof => 5
  | OEq | ONe => 4
  | OAnd => 3
  | OOr => 2
  end.
(** 219-220 *)
Definition special (o : operator) : bool :=
  match o with OParen | OMember | OCall | ONegate | OCast | OIsof => true | _ => false end.
(** 231-252 Method *)
Definition methods : list str :=
  map lit ["endswith"; "indexof"; "replace"; "startswith"; "tolower"; "toupper"; "trim"; "substring"; "substringof";
           "concat"; "length"; "year"; "month"; "day"; "hour"; "minute"; "second"; "round"; "floor"; "ceiling"]%string.

(** ** BasicParser *)
(** Parse *)
Fixpoint skip_prefix (p s : str) : option str :=
  match p, s with
  | [], _ => Some s
  | a :: p', b :: s' => if a =? b then skip_prefix p' s' else None
  | _, [] => None
  end.
Definition lower (s : str) : str := map lower1 s.
(** ParseInsensitive *)
Definition skip_insensitive (p s : str) : option str :=
  if str_eqb (lower (firstn (length p) s)) p then Some (skipn (length p) s) else None.
(** core.py 1228-1241 ParseWSP: true if there was any *)
Definition is_wsp (c : Z) : bool := (c =? 32) || (c =? 9).
Fixpoint wsp (s : str) : str :=
  match s with c :: s' => if is_wsp c then wsp s' else s | [] => [] end.
Definition has_wsp (s : str) : bool := match s with c :: _ => is_wsp c | [] => false end.
(** ParseDigits(0) and ParseHexDigits(0) *)
Definition is_digit (c : Z) : bool := (48 <=? c) && (c <=? 57).
Definition is_hex (c : Z) : bool := is_digit c || ((65 <=? c) && (c <=? 70)) || ((97 <=? c) && (c <=? 102)).
Fixpoint run (p : Z -> bool) (s : str) : str * str :=
  match s with
  | c :: s' => if p c then let '(r, t) := run p s' in (c :: r, t) else ([], s)
  | [] => ([], [])
  end.

(** ** Literals *)
(** csdl.py 645-688 ParseNumericLiteral *)
Record numeric := mkNum { n_sign : str; n_left : str; n_right : option str; n_esign : str; n_exp : option str }.
Definition ParseNumericLiteral (s : str) : option (numeric * str) :=
  let '(sign, s1) := match s with 45 :: s1 => ([45], s1) | _ => ([], s) end in
  match skip_insensitive (lit "inf") s1 with
  | Some s2 => Some (mkNum sign (lit "inf") None [] None, s2)
  | None =>
      match skip_insensitive (lit "nan") s1 with
      | Some s2 => Some (mkNum sign (lit "nan") None [] None, s2)
      | None =>
          let '(l, s2) := run is_digit s1 in
          let '(r, s3) := match s2 with 46 :: s3 => let '(r, s4) := run is_digit s3 in (Some r, s4) | _ => (None, s2) end in
          match l, r with
          | [], None | [], Some [] => None
          | _, _ =>
              match s3 with
              | e :: s4 =>
                  if (e =? 101) || (e =? 69) then
                    let '(es, s5) := match s4 with 45 :: s5 => ([45], s5) | _ => ([43], s4) end in
                    let '(d, s6) := run is_digit s5 in
                    Some (mkNum sign l r es (Some d), s6)
                  else Some (mkNum sign l r [] None, s3)
              | [] => Some (mkNum sign l r [] None, s3)
              end
          end
      end
  end.
(** Int32Value, Int64Value SetFromNumericLiteral and SetFromValue: csdl.py 1470-1520 *)
Definition int_literal (digits : nat) (lo hi : Z) (n : numeric) : result Z :=
  match n_left n with
  | [] => Err ValueError
  | l =>
      if (digits <? length l)%nat then Err ValueError
      else if negb (forallb is_digit l) then Err ValueError
      else match n_right n, n_exp n with
           | None, None =>
               let v := dval l in
               let v := match n_sign n with [] => v | _ => - v end in
               if (v <? lo) || (v >? hi) then Err ValueError else Ok v
           | _, _ => Err ValueError
           end
  end.
Definition int32_literal := int_literal 10 (-2147483648) 2147483647.
Definition int64_literal := int_literal 19 (-9223372036854775808) 9223372036854775807.
(** csdl.py 553-567 ParseBinaryLiteral *)
Definition hex_val (c : Z) : Z := if c <=? 57 then c - 48 else if c <=? 70 then c - 55 else c - 87.
Fixpoint bytes_of_hex (s : str) : result str :=
  match s with
  | [] => Ok []
  | [_] => Err ValueError
  | a :: b :: s' => r <- bytes_of_hex s' ;; Ok (hex_val a * 16 + hex_val b :: r)
  end.

Section Expr.
(** The values of the other types *)
Variable X : Type.
Inductive pv := PBool (b : bool) | PInt (n : Z) | PStr (s : str) | PBytes (s : str) | PX (x : X).
(** A SimpleValue: its type code and its value, None if NULL *)
Record value := mkV { v_type : option edm_type; v_val : option pv }.
Definition null : value := mkV None None.

(** Double, Single and Decimal SetFromNumericLiteral *)
Variable number : edm_type -> numeric -> result X.
(** The text after the first quotation mark of datetimeoffset, datetime, time and guid: the value
    and the text from the second quotation mark *)
Variable quoted : edm_type -> str -> result (X * str).
(** unicode(value) *)
Variable show : edm_type -> X -> str.
(** core.py 1352-1359: \p{L}, \p{Nl} and these with \p{Nd}, \p{Mn}, \p{Mc}, \p{Pc}, \p{Cf} *)
Variable start_class id_class : Z -> bool.

(** core.py 1328-1376 ParseSimpleIdentifier *)
Fixpoint ident_loop (fuel : nat) (s : str) : option (str * str) :=
  match fuel with
  | O => None
  | S f =>
      match s with
      | c :: s1 =>
          if start_class c then
            let '(r, s2) := run id_class s1 in
            match s2 with
            | 46 :: s3 => match ident_loop f s3 with Some (n, s4) => Some (c :: r ++ 46 :: n, s4) | None => None end
            | _ => Some (c :: r, s2)
            end
          else None
      | [] => None
      end
  end.
Definition ParseSimpleIdentifier (s : str) : option (str * str) := ident_loop (S (length s)) s.

(** core.py 1378-1401 ParseStringURILiteral, after the first quotation mark *)
Fixpoint string_literal (s : str) : result (str * str) :=
  match s with
  | [] => Err ValueError
  | 39 :: s1 =>
      match s1 with
      | 39 :: s2 => '(v, r) <- string_literal s2 ;; Ok (39 :: v, r)
      | _ => Ok ([], s1)
      end
  | c :: s1 => '(v, r) <- string_literal s1 ;; Ok (c :: v, r)
  end.

Definition require_quote (s : str) : result str := match s with 39 :: s' => Ok s' | _ => Err ValueError end.
(** core.py 1403-1540 ParseURILiteral: None if there is no literal *)
Definition ParseURILiteral (s : str) : result (option (value * str)) :=
  let ext t s1 := s2 <- require_quote s1 ;; '(x, s3) <- quoted t s2 ;; s4 <- require_quote s3 ;;
                  Ok (Some (mkV (Some t) (Some (PX x)), s4)) in
  match ParseSimpleIdentifier s with
  | Some (nameCase, s1) =>
      let name := lower nameCase in
      if str_eqb name (lit "null") then Ok (Some (null, s1))
      else if str_eqb name (lit "true") then Ok (Some (mkV (Some TBoolean) (Some (PBool true)), s1))
      else if str_eqb name (lit "false") then Ok (Some (mkV (Some TBoolean) (Some (PBool false)), s1))
      else if str_eqb name (lit "datetimeoffset") then ext TDateTimeOffset s1
      else if str_eqb name (lit "datetime") then ext TDateTime s1
      else if str_eqb name (lit "time") then ext TTime s1
      else if str_eqb nameCase (lit "X") || str_eqb name (lit "binary") then
        s2 <- require_quote s1 ;;
        let '(h, s3) := run is_hex s2 in
        b <- bytes_of_hex h ;; s4 <- require_quote s3 ;;
        Ok (Some (mkV (Some TBinary) (Some (PBytes b)), s4))
      else if str_eqb name (lit "nand") then x <- number TDouble (mkNum [] (lit "nan") None [] None) ;; Ok (Some (mkV (Some TDouble) (Some (PX x)), s1))
      else if str_eqb name (lit "nanf") then x <- number TSingle (mkNum [] (lit "nan") None [] None) ;; Ok (Some (mkV (Some TSingle) (Some (PX x)), s1))
      else if str_eqb name (lit "infd") then x <- number TDouble (mkNum [] (lit "inf") None [] None) ;; Ok (Some (mkV (Some TDouble) (Some (PX x)), s1))
      else if str_eqb name (lit "inff") then x <- number TSingle (mkNum [] (lit "inf") None [] None) ;; Ok (Some (mkV (Some TSingle) (Some (PX x)), s1))
      else if str_eqb name (lit "guid") then ext TGuid s1
      else Ok None
  | None =>
      match s with
      | 39 :: s1 => '(v, r) <- string_literal s1 ;; Ok (Some (mkV (Some TString) (Some (PStr v)), r))
      | c :: _ =>
          if (c =? 45) || (c =? 46) || is_digit c then
            match ParseNumericLiteral s with
            | None => Ok None
            | Some (n, s1) =>
                let ext t s2 := x <- number t n ;; Ok (Some (mkV (Some t) (Some (PX x)), s2)) in
                let plain := z <- int32_literal n ;; Ok (Some (mkV (Some TInt32) (Some (PInt z)), s1)) in
                match s1 with
                | d :: s2 =>
                    if (d =? 68) || (d =? 100) then ext TDouble s2
                    else if (d =? 70) || (d =? 102) then ext TSingle s2
                    else if (d =? 77) || (d =? 109) then ext TDecimal s2
                    else if (d =? 76) || (d =? 108) then z <- int64_literal n ;; Ok (Some (mkV (Some TInt64) (Some (PInt z)), s2))
                    else plain
                | [] => plain
                end
            end
          else Ok None
      | [] => Ok None
      end
  end.

(** ** Expressions *)
(** LiteralExpression, PropertyExpression, CallExpression, and UnaryExpression ([true]) or
    BinaryExpression with their operands; an operand may be Python's None *)
Inductive expr :=
| ELit (v : value)
| EProp (name : str)
| ECall (m : str) (args : list expr)
| EOp (unary : bool) (o : operator) (operands : list (option expr)).
Definition operator_of (e : expr) : option operator :=
  match e with ELit _ | EProp _ => None | ECall _ _ => Some OCall | EOp _ o _ => Some o end.
(** AddOperand *)
Definition AddOperand (e : expr) (x : option expr) : expr :=
  match e with EOp u o l => EOp u o (l ++ [x]) | e => e end.
(** [a<b], 285-289 *)
Definition cat (e : expr) : Z := match operator_of e with Some o => category o | None => 0 end.
Definition is_unary (e : expr) : bool := match e with EOp true _ _ => true | _ => false end.

(** ** The parser *)
(** 1162-1181: who binds more tightly?  The new leftOp and opStack *)
Fixpoint bind_operand (stack : list expr) (left : option expr) (operand : option expr) (right : expr) : expr * list expr :=
  let to_right := match operand with Some x => AddOperand right (Some x) | None => right end in
  match left with
  | None => (to_right, stack)
  | Some l =>
      if cat l <? cat right then (to_right, l :: stack)
      else
        let operand' := AddOperand l operand in
        match stack with
        | [] => (AddOperand right (Some operand'), [])
        | l' :: stack' => bind_operand stack' (Some l') (Some operand') right
        end
  end.
(** 1148-1155: the end of the expression *)
Definition finish (left : option expr) (stack : list expr) (operand : expr) : expr :=
  match left with
  | None => operand
  | Some l => fold_left (fun x l => AddOperand l (Some x)) (l :: stack) operand
  end.
Definition next_op (s : str) : option (operator * str) :=
  match s with
  | 47 :: s' => Some (OMember, s')
  | _ =>
      match ParseSimpleIdentifier s with
      | Some (name, s') => match op_of_name name with Some o => if special o then None else Some (o, s') | None => None end
      | None => None
      end
  end.
(** 1126-1147: after an operand; [loop] is the rest of the loop *)
Definition after (loop : option expr -> list expr -> str -> result (option expr * str))
    (left : option expr) (stack : list expr) (operand : expr) (s : str) : result (option expr * str) :=
  let s := wsp s in
  match next_op s with
  | Some (o, s') => let '(l, st) := bind_operand stack left (Some operand) (EOp false o []) in loop (Some l) st s'
  | None => Ok (Some (finish left stack operand), s)
  end.
(** A UnaryExpression, whether or not it has operands *)
Definition push (loop : option expr -> list expr -> str -> result (option expr * str))
    (left : option expr) (stack : list expr) (u : expr) (s : str) : result (option expr * str) :=
  let '(l, st) := bind_operand stack left None u in loop (Some l) st s.
(** 1183-1198 ParseMethodCallExpression, after the bracket; [parse] is ParseCommonExpression *)
Fixpoint args_loop (fuel : nat) (parse : str -> result (option expr * str)) (s : str) : result (list expr * str) :=
  match fuel with
  | O => Err OutOfFuel
  | S f =>
      '(p, s1) <- parse (wsp s) ;;
      match p with
      | None => Err ValueError
      | Some p =>
          match wsp s1 with
          | 44 :: s2 => '(l, s3) <- args_loop f parse s2 ;; Ok (p :: l, s3)
          | 41 :: s2 => Ok ([p], s2)
          | _ => Err ValueError
          end
      end
  end.
(** 1200-1226 ParseCastLike; a missing comma or bracket is not noticed: Parse returns '' and not
    None *)
Definition is_string_literal (e : expr) : bool :=
  match e with ELit v => match v_type v with Some TString => true | _ => false end | _ => false end.
Definition cast_like (parse : str -> result (option expr * str)) (o : operator) (s : str) : result (option (expr * str)) :=
  match wsp s with
  | 40 :: s1 =>
      '(p, s2) <- parse s1 ;;
      match p with
      | None => Err ValueError
      | Some p =>
          match wsp s2 with
          | 41 :: s3 => if is_string_literal p then Ok (Some (EOp false o [Some p], s3)) else Err ValueError
          | s3 =>
              let s4 := match s3 with 44 :: s4 => s4 | _ => s3 end in
              '(q, s5) <- parse (wsp s4) ;;
              match q with
              | None => Err ValueError
              | Some q =>
                  let s6 := wsp s5 in
                  let s7 := match s6 with 41 :: s7 => s7 | _ => s6 end in
                  if is_string_literal q then Ok (Some (EOp false o [Some p; Some q], s7)) else Err ValueError
              end
          end
      end
  | _ => Ok None
  end.
(** 1094-1181 ParseCommonExpression; None if there is no expression.  A missing closing bracket is
    not noticed. *)
Fixpoint expr_loop (fuel : nat) (left : option expr) (stack : list expr) (s : str) : result (option expr * str) :=
  match fuel with
  | O => Err OutOfFuel
  | S f =>
      let parse := expr_loop f None [] in
      let s := wsp s in
      lv <- ParseURILiteral s ;;
      match lv with
      | Some (v, s1) => after (expr_loop f) left stack (ELit v) s1
      | None =>
          match ParseSimpleIdentifier s with
          | Some (name, s1) =>
              if str_eqb name (lit "not") then
                if has_wsp s1 then push (expr_loop f) left stack (EOp true ONot []) (wsp s1) else Err ValueError
              else if str_eqb name (lit "isof") || str_eqb name (lit "cast") then
                c <- cast_like parse (if str_eqb name (lit "isof") then OIsof else OCast) (wsp s1) ;;
                match c with
                | Some (e, s2) => after (expr_loop f) left stack e s2
                | None => Err ValueError
                end
              else
                match wsp s1 with
                | 40 :: s2 =>
                    if existsb (str_eqb name) methods then
                      '(args, s3) <- args_loop f parse s2 ;; after (expr_loop f) left stack (ECall name args) s3
                    else Err ValueError
                | s2 => after (expr_loop f) left stack (EProp name) s2
                end
          | None =>
              match s with
              | 40 :: s1 =>
                  '(p, s2) <- parse s1 ;;
                  match p with
                  | None => Err ValueError
                  | Some e =>
                      let s3 := match s2 with 41 :: s3 => s3 | _ => s2 end in
                      if is_unary e then push (expr_loop f) left stack e s3 else after (expr_loop f) left stack e s3
                  end
              | 45 :: s1 => push (expr_loop f) left stack (EOp true ONegate []) s1
              | _ => match left with Some _ => Err ValueError | None => Ok (None, s) end
              end
          end
      end
  end.
Definition ParseCommonExpression (s : str) : result (option expr * str) := expr_loop (S (length s)) None [] s.
(** 291-294 CommonExpression.FromString *)
Definition FromString (s : str) : result expr :=
  '(e, r) <- ParseCommonExpression s ;;
  match e, r with Some e, [] => Ok e | _, _ => Err ValueError end.

(** 1266-1289 ParseOrderbyOption, 296-299 OrderByFromString: [true] is descending *)
Fixpoint orderby_loop (fuel : nat) (s : str) : result (list (expr * bool) * str) :=
  match fuel with
  | O => Err OutOfFuel
  | S f =>
      '(e, s1) <- ParseCommonExpression (wsp s) ;;
      match e with
      | None => Err ValueError
      | Some e =>
          let s2 := wsp s1 in
          let '(d, s3) := match skip_insensitive (lit "asc") s2 with
                          | Some s3 => (false, s3)
                          | None => match skip_insensitive (lit "desc") s2 with Some s3 => (true, s3) | None => (false, s2) end
                          end in
          match wsp s3 with
          | 44 :: s4 => '(l, s5) <- orderby_loop f s4 ;; Ok ((e, d) :: l, s5)
          | s4 => Ok ([(e, d)], s4)
          end
      end
  end.
Definition OrderByFromString (s : str) : result (list (expr * bool)) :=
  '(l, r) <- orderby_loop (S (length s)) s ;;
  match r with [] => Ok l | _ => Err ValueError end.

(** ** Formatting *)
(** string.join(s.split("'"),"''") *)
Fixpoint double_quotes (s : str) : str :=
  match s with 39 :: s' => 39 :: 39 :: double_quotes s' | c :: s' => c :: double_quotes s' | [] => [] end.
Definition hex2 (b : Z) : str := fmt_X 2 b.
(** 716-745 LiteralExpression.__unicode__ *)
Definition literal_text (v : value) : str :=
  match v_val v with
  | None => lit "null"
  | Some p =>
      let text := match p, v_type v with
                  | PBool b, _ => if b then lit "true" else lit "false"
                  | PInt n, _ => pystr n
                  | PStr s, _ => s
                  | PBytes s, _ => concat (map hex2 s)
                  | PX x, Some t => show t x
                  | PX x, None => []
                  end in
      match v_type v with
      | Some TBinary => lit "X'" ++ text ++ lit "'"
      | Some TDateTime => lit "datetime'" ++ text ++ lit "'"
      | Some TDecimal => text ++ lit "M"
      | Some TDouble => text ++ lit "D"
      | Some TSingle => text ++ lit "F"
      | Some TGuid => lit "guid'" ++ text ++ lit "'"
      | Some TInt64 => text ++ lit "L"
      | Some TTime => lit "time'" ++ text ++ lit "'"
      | Some TDateTimeOffset => lit "datetimeoffset'" ++ text ++ lit "'"
      | Some TString => lit "'" ++ double_quotes text ++ lit "'"
      | _ => text
      end
  end.
Fixpoint join (sep : str) (l : list str) : str :=
  match l with [] => [] | [x] => x | x :: l' => x ++ sep ++ join sep l' end.
(** 305-325, 383-413, 773-774 __unicode__ *)
Definition brackets (weaker : bool) (s : str) : str := if weaker then 40 :: s ++ [41] else s.
Definition weaker (a b : expr) : bool := match operator_of a with Some _ => cat a <? cat b | None => false end.
Fixpoint text (e : expr) : result str :=
  match e with
  | ELit v => Ok (literal_text v)
  | EProp n => Ok n
  | ECall m args =>
      l <- (fix texts (l : list expr) : result (list str) :=
              match l with [] => Ok [] | x :: l' => t <- text x ;; r <- texts l' ;; Ok (t :: r) end) args ;;
      Ok (m ++ 40 :: join [44] l ++ [41])
  | EOp true o l =>
      match l with
      | [] => Err IndexError
      | None :: _ => Err AttributeError
      | Some r :: _ =>
          t <- text r ;;
          Ok (match o with ONegate => [45] | _ => op_name o ++ [32] end ++ brackets (weaker r e) t)
      end
  | EOp false o l =>
      match l with
      | [] | [_] => Err IndexError
      | None :: _ => Err AttributeError
      | Some a :: None :: _ => Err AttributeError
      | Some a :: Some b :: _ =>
          ta <- text a ;; tb <- text b ;;
          let ta := brackets (weaker a e) ta in
          let tb := brackets (weaker b e) tb in
          match o with
          | OMember => Ok (ta ++ 47 :: tb)
          | OCast | OIsof => Ok (op_name o ++ 40 :: ta ++ 44 :: tb ++ [41])
          | OParen | OCall | ONegate => Err TypeError             (* str & str *)
          | _ => Ok (ta ++ 32 :: op_name o ++ 32 :: tb)
          end
      end
  end.
(** 301-303 OrderByToString *)
Fixpoint OrderByToString (l : list (expr * bool)) : result str :=
  match l with
  | [] => Ok []
  | [(e, d)] => t <- text e ;; Ok (t ++ 32 :: if d then lit "desc" else lit "asc")
  | (e, d) :: l' => t <- text e ;; r <- OrderByToString l' ;; Ok (t ++ 32 :: (if d then lit "desc" else lit "asc") ++ lit ", " ++ r)
  end.
End Expr.
Arguments PBool {X}. Arguments PInt {X}. Arguments PStr {X}. Arguments PBytes {X}. Arguments PX {X}.
Arguments mkV {X}. Arguments v_type {X}. Arguments v_val {X}. Arguments null {X}.
Arguments ELit {X}. Arguments EProp {X}. Arguments ECall {X}. Arguments EOp {X}.
Arguments operator_of {X}. Arguments AddOperand {X}. Arguments cat {X}. Arguments is_unary {X}.
Arguments bind_operand {X}. Arguments finish {X}. Arguments after {X}. Arguments push {X}.
Arguments args_loop {X}. Arguments cast_like {X}. Arguments is_string_literal {X}. Arguments weaker {X}.
