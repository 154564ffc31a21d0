(** Specification of the texts of $filter and $orderby: what each text of the OData grammar means.
    Operators are given by strength, as in OData: member, unary, mul div mod, add sub, lt gt le ge,
    eq ne, and, or; operators of equal strength associate to the left. *)
From Verif Require Import Py Iso Dec Shapes XmlChars OdExpr.
Open Scope Z_scope.
Open Scope list_scope.

(** White space, and at least one such character *)
Definition spaces (w : str) : Prop := Forall (fun c => c = 32 \/ c = 9) w.
Definition spaces1 (w : str) : Prop := spaces w /\ w <> [].

(** The same word but for the case of its letters *)
Definition same_letter (a b : Z) : Prop := a = b \/ (97 <= a <= 122 /\ b = a - 32).
Definition word (w : string) (s : str) : Prop := Forall2 same_letter (lit w) s.

(** What the character classes must satisfy: the letters start identifiers, what starts an
    identifier continues it, and the marks used in expressions belong to neither class; digits
    start none *)
Record classes (start id : Z -> bool) : Prop := mkClasses {
  cl_letters : forall c, 97 <= c <= 122 \/ 65 <= c <= 90 -> start c = true;
  cl_start : forall c, start c = true -> id c = true;
  cl_marks : forall c, In c [32; 9; 39; 40; 41; 44; 45; 46; 47] -> id c = false;
  cl_digits : forall c, 48 <= c <= 57 -> start c = false }.

(** Identifiers: parts separated by full stops *)
Inductive identifier (start id : Z -> bool) : str -> Prop :=
| Id1 : forall c s, start c = true -> Forall (fun c => id c = true) s -> identifier start id (c :: s)
| IdDot : forall c s t, start c = true -> Forall (fun c => id c = true) s -> identifier start id t ->
    identifier start id (c :: s ++ 46 :: t).
(** The names that cannot be used for a property *)
Definition reserved (n : str) : Prop :=
  Exists (fun w => word w n)
    ["null"; "true"; "false"; "datetimeoffset"; "datetime"; "time"; "binary"; "nand"; "nanf"; "infd"; "inff"; "guid"]%string
  \/ In n [lit "X"; lit "not"; lit "isof"; lit "cast"].

(** ** Literals *)
Definition digits (s : str) : Prop := Forall (fun c => 48 <= c <= 57) s.
(** Decimal numbers with an optional fraction and exponent *)
Inductive decimal_text : numeric -> str -> Prop :=
| Decimal : forall sg l r es ex tr te,
    In sg [[]; [45]] -> digits l ->
    (r = None /\ tr = [] \/ exists d, r = Some d /\ digits d /\ tr = 46 :: d) ->
    (l <> [] \/ exists c d, r = Some (c :: d)) ->
    (ex = None /\ es = [] /\ te = [] \/
     exists d, ex = Some d /\ digits d /\ d <> [] /\ (es = [45] /\ (te = 101 :: 45 :: d \/ te = 69 :: 45 :: d) \/
                                           es = [43] /\ (te = 101 :: d \/ te = 69 :: d))) ->
    decimal_text (mkNum sg l r es ex) (sg ++ l ++ tr ++ te).
Definition integer (n : Z) (max : nat) (s : str) : Prop :=
  exists d, digits d /\ d <> [] /\ (length d <= max)%nat /\ (s = d /\ n = dval d \/ s = 45 :: d /\ n = - dval d).
(** Text in quotation marks: each mark inside is doubled *)
Inductive in_quotes : str -> str -> Prop :=
| Q0 : in_quotes [] []
| Qmark : forall v t, in_quotes v t -> in_quotes (39 :: v) (39 :: 39 :: t)
| Qchar : forall c v t, c <> 39 -> in_quotes v t -> in_quotes (c :: v) (c :: t).
(** Bytes as pairs of hexadecimal digits *)
Definition hex_digit (v c : Z) : Prop :=
  0 <= v <= 9 /\ c = 48 + v \/ 10 <= v <= 15 /\ (c = 55 + v \/ c = 87 + v).
Inductive hex_text : str -> str -> Prop :=
| H0 : hex_text [] []
| H2 : forall a b c d v t, hex_digit a c -> hex_digit b d -> hex_text v t -> hex_text (a * 16 + b :: v) (c :: d :: t).

Section Grammar.
Context {X : Type}.
Variable number : edm_type -> numeric -> result X.
Variable quoted : edm_type -> str -> result (X * str).
Variable start id : Z -> bool.
Notation value := (value X).
Notation expr := (expr X).

Inductive literal : value -> str -> Prop :=
| LNull : forall s, word "null" s -> literal null s
| LTrue : forall s, word "true" s -> literal (mkV (Some TBoolean) (Some (PBool true))) s
| LFalse : forall s, word "false" s -> literal (mkV (Some TBoolean) (Some (PBool false))) s
| LString : forall v t, in_quotes v t -> literal (mkV (Some TString) (Some (PStr v))) (39 :: t ++ [39])
| LBinary : forall k v t, k = lit "X" \/ word "binary" k -> hex_text v t ->
    literal (mkV (Some TBinary) (Some (PBytes v))) (k ++ 39 :: t ++ [39])
| LInt32 : forall n s, integer n 10 s -> -2147483648 <= n <= 2147483647 ->
    literal (mkV (Some TInt32) (Some (PInt n))) s
| LInt64 : forall n s c, integer n 19 s -> -9223372036854775808 <= n <= 9223372036854775807 -> c = 76 \/ c = 108 ->
    literal (mkV (Some TInt64) (Some (PInt n))) (s ++ [c])
| LNumber : forall t n s c x, decimal_text n s ->
    In (t, c) [(TDouble, 68); (TDouble, 100); (TSingle, 70); (TSingle, 102); (TDecimal, 77); (TDecimal, 109)] ->
    number t n = Ok x -> literal (mkV (Some t) (Some (PX x))) (s ++ [c])
| LQuoted : forall t w k s x,
    In (t, w) [(TDateTimeOffset, "datetimeoffset"); (TDateTime, "datetime"); (TTime, "time"); (TGuid, "guid")]%string ->
    word w k -> (forall rest, quoted t (s ++ 39 :: rest) = Ok (x, 39 :: rest)) ->
    literal (mkV (Some t) (Some (PX x))) (k ++ 39 :: s ++ [39]).

(** ** Expressions *)
(** A minus sign before such a text would be the sign of a number *)
Definition number_like (s : str) : Prop :=
  match s with c :: _ => 48 <= c <= 57 \/ c = 46 | [] => False end
  \/ exists a b, s = a ++ b /\ (word "inf" a \/ word "nan" a).
(** The named operators, by strength *)
Definition named : list (operator * Z * str) :=
  [(OMul, 7, lit "mul"); (ODiv, 7, lit "div"); (OMod, 7, lit "mod"); (OAdd, 6, lit "add"); (OSub, 6, lit "sub");
   (OLt, 5, lit "lt"); (OGt, 5, lit "gt"); (OLe, 5, lit "le"); (OGe, 5, lit "ge");
   (OEq, 4, lit "eq"); (ONe, 4, lit "ne"); (OAnd, 3, lit "and"); (OOr, 2, lit "or")].

(** [means n e s]: the text [s], made of operators of strength [n] or more, means [e].
    10: operands; 9: members; 8: unary operators. *)
Inductive means : Z -> expr -> str -> Prop :=
| MLit : forall v s, literal v s -> means 10 (ELit v) s
| MProp : forall n, identifier start id n -> ~ reserved n -> means 10 (EProp n) n
| MCall : forall m l w t, In m methods -> spaces w -> arguments l t -> means 10 (ECall m l) (m ++ w ++ 40 :: t ++ [41])
| MCast : forall o k w1 w2 w3 w4 w5 e s v t, In (o, k) [(OCast, lit "cast"); (OIsof, lit "isof")] ->
    spaces w1 -> spaces w2 -> spaces w3 -> spaces w4 -> spaces w5 -> means 2 e s -> in_quotes v t ->
    means 10 (EOp false o [Some e; Some (ELit (mkV (Some TString) (Some (PStr v))))])
      (k ++ w1 ++ 40 :: w2 ++ s ++ w3 ++ 44 :: w4 ++ 39 :: t ++ 39 :: w5 ++ [41])
| MCast1 : forall o k w1 w2 w3 v t, In (o, k) [(OCast, lit "cast"); (OIsof, lit "isof")] ->
    spaces w1 -> spaces w2 -> spaces w3 -> in_quotes v t ->
    means 10 (EOp false o [Some (ELit (mkV (Some TString) (Some (PStr v))))])
      (k ++ w1 ++ 40 :: w2 ++ 39 :: t ++ 39 :: w3 ++ [41])
| MParen : forall e s w1 w2, means 2 e s -> is_unary e = false -> spaces w1 -> spaces w2 ->
    means 10 e (40 :: w1 ++ s ++ w2 ++ [41])
| MMember : forall a b s t w1 w2, means 9 a s -> means 10 b t -> spaces w1 -> spaces w2 ->
    means 9 (EOp false OMember [Some a; Some b]) (s ++ w1 ++ 47 :: w2 ++ t)
| MNot : forall e s w, means 9 e s -> spaces1 w -> means 8 (EOp true ONot [Some e]) (lit "not" ++ w ++ s)
| MNegate : forall e s w, means 9 e s -> spaces w -> ~ number_like (w ++ s) ->
    means 8 (EOp true ONegate [Some e]) (45 :: w ++ s)
| MBinary : forall o n k a b s t w1 w2, In (o, n, k) named -> means n a s -> means (n + 1) b t -> spaces1 w1 -> spaces1 w2 ->
    means n (EOp false o [Some a; Some b]) (s ++ w1 ++ k ++ w2 ++ t)
| MWeaken : forall n e s, 2 <= n -> means (n + 1) e s -> means n e s
with arguments : list expr -> str -> Prop :=
| A1 : forall e s w1 w2, means 2 e s -> spaces w1 -> spaces w2 -> arguments [e] (w1 ++ s ++ w2)
| ACons : forall e s w1 w2 l t, means 2 e s -> spaces w1 -> spaces w2 -> arguments l t ->
    arguments (e :: l) (w1 ++ s ++ w2 ++ 44 :: t).

(** A $filter *)
Definition filter_means (e : expr) (s : str) : Prop :=
  exists w1 w2 t, spaces w1 /\ spaces w2 /\ means 2 e t /\ s = w1 ++ t ++ w2.
(** A $orderby: expressions, each with an optional direction; true is descending *)
Definition direction (d : bool) (s : str) : Prop :=
  s = [] /\ d = false \/ exists w k, s = w ++ k /\ spaces1 w /\ word (if d then "desc" else "asc") k.
Inductive orderby_means : list (expr * bool) -> str -> Prop :=
| O1 : forall e s d t w1 w2, means 2 e s -> direction d t -> spaces w1 -> spaces w2 ->
    orderby_means [(e, d)] (w1 ++ s ++ t ++ w2)
| OCons : forall e s d t w1 w2 l r, means 2 e s -> direction d t -> spaces w1 -> spaces w2 -> orderby_means l r ->
    orderby_means ((e, d) :: l) (w1 ++ s ++ t ++ w2 ++ 44 :: r).
End Grammar.
Scheme means_ind2 := Induction for means Sort Prop
  with arguments_ind2 := Induction for arguments Sort Prop.
Combined Scheme means_arguments_ind from means_ind2, arguments_ind2.

(** What is required of the readers of the other literals: they raise ValueError only, and leave a
    rest that is no longer than the text *)
Record readers {X} (number : edm_type -> numeric -> result X) (quoted : edm_type -> str -> result (X * str)) : Prop := mkReaders {
  rd_number : forall t n e, number t n = Err e -> e = ValueError;
  rd_quoted : forall t s e, quoted t s = Err e -> e = ValueError;
  rd_rest : forall t s x r, quoted t s = Ok (x, r) -> (length r <= length s)%nat }.

(** ** What can be written and read back *)
Section Printable.
Context {X : Type}.
Variable number : edm_type -> numeric -> result X.
Variable quoted : edm_type -> str -> result (X * str).
Variable show : edm_type -> X -> str.
Variable start id : Z -> bool.
(** A value whose text is a literal for it *)
Definition literal_ok (v : value X) : Prop := literal number quoted v (literal_text X show v).
(** Values of the types whose literals are modelled *)
Definition plain (v : value X) : Prop :=
  match v with
  | mkV None None => True
  | mkV (Some TBoolean) (Some (PBool _)) => True
  | mkV (Some TString) (Some (PStr _)) => True
  | mkV (Some TBinary) (Some (PBytes s)) => Forall (fun b => 0 <= b <= 255) s
  | mkV (Some TInt32) (Some (PInt n)) => -2147483648 <= n <= 2147483647
  | mkV (Some TInt64) (Some (PInt n)) => -9223372036854775808 <= n <= 9223372036854775807
  | _ => False
  end.
(** The strength with which the text of an expression holds together *)
Definition strength (e : expr X) : Z :=
  match e with
  | EOp false OCast _ | EOp false OIsof _ | ELit _ | EProp _ | ECall _ _ => 10
  | EOp _ o _ => category o
  end.
(** The strength that the brackets are chosen by *)
Definition bracketed (outer : operator) (e : expr X) : bool :=
  match e with
  | ELit _ | EProp _ => false
  | ECall _ _ => 9 <? category outer
  | EOp _ o _ => category o <? category outer
  end.
(** An operand is kept together if it is bracketed (unary expressions cannot be) or holds together
    with strength [n] *)
Definition kept (outer : operator) (n : Z) (e : expr X) : Prop :=
  if bracketed outer e then is_unary e = false else n <= strength e.
Inductive printable : expr X -> Prop :=
| PLit : forall v, literal_ok v -> printable (ELit v)
| PProp : forall n, identifier start id n -> ~ reserved n -> printable (EProp n)
| PCall : forall m l, In m methods -> l <> [] -> Forall printable l -> printable (ECall m l)
| PCast : forall o e v, o = OCast \/ o = OIsof -> printable e -> 
    printable (EOp false o [Some e; Some (ELit (mkV (Some TString) (Some (PStr v))))])
| PNot : forall e, printable e -> kept ONot 9 e -> printable (EOp true ONot [Some e])
| PNegate : forall e t, printable e -> kept ONegate 9 e -> text X show e = Ok t ->
    (bracketed ONegate e = false -> ~ number_like t) -> printable (EOp true ONegate [Some e])
| PMember : forall a b, printable a -> printable b -> kept OMember 9 a -> kept OMember 10 b ->
    printable (EOp false OMember [Some a; Some b])
| PBinary : forall o n k a b, In (o, n, k) named -> printable a -> printable b -> kept o n a -> kept o (n + 1) b ->
    printable (EOp false o [Some a; Some b]).
End Printable.
