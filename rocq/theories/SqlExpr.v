(** Model of the translation of $filter and $orderby into SQL: pyslet/pyslet/odata2/sqlds.py 24-117
    (strength of operators, parameters), 409-428 (the query of a page), 545-700 (WHERE, ORDER BY),
    743-1128 (SQLExpression and its methods), 2678-2728 (MangleName), 3092-3098 (QuoteIdentifier),
    3223-3289 and 3419-3451 (PrepareSQLValue), 3481-3549 (SQLite).

    Simplifications.
    - A query is its text and the list [params.params]; the parameters are those of QMarkParams.
    - A value of a type other than Boolean, the integers and String is prepared by a parameter.
      A bool is bound as 0 or 1, as sqlite3 does.
    - [mangledNames] is a function of the path without the name of the entity set.
    - nullCols (used by updates only) and JoinClause are left out; a key dictionary is a list.
    - Messages of exceptions are left out. *)
From Verif Require Import Py Iso Dec OdExpr OdEval.
Open Scope Z_scope.
Open Scope list_scope.

(** ** Operators: 24-40 *)
Inductive sqlop : Set :=
| QComma | QOr | QAnd | QNot | QEq | QNe | QLt | QGt | QLe | QGe | QLike | QPlus | QMinus | QTimes | QDivide.
Definition SQLOperatorPrecedence (o : sqlop) : Z :=
  match o with
  | QComma => 0
  | QOr => 1
  | QAnd => 2
  | QNot => 3
  | QEq | QNe | QLt | QGt | QLe | QGe | QLike => 4
  | QPlus | QMinus => 5
  | QTimes | QDivide => 6
  end.
Definition sqlop_text (o : sqlop) : str :=
  lit match o with
      | QComma => "," | QOr => "OR" | QAnd => "AND" | QNot => "NOT" | QEq => "=" | QNe => "<>" | QLt => "<" | QGt => ">"
      | QLe => "<=" | QGe => ">=" | QLike => "LIKE" | QPlus => "+" | QMinus => "-" | QTimes => "*" | QDivide => "/"
      end%string.

(** ** Names *)
(** 3092-3098 QuoteIdentifier *)
Definition QuoteIdentifier (s : str) : str := [34] ++ filter (fun c => negb (c =? 34)) s ++ [34].
(** string.join *)
Fixpoint sjoin (sep : str) (l : list str) : str :=
  match l with [] => [] | [x] => x | x :: l' => x ++ sep ++ sjoin sep l' end.
(** 2678-2728 MangleName; fieldNameJoiner is "_" *)
Definition MangleName (path : list str) : str :=
  QuoteIdentifier (sjoin (lit "_") (match path with _ :: (_ :: _) as p => p | p => p end)).

(** A declared property: simple, complex, or a navigation property *)
Inductive pdef := PSimple | PComplex (fields : list (str * pdef)) | PNav.
Definition declared (t : list (str * pdef)) (n : str) : option pdef :=
  match find (fun p => str_eqb (fst p) n) t with Some p => Some (snd p) | None => None end.

Section Sql.
(** other values of parameters *)
Context {O : Type}.
Inductive sqlv := VNull | VInt (n : Z) | VText (s : str) | VOther (o : O).
Variable other : edm_type -> pyv -> result O.
(** a collection of the SQLite classes *)
Variable sqlite : bool.
Variable qualifyNames : bool.
Variable tableName : str.
Variable mangledNames : list str -> option str.
Variable entityType : list (str * pdef).

(** 3223-3289, 3419-3451 PrepareSQLValue *)
Definition PrepareSQLValue (v : simple) : result sqlv :=
  match v_val v with
  | None => Ok VNull
  | Some p =>
      match v_type v, p with
      | Some TBoolean, PBool b => Ok (VInt (if b then 1 else 0))
      | Some (TByte | TSByte | TInt16 | TInt32 | TInt64), PInt n => Ok (VInt n)
      | Some TString, PStr s => Ok (VText s)
      | Some t, _ => o <- other t p ;; Ok (VOther o)
      | None, _ => Err NotImplementedError
      end
  end.

(** A conversion method: from [params.params] and the context to the text (None is returned for
    some expressions) and the new [params.params] *)
Definition gen : Type := list sqlv -> sqlop -> result (option str * list sqlv).
(** QMarkParams.AddParam, 83-91 *)
Definition AddParam (ps : list sqlv) (v : sqlv) : str * list sqlv := (lit "?", ps ++ [v]).
(** an item of a list given to string.join *)
Definition joined (x : option str) : result str := match x with Some s => Ok s | None => Err TypeError end.
(** "%s" *)
Definition percent_s (x : option str) : str := match x with Some s => s | None => lit "None" end.

(** 801-828 SQLBracket *)
Definition SQLBracket (query : str) (context operator : sqlop) : str :=
  if SQLOperatorPrecedence context >? SQLOperatorPrecedence operator then lit "(" ++ query ++ lit ")" else query.
Definition qualified (field : str) : str := if qualifyNames then tableName ++ lit "." ++ field else field.

(** 786-798 *)
Definition property_text (n : str) : result (option str) :=
  match declared entityType n with
  | Some PSimple => match mangledNames [n] with Some f => Ok (Some (qualified f)) | None => Err EvaluationError end
  | Some (PComplex _) => Err NameError                 (* expresison *)
  | Some PNav => Ok None
  | None => Err EvaluationError
  end.
(** 860-866 _CalculateMemberFieldName *)
Fixpoint member_names (e : expr ext) : result (list str) :=
  match e with
  | EProp n => Ok [n]
  | EOp false OMember ops =>
      match ops with
      | Some a :: Some b :: _ => l <- member_names a ;; r <- member_names b ;; Ok (l ++ r)
      | Some a :: None :: _ => l <- member_names a ;; Err EvaluationError
      | [Some a] => l <- member_names a ;; Err IndexError
      | None :: _ => Err EvaluationError
      | [] => Err IndexError
      end
  | _ => Err EvaluationError
  end.
(** 830-858 SQLExpressionMember *)
Fixpoint member_walk (ctx : option (list (str * pdef))) (names : list str) : result (option (list (str * pdef))) :=
  match names with
  | [] => Ok ctx
  | n :: names' =>
      match ctx with
      | None => Err EvaluationError
      | Some t =>
          match declared t n with
          | None => Err KeyError
          | Some (PComplex fs) => member_walk (Some fs) names'
          | Some PSimple => member_walk None names'
          | Some PNav => Err NotImplementedError
          end
      end
  end.
Definition SQLExpressionMember (e : expr ext) : result (option str) :=
  names <- member_names e ;;
  ctx <- member_walk (Some entityType) names ;;
  match ctx with
  | Some _ => Err EvaluationError
  | None => match mangledNames names with Some f => Ok (Some (qualified f)) | None => Err KeyError end
  end.

(** operands[i] *)
Definition nth_op (l : list gen) (i : nat) : gen :=
  match nth_error l i with Some g => g | None => fun _ _ => Err IndexError end.
(** 872-884 SQLExpressionGenericBinary *)
Definition GenericBinary (l : list gen) (o : sqlop) : gen := fun ps ctx =>
  '(a, ps) <- nth_op l 0 ps o ;;
  '(b, ps) <- nth_op l 1 ps o ;;
  a <- joined a ;; b <- joined b ;;
  Ok (Some (SQLBracket (a ++ lit " " ++ sqlop_text o ++ lit " " ++ b) ctx o), ps).
(** an UnparameterizedLiteral: '%' *)
Definition percent : gen := fun ps _ => Ok (Some (lit "'%'"), ps).
(** 1039-1045 SQLExpressionConcat *)
Definition SQLExpressionConcat (l : list gen) : gen := fun ps ctx =>
  '(a, ps) <- nth_op l 0 ps QTimes ;;
  '(b, ps) <- nth_op l 1 ps QTimes ;;
  a <- joined a ;; b <- joined b ;;
  Ok (Some (SQLBracket (a ++ lit " || " ++ b) ctx QTimes), ps).
(** 942-956, 971-985, 1011-1037: [subject LIKE pattern] *)
Definition like (subject pattern : gen) : gen := fun ps ctx =>
  '(a, ps) <- subject ps QLike ;;
  '(b, ps) <- pattern ps QLike ;;
  a <- joined a ;; b <- joined b ;;
  Ok (Some (SQLBracket (a ++ lit " LIKE " ++ b) ctx QLike), ps).
Definition SQLExpressionEndswith (l : list gen) : gen := fun ps ctx =>
  match l with
  | a :: b :: _ => like a (SQLExpressionConcat [percent; b]) ps ctx
  | _ => Err IndexError
  end.
Definition SQLExpressionStartswith (l : list gen) : gen := fun ps ctx =>
  match l with
  | a :: b :: _ => like a (SQLExpressionConcat [b; percent]) ps ctx
  | _ => Err IndexError
  end.
Definition SQLExpressionSubstringof (l : list gen) : gen := fun ps ctx =>
  match l with
  | a :: b :: _ => like b (SQLExpressionConcat [percent; SQLExpressionConcat [a; percent]]) ps ctx
  | _ => Err IndexError
  end.
(** 958-965 SQLExpressionIndexof *)
Definition SQLExpressionIndexof (l : list gen) : gen := fun ps _ =>
  '(a, ps) <- nth_op l 0 ps QComma ;;
  '(b, ps) <- nth_op l 1 ps QComma ;;
  a <- joined a ;; b <- joined b ;;
  Ok (Some (lit "POSITION(" ++ a ++ lit " IN " ++ b ++ lit ")"), ps).
(** 999-1009 SQLExpressionSubstring: [len(expression.operands>2)] *)
Definition SQLExpressionSubstring (l : list gen) : gen := fun ps _ =>
  '(a, ps) <- nth_op l 0 ps QComma ;;
  '(b, ps) <- nth_op l 1 ps QComma ;;
  Err TypeError.
(** 987-997, 1047-1073: the argument is put in by "%s"; 3488-3549 by string.join *)
Definition around (strict : bool) (before after : string) (l : list gen) : gen := fun ps _ =>
  '(a, ps) <- nth_op l 0 ps QComma ;;
  a <- (if strict then joined a else Ok (percent_s a)) ;;
  Ok (Some (lit before ++ a ++ lit after), ps).
Definition base_or (plain : string) (before after : string) : list gen -> gen :=
  if sqlite then around true before after else around false plain ")".
Definition unsupported (l : list gen) : gen := fun _ _ => Err NotImplementedError.
(** 1088-1109 *)
Definition SQLCallExpressionMethod : list (str * (list gen -> gen)) :=
  [(lit "endswith", SQLExpressionEndswith); (lit "indexof", SQLExpressionIndexof); (lit "replace", unsupported);
   (lit "startswith", SQLExpressionStartswith);
   (lit "tolower", base_or "LOWER(" "lower(" ")"); (lit "toupper", base_or "UPPER(" "upper(" ")");
   (lit "trim", around false "TRIM(" ")"); (lit "substring", SQLExpressionSubstring);
   (lit "substringof", SQLExpressionSubstringof); (lit "concat", SQLExpressionConcat);
   (lit "length", base_or "CHAR_LENGTH(" "length(" ")");
   (lit "year", base_or "EXTRACT(YEAR FROM " "CAST(strftime('%Y'," ") AS INTEGER)");
   (lit "month", base_or "EXTRACT(MONTH FROM " "CAST(strftime('%m'," ") AS INTEGER)");
   (lit "day", base_or "EXTRACT(DAY FROM " "CAST(strftime('%d'," ") AS INTEGER)");
   (lit "hour", base_or "EXTRACT(HOUR FROM " "CAST(strftime('%H'," ") AS INTEGER)");
   (lit "minute", base_or "EXTRACT(MINUTE FROM " "CAST(strftime('%M'," ") AS INTEGER)");
   (lit "second", base_or "EXTRACT(SECOND FROM " "CAST(strftime('%S'," ") AS INTEGER)");
   (lit "round", unsupported); (lit "floor", unsupported); (lit "ceiling", unsupported)]%string.
(** 1111-1128 *)
Definition SQLBinaryExpressionMethod (o : operator) : option sqlop :=
  match o with
  | OMul => Some QTimes | ODiv => Some QDivide | OAdd => Some QPlus | OSub => Some QMinus
  | OLt => Some QLt | OGt => Some QGt | OLe => Some QLe | OGe => Some QGe | OEq => Some QEq | ONe => Some QNe
  | OAnd => Some QAnd | OOr => Some QOr
  | _ => None
  end.

(** 743-799 SQLExpression *)
Fixpoint SQLExpression (e : expr ext) : gen :=
  match e with
  | EOp true _ _ => fun _ _ => Err NotImplementedError
  | EOp false o ops =>
      match o with
      | OMember => fun ps _ => s <- SQLExpressionMember e ;; Ok (s, ps)
      | OCast | OMod | OIsof => fun _ _ => Err NotImplementedError
      | _ =>
          match SQLBinaryExpressionMethod o with
          | Some q =>
              GenericBinary (map (fun x => match x with
                                           | Some a => SQLExpression a
                                           | None => fun ps _ => Ok (None, ps)
                                           end) ops) q
          | None => fun _ _ => Err KeyError
          end
      end
  | ELit v => fun ps _ => p <- PrepareSQLValue v ;; let '(s, ps) := AddParam ps p in Ok (Some s, ps)
  | EProp n => fun ps _ => s <- property_text n ;; Ok (s, ps)
  | ECall m args =>
      match find (fun p => str_eqb (fst p) m) SQLCallExpressionMethod with
      | Some p => snd p (map SQLExpression args)
      | None => fun _ _ => Err KeyError
      end
  end.

(** ** Clauses *)
(** 597-606 WhereEntityClause: the pairs of KeyDict *)
Fixpoint WhereEntityClause (keys : list (str * simple)) (ps : list sqlv) : result (list str * list sqlv) :=
  match keys with
  | [] => Ok ([], ps)
  | (k, v) :: keys' =>
      match mangledNames [k] with
      | None => Err KeyError
      | Some n =>
          p <- PrepareSQLValue v ;;
          let '(m, ps) := AddParam ps p in
          '(l, ps) <- WhereEntityClause keys' ps ;;
          Ok ((n ++ lit "=" ++ m) :: l, ps)
      end
  end.
(** 608-630 WhereSkiptokenClause: the names with [true] for DESC, the values *)
Fixpoint skip_text (names : list (str * bool)) (tok : list simple) (ket : nat) (ps : list sqlv) : result (str * list sqlv) :=
  match names, tok with
  | (n, desc) :: names', v :: tok' =>
      p <- PrepareSQLValue v ;;
      let '(m, ps) := AddParam ps p in
      let first := lit "(" ++ n ++ lit " " ++ lit (if desc then "<" else ">") ++ lit " " ++ m in
      match names' with
      | [] => Ok (first ++ repeat 41 (S ket), ps)
      | _ =>
          let '(m, ps) := AddParam ps p in
          '(rest, ps) <- skip_text names' tok' (S (S ket)) ps ;;
          Ok (first ++ lit " OR (" ++ n ++ lit " = " ++ m ++ lit " AND " ++ rest, ps)
      end
  | _, _ => Err IndexError
  end.
Definition WhereSkiptokenClause (names : list (str * bool)) (tok : list simple) (ps : list sqlv) : result (str * list sqlv) :=
  skip_text names tok 0 ps.
(** 545-595 WhereClause *)
Definition WhereClause (keys : option (list (str * simple))) (filter : option (expr ext))
    (skip : option (list (str * bool) * list simple)) (ps : list sqlv) : result (str * list sqlv) :=
  '(w1, ps) <- match keys with Some k => WhereEntityClause k ps | None => Ok ([], ps) end ;;
  '(w2, ps) <- match filter with
               | Some f => '(s, ps) <- SQLExpression f ps QAnd ;; s <- joined s ;; Ok ([lit "(" ++ s ++ lit ")"], ps)
               | None => Ok ([], ps)
               end ;;
  '(w3, ps) <- match skip with
               | Some (names, tok) => '(s, ps) <- WhereSkiptokenClause names tok ps ;; Ok ([s], ps)
               | None => Ok ([], ps)
               end ;;
  match w1 ++ w2 ++ w3 with
  | [] => Ok ([], ps)
  | w => Ok (lit " WHERE " ++ sjoin (lit " AND ") w, ps)
  end.
(** 682-701 OrderByCols: the expressions with the names of orderNames *)
Fixpoint OrderByCols (orderby : list (expr ext)) (names : list (str * bool)) (ps : list sqlv) : result (list str * list sqlv) :=
  match orderby, names with
  | e :: orderby', (n, _) :: names' =>
      '(s, ps) <- SQLExpression e ps QAnd ;;
      '(l, ps) <- OrderByCols orderby' names' ps ;;
      Ok ((percent_s s ++ lit " AS " ++ n) :: l, ps)
  | _ :: _, [] => Err IndexError
  | [], _ => Ok (map fst names, ps)
  end.
(** 669-680 OrderByClause *)
Definition OrderByClause (names : list (str * bool)) : str :=
  match names with
  | [] => []
  | _ => lit " ORDER BY " ++ sjoin (lit ", ") (map (fun p : str * bool => fst p ++ lit (if snd p then " DESC" else " ASC")%string) names)
  end.
(** 409-428: the query of a page *)
Definition page_query (columns : list str) (orderby : list (expr ext)) (names : list (str * bool))
    (filter : option (expr ext)) (skiptoken : option (list simple)) : result (str * list sqlv) :=
  '(cols, ps) <- OrderByCols orderby names [] ;;
  '(w, ps) <- WhereClause None filter (match skiptoken with Some t => Some (names, t) | None => None end) ps ;;
  Ok (lit "SELECT " ++ sjoin (lit ", ") (columns ++ cols) ++ lit " FROM " ++ tableName ++ w ++ OrderByClause names, ps).
End Sql.
Arguments VNull {O}. Arguments VInt {O}. Arguments VText {O}. Arguments VOther {O}.

(** ** Other ways to write parameters: 83-117 *)
Inductive paramstyle : Set := QMark | Numeric | Named.
(** ParamsClass(): NumericParams and NamedParams call super(QMarkParams,self) *)
Definition ParamsClass (s : paramstyle) : result unit := match s with QMark => Ok tt | _ => Err TypeError end.
