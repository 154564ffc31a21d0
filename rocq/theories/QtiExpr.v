(** Model of pyslet/pyslet/qtiv2/expressions.py (all expression classes) and of the variable
    declarations, mappings and lookup tables of pyslet/pyslet/qtiv2/variables.py 981-1612.

    Simplifications.
    - A declared element is always present: the single sub-expression of a unary operator, and
      the table built by ContentChanged.
    - The number drawn by an expression that uses the random module is part of the expression:
      every expression is evaluated at most once per evaluation of its parent.
    - The test of a point against a shape (core.py 206) is a function attached to the
      expression or the area.
    - A value returned by an expression may be the object held by the session; no operator
      modifies a value it did not create, so the model returns values, not references. *)
From Coq Require Import QArith Qcanon Qround.
From Verif Require Import Py Dec XmlUtils Xsd QtiValue.
Open Scope Z_scope.
Open Scope list_scope.

(** variables.py 166-183 ValueElement: fieldIdentifier, baseType and character data *)
Record valueElement := mkVE { ve_field : str; ve_base : option baseType; ve_text : str }.

(** 1084-1112 Mapping, with the dictionary [map] built by ContentChanged *)
Record mapping := mkMapping {
  m_lower : option Qc; m_upper : option Qc; m_default : Qc; m_map : list (option atom * Qc) }.
(** 1251-1277 AreaMapping *)
Record areaMapping := mkArea {
  a_lower : option Qc; a_upper : option Qc; a_default : Qc;
  a_entries : list ((Z * Z -> result bool) * Qc) }.

Inductive declKind : Type :=
| KResponse (correct : option (list valueElement)) (m : option mapping) (a : option areaMapping)
| KOutcome
| KTemplate.
(** 981-1041 VariableDeclaration and its subclasses *)
Record declaration := mkDecl {
  d_id : str; d_card : option cardinality; d_base : option baseType;
  d_default : option (list valueElement); d_kind : declKind }.
Definition is_response (d : option declaration) : bool :=
  match d with Some d => match d_kind d with KResponse _ _ _ => true | _ => false end | None => false end.
Definition is_outcome (d : option declaration) : bool :=
  match d with Some d => match d_kind d with KOutcome => true | _ => false end | None => false end.
Definition is_template (d : option declaration) : bool :=
  match d with Some d => match d_kind d with KTemplate => true | _ => false end | None => false end.

(** items.py 15-66 AssessmentItem (declarations only) and core.py 344-361 DeclarationContainer:
    the dictionary of declarations, which holds every declared identifier once *)
Record item := mkItem {
  i_templates : list declaration; i_responses : list declaration; i_outcomes : list declaration;
  i_adaptive : bool }.
Definition i_decls (i : item) : list (str * declaration) :=
  map (fun d => (d_id d, d)) (i_responses i ++ i_outcomes i ++ i_templates i).

(** 1695-1730 ItemSessionState: the item and the dictionary of variables *)
Record state := mkState { s_item : item; s_map : list (str * value) }.

(** 1924-1925 __getitem__ *)
Definition get_var (st : state) (n : str) : result value :=
  match assoc n (s_map st) with Some v => Ok v | None => Err KeyError end.
(** 1885-1889 GetDeclaration *)
Definition GetDeclaration (st : state) (n : str) : result (option declaration) :=
  match assoc n (s_map st) with
  | Some _ => Ok (assoc n (i_decls (s_item st)))
  | None => Err KeyError
  end.
(** 1891-1899, 1901-1909 IsResponse and IsOutcome; 1643-1646 IsTemplate *)
Definition IsResponse (st : state) (n : str) : result bool :=
  d <- GetDeclaration st n ;;
  Ok (match d with
      | None => str_eqb n (lit "numAttempts") || str_eqb n (lit "duration")
      | Some _ => is_response d
      end).
Definition IsOutcome (st : state) (n : str) : result bool :=
  d <- GetDeclaration st n ;;
  Ok (match d with
      | None => str_eqb n (lit "completionStatus")
      | Some _ => is_outcome d
      end).
Definition IsTemplate (st : state) (n : str) : result bool :=
  d <- GetDeclaration st n ;; Ok (is_template d).

(** BooleanValue(b), FloatValue(q) *)
Definition mkbool (b : option bool) : value := VSingle (Some BBoolean) (option_map ABool b).
Definition mkfloat (q : option Qc) : value := VSingle (Some BFloat) (option_map AFloat q).
(** IntegerValue(n) *)
Definition mkint (n : option Z) : result value :=
  match n with
  | None => Ok (VSingle (Some BInteger) None)
  | Some n => if in_range n then Ok (VSingle (Some BInteger) (Some (AInt n))) else Err ValueError
  end.

Definition q0 : Qc := Q2Qc 0.
Definition q1 : Qc := Q2Qc 1.
Definition qz (n : Z) : Qc := Q2Qc (inject_Z n).

Section Exprs.
Context {X : Ext}.

(** 1117-1133 Mapping.ContentChanged: the last entry for a key wins *)
Fixpoint build_map (bt : option baseType) (acc : list (option atom * Qc))
    (entries : list (option str * Qc)) : result (list (option atom * Qc)) :=
  match entries with
  | [] => Ok acc
  | (k, q) :: es =>
      v <- new_single bt (option_map RText k) ;;
      match v with
      | VSingle _ oa => build_map bt (aset oa q acc) es
      | _ => Err Unmodelled
      end
  end.

(** 1135-1173 Mapping.MapValue *)
Definition src_values (v : value) : result (list (option atom)) :=
  if negb (non_null v) then Ok []
  else match v with
       | VSingle _ oa => Ok [oa]
       | VOrdered _ (Some l) => Ok l
       | VMultiple _ (Some m) => Ok (map fst m)
       | _ => Err ValueError
       end.
Definition clamp (lower upper : option Qc) (q : Qc) : Qc :=
  match lower with
  | Some l => if qc_ltb q l then l
              else match upper with Some u => if qc_ltb u q then u else q | None => q end
  | None => match upper with Some u => if qc_ltb u q then u else q | None => q end
  end.
Fixpoint map_loop (m : list (option atom * Qc)) (dflt : Qc) (been : list (option atom))
    (acc : Qc) (l : list (option atom)) : Qc :=
  match l with
  | [] => acc
  | v :: l' =>
      if existsb (oatom_eqb v) been then map_loop m dflt been acc l'
      else map_loop m dflt (v :: been)
             (Qcplus acc (match aget v m with Some q => q | None => dflt end)) l'
  end.
Definition MapValue (mp : mapping) (v : value) : result value :=
  src <- src_values v ;;
  let res := map_loop (m_map mp) (m_default mp) [] q0 src in
  if negb (non_null v) || match base v with None => true | Some _ => false end
  then Ok (mkfloat (Some q0))
  else Ok (mkfloat (Some (clamp (m_lower mp) (m_upper mp) res))).

(** 1282-1337 AreaMapping.MapValue *)
Fixpoint area_hit (es : list ((Z * Z -> result bool) * Qc)) (been : list bool) (p : Z * Z)
  : result (option (Qc * list bool)) :=
  match es, been with
  | (test, q) :: es', b :: been' =>
      hit <- test p ;;
      if hit then Ok (Some ((if b then q0 else q), true :: been'))
      else r <- area_hit es' been' p ;;
           Ok (match r with None => None | Some (g, bs) => Some (g, b :: bs) end)
  | _, _ => Ok None
  end.
Fixpoint area_loop (a : areaMapping) (been : list bool) (acc : Qc) (l : list (option atom))
  : result Qc :=
  match l with
  | [] => Ok acc
  | Some (APoint x y) :: l' =>
      r <- area_hit (a_entries a) been (x, y) ;;
      match r with
      | Some (g, been') => area_loop a been' (Qcplus acc g) l'
      | None => area_loop a been (Qcplus acc (a_default a)) l'
      end
  | _ :: _ => Err TypeError
  end.
Definition AreaMapValue (a : areaMapping) (v : value) : result value :=
  src <- src_values v ;;
  if negb (match base v with None | Some BPoint => true | _ => false end) then Err ValueError
  else
    res <- area_loop a (map (fun _ => false) (a_entries a)) q0 src ;;
    if negb (non_null v) || match base v with None => true | Some _ => false end
    then Ok (mkfloat (Some q0))
    else Ok (mkfloat (Some (clamp (a_lower a) (a_upper a) res))).

(** 1429-1434 LookupTable.ContentChanged: the default *)
Definition table_default (bt : option baseType) (t : option str) : result value :=
  new_single bt (option_map RText t).
Fixpoint zget {A} (k : Z) (m : list (Z * A)) : option A :=
  match m with [] => None | (k', x) :: m' => if k =? k' then Some x else zget k m' end.
Fixpoint zset {A} (k : Z) (x : A) (m : list (Z * A)) : list (Z * A) :=
  match m with
  | [] => [(k, x)]
  | (k', y) :: m' => if k =? k' then (k', x) :: m' else (k', y) :: zset k x m'
  end.
(** v.value as an argument of SetValue *)
Definition opayload (oa : option atom) : payload :=
  match oa with Some a => PRaw (raw_of a) | None => PNone end.
Definition single_atom (v : value) : option atom :=
  match v with VSingle _ oa => oa | _ => None end.

(** 1456-1462 MatchTable.ContentChanged *)
Fixpoint match_map (bt : option baseType) (acc : list (Z * option atom))
    (entries : list (Z * option str)) : result (list (Z * option atom)) :=
  match entries with
  | [] => Ok acc
  | (k, t) :: es =>
      v <- new_single bt (option_map RText t) ;; match_map bt (zset k (single_atom v) acc) es
  end.
(** 1464-1480 MatchTable.Lookup; [entries] are the sourceValue and targetValue of each entry *)
Definition MatchLookup (bt : option baseType) (dflt : option str)
    (entries : list (Z * option str)) (v : value) : result value :=
  d <- table_default bt dflt ;;
  m <- match_map bt [] entries ;;
  if negb (non_null v) then new_single bt None
  else match card v with
       | Some CSingle =>
           match v with
           | VSingle (Some BInteger) (Some (AInt n)) =>
               dst <- new_single bt None ;;
               finish (set_value dst (opayload (match zget n m with
                                                | Some oa => oa
                                                | None => single_atom d
                                                end)))
           | _ => Err ValueError
           end
       | _ => Err ValueError
       end.

(** 1527-1533 InterpolationTable.ContentChanged and 1535-1558 Lookup; an entry is
    (sourceValue, includeBoundary, targetValue) *)
Fixpoint interp_table (bt : option baseType) (entries : list (Qc * bool * option str))
  : result (list (Qc * bool * option atom)) :=
  match entries with
  | [] => Ok []
  | (q, lte, t) :: es =>
      v <- new_single bt (option_map RText t) ;;
      rest <- interp_table bt es ;; Ok ((q, lte, single_atom v) :: rest)
  end.
Fixpoint interp_find (src : Qc) (l : list (Qc * bool * option atom)) : option (option atom) :=
  match l with
  | [] => None
  | (q, lte, t) :: l' =>
      if qc_ltb q src || (lte && qc_eqb q src) then Some t else interp_find src l'
  end.
Definition InterpLookup (bt : option baseType) (dflt : option str)
    (entries : list (Qc * bool * option str)) (v : value) : result value :=
  d <- table_default bt dflt ;;
  table <- interp_table bt entries ;;
  if negb (non_null v) then new_single bt None
  else
    src <- match v with
           | VSingle (Some BInteger) (Some (AInt n)) => Ok (qz n)
           | VSingle (Some BFloat) (Some (AFloat q)) => Ok q
           | VSingle (Some BDuration) (Some (AFloat q)) => Ok q
           | _ => Err ValueError
           end ;;
    dst <- new_single bt None ;;
    dst' <- finish (set_value dst (opayload (single_atom d))) ;;
    match interp_find src table with
    | Some t => finish (set_value dst' (opayload t))
    | None => Ok dst'
    end.

(** core.py 364-372 GetTemplateRef calls a function the module xsi does not have: a text
    delimited by braces raises AttributeError, and so does None *)
Definition is_ref (s : str) : bool :=
  match s with 123 :: _ => last s 0 =? 125 | _ => false end.
(** expressions.py 19-35, 37-53, 55-79 IntegerOrTemplateRef, FloatOrTemplateRef,
    StringOrTemplateRef *)
Definition IntegerOrTemplateRef (t : option str) : result Z :=
  match t with
  | None => Err AttributeError
  | Some s => if is_ref s then Err AttributeError else DecodeInteger s
  end.
Definition FloatOrTemplateRef (t : option str) : result Qc :=
  match t with
  | None => Err AttributeError
  | Some s => if is_ref s then Err AttributeError else x_double s
  end.
Definition StringOrTemplateRef (s : str) : result str :=
  if is_ref s then Err AttributeError else Ok s.

Inductive toleranceMode := TAbsolute | TExact | TRelative.      (* 1004-1032 *)
Inductive roundingMode := RDecimalPlaces | RSignificantFigures. (* 1112-1135 *)
Inductive cmpOp := OpLT | OpGT | OpLTE | OpGTE.

Inductive expr : Type :=
| EBaseValue (bt : option baseType) (text : str)
| EVariable (id : str)
| EDefault (id : str)
| ECorrect (id : str)
| EMapResponse (id : str)
| EMapResponsePoint (id : str)
| ENull
| ERandomInteger (mn mx step : option str) (draw : Z)
| ERandomFloat (mn mx : option str) (draw : Qc)
| EMultiple (es : list expr)
| EOrdered (es : list expr)
| EContainerSize (e : expr)
| EIsNull (e : expr)
| EIndex (n : option Z) (e : expr)
| EFieldValue (f : str) (e : expr)
| ERandom (draw : nat) (e : expr)
| EMember (es : list expr)
| EDelete (es : list expr)
| EContains (es : list expr)
| ESubString (caseSensitive : bool) (es : list expr)
| ENot (e : expr)
| EAnd (es : list expr)
| EOr (es : list expr)
| EAnyN (mn mx : option str) (es : list expr)
| EMatch (es : list expr)
| EStringMatch (caseSensitive substring : bool) (es : list expr)
| EPatternMatch (pattern : str) (e : expr)
| EEqual (mode : toleranceMode) (tol : list str) (lowerIn upperIn : bool) (es : list expr)
| EEqualRounded (mode : roundingMode) (figures : option str) (es : list expr)
| EInside (test : Z * Z -> result bool) (e : expr)
| ECompare (op : cmpOp) (es : list expr)
| EDurationLT (es : list expr)
| EDurationGTE (es : list expr)
| ESum (es : list expr)
| EProduct (es : list expr)
| ESubtract (es : list expr)
| EDivide (es : list expr)
| EPower (es : list expr)
| EIntegerDivide (es : list expr)
| EIntegerModulus (es : list expr)
| ETruncate (e : expr)
| ERound (e : expr)
| EIntegerToFloat (e : expr)
| ECustomOperator (es : list expr).

Definition two (vs : list value) : result (value * value) :=
  match vs with [v; w] => Ok (v, w) | _ => Err ProcessingError end.

(** 284-288 RandomInteger.Evaluate; random.randint(0,k) raises ValueError when k<0 *)
Definition op_random_integer (mn mx step : option str) (draw : Z) : result value :=
  a <- IntegerOrTemplateRef mn ;;
  b <- IntegerOrTemplateRef mx ;;
  s <- IntegerOrTemplateRef step ;;
  if s =? 0 then Err ZeroDivisionError
  else let k := (b - a) / s in
       if k <? 0 then Err ValueError else mkint (Some (a + s * (draw mod (k + 1)))).
(** 309-314 RandomFloat.Evaluate *)
Definition op_random_float (mn mx : option str) (draw : Qc) : result value :=
  a <- FloatOrTemplateRef mn ;;
  b <- FloatOrTemplateRef mx ;;
  Ok (mkfloat (Some (Qcplus a (Qcmult draw (Qcminus b a))))).

(** 358-385, 399-424 the loop of Multiple.Evaluate and Ordered.Evaluate *)
Fixpoint gather (want : cardinality) (bt : option baseType) (acc : list (option atom))
    (vs : list value) : result (option baseType * list (option atom)) :=
  match vs with
  | [] => Ok (bt, acc)
  | v :: vs' =>
      match base v with
      | None => gather want bt acc vs'
      | Some b =>
          if negb (match bt with None => true | Some b' => baseType_eqb b' b end)
          then Err ProcessingError
          else if negb (non_null v) then gather want (Some b) acc vs'
          else match card v with
               | Some CSingle => gather want (Some b) (acc ++ [single_atom v]) vs'
               | Some c => if cardinality_eqb c want
                           then gather want (Some b) (acc ++ GetValues v) vs'
                           else Err ProcessingError
               | None => Err ProcessingError
               end
      end
  end.
Definition op_multiple (vs : list value) : result value :=
  ' (bt, l) <- gather CMultiple None [] vs ;; finish (set_multiple bt (map (option_map raw_of) l)).
Definition op_ordered (vs : list value) : result value :=
  ' (bt, l) <- gather COrdered None [] vs ;; finish (set_ordered bt (map (option_map raw_of) l)).

(** 438-455 ContainerSize.Evaluate *)
Definition op_container_size (v : value) : result value :=
  match v with
  | VOrdered _ (Some l) => mkint (Some (Z.of_nat (length l)))
  | VOrdered _ None => mkint (Some 0)
  | VMultiple _ (Some m) => mkint (Some (fold_left (fun s p => s + snd p) m 0))
  | VMultiple _ None => mkint (Some 0)
  | _ => Err ProcessingError
  end.
(** 470-475 IsNull.Evaluate *)
Definition op_is_null (v : value) : result value := Ok (mkbool (Some (negb (non_null v)))).
(** 499-512 Index.Evaluate; n is None when the attribute is missing *)
Definition op_index (n : option Z) (v : value) : result value :=
  match v with
  | VOrdered bt l =>
      r <- new_single bt None ;;
      match l with
      | None => Ok r
      | Some l =>
          match n with
          | None => Err TypeError
          | Some n =>
              if n <? 1 then Err ProcessingError
              else if n <=? Z.of_nat (length l)
              then finish (set_value r (opayload (nth (Z.to_nat (n - 1)) l None)))
              else Ok r
          end
      end
  | _ => Err ProcessingError
  end.
(** 536-546 FieldValue.Evaluate *)
Definition op_field_value (f : str) (v : value) : result value :=
  match v with
  | VRecord (Some m) =>
      match assoc f m with
      | Some (b, a) => Ok (VSingle (Some b) (Some a))
      | None => Ok (VSingle None None)
      end
  | VRecord None => Ok (VSingle None None)
  | _ => Err ProcessingError
  end.
(** 561-579 Random.Evaluate; random.choice of an empty list raises IndexError *)
Definition op_random (draw : nat) (v : value) : result value :=
  match v with
  | VOrdered bt o =>
      r <- new_single bt None ;;
      match o with
      | None => Ok r
      | Some _ =>
          match GetValues v with
          | [] => Err IndexError
          | l => finish (set_value r (opayload (nth (Nat.modulo draw (length l)) l None)))
          end
      end
  | VMultiple bt o =>
      r <- new_single bt None ;;
      match o with
      | None => Ok r
      | Some _ =>
          match GetValues v with
          | [] => Err IndexError
          | l => finish (set_value r (opayload (nth (Nat.modulo draw (length l)) l None)))
          end
      end
  | VNull | VUnknown _ => Ok (VSingle None None)
  | _ => Err ProcessingError
  end.

(** 596-619 Member.Evaluate *)
Definition op_member (vs : list value) : result value :=
  ' (s, c) <- two vs ;;
  match base s, base c with
  | Some b1, Some b2 =>
      if negb (baseType_eqb b1 b2) then Err ProcessingError
      else if baseType_eqb b1 BDuration then Err ProcessingError
      else if non_null s && non_null c
      then match s, c with
           | VSingle _ a, VOrdered _ (Some l) => Ok (mkbool (Some (existsb (oatom_eqb a) l)))
           | VSingle _ a, VMultiple _ (Some m) =>
               Ok (mkbool (Some (existsb (oatom_eqb a) (map fst m))))
           | _, _ => Err ProcessingError
           end
      else Ok (mkbool None)
  | _, _ => Ok (mkbool None)
  end.

(** 636-665 Delete.Evaluate *)
Definition op_delete (vs : list value) : result value :=
  ' (s, c) <- two vs ;;
  match base c, base s with
  | None, _ => new_container (card c) (base s)
  | Some _, None => new_container (card c) (base c)
  | Some b2, Some b1 =>
      if negb (baseType_eqb b1 b2) then Err ProcessingError
      else if baseType_eqb b1 BDuration then Err ProcessingError
      else if negb (match card s with Some CSingle | None => true | _ => false end)
      then Err ProcessingError
      else if negb (match card c with Some COrdered | Some CMultiple | None => true | _ => false end)
      then Err ProcessingError
      else
        r <- new_container (card c) (base c) ;;
        if non_null s && non_null c
        then finish (set_value r (PList (map (option_map raw_of)
                       (filter (fun v => negb (oatom_eqb (single_atom s) v)) (GetValues c)))))
        else Ok r
  end.

(** 682-721 Contains.Evaluate *)
Definition window_match (l1 l2 : list (option atom)) (i : nat) : bool :=
  forallb (fun p => oatom_eqb (fst p) (snd p)) (combine l1 (firstn (length l1) (skipn i l2))).
Definition op_contains (vs : list value) : result value :=
  ' (v1, v2) <- two vs ;;
  b <- CheckBaseTypes [base v1; base v2] ;;
  c <- CheckCardinalities [card v1; card v2] ;;
  if opt_eqb baseType_eqb b (Some BDuration) then Err ProcessingError
  else match c, b with
       | None, _ | _, None => Ok (mkbool None)
       | Some c, Some _ =>
           if non_null v1 && non_null v2
           then match v1, v2 with
                | VOrdered _ (Some l1), VOrdered _ (Some l2) =>
                    Ok (mkbool (Some (existsb (window_match l1 l2)
                                        (seq 0 (length l2 + 1 - length l1)))))
                | VMultiple _ (Some m1), VMultiple _ (Some m2) =>
                    Ok (mkbool (Some (forallb (fun p => negb (acount (fst p) m2 <? snd p)) m1)))
                | _, _ => Err ProcessingError
                end
           else Ok (mkbool None)
       end.

(** Python [s in t] on strings *)
Fixpoint starts_with (s t : str) : bool :=
  match s, t with
  | [], _ => true
  | a :: s', b :: t' => (a =? b) && starts_with s' t'
  | _ :: _, [] => false
  end.
Fixpoint substring_of (s t : str) : bool :=
  starts_with s t || match t with [] => false | _ :: t' => substring_of s t' end.
Definition str_of (v : value) : result str :=
  match v with VSingle _ (Some (AStr s)) => Ok s | _ => Err TypeError end.

(** 746-759 SubString.Evaluate, 944-963 StringMatch.Evaluate *)
Definition op_string_match (caseSensitive substring : bool) (vs : list value) : result value :=
  ' (v1, v2) <- two vs ;;
  _ <- CheckBaseTypes [base v1; base v2; Some BString] ;;
  _ <- CheckCardinalities [card v1; card v2; Some CSingle] ;;
  if non_null v1 && non_null v2
  then s <- str_of v1 ;; t <- str_of v2 ;;
       let s' := if caseSensitive then s else x_lower s in
       let t' := if caseSensitive then t else x_lower t in
       Ok (mkbool (Some (if substring then substring_of s' t' else str_eqb s' t')))
  else Ok (mkbool None).

(** The boolean held by a value that passed the checks *)
Definition bool_of (v : value) : option bool :=
  match v with VSingle _ (Some (ABool b)) => Some b | _ => None end.

(** 774-781 Not.Evaluate *)
Definition op_not (v : value) : result value :=
  _ <- CheckBaseTypes [base v; Some BBoolean] ;;
  _ <- CheckCardinalities [card v; Some CSingle] ;;
  Ok (mkbool (option_map negb (bool_of v))).
Definition check_booleans (vs : list value) : result unit :=
  _ <- CheckCardinalities (map card vs ++ [Some CSingle]) ;;
  _ <- CheckBaseTypes (map base vs ++ [Some BBoolean]) ;; Ok tt.
(** 796-808 And.Evaluate *)
Fixpoint and_loop (res : option bool) (vs : list value) : option bool :=
  match vs with
  | [] => res
  | v :: vs' =>
      match bool_of v with
      | Some false => Some false
      | None => and_loop None vs'
      | Some true => and_loop res vs'
      end
  end.
Definition op_and (vs : list value) : result value :=
  _ <- check_booleans vs ;; Ok (mkbool (and_loop (Some true) vs)).
(** 824-836 Or.Evaluate *)
Fixpoint or_loop (res : option bool) (vs : list value) : option bool :=
  match vs with
  | [] => res
  | v :: vs' =>
      match bool_of v with
      | Some true => Some true
      | None => or_loop None vs'
      | Some false => or_loop res vs'
      end
  end.
Definition op_or (vs : list value) : result value :=
  _ <- check_booleans vs ;; Ok (mkbool (or_loop (Some false) vs)).
(** 864-893 AnyN.Evaluate *)
Fixpoint anyn_loop (nTrue nNull : Z) (vs : list value) : Z * Z :=
  match vs with
  | [] => (nTrue, nNull)
  | v :: vs' =>
      match bool_of v with
      | Some true => anyn_loop (nTrue + 1) nNull vs'
      | None => anyn_loop nTrue (nNull + 1) vs'
      | Some false => anyn_loop nTrue nNull vs'
      end
  end.
Definition anyn_result (mn mx nTrue nNull : Z) : option bool :=
  if nTrue >=? mn then
    if nTrue >? mx then Some false
    else if nTrue + nNull >? mx then None
    else Some true
  else if nTrue + nNull >=? mn then None
  else Some false.
Definition op_anyn (mn mx : Z) (vs : list value) : result value :=
  _ <- check_booleans vs ;;
  let '(t, n) := anyn_loop 0 0 vs in Ok (mkbool (anyn_result mn mx t n)).

(** 909-917 Match.Evaluate *)
Definition op_match (vs : list value) : result value :=
  ' (v1, v2) <- two vs ;; r <- value_eq v1 v2 ;; Ok (mkbool r).

(** 988-1001 PatternMatch.Evaluate *)
Definition op_pattern_match (pattern : str) (v : value) : result value :=
  _ <- CheckBaseTypes [base v; Some BString] ;;
  _ <- CheckCardinalities [card v; Some CSingle] ;;
  if non_null v then s <- str_of v ;; Ok (mkbool (x_match pattern s)) else Ok (mkbool None).

(** Python [float(v.value)] and the integer held by a value *)
Definition to_float (v : value) : result Qc :=
  match v with
  | VSingle _ (Some (AInt n)) => Ok (qz n)
  | VSingle _ (Some (AFloat q)) => Ok q
  | _ => Err TypeError
  end.
Definition to_int (v : value) : result Z :=
  match v with VSingle _ (Some (AInt n)) => Ok n | _ => Err TypeError end.

(** The common prologue of the operators on two numbers *)
Definition two_numbers (vs : list value) : result (option baseType * value * value) :=
  ' (v1, v2) <- two vs ;;
  b <- CheckNumericalTypes [base v1; base v2] ;;
  _ <- CheckCardinalities [card v1; card v2; Some CSingle] ;;
  Ok (b, v1, v2).

(** 1070-1109 Equal.Evaluate *)
Definition hundred : Qc := qz 100.
Definition bounds (mode : toleranceMode) (x t0 t1 : Qc) : Qc * Qc :=
  match mode with
  | TRelative => (Qcmult x (Qcminus q1 (Qcdiv t0 hundred)), Qcmult x (Qcplus q1 (Qcdiv t1 hundred)))
  | _ => (Qcminus x t0, Qcplus x t1)
  end.
Definition within (lowerIn upperIn : bool) (lo hi y : Qc) : bool :=
  (if lowerIn then qc_leb lo y else qc_ltb lo y) && (if upperIn then qc_leb y hi else qc_ltb y hi).
Definition op_equal (mode : toleranceMode) (tol : list str) (lowerIn upperIn : bool)
    (vs : list value) : result value :=
  ' (_, v1, v2) <- two_numbers vs ;;
  if non_null v1 && non_null v2
  then x <- to_float v1 ;; y <- to_float v2 ;;
       match mode with
       | TExact => Ok (mkbool (Some (qc_eqb x y)))
       | _ =>
           match tol with
           | [] => Err ProcessingError
           | s0 :: rest =>
               t0 <- FloatOrTemplateRef (Some s0) ;;
               t1 <- match rest with [] => Ok t0 | s1 :: _ => FloatOrTemplateRef (Some s1) end ;;
               let '(lo, hi) := bounds mode x t0 t1 in
               Ok (mkbool (Some (within lowerIn upperIn lo hi y)))
           end
       end
  else Ok (mkbool None).

(** 1163-1183 EqualRounded.Evaluate *)
Definition op_equal_rounded (mode : roundingMode) (figures : option str) (vs : list value)
  : result value :=
  ' (_, v1, v2) <- two_numbers vs ;;
  if non_null v1 && non_null v2
  then x <- to_float v1 ;; y <- to_float v2 ;;
       n <- IntegerOrTemplateRef figures ;;
       match mode with
       | RDecimalPlaces =>
           s <- x_decimal x n ;; t <- x_decimal y n ;; Ok (mkbool (Some (str_eqb s t)))
       | RSignificantFigures =>
           s <- x_encdouble x (n - 1) ;; t <- x_encdouble y (n - 1) ;;
           Ok (mkbool (Some (str_eqb s t)))
       end
  else Ok (mkbool None).

(** 1209-1232 Inside.Evaluate *)
Definition test_atom (test : Z * Z -> result bool) (oa : option atom) : result bool :=
  match oa with Some (APoint x y) => test (x, y) | _ => Err TypeError end.
Fixpoint any_inside (test : Z * Z -> result bool) (l : list (option atom)) : result bool :=
  match l with
  | [] => Ok false
  | a :: l' => r <- test_atom test a ;; if r then Ok true else any_inside test l'
  end.
Definition op_inside (test : Z * Z -> result bool) (v : value) : result value :=
  _ <- CheckBaseTypes [base v; Some BPoint] ;;
  match v with
  | VSingle _ (Some a) => r <- test_atom test (Some a) ;; Ok (mkbool (Some r))
  | VOrdered _ (Some l) => r <- any_inside test l ;; Ok (mkbool (Some r))
  | VMultiple _ (Some m) => r <- any_inside test (map fst m) ;; Ok (mkbool (Some r))
  | VRecord _ => Err ProcessingError
  | _ => Ok (mkbool None)
  end.

(** 1248, 1277, 1306, 1335 LT, GT, LTE and GTE.Evaluate *)
Definition cmp_qc (op : cmpOp) (x y : Qc) : bool :=
  match op with
  | OpLT => qc_ltb x y
  | OpGT => qc_ltb y x
  | OpLTE => qc_leb x y
  | OpGTE => qc_leb y x
  end.
Definition op_compare (op : cmpOp) (vs : list value) : result value :=
  ' (_, v1, v2) <- two_numbers vs ;;
  if non_null v1 && non_null v2
  then x <- to_float v1 ;; y <- to_float v2 ;; Ok (mkbool (Some (cmp_qc op x y)))
  else Ok (mkbool None).
(** 1364-1377, 1394-1407 DurationLT.Evaluate, DurationGTE.Evaluate *)
Definition op_duration (op : cmpOp) (vs : list value) : result value :=
  ' (v1, v2) <- two vs ;;
  _ <- CheckBaseTypes [base v1; base v2; Some BDuration] ;;
  _ <- CheckCardinalities [card v1; card v2; Some CSingle] ;;
  if non_null v1 && non_null v2
  then x <- to_float v1 ;; y <- to_float v2 ;; Ok (mkbool (Some (cmp_qc op x y)))
  else Ok (mkbool None).

(** 1423-1445 Sum.Evaluate, 1461-1483 Product.Evaluate *)
Fixpoint num_loop {A} (conv : value -> result A) (op : A -> A -> A) (acc : A) (vs : list value)
  : result (option A) :=
  match vs with
  | [] => Ok (Some acc)
  | v :: vs' => if non_null v then x <- conv v ;; num_loop conv op (op acc x) vs' else Ok None
  end.
Definition op_fold (zop : Z -> Z -> Z) (zunit : Z) (qop : Qc -> Qc -> Qc) (qunit : Qc)
    (vs : list value) : result value :=
  match vs with
  | [] => Err ProcessingError
  | _ =>
      _ <- CheckCardinalities (map card vs ++ [Some CSingle]) ;;
      b <- CheckNumericalTypes (map base vs) ;;
      match b with
      | None => Ok (VSingle None None)
      | Some BFloat => r <- num_loop to_float qop qunit vs ;; Ok (mkfloat r)
      | Some _ => r <- num_loop to_int zop zunit vs ;; mkint r
      end
  end.
Definition op_sum := op_fold Z.add 0 Qcplus q0.
Definition op_product := op_fold Z.mul 1 Qcmult q1.

(** 1499-1521 Subtract.Evaluate *)
Definition op_subtract (vs : list value) : result value :=
  ' (b, v1, v2) <- two_numbers vs ;;
  match b with
  | None => Ok (VSingle None None)
  | Some BFloat =>
      if non_null v1 && non_null v2
      then x <- to_float v1 ;; y <- to_float v2 ;; Ok (mkfloat (Some (Qcminus x y)))
      else Ok (mkfloat None)
  | Some _ =>
      if non_null v1 && non_null v2
      then x <- to_int v1 ;; y <- to_int v2 ;; mkint (Some (x - y))
      else mkint None
  end.
(** 1536-1554 Divide.Evaluate *)
Definition op_divide (vs : list value) : result value :=
  ' (_, v1, v2) <- two_numbers vs ;;
  if non_null v1 && non_null v2
  then x <- to_float v1 ;; y <- to_float v2 ;;
       if qc_eqb y q0 then Ok (mkfloat None) else Ok (mkfloat (Some (Qcdiv x y)))
  else Ok (mkfloat None).
(** 1569-1587 Power.Evaluate *)
Definition op_power (vs : list value) : result value :=
  ' (_, v1, v2) <- two_numbers vs ;;
  if non_null v1 && non_null v2
  then x <- to_float v1 ;; y <- to_float v2 ;;
       match x_pow x y with
       | Ok q => Ok (mkfloat (Some q))
       | Err ValueError => Ok (mkfloat None)
       | Err e => Err e
       end
  else Ok (mkfloat None).
(** 1603-1616, 1633-1646 IntegerDivide.Evaluate, IntegerModulus.Evaluate *)
Definition op_integer (f : Z -> Z -> Z) (vs : list value) : result value :=
  ' (v1, v2) <- two vs ;;
  _ <- CheckBaseTypes [base v1; base v2; Some BInteger] ;;
  _ <- CheckCardinalities [card v1; card v2; Some CSingle] ;;
  if non_null v1 && non_null v2
  then x <- to_int v1 ;; y <- to_int v2 ;;
       if y =? 0 then mkint None else mkint (Some (f x y))
  else mkint None.
(** 1661-1668 Truncate.Evaluate, 1684-1691 Round.Evaluate, 1706-1713 IntegerToFloat.Evaluate *)
Definition qc_trunc (q : Qc) : Z := Z.quot (Qnum q) (Zpos (Qden q)).
Definition qc_floor (q : Qc) : Z := Qfloor q.
Definition half : Qc := Q2Qc (1 # 2).
Definition op_to_integer (f : Qc -> Z) (v : value) : result value :=
  _ <- CheckBaseTypes [base v; Some BFloat] ;;
  _ <- CheckCardinalities [card v; Some CSingle] ;;
  if non_null v then q <- to_float v ;; mkint (Some (f q)) else mkint None.
Definition op_truncate := op_to_integer qc_trunc.
Definition op_round := op_to_integer (fun q => qc_floor (Qcplus q half)).
Definition op_integer_to_float (v : value) : result value :=
  _ <- CheckBaseTypes [base v; Some BInteger] ;;
  _ <- CheckCardinalities [card v; Some CSingle] ;;
  if non_null v then q <- to_float v ;; Ok (mkfloat (Some q)) else Ok (mkfloat None).

Definition catch_key {A} (r : result A) : result A :=
  match r with Err KeyError => Err ProcessingError | _ => r end.
Definition DEFAULT (id : str) : str := id ++ lit ".DEFAULT".
Definition CORRECT (id : str) : str := id ++ lit ".CORRECT".

(** 128-132, 149-154, 173-183, 202-214, 232-247 the expressions that look up a variable *)
Definition ev_variable (st : state) (id : str) : result value := catch_key (get_var st id).
Definition ev_default (st : state) (id : str) : result value :=
  catch_key (_ <- GetDeclaration st id ;; get_var st (DEFAULT id)).
Definition ev_correct (st : state) (id : str) : result value :=
  catch_key (d <- GetDeclaration st id ;;
             if is_response d then get_var st (CORRECT id) else Err ProcessingError).
Definition ev_map_response (st : state) (id : str) : result value :=
  catch_key (d <- GetDeclaration st id ;;
             match d with
             | Some d =>
                 match d_kind d with
                 | KResponse _ (Some m) _ => v <- get_var st id ;; MapValue m v
                 | _ => Err ProcessingError
                 end
             | None => Err ProcessingError
             end).
Definition ev_map_response_point (st : state) (id : str) : result value :=
  catch_key (d <- GetDeclaration st id ;;
             match d with
             | Some d =>
                 match d_kind d with
                 | KResponse _ _ a =>
                     if negb (opt_eqb baseType_eqb (d_base d) (Some BPoint)) then Err ProcessingError
                     else match a with
                          | Some a => v <- get_var st id ;; AreaMapValue a v
                          | None => Err ProcessingError
                          end
                 | _ => Err ProcessingError
                 end
             | None => Err ProcessingError
             end).

(** 328-332 EvaluateChildren *)
Definition mapM {A B} (f : A -> result B) : list A -> result (list B) :=
  fix go l := match l with
              | [] => Ok []
              | x :: l' => y <- f x ;; ys <- go l' ;; Ok (y :: ys)
              end.

(** Evaluate *)
Fixpoint eval (st : state) (e : expr) {struct e} : result value :=
  match e with
  | EBaseValue bt text => new_single bt (Some (RText text))          (* 105-106 *)
  | EVariable id => ev_variable st id
  | EDefault id => ev_default st id
  | ECorrect id => ev_correct st id
  | EMapResponse id => ev_map_response st id
  | EMapResponsePoint id => ev_map_response_point st id
  | ENull => Ok VNull                                                (* 259-260 *)
  | ERandomInteger mn mx step draw => op_random_integer mn mx step draw
  | ERandomFloat mn mx draw => op_random_float mn mx draw
  | EMultiple es => vs <- mapM (eval st) es ;; op_multiple vs
  | EOrdered es => vs <- mapM (eval st) es ;; op_ordered vs
  | EContainerSize e => v <- eval st e ;; op_container_size v
  | EIsNull e => v <- eval st e ;; op_is_null v
  | EIndex n e => v <- eval st e ;; op_index n v
  | EFieldValue f e => v <- eval st e ;; op_field_value f v
  | ERandom draw e => v <- eval st e ;; op_random draw v
  | EMember es => vs <- mapM (eval st) es ;; op_member vs
  | EDelete es => vs <- mapM (eval st) es ;; op_delete vs
  | EContains es => vs <- mapM (eval st) es ;; op_contains vs
  | ESubString cs es => vs <- mapM (eval st) es ;; op_string_match cs true vs
  | ENot e => v <- eval st e ;; op_not v
  | EAnd es => vs <- mapM (eval st) es ;; op_and vs
  | EOr es => vs <- mapM (eval st) es ;; op_or vs
  | EAnyN mn mx es =>
      a <- IntegerOrTemplateRef mn ;; b <- IntegerOrTemplateRef mx ;;
      vs <- mapM (eval st) es ;; op_anyn a b vs
  | EMatch es => vs <- mapM (eval st) es ;; op_match vs
  | EStringMatch cs sub es => vs <- mapM (eval st) es ;; op_string_match cs sub vs
  | EPatternMatch p e => p' <- StringOrTemplateRef p ;; v <- eval st e ;; op_pattern_match p' v
  | EEqual mode tol li ui es => vs <- mapM (eval st) es ;; op_equal mode tol li ui vs
  | EEqualRounded mode figs es => vs <- mapM (eval st) es ;; op_equal_rounded mode figs vs
  | EInside test e => v <- eval st e ;; op_inside test v
  | ECompare op es => vs <- mapM (eval st) es ;; op_compare op vs
  | EDurationLT es => vs <- mapM (eval st) es ;; op_duration OpLT vs
  | EDurationGTE es => vs <- mapM (eval st) es ;; op_duration OpGTE vs
  | ESum es => vs <- mapM (eval st) es ;; op_sum vs
  | EProduct es => vs <- mapM (eval st) es ;; op_product vs
  | ESubtract es => vs <- mapM (eval st) es ;; op_subtract vs
  | EDivide es => vs <- mapM (eval st) es ;; op_divide vs
  | EPower es => vs <- mapM (eval st) es ;; op_power vs
  | EIntegerDivide es => vs <- mapM (eval st) es ;; op_integer Z.div vs
  | EIntegerModulus es => vs <- mapM (eval st) es ;; op_integer Z.modulo vs
  | ETruncate e => v <- eval st e ;; op_truncate v
  | ERound e => v <- eval st e ;; op_round v
  | EIntegerToFloat e => v <- eval st e ;; op_integer_to_float v
  | ECustomOperator _ => Err ProcessingError                         (* 1739-1741 *)
  end.

End Exprs.
