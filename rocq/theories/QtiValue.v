(** Model of pyslet/pyslet/qtiv2/variables.py 28-978: base types, cardinalities and the value
    classes of QTI processing.

    Simplifications.
    - A Python float is an exact rational number ([Qc]): there is no rounding, infinity or NaN.
    - A value of base type uri or file has no content in the model: setting one from a
      non-NULL payload gives [Err Unmodelled] (uri) or Python's own exception (file).
    - A dictionary is a list of pairs in insertion order.  The order of a Python dictionary is
      only observable through a random draw.
    - [xmlns.IsValidNCName], [xsi.DecodeDouble] and the other functions of [Ext] are
      parameters: every theorem holds whatever they compute. *)
From Coq Require Import QArith Qcanon.
From Verif Require Import Py Dec XmlUtils Xsd.
Open Scope Z_scope.
Open Scope list_scope.

Class Ext := {
  x_ncname : str -> bool;                 (* xmlnames20091208.py 17-26 IsValidNCName *)
  x_double : str -> result Qc;            (* xsdatatypes20041028.py DecodeDouble *)
  x_lower : str -> str;                   (* unicode.lower *)
  x_match : str -> str -> option bool;    (* RegularExpression(p).Match(s); None: illegal p *)
  x_pow : Qc -> Qc -> result Qc;          (* math.pow *)
  x_decimal : Qc -> Z -> result str;      (* xsi.EncodeDecimal(v,figures,False) *)
  x_encdouble : Qc -> Z -> result str     (* xsi.EncodeDouble(v,digits) *)
}.

(** 28-76 BaseType *)
Inductive baseType : Set :=
| BBoolean | BDirectedPair | BDuration | BFile | BFloat | BIdentifier | BInteger | BPair
| BPoint | BString | BUri.
(** 114-145 Cardinality *)
Inductive cardinality : Set := CMultiple | COrdered | CRecord | CSingle.

Definition baseType_eqb (a b : baseType) : bool :=
  match a, b with
  | BBoolean, BBoolean | BDirectedPair, BDirectedPair | BDuration, BDuration | BFile, BFile
  | BFloat, BFloat | BIdentifier, BIdentifier | BInteger, BInteger | BPair, BPair
  | BPoint, BPoint | BString, BString | BUri, BUri => true
  | _, _ => false
  end.
Definition cardinality_eqb (a b : cardinality) : bool :=
  match a, b with
  | CMultiple, CMultiple | COrdered, COrdered | CRecord, CRecord | CSingle, CSingle => true
  | _, _ => false
  end.
Definition opt_eqb {A} (eqb : A -> A -> bool) (a b : option A) : bool :=
  match a, b with
  | Some x, Some y => eqb x y
  | None, None => true
  | _, _ => false
  end.

(** 79-93 CheckBaseTypes: [ret] is the variable bReturn *)
Fixpoint check_bases (ret : option baseType) (l : list (option baseType))
  : result (option baseType) :=
  match l with
  | [] => Ok ret
  | None :: l' => check_bases ret l'
  | Some b :: l' =>
      match ret with
      | None => check_bases (Some b) l'
      | Some r => if baseType_eqb b r then check_bases ret l' else Err ProcessingError
      end
  end.
Definition CheckBaseTypes := check_bases None.

(** 96-111 CheckNumericalTypes *)
Definition numeric (b : baseType) : bool :=
  match b with BFloat | BInteger => true | _ => false end.
Fixpoint check_numeric (ret : option baseType) (l : list (option baseType))
  : result (option baseType) :=
  match l with
  | [] => Ok ret
  | None :: l' => check_numeric ret l'
  | Some b :: l' =>
      if negb (numeric b) then Err ProcessingError
      else match ret with
           | None => check_numeric (Some b) l'
           | Some r => if baseType_eqb b r then check_numeric ret l'
                       else check_numeric (Some BFloat) l'
           end
  end.
Definition CheckNumericalTypes := check_numeric None.

(** 148-163 CheckCardinalities *)
Fixpoint check_cards (ret : option cardinality) (l : list (option cardinality))
  : result (option cardinality) :=
  match l with
  | [] => Ok ret
  | None :: l' => check_cards ret l'
  | Some c :: l' =>
      match ret with
      | None => check_cards (Some c) l'
      | Some r => if cardinality_eqb c r then check_cards ret l' else Err ProcessingError
      end
  end.
Definition CheckCardinalities := check_cards None.

(** 226-275 the Python representation of single values, as the attribute [value] of an
    instance of the class named beside each constructor *)
Inductive atom : Type :=
| ABool (b : bool)                (* BooleanValue *)
| ADPair (a b : str)              (* DirectedPairValue *)
| AFloat (q : Qc)                 (* FloatValue, DurationValue *)
| AIdent (s : str)                (* IdentifierValue *)
| AInt (n : Z)                    (* IntegerValue *)
| APair (a b : str)               (* PairValue *)
| APoint (x y : Z)                (* PointValue *)
| AStr (s : str).                 (* StringValue *)

Definition qc_eqb (a b : Qc) : bool := Qc_eq_bool a b.
Definition qc_ltb (a b : Qc) : bool := match Qccompare a b with Lt => true | _ => false end.
Definition qc_leb (a b : Qc) : bool := match Qccompare a b with Gt => false | _ => true end.

(** Python [==] between two values of the same base type *)
Definition atom_eqb (a b : atom) : bool :=
  match a, b with
  | ABool x, ABool y => Bool.eqb x y
  | ADPair a1 a2, ADPair b1 b2 | APair a1 a2, APair b1 b2 => str_eqb a1 b1 && str_eqb a2 b2
  | AFloat x, AFloat y => qc_eqb x y
  | AIdent s, AIdent t | AStr s, AStr t => str_eqb s t
  | AInt x, AInt y => x =? y
  | APoint x1 y1, APoint x2 y2 => (x1 =? x2) && (y1 =? y2)
  | _, _ => false
  end.
Definition oatom_eqb := opt_eqb atom_eqb.

(** The non-None Python objects passed to SetValue and NewValue *)
Inductive raw : Type :=
| RBool (b : bool)
| RInt (n : Z)
| RFloat (q : Qc)
| RText (s : str)
| RStrs (l : list str)            (* list or tuple of strings *)
| RInts (l : list Z).             (* list or tuple of integers *)

Definition raw_of (a : atom) : raw :=
  match a with
  | ABool b => RBool b
  | ADPair a b | APair a b => RStrs [a; b]
  | AFloat q => RFloat q
  | AIdent s | AStr s => RText s
  | AInt n => RInt n
  | APoint x y => RInts [x; y]
  end.

(** 633, 687 the 32-bit range *)
Definition in_range (n : Z) : bool := (-2147483648 <=? n) && (n <=? 2147483647).

(** Python [<] on strings *)
Fixpoint str_ltb (s t : str) : bool :=
  match s, t with
  | _, [] => false
  | [], _ :: _ => true
  | a :: s', b :: t' => if a <? b then true else if b <? a then false else str_ltb s' t'
  end.

Section Values.
Context {X : Ext}.

(** 473-479 DirectedPairValue.SetValue on a sequence of strings *)
Definition pair_of (nameCheck : bool) (l : list str) : result (str * str) :=
  match l with
  | [a; b] =>
      if nameCheck && (negb (x_ncname a) || negb (x_ncname b)) then Err ValueError
      else Ok (a, b)
  | _ => Err ValueError
  end.

(** 681-689 PointValue.SetValue on a sequence of integers *)
Definition point_of (l : list Z) : result atom :=
  match l with
  | [x; y] => if in_range x && in_range y then Ok (APoint x y) else Err ValueError
  | _ => Err ValueError
  end.

(** 656-657 the ordering of the two identifiers of a pair *)
Definition sorted_pair (a b : str) : atom := if str_ltb b a then APair b a else APair a b.

(** SetValue of the single value classes on a non-None argument (435-444, 467-481, 514-526,
    552-559, 597-605, 629-640, 652-657, 676-691, 710-717, 737-744); [None] is a NULL value *)
Definition parse_single (bt : baseType) (r : raw) : result (option atom) :=
  match bt with
  | BBoolean =>
      match r with
      | RBool b => Ok (Some (ABool b))
      | RInt n => Ok (Some (ABool (negb (n =? 0))))
      | RText s => ob <- DecodeBoolean (Some s) ;; Ok (option_map ABool ob)
      | _ => Err ValueError
      end
  | BDirectedPair =>
      match r with
      | RText s => ' (a, b) <- pair_of true (split_ws s) ;; Ok (Some (ADPair a b))
      | RStrs l => ' (a, b) <- pair_of false l ;; Ok (Some (ADPair a b))
      | _ => Err ValueError
      end
  | BPair =>
      match r with
      | RText s => ' (a, b) <- pair_of true (split_ws s) ;; Ok (Some (sorted_pair a b))
      | RStrs l => ' (a, b) <- pair_of true l ;; Ok (Some (sorted_pair a b))
      | _ => Err ValueError
      end
  | BDuration | BFloat =>
      match r with
      | RFloat q => Ok (Some (AFloat q))
      | RText s => q <- x_double s ;; Ok (Some (AFloat q))
      | _ => Err ValueError
      end
  | BFile => Err TypeError
  | BIdentifier =>
      match r with
      | RText s => if x_ncname s then Ok (Some (AIdent s)) else Err ValueError
      | _ => Err ValueError
      end
  | BInteger =>
      match r with
      | RInt n => if in_range n then Ok (Some (AInt n)) else Err ValueError
      | RText s => n <- DecodeInteger s ;; Ok (Some (AInt n))
      | _ => Err ValueError
      end
  | BPoint =>
      match r with
      | RText s => l <- map_result DecodeInteger (split_ws s) ;; a <- point_of l ;; Ok (Some a)
      | RInts l => a <- point_of l ;; Ok (Some a)
      | _ => Err ValueError
      end
  | BString =>
      match r with
      | RText [] => Ok None
      | RText s => Ok (Some (AStr s))
      | _ => Err ValueError
      end
  | BUri => match r with RText _ => Err Unmodelled | _ => Err ValueError end
  end.

End Values.

(** 204-372 Value and its subclasses.  [VNull] is an instance of Value itself: a NULL of
    unknown cardinality and base type; [VUnknown bt] an instance of Container. *)
Inductive value : Type :=
| VNull
| VUnknown (bt : option baseType)
| VSingle (bt : option baseType) (v : option atom)
| VOrdered (bt : option baseType) (v : option (list (option atom)))
| VMultiple (bt : option baseType) (v : option (list (option atom * Z)))
| VRecord (v : option (list (str * (baseType * atom)))).

(** 302-307 Cardinality, 212 baseType, 309-326 IsNull and __nonzero__ *)
Definition card (v : value) : option cardinality :=
  match v with
  | VNull | VUnknown _ => None
  | VSingle _ _ => Some CSingle
  | VOrdered _ _ => Some COrdered
  | VMultiple _ _ => Some CMultiple
  | VRecord _ => Some CRecord
  end.
Definition base (v : value) : option baseType :=
  match v with
  | VNull | VRecord _ => None
  | VUnknown bt | VSingle bt _ | VOrdered bt _ | VMultiple bt _ => bt
  end.
Definition non_null (v : value) : bool :=
  match v with
  | VNull | VUnknown _ | VSingle _ None | VOrdered _ None | VMultiple _ None | VRecord None => false
  | _ => true
  end.

(** Dictionaries keyed by Python values *)
Fixpoint aget {A} (k : option atom) (m : list (option atom * A)) : option A :=
  match m with
  | [] => None
  | (k', x) :: m' => if oatom_eqb k k' then Some x else aget k m'
  end.
Fixpoint aset {A} (k : option atom) (x : A) (m : list (option atom * A)) : list (option atom * A) :=
  match m with
  | [] => [(k, x)]
  | (k', y) :: m' => if oatom_eqb k k' then (k', x) :: m' else (k', y) :: aset k x m'
  end.
Definition acount (k : option atom) (m : list (option atom * Z)) : Z :=
  match aget k m with Some n => n | None => 0 end.
(** 865 self.value[v]=self.value.get(v,0)+1 *)
Definition aincr (k : option atom) (m : list (option atom * Z)) : list (option atom * Z) :=
  aset k (acount k m + 1) m.

(** Dictionaries keyed by strings *)
Fixpoint sset {A} (k : str) (x : A) (m : list (str * A)) : list (str * A) :=
  match m with
  | [] => [(k, x)]
  | (k', y) :: m' => if str_eqb k k' then (k', x) :: m' else (k', y) :: sset k x m'
  end.
Fixpoint sdel {A} (k : str) (m : list (str * A)) : list (str * A) :=
  match m with
  | [] => []
  | (k', y) :: m' => if str_eqb k k' then sdel k m' else (k', y) :: sdel k m'
  end.

Section Values2.
Context {X : Ext}.

(** 380-408 SingleValue.NewValue(baseType,value); FileValue takes no argument *)
Definition new_single (bt : option baseType) (r : option raw) : result value :=
  match bt with
  | None => Ok (VSingle None None)
  | Some BFile => Err TypeError
  | Some b =>
      match r with
      | None => Ok (VSingle bt None)
      | Some x => oa <- parse_single b x ;; Ok (VSingle bt oa)
      end
  end.

(** 352-364 Value.NewValue(cardinality,baseType) *)
Definition new_value (c : option cardinality) (bt : option baseType) : result value :=
  match c with
  | Some CSingle => new_single bt None
  | Some COrdered => Ok (VOrdered bt None)
  | Some CMultiple => Ok (VMultiple bt None)
  | Some CRecord => Ok (VRecord None)
  | None => Err ValueError
  end.

(** 775-787 Container.NewValue(cardinality,baseType) *)
Definition new_container (c : option cardinality) (bt : option baseType) : result value :=
  match c with
  | Some CSingle => Err ValueError
  | Some COrdered => Ok (VOrdered bt None)
  | Some CMultiple => Ok (VMultiple bt None)
  | Some CRecord => Ok (VRecord None)
  | None => Ok (VUnknown bt)
  end.

(** NewValue(baseType,v).value for one member of a container *)
Definition new_atom (bt : baseType) (r : raw) : result (option atom) :=
  match bt with BFile => Err TypeError | _ => parse_single bt r end.

(** 796-824 OrderedContainer.SetValue, on an iterable: the loop; the second component is the
    exception raised, if any, the first what self.value is then *)
Fixpoint ordered_loop (bt : option baseType) (acc : list (option atom)) (l : list (option raw))
  : list (option atom) * option exn :=
  match l with
  | [] => (acc, None)
  | None :: l' => ordered_loop bt acc l'
  | Some r :: l' =>
      match bt with
      | None => (acc, Some ValueError)
      | Some b =>
          match new_atom b r with
          | Ok a => ordered_loop bt (acc ++ [a]) l'
          | Err e => (acc, Some e)
          end
      end
  end.
Definition set_ordered (bt : option baseType) (l : list (option raw)) : value * option exn :=
  match ordered_loop bt [] l with
  | (vs, Some e) => (VOrdered bt (Some vs), Some e)
  | ([], None) => (VOrdered bt None, None)
  | (vs, None) => (VOrdered bt (Some vs), None)
  end.

(** 840-867 MultipleContainer.SetValue, on an iterable *)
Fixpoint multiple_loop (bt : option baseType) (acc : list (option atom * Z)) (l : list (option raw))
  : list (option atom * Z) * option exn :=
  match l with
  | [] => (acc, None)
  | None :: l' => multiple_loop bt acc l'
  | Some r :: l' =>
      match bt with
      | None => (acc, Some ValueError)
      | Some b =>
          match new_atom b r with
          | Ok a => multiple_loop bt (aincr a acc) l'
          | Err e => (acc, Some e)
          end
      end
  end.
Definition set_multiple (bt : option baseType) (l : list (option raw)) : value * option exn :=
  match multiple_loop bt [] l with
  | (vs, Some e) => (VMultiple bt (Some vs), Some e)
  | ([], None) => (VMultiple bt None, None)
  | (vs, None) => (VMultiple bt (Some vs), None)
  end.

(** The argument of the method SetValue *)
Inductive payload : Type :=
| PNone
| PRaw (r : raw)
| PList (l : list (option raw))
| PRec (l : list (str * (baseType * atom))).   (* a dictionary of non-NULL single values *)

(** The attribute [value], as an argument of SetValue.  Iterating over the dictionary of a
    multiple container gives its keys. *)
Definition payload_of (v : value) : payload :=
  match v with
  | VSingle _ (Some a) => PRaw (raw_of a)
  | VOrdered _ (Some l) => PList (map (option_map raw_of) l)
  | VMultiple _ (Some l) => PList (map (fun p => option_map raw_of (fst p)) l)
  | VRecord (Some l) => PRec l
  | _ => PNone
  end.

(** The method SetValue of every class (277-295 and as above; 889-920 RecordContainer).  A
    container set from a text iterates over its characters (not modelled), from a number or a
    pair it is outside the model too: no caller does that. *)
Definition set_value (v : value) (p : payload) : value * option exn :=
  match v, p with
  | VNull, PNone => (VNull, None)
  | VNull, _ => (v, Some ValueError)
  | VUnknown _, PNone => (v, None)
  | VUnknown _, _ => (v, Some ValueError)
  | VSingle bt _, PNone => (VSingle bt None, None)
  | VSingle None _, _ => (v, Some ValueError)
  | VSingle (Some b) _, PRaw r =>
      match parse_single b r with
      | Ok oa => (VSingle (Some b) oa, None)
      | Err e => (v, Some e)
      end
  | VSingle (Some BFile) _, _ => (v, Some TypeError)
  | VSingle (Some _) _, PRec _ => (v, Some ValueError)
  | VSingle (Some _) _, PList _ => (v, Some Unmodelled)
  | VOrdered bt _, PNone => (VOrdered bt None, None)
  | VOrdered bt _, PList l => set_ordered bt l
  | VOrdered _ _, _ => (v, Some Unmodelled)
  | VMultiple bt _, PNone => (VMultiple bt None, None)
  | VMultiple bt _, PList l => set_multiple bt l
  | VMultiple _ _, _ => (v, Some Unmodelled)
  | VRecord _, PNone => (VRecord None, None)
  | VRecord _, PRec [] => (VRecord None, None)
  | VRecord _, PRec l => (VRecord (Some l), None)
  | VRecord _, _ => (v, Some ValueError)
  end.

Definition finish (r : value * option exn) : result value :=
  match r with (v, None) => Ok v | (_, Some e) => Err e end.

(** 366-371 Value.CopyValue *)
Definition CopyValue (v : value) : result value :=
  w <- new_value (card v) (base v) ;; finish (set_value w (payload_of v)).

(** 937-960 RecordContainer.__setitem__ on a single value: a NULL deletes the field, and the
    dictionary may then be empty without being None *)
Definition record_set (f : str) (v : value) (m : option (list (str * (baseType * atom))))
  : result (option (list (str * (baseType * atom)))) :=
  match v with
  | VSingle (Some b) (Some a) =>
      match m with
      | None => Ok (Some [(f, (b, a))])
      | Some l => Ok (Some (sset f (b, a) l))
      end
  | VSingle _ _ => match m with None => Ok None | Some l => Ok (Some (sdel f l)) end
  | _ => Err NameError          (* the message uses an undefined name *)
  end.

(** 869-877 MultipleContainer.GetValues, 826-831 OrderedContainer.GetValues *)
Definition multiple_values (m : list (option atom * Z)) : list (option atom) :=
  flat_map (fun p => repeat (fst p) (Z.to_nat (snd p))) m.
Definition GetValues (v : value) : list (option atom) :=
  match v with
  | VOrdered _ (Some l) => l
  | VMultiple _ (Some m) => multiple_values m
  | _ => []
  end.

(** Python [==] on the attribute [value] *)
Fixpoint list_eqb {A} (eqb : A -> A -> bool) (l m : list A) : bool :=
  match l, m with
  | [], [] => true
  | x :: l', y :: m' => eqb x y && list_eqb eqb l' m'
  | _, _ => false
  end.
Definition dict_eqb (l m : list (option atom * Z)) : bool :=
  Nat.eqb (length l) (length m) &&
  forallb (fun p => match aget (fst p) m with Some n => n =? snd p | None => false end) l.
(** Comparing two records compares their fields with Value.__eq__, which raises for different
    base types and for durations (Python skips that when the two fields are one object). *)
Fixpoint record_eqb (l m : list (str * (baseType * atom))) : result bool :=
  match l with
  | [] => Ok true
  | (f, (b, a)) :: l' =>
      match assoc f m with
      | None => Ok false
      | Some (b', a') =>
          c <- CheckBaseTypes [Some b; Some b'] ;;
          if opt_eqb baseType_eqb c (Some BDuration) then Err ProcessingError
          else if atom_eqb a a' then record_eqb l' m else Ok false
      end
  end.
Definition py_eq (v w : value) : result bool :=
  match v, w with
  | VSingle _ (Some a), VSingle _ (Some b) => Ok (atom_eqb a b)
  | VOrdered _ (Some l), VOrdered _ (Some m) => Ok (list_eqb oatom_eqb l m)
  | VMultiple _ (Some l), VMultiple _ (Some m) => Ok (dict_eqb l m)
  | VRecord (Some l), VRecord (Some m) =>
      if Nat.eqb (length l) (length m) then record_eqb l m else Ok false
  | _, _ => Ok false
  end.

(** 330-343 Value.__eq__; [None] stands for NullResult(BooleanValue()) *)
Definition value_eq (v w : value) : result (option bool) :=
  _ <- CheckCardinalities [card v; card w] ;;
  b <- CheckBaseTypes [base v; base w] ;;
  if opt_eqb baseType_eqb b (Some BDuration) then Err ProcessingError
  else if non_null v && non_null w then r <- py_eq v w ;; Ok (Some r)
  else Ok None.

End Values2.
