(** The types of values: more of the specification of OdEval.v *)
From Coq Require Import ZArith Reals QArith List String Floats.SpecFloat.
From Flocq Require Import Core BinarySingleNaN.
From Verif Require Import Py Iso IsoSpec OdExpr OdEval OdEvalSpec OdEvalSpecF.
Import ListNotations.
Open Scope Z_scope.

(** Python's value [v] is one of the EDM type [t] *)
Definition of_type (t : edm_type) (v : pyv) : Prop :=
  match v with
  | PBool _ => t = TBoolean
  | PInt n => in_type t n
  | PStr _ => t = TString
  | PBytes _ => t = TBinary
  | PX (XD d) => t = TDecimal /\ dec_ok d
  | PX (XF f) => valid f /\ (t = TDouble \/ t = TSingle /\ (finite f -> (Rabs (real f) <= IZR single_max)%R))
  | PX (XT _) => t = TDateTime \/ t = TDateTimeOffset
  | PX (XC _) => t = TTime
  | PX (XG _) => t = TGuid
  end.
(** a SimpleValue: NULL, or a value of its type *)
Definition typed (v : simple) : Prop :=
  match v_val v with
  | None => True
  | Some x => match v_type v with Some t => of_type t x | None => False end
  end.
Section T.
Variable E : Type.
Inductive well : data E -> Prop :=
| W_simple : forall v, typed v -> well (DSimple E v)
| W_complex : forall fs, Forall (fun p => well (snd p)) fs -> well (DComplex E fs)
| W_entity : forall e, well (DEntity E e).
End T.
(** every literal of an expression *)
Inductive literals (P : simple -> Prop) : expr ext -> Prop :=
| L_lit : forall v, P v -> literals P (ELit v)
| L_prop : forall n, literals P (EProp n)
| L_call : forall m args, (forall e, In e args -> literals P e) -> literals P (ECall m args)
| L_op : forall u o ops, (forall e, In (Some e) ops -> literals P e) -> literals P (EOp u o ops).
(** the type that two operands are promoted to; a NULL may have no type *)
Definition promoted (a b : option edm_type) (t : edm_type) : Prop :=
  match a, b with
  | Some a, Some b => joins a b t
  | Some a, None => t = a
  | None, Some b => t = b
  | None, None => False
  end.
Definition arithmetic_types : list edm_type := [TInt32; TInt64; TDecimal; TSingle; TDouble].
(** The methods with the types of their parameters and of their results *)
Definition signatures : list (string * list edm_type * edm_type) :=
  [("endswith", [TString; TString], TBoolean); ("indexof", [TString; TString], TInt32);
   ("replace", [TString; TString; TString], TString); ("startswith", [TString; TString], TBoolean);
   ("tolower", [TString], TString); ("toupper", [TString], TString); ("trim", [TString], TString);
   ("substring", [TString; TInt32], TString); ("substringof", [TString; TString], TBoolean);
   ("concat", [TString; TString], TString); ("length", [TString], TInt32);
   ("year", [TDateTime], TInt32); ("month", [TDateTime], TInt32); ("day", [TDateTime], TInt32);
   ("hour", [TDateTime], TInt32); ("minute", [TDateTime], TInt32); ("second", [TDateTime], TInt32);
   ("round", [TDecimal], TDecimal); ("floor", [TDecimal], TDecimal); ("ceiling", [TDecimal], TDecimal);
   ("round", [TDouble], TDouble); ("floor", [TDouble], TDouble); ("ceiling", [TDouble], TDouble)]%string.
Section Paths.
Variable E : Type.
Variable property : E -> str -> option (field E).
(** from a value to one of its members: a property of an entity, a navigation property to an entity, a
    field of a complex value *)
Inductive member : data E -> str -> data E -> Prop :=
| M_data : forall e n d, property e n = Some (FData E d) -> member (DEntity E e) n d
| M_one : forall e n e', property e n = Some (FOne E (Ok (Some e'))) -> member (DEntity E e) n (DEntity E e')
| M_none : forall e n, property e n = Some (FOne E (Ok None)) -> member (DEntity E e) n (null_v None)
| M_field : forall fs gs n d, (forall p, In p fs -> fst p <> n) -> member (DComplex E (fs ++ (n, d) :: gs)) n d.
Inductive path : data E -> list str -> data E -> Prop :=
| P_end : forall d n d', member d n d' -> path d [n] d'
| P_step : forall d n d' l d'', member d n d' -> path d' l d'' -> path d (n :: l) d''.
End Paths.
(** n1/n2/...: the operator associates to the left *)
Definition path_expr (n : str) (l : list str) : expr ext := fold_left (fun e m => bin OMember e (EProp m)) l (EProp n).
(** the methods that round, for rational and for real numbers *)
Definition roundings : list (string * (Q -> Z -> Prop) * (R -> Z)) :=
  [("floor", is_floor, Zfloor); ("ceiling", is_ceiling, Zceil); ("round", is_round_up, ZnearestE)]%string.
(** a Boolean, or NULL *)
Definition truth_value {E} (d : data E) (b : option bool) : Prop :=
  match b with Some b => d = bool_v b | None => d = null_v (Some TBoolean) \/ d = null_v None end.
(** a date and a time of day without a time zone *)
Definition moment (y m d h mi s : Z) : timepoint := mkTP (of_ymd y m d) (mkTime h (Some mi) (Some s) None None).
Definition part (name : string) (y m d h mi s : Z) : option Z :=
  (if name =? "year" then Some y else if name =? "month" then Some m else if name =? "day" then Some d
   else if name =? "hour" then Some h else if name =? "minute" then Some mi else if name =? "second" then Some s else None)%string.
Definition parts : list string := ["year"; "month"; "day"; "hour"; "minute"; "second"]%string.
(** the name of a type in the EDM *)
Definition edm_name (t : edm_type) : str := lit "Edm." ++
  match t with
  | TBinary => lit "Binary" | TBoolean => lit "Boolean" | TByte => lit "Byte" | TDateTime => lit "DateTime"
  | TDateTimeOffset => lit "DateTimeOffset" | TTime => lit "Time" | TDecimal => lit "Decimal" | TDouble => lit "Double"
  | TSingle => lit "Single" | TGuid => lit "Guid" | TInt16 => lit "Int16" | TInt32 => lit "Int32" | TInt64 => lit "Int64"
  | TString => lit "String" | TSByte => lit "SByte"
  end.
Definition type_text (t : edm_type) : expr ext := ELit (mkV (Some TString) (Some (PStr (edm_name t)))).
