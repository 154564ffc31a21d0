(** The rows that a condition of SQL selects, and the filters for which they should be the entities
    that the filter selects in memory. *)
From Verif Require Import Py Iso OdExpr OdEval OdEvalSpec SqlExpr SqlExprSpec.
Open Scope Z_scope.
Open Scope list_scope.

(** ** What a condition selects *)
(** LIKE: % stands for any text, _ for any character; [fold] is how letters are compared *)
Inductive likes (fold : Z -> Z) : str -> str -> Prop :=
| L_end : likes fold [] []
| L_any : forall p u s, likes fold p s -> likes fold (37 :: p) (u ++ s)
| L_one : forall p c s, likes fold p s -> likes fold (95 :: p) (c :: s)
| L_char : forall p c d s, c <> 37 -> c <> 95 -> fold c = fold d -> likes fold p s -> likes fold (c :: p) (d :: s).
Definition no_wildcard (p : str) : Prop := ~ In 37 p /\ ~ In 95 p.
Section Select.
Context {O : Type}.
(** how LIKE compares letters; the functions lower and upper *)
Variable fold low up : Z -> Z.
(** the values of the columns of a row; the parameters *)
Variable cols : list str -> option (@sqlv O).
Variable params : list (@sqlv O).
(** three values: None is unknown *)
Definition and3 (a b : option bool) : option bool :=
  match a, b with Some false, _ | _, Some false => Some false | Some true, Some true => Some true | _, _ => None end.
Definition or3 (a b : option bool) : option bool :=
  match a, b with Some true, _ | _, Some true => Some true | Some false, Some false => Some false | _, _ => None end.
Inductive is3 : @sqlv O -> option bool -> Prop :=
| I_null : is3 VNull None
| I_int : forall n, is3 (VInt n) (Some (negb (n =? 0))).
Definition of3 (a : option bool) : @sqlv O := match a with Some b => VInt (Z.b2z b) | None => VNull end.
Definition relations : list (operator * bop) := [(OEq, BEq); (ONe, BNe); (OLt, BLt); (OGt, BGt); (OLe, BLe); (OGe, BGe)].
Definition arithmetics : list (operator * bop) := [(OAdd, BPlus); (OSub, BMinus); (OMul, BTimes)].
(** the value of an operator: texts and integers of 64 bits *)
Inductive gives : bop -> @sqlv O -> @sqlv O -> @sqlv O -> Prop :=
| V_and : forall x y a b, is3 x a -> is3 y b -> gives BAnd x y (of3 (and3 a b))
| V_or : forall x y a b, is3 x a -> is3 y b -> gives BOr x y (of3 (or3 a b))
| V_left_null : forall o y, o <> BAnd -> o <> BOr -> o <> BConcat -> gives o VNull y VNull
| V_right_null : forall o x, o <> BAnd -> o <> BOr -> o <> BConcat -> gives o x VNull VNull
| V_rel_ints : forall q o x y b, In (q, o) relations -> (b = true <-> z_rel q x y) -> gives o (VInt x) (VInt y) (VInt (Z.b2z b))
| V_rel_texts : forall q o s t b, In (q, o) relations -> (b = true <-> s_rel q s t) -> gives o (VText s) (VText t) (VInt (Z.b2z b))
| V_arith : forall q o x y, In (q, o) arithmetics -> in_type TInt64 (z_op q x y) -> gives o (VInt x) (VInt y) (VInt (z_op q x y))
| V_divide : forall x y, y <> 0 -> gives BDivide (VInt x) (VInt y) (VInt (Z.quot x y))
| V_divide_0 : forall x, gives BDivide (VInt x) (VInt 0) VNull
| V_concat : forall s t, gives BConcat (VText s) (VText t) (VText (s ++ t))
| V_concat_left : forall y, y = VNull \/ (exists t, y = VText t) -> gives BConcat VNull y VNull
| V_concat_right : forall s, gives BConcat (VText s) VNull VNull
| V_like : forall s p b, (b = true <-> likes fold p s) -> gives BLike (VText s) (VText p) (VInt (Z.b2z b)).
Definition length_names : list str := [lit "length"; lit "CHAR_LENGTH"].
Definition lower_names : list str := [lit "lower"; lit "LOWER"].
Definition upper_names : list str := [lit "upper"; lit "UPPER"].
Inductive evaluates : sql -> @sqlv O -> Prop :=
| X_col : forall c v, cols c = Some v -> evaluates (SCol c) v
| X_mark : forall k v, nth_error params k = Some v -> evaluates (SMark k) v
| X_str : forall s, evaluates (SStr s) (VText s)
| X_bin : forall o a b x y z, evaluates a x -> evaluates b y -> gives o x y z -> evaluates (SBin o a b) z
| X_length : forall f a s, In f length_names -> evaluates a (VText s) -> evaluates (SFun f a) (VInt (Z.of_nat (length s)))
| X_lower : forall f a s, In f lower_names -> evaluates a (VText s) -> evaluates (SFun f a) (VText (map low s))
| X_upper : forall f a s, In f upper_names -> evaluates a (VText s) -> evaluates (SFun f a) (VText (map up s))
| X_null : forall f a, In f (length_names ++ lower_names ++ upper_names) -> evaluates a VNull -> evaluates (SFun f a) VNull
| X_position : forall a b s t i, evaluates a (VText s) -> evaluates b (VText t) -> first_place s t i -> evaluates (SPosition a b) (VInt (i + 1)).
(** the row is in the result of the query *)
Definition selected (t : sql) : Prop := exists n, evaluates t (VInt n) /\ n <> 0.
End Select.

(** *** Filters for which the database and the memory should agree *)
Section Covered.
Context {E O : Type}.
(** the value of an expression in memory, for some entity *)
Variable Ev : expr ext -> result (data E).
(** how LIKE compares letters *)
Variable fold : Z -> Z.
Definition case_sensitive : Prop := forall c d, fold c = fold d -> c = d.
(** how the values of an entity are stored in its row *)
Inductive stored : data E -> @sqlv O -> Prop :=
| W_int : forall t n, in_type t n -> stored (int_v t n) (VInt n)
| W_text : forall s, stored (str_v s) (VText s)
| W_bool : forall b, stored (bool_v b) (VInt (Z.b2z b))
| W_null : forall t, stored (null_v t) VNull.
(** the row of the entity *)
Definition row_of (column : list str -> list str -> Prop) (cols : list str -> option (@sqlv O)) : Prop :=
  forall e path c d w, path_of e path -> column path c -> Ev e = Ok d -> stored d w -> cols c = Some w.
Definition not_null (e : expr ext) : Prop := forall t, Ev e <> Ok (null_v t).
Definition is_number (e : expr ext) : Prop := forall d, Ev e = Ok d -> exists t v, In t ints /\ d = DSimple E (mkV (Some t) v).
Definition text_methods : list string := ["tolower"; "toupper"; "length"]%string.
Inductive covered : expr ext -> Prop :=
| K_literal : forall v w, stored (DSimple E v) w -> covered (ELit v)
| K_column : forall e path, path_of e path -> (forall d, Ev e = Ok d -> exists w, stored d w) -> covered e
| K_sum : forall o a b, In o sums -> covered a -> covered b -> covered (bin o a b)
| K_order : forall o a b, In o [OLt; OGt; OLe; OGe] -> covered a -> covered b ->
    (not_null a /\ not_null b) \/ is_number a \/ is_number b -> covered (bin o a b)
| K_eq : forall a b, covered a -> covered b -> not_null a \/ not_null b -> covered (bin OEq a b)
| K_ne : forall a b, covered a -> covered b -> not_null a -> not_null b -> covered (bin ONe a b)
| K_and : forall a b, covered a -> covered b -> covered (bin OAnd a b)
| K_or : forall a b, covered a -> covered b -> not_null a -> not_null b -> covered (bin OOr a b)
| K_method : forall m a, In m text_methods -> covered a -> covered (call m [a])
| K_concat : forall a b, covered a -> covered b -> covered (call "concat" [a; b])
| K_like : forall m a b, case_sensitive -> In m ["startswith"; "endswith"]%string -> covered a -> covered b ->
    (forall p, Ev b = Ok (str_v p) -> no_wildcard p) -> covered (call m [a; b])
| K_substringof : forall a b, case_sensitive -> covered a -> covered b ->
    (forall p, Ev a = Ok (str_v p) -> no_wildcard p) -> covered (call "substringof" [a; b]).
End Covered.

(** ** Conditions of a query *)
(** the same expression with other literals *)
Inductive alike : expr ext -> expr ext -> Prop :=
| A_literal : forall v w, alike (ELit v) (ELit w)
| A_property : forall n, alike (EProp n) (EProp n)
| A_call : forall m l l', Forall2 alike l l' -> alike (ECall m l) (ECall m l')
| A_op : forall u o l l', Forall2 alike_operand l l' -> alike (EOp u o l) (EOp u o l')
with alike_operand : option (expr ext) -> option (expr ext) -> Prop :=
| A_none : alike_operand None None
| A_some : forall a b, alike a b -> alike_operand (Some a) (Some b).
Section Where.
Context {O : Type}.
Variable prepared : simple -> @sqlv O -> Prop.
Variable params : list (@sqlv O).
Definition param_at (k : nat) (v : simple) : Prop := exists p, prepared v p /\ nth_error params k = Some p.
(** the column of a key has its value *)
Inductive key_test (names : list str -> option str) : str * simple -> sql -> Prop :=
| Q_key : forall k v c name i, names [k] = Some c -> quoted_as c name -> param_at i v ->
    key_test names (k, v) (SBin BEq (SCol [name]) (SMark i)).
(** the row comes after the one with these values; true is for DESC *)
Inductive beyond : list (sql * bool) -> list simple -> sql -> Prop :=
| Q_last : forall c (desc : bool) v more i, param_at i v ->
    beyond [(c, desc)] (v :: more) (SBin (if desc then BLt else BGt) c (SMark i))
| Q_more : forall c (desc : bool) l v vs t i j, l <> [] -> param_at i v -> param_at j v -> beyond l vs t ->
    beyond ((c, desc) :: l) (v :: vs) (SBin BOr (SBin (if desc then BLt else BGt) c (SMark i)) (SBin BAnd (SBin BEq c (SMark j)) t)).
End Where.
(** the text of a column in ORDER BY: in quotes, with the table, or an alias *)
Inductive column_text : str -> sql -> Prop :=
| Y_column : forall c name, quoted_as c name -> column_text c (SCol [name])
| Y_qualified : forall c name t tn, quoted_as c name -> quoted_as t tn -> column_text (t ++ [46] ++ c) (SCol [tn; name])
| Y_alias : forall c w, letter c = true -> forallb word_char w = true -> as_op (KWord (c :: w)) = None -> column_text (c :: w) (SName (c :: w)).
Definition all_of (t : sql) (l : list sql) : sql := fold_left (SBin BAnd) l t.
Definition same_columns (names : list (str * bool)) (cols : list (sql * bool)) : Prop :=
  Forall2 (fun n c => column_text (fst n) (fst c) /\ snd n = snd c) names cols.
(** nothing for a part that is not there *)
Definition opt {A} (P : A -> sql -> Prop) (x : option A) (l : list sql) : Prop :=
  match x with None => l = [] | Some a => exists t, l = [t] /\ P a t end.
(** the same condition with other values *)
Definition alike_keys (k k' : option (list (str * simple))) : Prop :=
  match k, k' with Some l, Some l' => map fst l = map fst l' | None, None => True | _, _ => False end.
Definition alike_token (k k' : option (list simple)) : Prop :=
  match k, k' with Some l, Some l' => length l = length l' | None, None => True | _, _ => False end.
Definition alike_filter (f f' : option (expr ext)) : Prop := match f, f' with Some a, Some b => alike a b | None, None => True | _, _ => False end.
Definition skip_of (names : list (str * bool)) (t : option (list simple)) := match t with Some t => Some (names, t) | None => None end.

(** ** The filters that can be translated *)
(** a simple property, or a simple property of a complex one, ... *)
Inductive simple_at : list (str * pdef) -> list str -> Prop :=
| Z_here : forall t n, declared t n = Some PSimple -> simple_at t [n]
| Z_inside : forall t n fs p, declared t n = Some (PComplex fs) -> simple_at fs p -> simple_at t (n :: p).
Inductive supported {O} (prepared : simple -> @sqlv O -> Prop) (names : list str -> option str) (t : list (str * pdef)) : expr ext -> Prop :=
| Y_literal : forall v p, prepared v p -> supported prepared names t (ELit v)
| Y_property : forall e path, path_of e path -> simple_at t path -> names path <> None -> supported prepared names t e
| Y_binary : forall o q a b, In (o, q) op_table -> supported prepared names t a -> supported prepared names t b -> supported prepared names t (bin o a b)
| Y_one : forall m a, In m ["tolower"; "toupper"; "trim"; "length"; "year"; "month"; "day"; "hour"; "minute"; "second"]%string ->
    supported prepared names t a -> supported prepared names t (call m [a])
| Y_two : forall m a b, In m ["endswith"; "startswith"; "substringof"; "concat"; "indexof"]%string ->
    supported prepared names t a -> supported prepared names t b -> supported prepared names t (call m [a; b]).
