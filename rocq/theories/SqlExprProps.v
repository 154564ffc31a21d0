(** Properties of the translation of filters to SQL (SqlExpr.v). *)
From Coq Require Import Lia Arith.
From Verif Require Import Py Iso Dec OdExpr OdEval OdEvalSpec OdEvalProps SqlExpr SqlExprSpec SqlExprSpec2 SqlExprProofs SqlExprProofs2 SqlExprProofs3
  SqlExprProofs4 SqlExprProofs5 SqlExprProofs6 SqlExprProofs7.
Open Scope Z_scope.
Open Scope list_scope.

Section Props.
Context {O : Type}.
Variable other : edm_type -> pyv -> result O.
Variable sqlite qualifyNames : bool.
Variable tableName : str.
Variable mangledNames : list str -> option str.
Variable entityType : list (str * pdef).
Notation V := (@sqlv O).
Notation SQL := (SQLExpression other sqlite qualifyNames tableName mangledNames entityType).
Notation Where := (WhereClause other sqlite qualifyNames tableName mangledNames entityType).
Notation Page := (page_query other sqlite qualifyNames tableName mangledNames entityType).
Definition names_in_quotes : Prop := (forall p f, mangledNames p = Some f -> exists n, quoted_as f n) /\ (exists n, quoted_as tableName n).
Definition columns_of : list str -> list str -> Prop := column_of mangledNames (if qualifyNames then Some tableName else None).
Definition database_functions := if sqlite then sqlite_functions else standard_functions.
Definition navigation (n : str) : Prop := declared entityType n = Some PNav.

(** C159: the values of literals, of keys and of the row to go on from are not part of the text *)
Theorem C159_where k k' f f' names t t' ps ps' s qs s' qs' :
  alike_keys k k' -> alike_filter f f' -> alike_token t t' -> length ps = length ps' ->
  Where k f (skip_of names t) ps = Ok (s, qs) -> Where k' f' (skip_of names t') ps' = Ok (s', qs') -> s = s' /\ length qs = length qs'.
Proof. intros Hk Hf Ht L. exact (same_where other sqlite qualifyNames tableName mangledNames entityType k k' f f' names t t' Hk Hf Ht ps ps' L s qs s' qs'). Qed.
Theorem C159_page columns o o' names f f' t t' s qs s' qs' : Forall2 alike o o' -> alike_filter f f' -> alike_token t t' ->
  Page columns o names f t = Ok (s, qs) -> Page columns o' names f' t' = Ok (s', qs') -> s = s' /\ length qs = length qs'.
Proof. intros Ho Hf Ht. exact (same_page other sqlite qualifyNames tableName mangledNames entityType columns o o' names f f' t t' Ho Hf Ht s qs s' qs'). Qed.

(** C160: the database reads the condition that is meant, if brackets are not needed between operators
    that the program takes for equally strong *)
Theorem C160_filter_partial strength e w ps : usual strength -> names_in_quotes -> formed navigation e -> Where None (Some e) None [] = Ok (w, ps) ->
  exists c t, w = lit " WHERE " ++ c /\ stands database_functions columns_of (param_of other) ps t e /\ marks t = seq 0 (length ps) /\
    (clear strength t -> exists t', read_text strength c = Some t' /\ regroup t' t).
Proof.
  intros U [N T] F H.
  destruct (where_read other sqlite qualifyNames tableName mangledNames entityType strength U N T None (Some e) None [] w ps F I H)
    as (tk & tf & tc & -> & (t & -> & S) & -> & M & c & Ew & R).
  cbn [map concat app] in M. rewrite app_nil_r in M. exists c, t. split; [exact Ew|]. split; [exact S|]. split; [exact M|].
  intros C. destruct (R (Forall_cons _ C (Forall_nil _))) as (t' & Rt & G). exists t'. auto.
Qed.
Theorem C160_where_partial strength keys f skip cols w ps : usual strength -> names_in_quotes ->
  match f with Some e => formed navigation e | None => True end ->
  match skip with Some (names, _) => same_columns names cols | None => True end ->
  Where keys f skip [] = Ok (w, ps) ->
  exists tk tf tc,
    match keys with None => tk = [] | Some l => Forall2 (key_test (param_of other) ps mangledNames) l tk end /\
    opt (fun e t => stands database_functions columns_of (param_of other) ps t e) f tf /\
    opt (fun x t => beyond (param_of other) ps cols (snd x) t) skip tc /\
    concat (map marks (tk ++ tf ++ tc)) = seq 0 (length ps) /\
    match tk ++ tf ++ tc with
    | [] => w = []
    | t :: l => exists c, w = lit " WHERE " ++ c /\
        (Forall (clear strength) tf -> exists t', read_text strength c = Some t' /\ regroup t' (all_of t l))
    end.
Proof. intros U [N T]. exact (where_read other sqlite qualifyNames tableName mangledNames entityType strength U N T keys f skip cols w ps). Qed.

(** C161: the database selects the entities that the filter selects in memory *)
Theorem C161_rows_partial (lower_char upper_char : Z -> Z) (space : Z -> bool) (E : Type) (property : E -> str -> option (field E)) (e_len : E -> Z)
    (e_type : E -> str) (e_set : E -> Z) (e_key : E -> result (list (option pyv))) (fold : Z -> Z) strength cols e ent b c ps :
  let value x := Evaluate lower_char upper_char space E property e_len e_type e_set e_key x (Some (DEntity E ent)) in
  usual strength -> names_in_quotes -> formed navigation e ->
  covered (O := O) value fold e -> row_of value columns_of cols ->
  CheckFilter lower_char upper_char space E property e_len e_type e_set e_key (Some e) ent = Ok b ->
  Where None (Some e) None [] = Ok (lit " WHERE " ++ c, ps) ->
  exists t, stands database_functions columns_of (param_of other) ps t e /\
    (clear strength t -> exists t', read_text strength c = Some t' /\ (b = true <-> selected fold lower_char upper_char cols ps t')).
Proof.
  intros value U N F C R B H. destruct (C160_filter_partial strength e _ _ U N F H) as (c' & t & Ec & S & _ & Rd).
  apply app_inv_head in Ec. subst c'. exists t. split; [exact S|]. intros Cl. destruct (Rd Cl) as (t' & Rt & G). exists t'. split; [exact Rt|].
  apply (rows_agree lower_char upper_char space E property e_len e_type e_set e_key fold other database_functions) with (e := e) (ent := ent) (column := columns_of) (t := t); auto.
  unfold database_functions. destruct sqlite; auto.
Qed.

(** C162: the filters that can be translated *)
Theorem C162_supported e ps : supported (param_of other) mangledNames entityType e -> exists w ps', Where None (Some e) None ps = Ok (w, ps').
Proof.
  intros S. destruct (supported_total other sqlite qualifyNames tableName mangledNames entityType e S ps QAnd) as (s & ps' & H).
  unfold WhereClause. cbn [bind]. rewrite H. eexists _, _. reflexivity.
Qed.
Theorem C162_only e w ps ps' : formed navigation e -> Where None (Some e) None ps = Ok (w, ps') -> supported (param_of other) mangledNames entityType e.
Proof.
  intros F H. apply (works_supported other sqlite qualifyNames tableName mangledNames entityType e F). unfold WhereClause in H. cbn [bind] in H.
  destruct (SQL e ps QAnd) as [r|] eqn:Q; [|discriminate H]. exists ps, QAnd, r. exact Q.
Qed.
End Props.

(** C163: the names of columns *)
Definition plain (n : str) : Prop := n <> [] /\ ~ In 95 n /\ ~ In 34 n.
Theorem C163_columns_partial set p q : p <> [] -> q <> [] -> Forall plain p -> Forall plain q -> MangleName (set :: p) = MangleName (set :: q) -> p = q.
Proof.
  intros Np Nq Fp Fq H. destruct p as [|a p]; [contradiction|]. destruct q as [|b q]; [contradiction|]. unfold MangleName, QuoteIdentifier in H.
  apply app_inv_head in H. apply app_inv_tail in H.
  assert (K : forall l, Forall plain l -> filter (fun c => negb (c =? 34)) (sjoin (lit "_") l) = sjoin [95] l).
  { intros l Hl. apply no_quote. intros X. apply sjoin_in in X. destruct X as [[X|[]]|(x & Ix & Cx)]; [discriminate|].
    rewrite Forall_forall in Hl. destruct (Hl x Ix) as (_ & _ & N). now apply N. }
  rewrite (K _ Fp), (K _ Fq) in H. apply sjoin_inj; [| |exact H]; eapply Forall_impl; try eassumption; intros x (A & B & _); auto.
Qed.
Theorem C163_quoted path : quoted_as (MangleName path) (filter (fun c => negb (c =? 34)) (sjoin (lit "_") (match path with _ :: (_ :: _) as p => p | p => p end))).
Proof. apply quoted_identifier. Qed.
Theorem C163_refuted : exists set p q, p <> q /\ MangleName (set :: p) = MangleName (set :: q).
Proof. exists (lit "Customers"), [lit "Address"; lit "City"], [lit "Address_City"]. split; [discriminate|reflexivity]. Qed.
Example C163_ex : MangleName [lit "Customers"; lit "Address"; lit "City"] = lit """Address_City""" /\ Forall plain [lit "Address"; lit "City"].
Proof. split; [reflexivity|]. repeat constructor; cbn; intuition discriminate. Qed.

(** ** An entity set *)
Definition demo_type : list (str * pdef) :=
  [(lit "n", PSimple); (lit "s", PSimple); (lit "z", PSimple); (lit "c", PComplex [(lit "x", PSimple); (lit "y", PSimple)]); (lit "next", PNav)].
Definition demo_names (p : list str) : option str :=
  if existsb (fun q => if list_eq_dec (list_eq_dec Z.eq_dec) p q then true else false) [[lit "n"]; [lit "s"]; [lit "z"]; [lit "c"; lit "x"]; [lit "c"; lit "y"]]
  then Some (MangleName (lit "Demos" :: p)) else None.
Definition demo_table := lit """Demos""".
Definition no_other (_ : edm_type) (_ : pyv) : result unit := Err NotImplementedError.
Definition demo_where (sqlite : bool) e := WhereClause no_other sqlite false demo_table demo_names demo_type None (Some e) None [].
Definition demo_cols (c : list str) : option (@sqlv unit) :=
  match c with
  | [x] => if str_eqb x (lit "n") then Some (VInt 7) else if str_eqb x (lit "s") then Some (VText (lit "a b")) else if str_eqb x (lit "z") then Some VNull
           else if str_eqb x (lit "c_x") then Some (VInt 1) else if str_eqb x (lit "c_y") then Some (VInt 5) else None
  | _ => None
  end.
Definition demo_column := columns_of false demo_table demo_names.
Definition demo_value e := Ev0 e here.
Definition s_ : expr ext := EProp (lit "s").
Definition z_ : expr ext := EProp (lit "z").
Definition cx_ : expr ext := bin OMember (EProp (lit "c")) (EProp (lit "x")).
Lemma demo_quoted : names_in_quotes demo_table demo_names.
Proof.
  split; [|exists (lit "Demos"); split; [reflexivity|cbn; intuition discriminate]].
  intros p f. unfold demo_names. destruct (existsb _ _); [|discriminate]. intros H. injection H as <-. eexists. apply quoted_identifier.
Qed.
Lemma path_app e l : path_of e l -> l <> [].
Proof. induction 1 as [n|a b l r _ IHa _ _]; [discriminate|]. intros X. apply app_eq_nil in X. now apply IHa. Qed.

Lemma path_two e a b : path_of e [a; b] -> e = bin OMember (EProp a) (EProp b).
Proof.
  intros P. inversion P as [|x y l r Pl Pr Ee El]; subst. destruct l as [|l1 [|l2 l]]; [now destruct (path_app _ _ Pl)| |].
  - cbn [app] in El. injection El as -> ->. inversion Pl as [|? ? l' r' Pl' Pr' Ee' El']; subst.
    + inversion Pr as [|? ? l2 r2 Pl2 Pr2 Ee2 El2]; subst; [reflexivity|]. destruct l2; [now destruct (path_app _ _ Pl2)|]. destruct l2, r2; try discriminate. now destruct (path_app _ _ Pr2).
    + destruct l'; [now destruct (path_app _ _ Pl')|]. destruct l', r'; try discriminate. now destruct (path_app _ _ Pr').
  - cbn [app] in El. injection El as _ _ El. destruct l, r; try discriminate. now destruct (path_app _ _ Pr).
Qed.
Lemma path_single e a : path_of e [a] -> e = EProp a.
Proof.
  intros P. inversion P as [|x y l r Pl Pr Ee El]; subst; [reflexivity|]. destruct l as [|l1 l]; [now destruct (path_app _ _ Pl)|].
  destruct l, r; try discriminate. now destruct (path_app _ _ Pr).
Qed.
Lemma demo_row : row_of demo_value demo_column demo_cols.
Proof.
  intros e path c d w P (f & name & F & Q & ->) D S. unfold demo_names in F. destruct (existsb _ _) eqn:X; [|discriminate]. injection F as <-.
  destruct Q as [Q _]. apply existsb_exists in X. destruct X as (q & Iq & X). destruct (list_eq_dec _ path q) as [->|]; [|discriminate]. clear X.
  cbn [In] in Iq. destruct Iq as [<-|[<-|[<-|[<-|[<-|[]]]]]];
    (apply path_single in P || apply path_two in P); subst e;
    cbn in Q; injection Q as Q; (apply (app_inv_tail [34] _ name)  in Q || apply (f_equal (@removelast Z)) in Q; rewrite removelast_last in Q); subst name; vm_compute in D; injection D as <-; inversion S; reflexivity.
Qed.
Definition f1 : expr ext := bin OAnd (bin OGt n_ (int_ TInt32 5)) (call "startswith" [s_; str_ (lit "a ")]).
Definition f1' : expr ext := bin OAnd (bin OGt n_ (int_ TInt64 6)) (call "startswith" [s_; str_ (lit "' OR 1")]).
Definition f1_text := lit "(""n"" > ? AND ""s"" LIKE ? || '%')".
Definition f1_tree := SBin BAnd (SBin BGt (SCol [lit "n"]) (SMark 0)) (SBin BLike (SCol [lit "s"]) (SBin BConcat (SMark 1) any)).
Lemma sqlite_usual : usual sqlite_strength.
Proof.
  split; [intros a b H; destruct a, b; cbn in *; lia|]. intros a b [->|[->| ->]]; destruct b; try reflexivity; discriminate.
Qed.
Example C159_ex : alike_filter (Some f1) (Some f1') /\ demo_where true f1 = Ok (lit " WHERE " ++ f1_text, [VInt 5; VText (lit "a ")]) /\
  demo_where true f1' = Ok (lit " WHERE " ++ f1_text, [VInt 6; VText (lit "' OR 1")]).
Proof. split; [repeat constructor|]. split; reflexivity. Qed.
Lemma f1_formed : formed (navigation demo_type) f1.
Proof.
  apply F_binary; [discriminate| |].
  - apply F_binary; [discriminate|apply F_property; discriminate|constructor].
  - apply F_call; [cbn; tauto|]. repeat constructor. discriminate.
Qed.
Lemma f1_stands : stands (database_functions true) demo_column (param_of no_other) [VInt 5; VText (lit "a ")] f1_tree f1.
Proof.
  apply (T_binary _ _ _ _ OAnd BAnd); [cbn; tauto| |].
  - apply (T_binary _ _ _ _ OGt BGt); [cbn; tauto| |].
    + apply (T_property _ _ _ _ _ [lit "n"]); [constructor|]. exists (lit """n"""), (lit "n"). repeat split. cbn. intuition discriminate.
    + apply (T_literal _ _ _ _ 0%nat _ (VInt 5)); [|reflexivity]. constructor. cbn. tauto.
  - apply T_startswith.
    + apply (T_property _ _ _ _ _ [lit "s"]); [constructor|]. exists (lit """s"""), (lit "s"). repeat split. cbn. intuition discriminate.
    + apply (T_literal _ _ _ _ 1%nat _ (VText (lit "a "))); [constructor|reflexivity].
Qed.
Example C160_ex : usual sqlite_strength /\ names_in_quotes demo_table demo_names /\ formed (navigation demo_type) f1 /\
  demo_where true f1 = Ok (lit " WHERE " ++ f1_text, [VInt 5; VText (lit "a ")]) /\ clear sqlite_strength f1_tree /\ read_text sqlite_strength f1_text = Some f1_tree.
Proof.
  split; [exact sqlite_usual|]. split; [exact demo_quoted|]. split; [exact f1_formed|]. split; [reflexivity|]. split; [|reflexivity].
  cbn. repeat split; try discriminate; auto.
Qed.
Example C160_where_ex : same_columns [(lit """n""", false); (lit "o_1", true)] [(SCol [lit "n"], false); (SName (lit "o_1"), true)] /\
  exists w, WhereClause no_other true false demo_table demo_names demo_type (Some [(lit "s", mkV (Some TString) (Some (PStr (lit "q"))))]) (Some f1)
      (Some ([(lit """n""", false); (lit "o_1", true)], [mkV (Some TInt32) (Some (PInt 3)); mkV (Some TString) None])) [] =
    Ok (lit " WHERE " ++ w, [VText (lit "q"); VInt 5; VText (lit "a "); VInt 3; VInt 3; VNull]) /\
    w = lit """s""=? AND (""n"" > ? AND ""s"" LIKE ? || '%') AND (""n"" > ? OR (""n"" = ? AND (o_1 < ?)))".
Proof.
  split; [|eexists; split; reflexivity].
  constructor; [|constructor; [|constructor]]; cbn [fst snd]; split; try reflexivity.
  - apply (Y_column _ (lit "n")). split; [reflexivity|cbn; intuition discriminate].
  - apply (Y_alias 111 (lit "_1")); reflexivity.
Qed.

Lemma demo_n_covered fold : covered (O := unit) demo_value fold n_.
Proof. apply (K_column _ _ _ [lit "n"]); [constructor|]. intros d H. vm_compute in H. injection H as <-. exists (VInt 7). apply W_int. cbn. lia. Qed.
Lemma demo_s_covered fold : covered (O := unit) demo_value fold s_.
Proof. apply (K_column _ _ _ [lit "s"]); [constructor|]. intros d H. vm_compute in H. injection H as <-. exists (VText (lit "a b")). constructor. Qed.
Lemma demo_int_covered fold t n : in_type t n -> covered (O := unit) demo_value fold (int_ t n).
Proof. intros I. apply (K_literal _ _ _ (VInt n)). exact (W_int _ _ I). Qed.
Lemma demo_str_covered fold s : covered (O := unit) demo_value fold (str_ s).
Proof. apply (K_literal _ _ _ (VText s)). apply W_text. Qed.
Example C161_ex : covered (O := unit) demo_value (fun c => c) f1 /\ row_of demo_value demo_column demo_cols /\ CF0 (Some f1) Here = Ok true /\
  clear sqlite_strength f1_tree /\ selected (fun c => c) (fun c => c) (fun c => c) demo_cols [VInt 5; VText (lit "a ")] f1_tree.
Proof.
  assert (C : covered (O := unit) demo_value (fun c => c) f1).
  { apply K_and.
    - apply K_order; [cbn; tauto|apply demo_n_covered|apply demo_int_covered; cbn; lia|]. left. split; intros t H; vm_compute in H; discriminate H.
    - apply K_like; [intros c d H; exact H|cbn; tauto|apply demo_s_covered|apply demo_str_covered|]. intros p H. vm_compute in H. injection H as <-. split; cbn; intuition discriminate. }
  assert (Cl : clear sqlite_strength f1_tree) by (cbn; repeat split; try discriminate; auto).
  split; [exact C|]. split; [exact demo_row|]. split; [reflexivity|]. split; [exact Cl|].
  destruct (rows_agree (fun c => c) (fun c => c) (fun c => c =? 32) demo demo_prop (fun _ => 6) (fun _ => lit "Demo.T") (fun _ => 0) (fun _ => Ok [])
    (fun c => c) no_other (database_functions true) (or_intror eq_refl) demo_column demo_cols [VInt 5; VText (lit "a ")] f1 Here f1_tree f1_tree true C demo_row f1_stands (G_refl _) eq_refl) as [H _].
  exact (H eq_refl).
Qed.
Lemma not_selected fold cols ps t (v : @sqlv unit) : (v = VNull \/ v = VInt 0) -> evaluates fold (fun c => c) (fun c => c) cols ps t v ->
  ~ selected fold (fun c => c) (fun c => c) cols ps t.
Proof. intros V X (n & Y & N). assert (Q := evaluates_one _ _ _ _ _ _ _ _ X Y). destruct V as [-> | ->]; congruence. Qed.
(** brackets that are needed are left out *)
Definition f_sub : expr ext := bin OEq (bin OSub n_ (bin OSub n_ (int_ TInt32 3))) (int_ TInt32 3).
Definition disagree (sqlite : bool) (fold : Z -> Z) (e : expr ext) (b : bool) (c : str) (ps : list (@sqlv unit)) (t : sql) : Prop :=
  formed (navigation demo_type) e /\ demo_where sqlite e = Ok (lit " WHERE " ++ c, ps) /\ CF0 (Some e) Here = Ok b /\
  read_text sqlite_strength c = Some t /\ (b = true <-> ~ selected fold (fun c => c) (fun c => c) demo_cols ps t).
Theorem C160_brackets_refuted : exists e c ps t, covered (O := unit) demo_value (fun c => c) e /\ disagree true (fun c => c) e true c ps t.
Proof.
  exists f_sub, (lit "(""n"" - ""n"" - ? = ?)"), [VInt 3; VInt 3], (SBin BEq (SBin BMinus (SBin BMinus (SCol [lit "n"]) (SCol [lit "n"])) (SMark 0)) (SMark 1)).
  split.
  { apply K_eq; [|apply demo_int_covered; cbn; lia|right; intros t H; vm_compute in H; discriminate H].
    apply K_sum; [cbn; tauto|apply demo_n_covered|]. apply K_sum; [cbn; tauto|apply demo_n_covered|apply demo_int_covered; cbn; lia]. }
  split; [repeat first [apply F_binary; [discriminate| |]|constructor; discriminate|constructor]|]. split; [reflexivity|]. split; [reflexivity|]. split; [reflexivity|].
  split; [intros _|reflexivity]. apply (not_selected _ _ _ _ (VInt 0)); [now right|].
  eapply X_bin; [eapply X_bin; [eapply X_bin; [apply X_col; reflexivity|apply X_col; reflexivity|]|apply X_mark; reflexivity|]|apply X_mark; reflexivity|].
  - apply (V_arith _ OSub BMinus 7 7); [cbn; tauto|cbn; lia].
  - apply (V_arith _ OSub BMinus (7 - 7) 3); [cbn; tauto|cbn; lia].
  - apply (V_rel_ints _ OEq BEq _ _ false); [cbn; tauto|]. cbn. split; [discriminate|lia].
Qed.
(** comparisons with null *)
Theorem C161_null_refuted : exists e c ps t, disagree true (fun c => c) e true c ps t.
Proof.
  exists (bin OEq z_ (null_ None)), (lit "(""z"" = ?)"), [VNull], (SBin BEq (SCol [lit "z"]) (SMark 0)).
  split; [repeat first [apply F_binary; [discriminate| |]|constructor; discriminate|constructor]|]. split; [reflexivity|]. split; [reflexivity|]. split; [reflexivity|].
  split; [intros _|reflexivity]. apply (not_selected _ _ _ _ VNull); [now left|].
  eapply X_bin; [apply X_col; reflexivity|apply X_mark; reflexivity|]. now apply V_left_null.
Qed.
(** a null in a string comparison: less than every text in memory *)
Theorem C161_null_order_refuted : exists e c ps t, disagree true (fun c => c) e true c ps t.
Proof.
  exists (bin OLt z_ (str_ (lit "a"))), (lit "(""z"" < ?)"), [VText (lit "a")], (SBin BLt (SCol [lit "z"]) (SMark 0)).
  split; [repeat first [apply F_binary; [discriminate| |]|constructor; discriminate|constructor]|]. split; [reflexivity|]. split; [reflexivity|]. split; [reflexivity|].
  split; [intros _|reflexivity]. apply (not_selected _ _ _ _ VNull); [now left|].
  eapply X_bin; [apply X_col; reflexivity|apply X_mark; reflexivity|]. now apply V_left_null.
Qed.
Lemma formed_call2 m a b : In (m, 2%nat) arities -> formed (navigation demo_type) a -> formed (navigation demo_type) b -> formed (navigation demo_type) (call m [a; b]).
Proof. intros H A B. apply F_call; [exact H|]. auto. Qed.
(** characters of a text that are wildcards *)
Theorem C161_wildcard_refuted : exists e c ps t, disagree true (fun c => c) e false c ps t.
Proof.
  exists (call "startswith" [s_; str_ (lit "a_")]), (lit "(""s"" LIKE ? || '%')"), [VText (lit "a_")], (SBin BLike (SCol [lit "s"]) (SBin BConcat (SMark 0) any)).
  split; [apply formed_call2; [cbn; tauto|constructor; discriminate|constructor]|]. split; [reflexivity|]. split; [reflexivity|]. split; [reflexivity|].
  split; [discriminate|]. intros N. destruct N. exists 1. split; [|lia].
  eapply X_bin; [apply X_col; reflexivity|eapply X_bin; [apply X_mark; reflexivity|apply X_str|apply V_concat]|].
  apply (V_like _ _ _ true). split; [intros _|reflexivity]. apply L_char; [discriminate|discriminate|reflexivity|]. apply L_one. apply (L_any _ [] (lit "b") []). constructor.
Qed.
(** SQLite does not tell capital letters apart *)
Definition ascii_lower (c : Z) : Z := if between 65 90 c then c + 32 else c.
Theorem C161_case_refuted : exists e c ps t, disagree true ascii_lower e false c ps t.
Proof.
  exists (call "startswith" [s_; str_ (lit "A")]), (lit "(""s"" LIKE ? || '%')"), [VText (lit "A")], (SBin BLike (SCol [lit "s"]) (SBin BConcat (SMark 0) any)).
  split; [apply formed_call2; [cbn; tauto|constructor; discriminate|constructor]|]. split; [reflexivity|]. split; [reflexivity|]. split; [reflexivity|].
  split; [discriminate|]. intros N. destruct N. exists 1. split; [|lia].
  eapply X_bin; [apply X_col; reflexivity|eapply X_bin; [apply X_mark; reflexivity|apply X_str|apply V_concat]|].
  apply (V_like _ _ _ true). split; [intros _|reflexivity]. apply L_char; [discriminate|discriminate|reflexivity|]. apply (L_any _ [] (lit " b") []). constructor.
Qed.
(** indexof looks for the second text in the first, and counts from 0; its translation looks for the
    first in the second, and counts from 1 *)
Theorem C161_indexof_refuted : exists e c ps t, disagree false (fun c => c) e true c ps t.
Proof.
  exists (bin OEq (call "indexof" [s_; str_ (lit "b")]) (int_ TInt32 2)), (lit "(POSITION(""s"" IN ?) = ?)"), [VText (lit "b"); VInt 2],
    (SBin BEq (SPosition (SCol [lit "s"]) (SMark 0)) (SMark 1)).
  split; [apply F_binary; [discriminate| |constructor]; apply formed_call2; [cbn; tauto|constructor; discriminate|constructor]|]. split; [reflexivity|]. split; [reflexivity|]. split; [reflexivity|].
  split; [intros _|reflexivity]. apply (not_selected _ _ _ _ (VInt 0)); [now right|].
  eapply X_bin; [eapply (X_position _ _ _ _ _ _ _ (lit "a b") (lit "b") (-1)); [apply X_col; reflexivity|apply X_mark; reflexivity|]|apply X_mark; reflexivity|].
  - left. split; [reflexivity|]. intros u v H. apply (f_equal (@length Z)) in H. rewrite !app_length in H. cbn in H. lia.
  - apply (V_rel_ints _ OEq BEq _ _ false); [cbn; tauto|]. cbn. split; [discriminate|lia].
Qed.
(** C162 *)
Example C162_ex : supported (param_of no_other) demo_names demo_type f1.
Proof.
  apply (Y_binary _ _ _ OAnd BAnd); [cbn; tauto| |].
  - apply (Y_binary _ _ _ OGt BGt); [cbn; tauto| |].
    + apply (Y_property _ _ _ _ [lit "n"]); [constructor|constructor; reflexivity|discriminate].
    + apply (Y_literal _ _ _ _ (VInt 5)). constructor. cbn. tauto.
  - apply Y_two; [cbn; tauto| |].
    + apply (Y_property _ _ _ _ [lit "s"]); [constructor|constructor; reflexivity|discriminate].
    + apply (Y_literal _ _ _ _ (VText (lit "a "))). constructor.
Qed.
(** filters that select in memory and cannot be translated *)
Theorem C162_refuted : Forall (fun e => formed (navigation demo_type) e /\ CF0 (Some e) Here = Ok true /\ forall sqlite, exists x, demo_where sqlite e = Err x)
  [un ONot (bin OEq n_ (int_ TInt32 8)); bin OEq (un ONegate n_) (int_ TInt32 (-7)); bin OEq (bin OMod n_ (int_ TInt32 2)) (int_ TInt32 1);
   bin OEq (call "substring" [s_; int_ TInt32 2]) (str_ (lit "b")); bin OEq (call "replace" [s_; str_ (lit "a"); str_ (lit "c")]) (str_ (lit "c b"));
   bin OEq (call "round" [dec_ 75 (-1)]) (dec_ 8 0)].
Proof.
  repeat (apply Forall_cons; [split; [|split; [reflexivity|intros [|]; eexists; reflexivity]]|]); [..|apply Forall_nil];
    repeat first [apply F_unary|apply F_binary; [discriminate| |]|apply F_call; [cbn; tauto|]|apply Forall_cons|apply Forall_nil|constructor; discriminate|constructor].
Qed.

Print Assumptions C159_where.
Print Assumptions C159_page.
Print Assumptions C160_filter_partial.
Print Assumptions C160_where_partial.
Print Assumptions C161_rows_partial.
Print Assumptions C162_supported.
Print Assumptions C162_only.
Print Assumptions C163_columns_partial.
Print Assumptions C163_quoted.
Print Assumptions C163_refuted.
Print Assumptions C160_brackets_refuted.
Print Assumptions C161_null_refuted.
Print Assumptions C161_null_order_refuted.
Print Assumptions C161_wildcard_refuted.
Print Assumptions C161_case_refuted.
Print Assumptions C161_indexof_refuted.
Print Assumptions C162_refuted.
