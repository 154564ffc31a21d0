(** Proofs about SqlExpr.v: the rows that a filter selects, the filters that can be translated, the
    names of columns. *)
From Coq Require Import Lia Arith.
From Verif Require Import Py Iso Dec OdExpr OdEval OdEvalSpec SqlExpr SqlExprSpec SqlExprSpec2 SqlExprProofs SqlExprProofs2 SqlExprProofs3
  SqlExprProofs4 SqlExprProofs5 SqlExprProofs6.
Open Scope Z_scope.
Open Scope list_scope.

(** ** The rows that a filter selects *)
Section Rows.
Variable lower_char upper_char : Z -> Z.
Variable space : Z -> bool.
Variable E : Type.
Variable property : E -> str -> option (field E).
Variable e_len : E -> Z.
Variable e_type : E -> str.
Variable e_set : E -> Z.
Variable e_key : E -> result (list (option pyv)).
Notation Ev0 := (Evaluate lower_char upper_char space E property e_len e_type e_set e_key).
Notation Check := (CheckFilter lower_char upper_char space E property e_len e_type e_set e_key).
Context {O : Type}.
Variable fold : Z -> Z.
Notation V := (@sqlv O).
Variable other : edm_type -> pyv -> result O.
Variable fns : list (string * (sql -> sql)).
Hypothesis fns_known : fns = standard_functions \/ fns = sqlite_functions.
Variable column : list str -> list str -> Prop.
Variable cols : list str -> option V.
Variable params : list V.
Lemma rows_agree e ent t t' b : covered (O := O) (fun x => Ev0 x (Some (DEntity E ent))) fold e -> row_of (fun x => Ev0 x (Some (DEntity E ent))) column cols ->
  stands fns column (param_of other) params t e -> regroup t' t -> Check (Some e) ent = Ok b ->
  (b = true <-> selected fold lower_char upper_char cols params t').
Proof.
  intros C R T G H. cbn [CheckFilter] in H. destruct (Ev0 e (Some (DEntity E ent))) as [d|] eqn:D; [|discriminate]. cbn [bind] in H.
  destruct (agree lower_char upper_char space E property e_len e_type e_set e_key (Some (DEntity E ent)) fold other fns fns_known column cols params R e C t d T D) as (w & M & W).
  assert (W' : evaluates fold lower_char upper_char cols params t' w) by (now apply (regroup_value fold lower_char upper_char cols params _ _ G)).
  assert (S : selected fold lower_char upper_char cols params t' <-> exists n, w = VInt n /\ n <> 0).
  { split; [intros (n & X & N)|intros (n & -> & N); now exists n]. exists n. split; [|exact N].
    exact (evaluates_one fold lower_char upper_char cols params _ _ _ W' X). }
  rewrite S. clear S. destruct M as [M|[-> ->]].
  - destruct M as [ty n I|s|b'|ty].
    + cbn in H. destruct ty; try discriminate H. destruct I.
    + discriminate H.
    + injection H as <-. split; [intros ->; exists 1; split; [reflexivity|lia]|]. intros (n & X & N). injection X as <-. destruct b'; [reflexivity|]. now destruct N.
    + cbn in H. destruct ty as [ty|]; [|discriminate H]. destruct ty; try discriminate H. injection H as <-. split; [discriminate|]. intros (n & X & _). discriminate X.
  - injection H as <-. split; [discriminate|]. intros (n & X & _). discriminate X.
Qed.
End Rows.

(** ** The filters that can be translated *)
Section Supported.
Context {O : Type}.
Variable other : edm_type -> pyv -> result O.
Variable sqlite qualifyNames : bool.
Variable tableName : str.
Variable mangledNames : list str -> option str.
Variable entityType : list (str * pdef).
Notation V := (@sqlv O).
Notation SQL := (SQLExpression other sqlite qualifyNames tableName mangledNames entityType).
Notation nav := (nav entityType).
Notation supported := (supported (param_of other) mangledNames entityType).
Definition totals (g : @gen O) : Prop := forall ps ctx, exists s ps', g ps ctx = Ok (Some s, ps').
Lemma walk_simple t p : simple_at t p -> member_walk (Some t) p = Ok None.
Proof.
  induction 1 as [t n D|t n fs p D _ IH]; cbn [member_walk]; rewrite D; [reflexivity|]. exact IH.
Qed.
Lemma walk_none p : member_walk None p = Ok None -> p = [].
Proof. destruct p; [reflexivity|discriminate]. Qed.
Lemma simple_walk p : forall t, member_walk (Some t) p = Ok None -> simple_at t p.
Proof.
  induction p as [|n p IH]; intros t; [discriminate|]. cbn [member_walk]. destruct (declared t n) as [[|fs|]|] eqn:D; try discriminate.
  - intros H. apply walk_none in H. subst. now constructor.
  - intros H. apply (Z_inside t n fs p D). now apply IH.
Qed.
Lemma param_of_prepare v p : param_of other v p -> exists p', PrepareSQLValue other v = Ok p'.
Proof.
  intros [t|b|t n H|s|t x o NN H].
  - now exists VNull.
  - eexists. reflexivity.
  - cbn in H. destruct H as [<-|[<-|[<-|[<-|[<-|[]]]]]]; eexists; reflexivity.
  - eexists. reflexivity.
  - cbn [PrepareSQLValue v_val v_type]. exists (VOther o).
    assert (Q : bind (other t x) (fun o => Ok (VOther o)) = Ok (VOther o)) by (now rewrite H).
    destruct t, x; try exact Q; exfalso; apply NN; cbn; tauto.
Qed.
Lemma totals_two (f : option str -> option str -> result str) g1 g2 c1 c2 : totals g1 -> totals g2 ->
  (forall a b, exists s, f (Some a) (Some b) = Ok s) -> forall ps,
  exists s ps', ('(a, ps) <- g1 ps c1 ;; '(b, ps) <- g2 ps c2 ;; s <- f a b ;; Ok (Some s, ps)) = Ok (Some s, ps').
Proof.
  intros H1 H2 F ps. destruct (H1 ps c1) as (a & ps1 & ->). cbn [bind]. destruct (H2 ps1 c2) as (b & ps2 & ->). cbn [bind].
  destruct (F a b) as [s ->]. exists s, ps2. reflexivity.
Qed.
Lemma totals_generic a b q : totals a -> totals b -> totals (GenericBinary [a; b] q).
Proof.
  intros H1 H2 ps ctx. unfold GenericBinary. cbn [nth_op nth_error]. destruct (H1 ps q) as (s & ps1 & ->). cbn [bind].
  destruct (H2 ps1 q) as (t & ps2 & ->). eexists _, _. reflexivity.
Qed.
Lemma totals_concat a b : totals a -> totals b -> totals (SQLExpressionConcat [a; b]).
Proof.
  intros H1 H2 ps ctx. unfold SQLExpressionConcat. cbn [nth_op nth_error]. destruct (H1 ps QTimes) as (s & ps1 & ->). cbn [bind].
  destruct (H2 ps1 QTimes) as (t & ps2 & ->). eexists _, _. reflexivity.
Qed.
Lemma totals_like a b : totals a -> totals b -> totals (like a b).
Proof.
  intros H1 H2 ps ctx. unfold like. destruct (H1 ps QLike) as (s & ps1 & ->). cbn [bind].
  destruct (H2 ps1 QLike) as (t & ps2 & ->). eexists _, _. reflexivity.
Qed.
Lemma totals_percent : totals (@percent O).
Proof. intros ps ctx. eexists _, _. reflexivity. Qed.
Lemma totals_around b before after a : totals a -> totals (around b before after [a]).
Proof. intros H ps ctx. unfold around. cbn [nth_op nth_error]. destruct (H ps QComma) as (s & ps1 & ->). cbn [bind]. destruct b; eexists _, _; reflexivity. Qed.
Lemma totals_base a b c g : totals g -> totals (base_or sqlite a b c [g]).
Proof. intros H. unfold base_or. destruct sqlite; now apply totals_around. Qed.
Lemma supported_total e : supported e -> totals (SQL e).
Proof.
  induction 1 as [v p P|e path P S N|o q a b I _ IHa _ IHb|m a I _ IHa|m a b I _ IHa _ IHb].
  - intros ps ctx. cbn [SQLExpression]. destruct (param_of_prepare v p P) as [p' ->]. eexists _, _. reflexivity.
  - intros ps ctx. destruct (mangledNames path) as [f|] eqn:F; [|contradiction].
    destruct P as [n|a b l r Pa Pb].
    + cbn [SQLExpression]. unfold property_text. inversion S as [? ? D|? ? ? ? D S']; subst; [|inversion S'].
      rewrite D, F. eexists _, _. reflexivity.
    + unfold bin at 1. rewrite (sql_member other sqlite qualifyNames tableName mangledNames entityType). unfold SQLExpressionMember.
      change (EOp false OMember [Some a; Some b]) with (bin OMember a b). rewrite (path_names _ _ (P_more _ _ _ _ Pa Pb)). cbn [bind]. rewrite (walk_simple _ _ S). cbn [bind]. rewrite F. eexists _, _. reflexivity.
  - assert (Q : SQL (bin o a b) = GenericBinary [SQL a; SQL b] (match o with OOr => QOr | OAnd => QAnd | OEq => QEq | ONe => QNe | OLt => QLt | OGt => QGt | OLe => QLe | OGe => QGe
        | OAdd => QPlus | OSub => QMinus | OMul => QTimes | _ => QDivide end)).
    { cbn in I. repeat (destruct I as [I|I]; [injection I as <- <-; reflexivity|]). contradiction. }
    rewrite Q. now apply totals_generic.
  - cbn in I. repeat (destruct I as [<-|I]; [first [now apply (totals_base _ _ _ (SQL a)) | now apply (totals_around false _ _ (SQL a))]|]). contradiction.
  - cbn in I. destruct I as [<-|[<-|[<-|[<-|[<-|[]]]]]].
    + apply (totals_like (SQL a) (SQLExpressionConcat [percent; SQL b])); [exact IHa|]. apply totals_concat; [exact totals_percent|exact IHb].
    + apply (totals_like (SQL a) (SQLExpressionConcat [SQL b; percent])); [exact IHa|]. apply totals_concat; [exact IHb|exact totals_percent].
    + apply (totals_like (SQL b) (SQLExpressionConcat [percent; SQLExpressionConcat [SQL a; percent]])); [exact IHb|]. apply totals_concat; [exact totals_percent|]. apply totals_concat; [exact IHa|exact totals_percent].
    + exact (totals_concat _ _ IHa IHb).
    + intros ps ctx. change (SQL (call "indexof" [a; b]) ps ctx) with (SQLExpressionIndexof [SQL a; SQL b] ps ctx). unfold SQLExpressionIndexof. cbn [nth_op nth_error].
      destruct (IHa ps QComma) as (s & ps1 & ->). cbn [bind]. destruct (IHb ps1 QComma) as (t & ps2 & ->). eexists _, _. reflexivity.
Qed.
(** *** No others *)
Definition works (g : @gen O) : Prop := exists ps ctx r, g ps ctx = Ok r.
Ltac steps :=
  repeat match goal with H : bind ?x _ = Ok _ |- _ => let y := fresh in let E := fresh "S" in destruct x as [y|] eqn:E; [|discriminate H]; cbn [bind] in H; try destruct y end.
Lemma works_two_generic a b q : works (GenericBinary [a; b] q) -> works a /\ works b.
Proof. intros (ps & ctx & r & H). unfold GenericBinary in H. cbn [nth_op nth_error] in H. steps; split; do 3 eexists; eassumption. Qed.
Lemma works_two_concat a b : works (SQLExpressionConcat [a; b]) -> works a /\ works b.
Proof. intros (ps & ctx & r & H). unfold SQLExpressionConcat in H. cbn [nth_op nth_error] in H. steps; split; do 3 eexists; eassumption. Qed.
Lemma works_two_like a b : works (like a b) -> works a /\ works b.
Proof. intros (ps & ctx & r & H). unfold like in H. steps; split; do 3 eexists; eassumption. Qed.
Lemma works_two_position a b : works (SQLExpressionIndexof [a; b]) -> works a /\ works b.
Proof. intros (ps & ctx & r & H). unfold SQLExpressionIndexof in H. cbn [nth_op nth_error] in H. steps; split; do 3 eexists; eassumption. Qed.
Lemma works_around b before after a : works (around b before after [a]) -> works a.
Proof. intros (ps & ctx & r & H). unfold around in H. cbn [nth_op nth_error] in H. steps; do 3 eexists; eassumption. Qed.
Lemma works_base x y z a : works (base_or sqlite x y z [a]) -> works a.
Proof. unfold base_or. destruct sqlite; apply works_around. Qed.
Lemma works_err x : works (fun _ _ => Err x) -> False.
Proof. intros (ps & ctx & r & H). discriminate H. Qed.
Lemma works_supported e : formed nav e -> works (SQL e) -> supported e.
Proof.
  revert e. apply (formed_rect entityType (fun e => works (SQL e) -> supported e)).
  - intros v (ps & ctx & r & H). cbn [SQLExpression] in H. destruct (PrepareSQLValue other v) as [p|] eqn:P; [|discriminate].
    apply (Y_literal _ _ _ v p). now apply prepare_param.
  - intros n N (ps & ctx & r & H). cbn [SQLExpression] in H. unfold property_text in H.
    destruct (declared entityType n) as [[| |]|] eqn:D; try discriminate; [|now destruct N].
    destruct (mangledNames [n]) eqn:F; [|discriminate]. apply (Y_property _ _ _ _ [n]); [constructor|now constructor|congruence].
  - intros a b p P (ps & ctx & r & H). unfold bin in H. rewrite (sql_member other sqlite qualifyNames tableName mangledNames entityType) in H.
    unfold SQLExpressionMember in H. change (EOp false OMember [Some a; Some b]) with (bin OMember a b) in H. rewrite (path_names _ _ P) in H. cbn [bind] in H.
    destruct (member_walk (Some entityType) p) as [[c|]|x] eqn:W; try discriminate. cbn [bind] in H.
    destruct (mangledNames p) as [f|] eqn:F; [|discriminate]. apply (Y_property _ _ _ _ p); [exact P|now apply simple_walk|congruence].
  - intros o a H. destruct (works_err _ H).
  - intros o a b N IHa IHb H. rewrite (sql_bin other sqlite qualifyNames tableName mangledNames entityType) in H by exact N.
    destruct (SQLBinaryExpressionMethod o) as [q|] eqn:Q.
    + destruct (op_in _ _ Q) as [I B].
      replace (match o with OCast | OMod | OIsof => fun _ _ => Err NotImplementedError | _ => GenericBinary [SQL a; SQL b] q end)
        with (GenericBinary [SQL a; SQL b] q) in H by (destruct o; reflexivity || discriminate).
      destruct (works_two_generic _ _ _ H) as [Ha Hb]. apply (Y_binary _ _ _ _ _ _ _ I); auto.
    + destruct o; try discriminate; destruct (works_err _ H).
  - intros m l I Hl H.
    assert (Two : forall a b, l = [a; b] -> works (SQL a) /\ works (SQL b) -> supported a /\ supported b).
    { intros a b -> [Wa Wb]. inversion_clear Hl as [|? ? Ha Hl']. inversion_clear Hl' as [|? ? Hb _]. auto. }
    assert (One : forall a, l = [a] -> works (SQL a) -> supported a) by (intros a -> W; inversion_clear Hl as [|? ? Ha _]; auto).
    unfold arities in I. cbn [In] in I.
    repeat (destruct I as [I|I]; [injection I as <- Len|]); [..|contradiction];
      (destruct l as [|a [|b [|c [|]]]]; try discriminate Len); clear Len.
    + destruct (works_two_like _ _ H) as [Wa Wb]. destruct (works_two_concat _ _ Wb) as [_ Wb']. destruct (Two a b eq_refl (conj Wa Wb')). apply Y_two; auto. cbn; tauto.
    + destruct (Two a b eq_refl (works_two_position _ _ H)). apply Y_two; auto. cbn; tauto.
    + destruct (works_err _ H).
    + destruct (works_two_like _ _ H) as [Wa Wb]. destruct (works_two_concat _ _ Wb) as [Wb' _]. destruct (Two a b eq_refl (conj Wa Wb')). apply Y_two; auto. cbn; tauto.
    + apply Y_one; [cbn; tauto|]. apply (One a eq_refl). exact (works_base _ _ _ _ H).
    + apply Y_one; [cbn; tauto|]. apply (One a eq_refl). exact (works_base _ _ _ _ H).
    + apply Y_one; [cbn; tauto|]. apply (One a eq_refl). exact (works_around _ _ _ _ H).
    + destruct H as (ps & ctx & r & H). change (SQL (call "substring" [a; b]) ps ctx) with (SQLExpressionSubstring [SQL a; SQL b] ps ctx) in H.
      unfold SQLExpressionSubstring in H. steps; discriminate H.
    + destruct H as (ps & ctx & r & H). change (SQL (call "substring" [a; b; c]) ps ctx) with (SQLExpressionSubstring [SQL a; SQL b; SQL c] ps ctx) in H.
      unfold SQLExpressionSubstring in H. steps; discriminate H.
    + destruct (works_two_like _ _ H) as [Wb Wa]. destruct (works_two_concat _ _ Wa) as [_ Wa']. destruct (works_two_concat _ _ Wa') as [Wa'' _].
      destruct (Two a b eq_refl (conj Wa'' Wb)). apply Y_two; auto. cbn; tauto.
    + destruct (Two a b eq_refl (works_two_concat _ _ H)). apply Y_two; auto. cbn; tauto.
    + apply Y_one; [cbn; tauto|]. apply (One a eq_refl). exact (works_base _ _ _ _ H).
    + apply Y_one; [cbn; tauto|]. apply (One a eq_refl). exact (works_base _ _ _ _ H).
    + apply Y_one; [cbn; tauto|]. apply (One a eq_refl). exact (works_base _ _ _ _ H).
    + apply Y_one; [cbn; tauto|]. apply (One a eq_refl). exact (works_base _ _ _ _ H).
    + apply Y_one; [cbn; tauto|]. apply (One a eq_refl). exact (works_base _ _ _ _ H).
    + apply Y_one; [cbn; tauto|]. apply (One a eq_refl). exact (works_base _ _ _ _ H).
    + apply Y_one; [cbn; tauto|]. apply (One a eq_refl). exact (works_base _ _ _ _ H).
    + destruct (works_err _ H).
    + destruct (works_err _ H).
    + destruct (works_err _ H).
Qed.
End Supported.

(** ** Names of columns *)
Lemma no_quote s : ~ In 34 s -> filter (fun c => negb (c =? 34)) s = s.
Proof.
  induction s as [|c s IH]; intros N; [reflexivity|]. cbn [filter]. destruct (Z.eqb_spec c 34) as [->|]; [exfalso; apply N; now left|].
  cbn [negb]. f_equal. apply IH. intros H. apply N. now right.
Qed.
Lemma quoted_identifier s : quoted_as (QuoteIdentifier s) (filter (fun c => negb (c =? 34)) s).
Proof. split; [reflexivity|]. intros H. apply filter_In in H. destruct H as [_ H]. discriminate H. Qed.
Lemma sjoin_in sep l c : In c (sjoin sep l) -> In c sep \/ exists x, In x l /\ In c x.
Proof.
  induction l as [|x [|y l] IH]; cbn [sjoin]; [contradiction|intros H; right; exists x; split; [now left|exact H]|].
  intros H. apply in_app_or in H. destruct H as [H|H]; [right; exists x; split; [now left|exact H]|].
  apply in_app_or in H. destruct H as [H|H]; [now left|]. destruct (IH H) as [H'|(z & Iz & Cz)]; [now left|right; exists z; split; [now right|exact Cz]].
Qed.
Lemma cut_at (a b : str) r r' : ~ In 95 a -> ~ In 95 b -> (r = [] \/ exists q, r = 95 :: q) -> (r' = [] \/ exists q, r' = 95 :: q) ->
  a ++ r = b ++ r' -> a = b /\ r = r'.
Proof.
  revert b. induction a as [|x a IH]; intros [|y b] Na Nb Hr Hr' H; cbn [app] in H.
  - auto.
  - exfalso. destruct Hr as [->|[q ->]]; [discriminate|]. injection H as X _. apply Nb. now left.
  - exfalso. destruct Hr' as [->|[q ->]]; [discriminate|]. injection H as X _. apply Na. now left.
  - injection H as -> H. destruct (IH b) as [-> ->]; auto; intros X; [apply Na|apply Nb]; now right.
Qed.
Lemma sjoin_inj l : forall l', Forall (fun x => ~ In 95 x /\ x <> []) l -> Forall (fun x => ~ In 95 x /\ x <> []) l' ->
  sjoin [95] l = sjoin [95] l' -> l = l'.
Proof.
  induction l as [|x l IH]; intros [|y l'] F F' H.
  - reflexivity.
  - exfalso. inversion F' as [|? ? [_ N] _]; subst. destruct l'; cbn [sjoin] in H; [now subst|]. destruct y; [now apply N|discriminate].
  - exfalso. inversion F as [|? ? [_ N] _]; subst. destruct l; cbn [sjoin] in H; [now subst|]. destruct x; [now apply N|discriminate].
  - inversion F as [|? ? [Nx _] F1]; subst. inversion F' as [|? ? [Ny _] F1']; subst.
    destruct l as [|x2 l], l' as [|y2 l'].
    + cbn [sjoin] in H. now subst.
    + exfalso. change (sjoin [95] (y :: y2 :: l')) with (y ++ 95 :: sjoin [95] (y2 :: l')) in H. cbn [sjoin] in H.
      apply Nx. rewrite H. apply in_or_app. right. now left.
    + exfalso. change (sjoin [95] (x :: x2 :: l)) with (x ++ 95 :: sjoin [95] (x2 :: l)) in H. cbn [sjoin] in H.
      apply Ny. rewrite <- H. apply in_or_app. right. now left.
    + change (sjoin [95] (y :: y2 :: l')) with (y ++ 95 :: sjoin [95] (y2 :: l')) in H.
      change (sjoin [95] (x :: x2 :: l)) with (x ++ 95 :: sjoin [95] (x2 :: l)) in H.
      destruct (cut_at _ _ _ _ Nx Ny (or_intror (ex_intro _ _ eq_refl)) (or_intror (ex_intro _ _ eq_refl)) H) as [-> H2].
      injection H2 as H2. now rewrite (IH _ F1 F1' H2).
Qed.
