(** Proofs about SqlExpr.v: a filter in the database and in memory *)
From Coq Require Import ZArith QArith List Lia Bool.
From Verif Require Import Py Iso OdExpr OdEval OdEvalSpec OdEvalTypes OdEvalProofs OdEvalProofs3 OdEvalProofs4 OdEvalProofs5 OdEvalProofs7 OdEvalProofs8 OdEvalProofs9 SqlExpr SqlExprSpec SqlExprSpec2 SqlExprProofs SqlExprProofs2 SqlExprProofs3 SqlExprProofs4.
Import ListNotations.
Open Scope Z_scope.
Open Scope list_scope.

Lemma path_one e : forall p q, path_of e p -> path_of e q -> p = q.
Proof.
  intros p q H. revert q. induction H as [n|a b l r _ IHl _ IHr]; intros q H'; inversion H'; subst; [reflexivity|].
  rewrite (IHl _ H1), (IHr _ H3). reflexivity.
Qed.

Section B.
Variable lower_char upper_char : Z -> Z.
Variable space : Z -> bool.
Variable E : Type.
Variable property : E -> str -> option (field E).
Variable e_len : E -> Z.
Variable e_type : E -> str.
Variable e_set : E -> Z.
Variable e_key : E -> result (list (option pyv)).
Variable ctx : option (data E).
Notation Ev0 := (Evaluate lower_char upper_char space E property e_len e_type e_set e_key).
Notation Ev := (fun e => Ev0 e ctx).
Notation bm := (binary_method E e_set e_key).
Notation meth := (method lower_char upper_char space E).
Context {O : Type}.
Variable fold : Z -> Z.
Notation V := (@sqlv O).
Notation gives := (@gives O fold).
Notation matches := (@matches E O).
Notation kind := (@kind E O).
Variable other : edm_type -> pyv -> result O.
Variable fns : list (string * (sql -> sql)).
Hypothesis fns_known : fns = standard_functions \/ fns = sqlite_functions.
Variable column : list str -> list str -> Prop.
Variable cols : list str -> option V.
Variable params : list V.
Notation evaluates := (@evaluates O fold lower_char upper_char cols params).
Notation stands := (stands fns column (param_of other) params).
Hypothesis row : row_of Ev column cols.

(** ** Shapes *)
Lemma bin_inv o f p q d : bm o = Some f -> Ev (bin o p q) = Ok d -> exists x y, Ev p = Ok x /\ Ev q = Ok y /\ f x y = Ok d.
Proof.
  intros Hf H. unfold bin in H. cbn [Evaluate] in H. destruct (Ev0 p ctx) as [x|]; [|discriminate H]. cbn [bind] in H.
  destruct o; try discriminate Hf; destruct (Ev0 q ctx) as [y|]; try discriminate H; cbn [bind] in H; injection Hf as <-; exists x, y; auto.
Qed.
Lemma call1_inv m p d : find (fun x => str_eqb (fst x) (lit m)) (call_methods lower_char upper_char space E) = Some (lit m, meth m) -> Ev (call m [p]) = Ok d -> exists x, Ev p = Ok x /\ meth m [x] = Ok d.
Proof.
  intros F H. destruct (Ev0 p ctx) as [x|] eqn:Hp.
  - exists x. split; [reflexivity|]. rewrite <- (call1 lower_char upper_char space E property e_len e_type e_set e_key m p x ctx F Hp). exact H.
  - exfalso. unfold call in H. cbn [Evaluate] in H. rewrite F in H. rewrite Hp in H. discriminate H.
Qed.
Lemma call2_inv m p q d : find (fun x => str_eqb (fst x) (lit m)) (call_methods lower_char upper_char space E) = Some (lit m, meth m) -> Ev (call m [p; q]) = Ok d -> exists x y, Ev p = Ok x /\ Ev q = Ok y /\ meth m [x; y] = Ok d.
Proof.
  intros F H. destruct (Ev0 p ctx) as [x|] eqn:Hp; [destruct (Ev0 q ctx) as [y|] eqn:Hq|].
  - exists x, y. split; [reflexivity|]. split; [reflexivity|]. rewrite <- (call2 lower_char upper_char space E property e_len e_type e_set e_key m p q x y ctx F Hp Hq). exact H.
  - exfalso. unfold call in H. cbn [Evaluate] in H. rewrite F in H. rewrite Hp in H. cbn [bind] in H. rewrite Hq in H. discriminate H.
  - exfalso. unfold call in H. cbn [Evaluate] in H. rewrite F in H. rewrite Hp in H. discriminate H.
Qed.
Lemma stands_bin t o p q : o <> OMember -> stands t (bin o p q) -> exists b s u, In (o, b) op_table /\ stands s p /\ stands u q /\ t = SBin b s u.
Proof.
  intros N H. inversion H as [|e path c P C|o' b a b' s u I S U| | | | | |]; subst; try (inversion P; subst; congruence). eauto 8.
Qed.
Lemma stands_path t e path : path_of e path -> stands t e -> exists c, column path c /\ t = SCol c.
Proof.
  intros P H. inversion H as [|e' path' c P' C|o' b a b' s u I S U| | | | | |]; subst; try (inversion P; fail).
  - rewrite (path_one _ _ _ P P'). eauto.
  - exfalso. inversion P; subst. cbn in I. intuition congruence.
Qed.
Lemma stands_call1 t m a : stands t (call m [a]) -> exists m' f s, lit m' = lit m /\ In (m', f) fns /\ stands s a /\ t = f s.
Proof.
  intros H. inversion H as [|e' path' c P' C| |m' f a' s I S Q1 Q2| | | | |]; subst; try (inversion P'; fail). eauto 8.
Qed.
Lemma stands_call2 t m a b : stands t (call m [a; b]) -> exists s u, stands s a /\ stands u b /\
  ((lit m = lit "concat" /\ t = SBin BConcat s u) \/ (lit m = lit "startswith" /\ t = SBin BLike s (SBin BConcat u any)) \/
   (lit m = lit "endswith" /\ t = SBin BLike s (SBin BConcat any u)) \/ (lit m = lit "substringof" /\ t = SBin BLike u (SBin BConcat any (SBin BConcat s any))) \/
   (lit m = lit "indexof" /\ t = SPosition s u)).
Proof.
  intros H. unfold call in H. inversion H; subst; try (match goal with P : path_of _ _ |- _ => inversion P end; fail); eexists; eexists; (split; [eassumption|]); (split; [eassumption|]); auto 8.
Qed.
(** ** Texts *)
Lemma promote_text x w v s : kind x w -> PromoteParameter E x TString = Ok v -> text_of v = Ok s -> texty w s /\ (forall p, s = Some p -> x = str_v p).
Proof.
  intros K P T. unfold texty. destruct K as [t n H|u|b w H|t]; unfold PromoteParameter in P; cbn [v_type] in P.
  - destruct t; try contradiction H; discriminate P.
  - injection P as <-. injection T as <-. split; [reflexivity|]. intros p Q. injection Q as <-. reflexivity.
  - discriminate P.
  - destruct t as [t|]; cbn in P; [destruct t; try discriminate P|]; injection P as <-; injection T as <-; (split; [reflexivity|discriminate]).
Qed.
Lemma strict_text x w v s : kind x w -> CheckStrictParameter E x TString = Ok v -> text_of v = Ok s -> texty w s /\ (forall p, s = Some p -> x = str_v p).
Proof.
  intros K P T. unfold texty. destruct K as [t n H|u|b w H|t]; unfold CheckStrictParameter in P; cbn [v_type] in P.
  - destruct t; try contradiction H; discriminate P.
  - injection P as <-. injection T as <-. split; [reflexivity|]. intros p Q. injection Q as <-. reflexivity.
  - discriminate P.
  - destruct t as [t|]; cbn in P; [destruct t; try discriminate P|discriminate P]; injection P as <-; injection T as <-; (split; [reflexivity|discriminate]).
Qed.
Lemma texts_inv strict x y wx wy a b : kind x wx -> kind y wy -> texts E strict x y = Ok (a, b) ->
  texty wx a /\ texty wy b /\ (forall p, a = Some p -> x = str_v p) /\ (forall p, b = Some p -> y = str_v p).
Proof.
  intros X Y H. unfold texts in H. destruct strict.
  - destruct (CheckStrictParameter E x TString) as [v|] eqn:Px; [|discriminate H]. destruct (CheckStrictParameter E y TString) as [w|] eqn:Py; [|discriminate H]. cbn [bind] in H.
    destruct (text_of v) as [s|] eqn:Tx; [|discriminate H]. destruct (text_of w) as [t|] eqn:Ty; [|discriminate H]. injection H as <- <-.
    destruct (strict_text _ _ _ _ X Px Tx), (strict_text _ _ _ _ Y Py Ty). auto.
  - destruct (PromoteParameter E x TString) as [v|] eqn:Px; [|discriminate H]. destruct (PromoteParameter E y TString) as [w|] eqn:Py; [|discriminate H]. cbn [bind] in H.
    destruct (text_of v) as [s|] eqn:Tx; [|discriminate H]. destruct (text_of w) as [t|] eqn:Ty; [|discriminate H]. injection H as <- <-.
    destruct (promote_text _ _ _ _ X Px Tx), (promote_text _ _ _ _ Y Py Ty). auto.
Qed.
Definition text_w (s : option str) : V := match s with Some s => VText s | None => VNull end.
Lemma concat_value a b x y : evaluates a (text_w x) -> evaluates b (text_w y) -> evaluates (SBin BConcat a b) (text_w (app3 x y)).
Proof. intros A B. apply bin_value. exists (text_w x), (text_w y). split; [exact A|]. split; [exact B|]. apply (proj2 (gives_concat fold lower_char upper_char _ _ _)). exists x, y. unfold texty. auto. Qed.
Lemma any_value : evaluates any (text_w (Some [37])).
Proof. apply X_str. Qed.
Lemma like_value a p x y (b : bool) : evaluates a (text_w x) -> evaluates p (text_w y) ->
  (forall s q, x = Some s -> y = Some q -> (b = true <-> likes fold q s)) ->
  evaluates (SBin BLike a p) (match x, y with Some _, Some _ => VInt (Z.b2z b) | _, _ => VNull end).
Proof.
  intros A P H. apply bin_value. exists (text_w x), (text_w y). split; [exact A|]. split; [exact P|].
  destruct x as [s|]; [destruct y as [q|]|]; cbn [text_w]; [apply V_like; apply H; reflexivity|apply V_right_null; discriminate|apply V_left_null; discriminate].
Qed.
Lemma null_match t : matches (null_v t) VNull.
Proof. left. constructor. Qed.
Lemma bool_match b : matches (bool_v b) (VInt (Z.b2z b)).
Proof. left. constructor. Qed.
Lemma fn_in m f : In (m, f) fns -> In (m, f) (standard_functions ++ sqlite_functions).
Proof. intros H. apply in_or_app. destruct fns_known as [-> | ->]; auto. Qed.
Definition fn_names (m : string) : list str := (if m =? "tolower" then lower_names else if m =? "toupper" then upper_names else length_names)%string.
Lemma fn_of m m' f : In m text_methods -> lit m' = lit m -> In (m', f) fns -> exists n, In n (fn_names m) /\ f = SFun n.
Proof.
  intros M L I. apply fn_in in I. unfold text_methods in M. cbn [In] in M.
  repeat (destruct M as [<-|M]; [cbn [app standard_functions sqlite_functions In] in I;
    repeat (destruct I as [I|I]; [injection I as <- <-; first [exfalso; vm_compute in L; discriminate L|eexists; split; [|reflexivity]; vm_compute; auto]|]); contradiction|]). contradiction.
Qed.
Lemma relation_bop o b : In (o, b) op_table -> In o comparisons -> In (o, b) relations.
Proof. cbn. intuition congruence. Qed.
Lemma sum_bop o b : In (o, b) op_table -> In o sums -> In (o, b) arithmetics.
Proof. cbn. intuition congruence. Qed.

(** ** Both evaluations *)
Notation covered := (@covered E O Ev fold).
Lemma agree e : covered e -> forall t d, stands t e -> Ev e = Ok d -> exists w, matches d w /\ evaluates t w.
Proof.
  induction 1 as [v w S|e path P C|o a b Ho _ IHa _ IHb|o a b Ho _ IHa _ IHb C|a b _ IHa _ IHb C|a b _ IHa _ IHb Ca Cb|a b _ IHa _ IHb|a b _ IHa _ IHb Ca Cb|m a Hm _ IHa|a b _ IHa _ IHb|m a b fold_exact Hm _ IHa _ IHb C|a b fold_exact _ IHa _ IHb C]; intros t d T H.
  - injection H as <-. exists w. split; [left; exact S|]. inversion T as [k v' p Pp Np|e' path' c P' C| | | | | | |]; subst; [|inversion P'].
    apply X_mark. rewrite Np. f_equal. inversion S; subst; inversion Pp as [t1|b1|t1 n1 I1|s1|t1 p1 o1 N1 O1]; subst; try reflexivity; destruct N1; cbn; try reflexivity.
    match goal with I : in_type ?t _ |- _ => destruct t; try contradiction I; cbn; auto 6 end.
  - destruct (C d H) as (w & S). destruct (stands_path _ _ _ P T) as (c & Cc & ->). exists w. split; [left; exact S|]. apply X_col. exact (row e path c d w P Cc H S).
  - assert (N : o <> OMember) by (intros ->; cbn in Ho; intuition discriminate).
    destruct (stands_bin _ _ _ _ N T) as (q & s & u & I & Sa & Sb & ->). destruct (bin_inv _ _ _ _ _ (sums_fn E e_set e_key o Ho) H) as (x & y & Hx & Hy & R).
    destruct (IHa _ _ Sa Hx) as (wx & Mx & Vx). destruct (IHb _ _ Sb Hy) as (wy & My & Vy).
    destruct (sum_match lower_char upper_char space E e_set e_key fold o q x y wx wy d (sum_bop _ _ I Ho) Mx My R) as (w & Mw & G). exists w. split; [exact Mw|]. apply bin_value. eauto.
  - assert (N : o <> OMember) by (intros ->; cbn in Ho; intuition discriminate).
    assert (Co : In o comparisons) by (cbn in Ho |- *; intuition congruence).
    assert (exists f, bm o = Some f) as (f & Hf) by (cbn in Co; repeat (destruct Co as [<-|Co]; [eexists; reflexivity|]); contradiction).
    destruct (stands_bin _ _ _ _ N T) as (q & s & u & I & Sa & Sb & ->). destruct (bin_inv _ _ _ _ _ Hf H) as (x & y & Hx & Hy & R).
    destruct (IHa _ _ Sa Hx) as (wx & Mx & Vx). destruct (IHb _ _ Sb Hy) as (wy & My & Vy).
    destruct (order_match lower_char upper_char space E e_set e_key fold o q f x y wx wy d (relation_bop _ _ I Co) Ho Hf Mx My R) as (w & Mw & G).
    { destruct (kind_simple _ _ _ (proj1 (kinds _ _ _) Mx)) as (vx & ->). destruct (kind_simple _ _ _ (proj1 (kinds _ _ _) My)) as (vy & ->).
      destruct C as [[Ca Cb]|[C|C]].
      - left. split; intros z Q; [apply (Ca z)|apply (Cb z)]; rewrite <- Q; assumption.
      - right. exists vx, vy. split; [reflexivity|]. split; [reflexivity|]. destruct (C _ Hx) as (z & v & Hz & Q). injection Q as ->. exists z. auto.
      - right. exists vx, vy. split; [reflexivity|]. split; [reflexivity|]. destruct (C _ Hy) as (z & v & Hz & Q). injection Q as ->. exists z. auto. }
    exists w. split; [exact Mw|]. apply bin_value. eauto.
  - destruct (stands_bin _ OEq _ _ ltac:(discriminate) T) as (q & s & u & I & Sa & Sb & ->). destruct (bin_inv OEq _ _ _ _ eq_refl H) as (x & y & Hx & Hy & R).
    destruct (IHa _ _ Sa Hx) as (wx & Mx & Vx). destruct (IHb _ _ Sb Hy) as (wy & My & Vy).
    assert (q = BEq) as -> by (cbn in I; intuition congruence).
    destruct (eq_match lower_char upper_char space E property e_len e_type e_set e_key ctx fold x y wx wy d Mx My R) as (w & Mw & G).
    { destruct C as [C|C]; [left|right]; intros z Q; apply (C z); rewrite <- Q; assumption. }
    exists w. split; [exact Mw|]. apply bin_value. eauto.
  - destruct (stands_bin _ ONe _ _ ltac:(discriminate) T) as (q & s & u & I & Sa & Sb & ->). destruct (bin_inv ONe _ _ _ _ eq_refl H) as (x & y & Hx & Hy & R).
    destruct (IHa _ _ Sa Hx) as (wx & Mx & Vx). destruct (IHb _ _ Sb Hy) as (wy & My & Vy).
    destruct (compare_match lower_char upper_char space E e_set e_key fold ONe q (EvaluateNe E e_set e_key) x y wx wy d) as (w & Mw & G); [apply relation_bop; [exact I|cbn; auto 7]|reflexivity|exact Mx|exact My|exact R| | |].
    { intros z Q. apply (Ca z). rewrite <- Q. exact Hx. }
    { intros z Q. apply (Cb z). rewrite <- Q. exact Hy. }
    exists w. split; [exact Mw|]. apply bin_value. eauto.
  - destruct (stands_bin _ OAnd _ _ ltac:(discriminate) T) as (q & s & u & I & Sa & Sb & ->). destruct (bin_inv OAnd _ _ _ _ eq_refl H) as (x & y & Hx & Hy & R).
    destruct (IHa _ _ Sa Hx) as (wx & Mx & Vx). destruct (IHb _ _ Sb Hy) as (wy & My & Vy).
    assert (q = BAnd) as -> by (cbn in I; intuition congruence).
    destruct (and_match E fold x y wx wy d Mx My R) as (w & Mw & G). exists w. split; [exact Mw|]. apply bin_value. eauto.
  - destruct (stands_bin _ OOr _ _ ltac:(discriminate) T) as (q & s & u & I & Sa & Sb & ->). destruct (bin_inv OOr _ _ _ _ eq_refl H) as (x & y & Hx & Hy & R).
    destruct (IHa _ _ Sa Hx) as (wx & Mx & Vx). destruct (IHb _ _ Sb Hy) as (wy & My & Vy).
    assert (q = BOr) as -> by (cbn in I; intuition congruence).
    destruct (or_match E fold x y wx wy d Mx My R) as (w & Mw & G).
    { intros z Q. apply (Ca z). rewrite <- Q. exact Hx. }
    { intros z Q. apply (Cb z). rewrite <- Q. exact Hy. }
    exists w. split; [exact Mw|]. apply bin_value. eauto.
  - destruct (stands_call1 _ _ _ T) as (m' & f & s & L & I & Sa & ->). destruct (fn_of m m' f Hm L I) as (n & In_n & ->).
    assert (F : find (fun x => str_eqb (fst x) (lit m)) (call_methods lower_char upper_char space E) = Some (lit m, meth m)) by (unfold text_methods in Hm; cbn [In] in Hm; repeat (destruct Hm as [<-|Hm]; [reflexivity|]); contradiction).
    destruct (call1_inv m a d F H) as (x & Hx & R). destruct (IHa _ _ Sa Hx) as (wx & Mx & Vx). apply kinds in Mx.
    assert (NN : In n (length_names ++ lower_names ++ upper_names)).
    { unfold fn_names in In_n. apply in_or_app. destruct (m =? "tolower")%string; [right; apply in_or_app; auto|]. destruct (m =? "toupper")%string; [right; apply in_or_app; auto|auto]. }
    unfold text_methods in Hm. cbn [In] in Hm. destruct Hm as [<-|[<-|[<-|[]]]].
    + change (EvaluateTolower lower_char E [x] = Ok d) in R. unfold EvaluateTolower, one_text in R.
      destruct (PromoteParameter E x TString) as [v|] eqn:Pv; [|discriminate R]. cbn [bind] in R. destruct (text_of v) as [z|] eqn:Tv; [|discriminate R]. cbn [bind] in R.
      destruct (promote_text _ _ _ _ Mx Pv Tv) as [W _]. unfold texty in W; destruct z as [z|]; cbn [of_text] in R; subst wx; injection R as <-.
      * exists (VText (map lower_char z)). split; [left; constructor|]. apply X_lower; [exact In_n|exact Vx].
      * exists VNull. split; [left; constructor|]. apply X_null; [exact NN|exact Vx].
    + change (EvaluateToupper upper_char E [x] = Ok d) in R. unfold EvaluateToupper, one_text in R.
      destruct (PromoteParameter E x TString) as [v|] eqn:Pv; [|discriminate R]. cbn [bind] in R. destruct (text_of v) as [z|] eqn:Tv; [|discriminate R]. cbn [bind] in R.
      destruct (promote_text _ _ _ _ Mx Pv Tv) as [W _]. unfold texty in W; destruct z as [z|]; cbn [of_text] in R; subst wx; injection R as <-.
      * exists (VText (map upper_char z)). split; [left; constructor|]. apply X_upper; [exact In_n|exact Vx].
      * exists VNull. split; [left; constructor|]. apply X_null; [exact NN|exact Vx].
    + change (EvaluateLength E [x] = Ok d) in R. unfold EvaluateLength in R.
      destruct (CheckStrictParameter E x TString) as [v|] eqn:Pv; [|discriminate R]. cbn [bind] in R. destruct (text_of v) as [z|] eqn:Tv; [|discriminate R]. cbn [bind] in R.
      destruct (strict_text _ _ _ _ Mx Pv Tv) as [W _]. unfold texty in W; destruct z as [z|]; cbn [of_text] in R; subst wx.
      * assert (I32 : in_type TInt32 (Z.of_nat (List.length z))).
        { unfold new_value in R. rewrite (set_value_int TInt32) in R by (unfold integer_t; tauto). destruct ((Z.of_nat (List.length z) <? lo TInt32) || (hi TInt32 <? Z.of_nat (List.length z))) eqn:Q; [discriminate R|].
          apply in_type_range. split; [unfold integer_t; tauto|]. apply orb_false_iff in Q as [Q1 Q2]. apply Z.ltb_ge in Q1, Q2. lia. }
        rewrite new_int_in in R by exact I32. injection R as <-. exists (VInt (Z.of_nat (List.length z))). split; [left; constructor; exact I32|]. apply X_length; [exact In_n|exact Vx].
      * injection R as <-. exists VNull. split; [left; constructor|]. apply X_null; [exact NN|exact Vx].
  - destruct (stands_call2 _ _ _ _ T) as (s & u & Sa & Sb & D). destruct D as [[_ ->]|[[L _]|[[L _]|[[L _]|[L _]]]]]; try (exfalso; vm_compute in L; discriminate L).
    destruct (call2_inv "concat" a b d eq_refl H) as (x & y & Hx & Hy & R). destruct (IHa _ _ Sa Hx) as (wx & Mx & Vx). destruct (IHb _ _ Sb Hy) as (wy & My & Vy). apply kinds in Mx, My.
    change (EvaluateConcat E [x; y] = Ok d) in R. unfold EvaluateConcat in R. destruct (texts E true x y) as [[p q]|] eqn:X; [|discriminate R]. cbn [bind] in R.
    destruct (texts_inv _ _ _ _ _ _ _ Mx My X) as (Wx & Wy & _ & _). unfold texty in Wx, Wy. fold (text_w p) in Wx. fold (text_w q) in Wy. subst wx wy.
    exists (text_w (app3 p q)). split; [|apply concat_value; assumption]. destruct p as [p|], q as [q|]; cbn [of_texts] in R; injection R as <-; left; constructor.
  - destruct (stands_call2 _ _ _ _ T) as (s & u & Sa & Sb & D). cbn [In] in Hm. destruct Hm as [<-|[<-|[]]].
    + destruct D as [[L _]|[[_ ->]|[[L _]|[[L _]|[L _]]]]]; try (exfalso; vm_compute in L; discriminate L).
      destruct (call2_inv "startswith" a b d eq_refl H) as (x & y & Hx & Hy & R). destruct (IHa _ _ Sa Hx) as (wx & Mx & Vx). destruct (IHb _ _ Sb Hy) as (wy & My & Vy). apply kinds in Mx, My.
      change (EvaluateStartswith E [x; y] = Ok d) in R. unfold EvaluateStartswith in R. destruct (texts E false x y) as [[p q]|] eqn:X; [|discriminate R]. cbn [bind] in R.
      destruct (texts_inv _ _ _ _ _ _ _ Mx My X) as (Wx & Wy & _ & Ey). unfold texty in Wx, Wy. fold (text_w p) in Wx. fold (text_w q) in Wy. subst wx wy.
      pose proof (like_value _ _ p (app3 q (Some [37])) (match p, q with Some p, Some q => starts q p | _, _ => false end) Vx (concat_value _ _ q (Some [37]) Vy any_value)) as W.
      eexists. split; [|apply W].
      * destruct p as [p|], q as [q|]; cbn [of_texts app3] in R |- *; injection R as <-; [apply bool_match|apply null_match|apply null_match|apply null_match].
      * intros s1 q1 -> Q. destruct q as [q|]; [|discriminate Q]. injection Q as <-. rewrite likes_starts; [apply starts_spec|exact fold_exact|]. apply C. rewrite <- (Ey q eq_refl). exact Hy.
    + destruct D as [[L _]|[[L _]|[[_ ->]|[[L _]|[L _]]]]]; try (exfalso; vm_compute in L; discriminate L).
      destruct (call2_inv "endswith" a b d eq_refl H) as (x & y & Hx & Hy & R). destruct (IHa _ _ Sa Hx) as (wx & Mx & Vx). destruct (IHb _ _ Sb Hy) as (wy & My & Vy). apply kinds in Mx, My.
      change (EvaluateEndswith E [x; y] = Ok d) in R. unfold EvaluateEndswith in R. destruct (texts E false x y) as [[p q]|] eqn:X; [|discriminate R]. cbn [bind] in R.
      destruct (texts_inv _ _ _ _ _ _ _ Mx My X) as (Wx & Wy & _ & Ey). unfold texty in Wx, Wy. fold (text_w p) in Wx. fold (text_w q) in Wy. subst wx wy.
      pose proof (like_value _ _ p (app3 (Some [37]) q) (match p, q with Some p, Some q => ends q p | _, _ => false end) Vx (concat_value _ _ (Some [37]) q any_value Vy)) as W.
      eexists. split; [|apply W].
      * destruct p as [p|], q as [q|]; cbn [of_texts app3] in R |- *; injection R as <-; [apply bool_match|apply null_match|apply null_match|apply null_match].
      * intros s1 q1 -> Q. destruct q as [q|]; [|discriminate Q]. injection Q as <-. change (37 :: q) with ([37] ++ q). rewrite likes_ends; [apply ends_spec|exact fold_exact|]. apply C. rewrite <- (Ey q eq_refl). exact Hy.
  - destruct (stands_call2 _ _ _ _ T) as (s & u & Sa & Sb & D). destruct D as [[L _]|[[L _]|[[L _]|[[_ ->]|[L _]]]]]; try (exfalso; vm_compute in L; discriminate L).
    destruct (call2_inv "substringof" a b d eq_refl H) as (x & y & Hx & Hy & R). destruct (IHa _ _ Sa Hx) as (wx & Mx & Vx). destruct (IHb _ _ Sb Hy) as (wy & My & Vy). apply kinds in Mx, My.
    change (EvaluateSubstringof E [x; y] = Ok d) in R. unfold EvaluateSubstringof in R. destruct (texts E false x y) as [[p q]|] eqn:X; [|discriminate R]. cbn [bind] in R.
    destruct (texts_inv _ _ _ _ _ _ _ Mx My X) as (Wx & Wy & Ex & _). unfold texty in Wx, Wy. fold (text_w p) in Wx. fold (text_w q) in Wy. subst wx wy.
    pose proof (like_value _ _ q (app3 (Some [37]) (app3 p (Some [37]))) (match p, q with Some p, Some q => 0 <=? find_from 0 p q | _, _ => false end) Vy (concat_value _ _ (Some [37]) _ any_value (concat_value _ _ p (Some [37]) Vx any_value))) as W.
    eexists. split; [|apply W].
    * destruct p as [p|], q as [q|]; cbn [of_texts app3] in R |- *; injection R as <-; [apply bool_match|apply null_match|apply null_match|apply null_match].
    * intros s1 q1 -> Q. destruct p as [p|]; [|discriminate Q]. injection Q as <-. change (37 :: p ++ [37]) with ([37] ++ p ++ [37]). rewrite likes_contains; [apply find_holds|exact fold_exact|]. apply C. rewrite <- (Ex p eq_refl). exact Hx.
Qed.
End B.
