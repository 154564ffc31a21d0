(** Proofs about SqlExpr.v: the text and the literals, the WHERE clause. *)
From Coq Require Import Lia Arith.
From Verif Require Import Py Iso Dec OdExpr OdEval OdEvalSpec SqlExpr SqlExprSpec SqlExprSpec2 SqlExprProofs SqlExprProofs2.
Open Scope Z_scope.
Open Scope list_scope.

(** ** The text does not depend on the literals *)
Section Alike.
Context {O : Type}.
Variable other : edm_type -> pyv -> result O.
Variable sqlite qualifyNames : bool.
Variable tableName : str.
Variable mangledNames : list str -> option str.
Variable entityType : list (str * pdef).
Notation V := (@sqlv O).
Notation SQL := (SQLExpression other sqlite qualifyNames tableName mangledNames entityType).
Notation GEN := (@gen O).
Definition same {A} (r r' : result (A * list V)) : Prop :=
  forall a ps a' ps', r = Ok (a, ps) -> r' = Ok (a', ps') -> a = a' /\ length ps = length ps'.
Definition agrees (g g' : GEN) : Prop := forall ps ps' ctx, length ps = length ps' -> same (g ps ctx) (g' ps' ctx).
Lemma same_bind {A B} (r r' : result (A * list V)) (f f' : A * list V -> result (B * list V)) :
  same r r' -> (forall a ps ps', length ps = length ps' -> same (f (a, ps)) (f' (a, ps'))) -> same (bind r f) (bind r' f').
Proof.
  intros H F a ps a' ps' E E'. destruct r as [[x qs]|], r' as [[x' qs']|]; try discriminate. cbn [bind] in E, E'.
  destruct (H _ _ _ _ eq_refl eq_refl) as [-> L]. exact (F x' qs qs' L _ _ _ _ E E').
Qed.
Lemma same_pure {A B} (r : result A) (f f' : A -> result (B * list V)) : (forall a, same (f a) (f' a)) -> same (bind r f) (bind r f').
Proof. intros F. destruct r as [x|]; [apply F|intros ? ? ? ? E; discriminate]. Qed.
Lemma same_ok {A} (a : A) ps ps' : length ps = length ps' -> same (Ok (a, ps)) (Ok (a, ps')).
Proof. intros L x qs x' qs' E E'. injection E as <- <-. injection E' as <- <-. auto. Qed.
Lemma same_err {A} x (r : result (A * list V)) : same (Err x) r.
Proof. intros ? ? ? ? E. discriminate. Qed.
Lemma same_err_r {A} x (r : result (A * list V)) : same r (Err x).
Proof. intros ? ? ? ? _ E. discriminate. Qed.
Lemma agrees_err x y : agrees (fun _ _ => Err x) (fun _ _ => Err y).
Proof. intros ps ps' c L. apply same_err. Qed.
Lemma agrees_nth (l l' : list GEN) i : Forall2 agrees l l' -> agrees (nth_op l i) (nth_op l' i).
Proof.
  intros H. revert i. induction H as [|g g' l l' Hg _ IH]; intros [|i]; unfold nth_op; cbn [nth_error].
  1, 2: apply agrees_err.
  - exact Hg.
  - apply (IH i).
Qed.
Lemma agrees_binary (l l' : list GEN) o : Forall2 agrees l l' -> agrees (GenericBinary l o) (GenericBinary l' o).
Proof.
  intros H ps ps' ctx L. unfold GenericBinary. apply same_bind; [now apply agrees_nth|]. intros a qs qs' L1.
  apply same_bind; [now apply agrees_nth|]. intros b rs rs' L2. apply same_pure. intros x. apply same_pure. intros y. now apply same_ok.
Qed.
Lemma agrees_concat (l l' : list GEN) : Forall2 agrees l l' -> agrees (SQLExpressionConcat l) (SQLExpressionConcat l').
Proof.
  intros H ps ps' ctx L. unfold SQLExpressionConcat. apply same_bind; [now apply agrees_nth|]. intros a qs qs' L1.
  apply same_bind; [now apply agrees_nth|]. intros b rs rs' L2. apply same_pure. intros x. apply same_pure. intros y. now apply same_ok.
Qed.
Lemma agrees_like (g1 g1' g2 g2' : GEN) : agrees g1 g1' -> agrees g2 g2' -> agrees (like g1 g2) (like g1' g2').
Proof.
  intros H1 H2 ps ps' ctx L. unfold like. apply same_bind; [now apply H1|]. intros a qs qs' L1. apply same_bind; [now apply H2|].
  intros b rs rs' L2. apply same_pure. intros x. apply same_pure. intros y. now apply same_ok.
Qed.
Lemma agrees_percent : agrees percent percent.
Proof. intros ps ps' c L. now apply same_ok. Qed.
Lemma agrees_around b before after (l l' : list GEN) : Forall2 agrees l l' -> agrees (around b before after l) (around b before after l').
Proof.
  intros H ps ps' ctx L. unfold around. apply same_bind; [now apply agrees_nth|]. intros a qs qs' L1. apply same_pure. intros x. now apply same_ok.
Qed.
Definition keeps (m : list GEN -> GEN) : Prop := forall l l', Forall2 agrees l l' -> agrees (m l) (m l').
Lemma keeps_base a b c : keeps (base_or sqlite a b c).
Proof. intros l l' H. unfold base_or. destruct sqlite; now apply agrees_around. Qed.
Lemma keeps_unsupported : keeps unsupported.
Proof. intros l l' _. apply agrees_err. Qed.
Lemma keeps_pair (f : GEN -> GEN -> GEN) : (forall a a' b b', agrees a a' -> agrees b b' -> agrees (f a b) (f a' b')) ->
  keeps (fun l ps ctx => match l with a :: b :: _ => f a b ps ctx | _ => Err IndexError end).
Proof.
  intros F l l' H. destruct H as [|a a' l l' Ha H]; [apply agrees_err|]. destruct H as [|b b' l l' Hb H]; [apply agrees_err|].
  intros ps ps' ctx L. now apply F.
Qed.
Lemma keeps_methods : Forall (fun p => keeps (snd p)) (SQLCallExpressionMethod sqlite).
Proof.
  unfold SQLCallExpressionMethod. repeat apply Forall_cons; cbn [snd]; try apply keeps_base; try exact keeps_unsupported; try (exact agrees_concat); try (intros l l' H; now apply agrees_around); [..|apply Forall_nil].
  - apply (keeps_pair (fun a b => like a (SQLExpressionConcat [percent; b]))). intros a a' b b' Ha Hb.
    apply agrees_like; [exact Ha|]. apply agrees_concat. apply Forall2_cons; [auto using agrees_percent|apply Forall2_cons; [auto using agrees_percent|apply Forall2_nil]].
  - intros l l' H ps ps' ctx L. unfold SQLExpressionIndexof. apply same_bind; [now apply agrees_nth|]. intros a qs qs' L1.
    apply same_bind; [now apply agrees_nth|]. intros b rs rs' L2. apply same_pure. intros x. apply same_pure. intros y. now apply same_ok.
  - apply (keeps_pair (fun a b => like a (SQLExpressionConcat [b; percent]))). intros a a' b b' Ha Hb.
    apply agrees_like; [exact Ha|]. apply agrees_concat. apply Forall2_cons; [auto using agrees_percent|apply Forall2_cons; [auto using agrees_percent|apply Forall2_nil]].
  - intros l l' H ps ps' ctx L. unfold SQLExpressionSubstring. apply same_bind; [now apply agrees_nth|]. intros a qs qs' L1.
    apply same_bind; [now apply agrees_nth|]. intros b rs rs' L2. apply same_err.
  - apply (keeps_pair (fun a b => like b (SQLExpressionConcat [percent; SQLExpressionConcat [a; percent]]))). intros a a' b b' Ha Hb.
    apply agrees_like; [exact Hb|]. apply agrees_concat. constructor; [apply agrees_percent|]. constructor; [|constructor].
    apply agrees_concat. apply Forall2_cons; [auto using agrees_percent|apply Forall2_cons; [auto using agrees_percent|apply Forall2_nil]].
Qed.
Lemma names_alike : forall e e', alike e e' -> member_names e = member_names e'.
Proof.
  fix F 3. intros e e' H. destruct H as [v w|n|m l l' Hl|u o l l' Hl]; try reflexivity.
  assert (S : forall x x', alike_operand x x' -> (x = None /\ x' = None) \/ exists a a', x = Some a /\ x' = Some a' /\ member_names a = member_names a').
  { intros x x' Hx. destruct Hx as [|a b Hab]; [now left|]. right. exists a, b. auto. }
  destruct u; [reflexivity|]. destruct o; try reflexivity. cbn [member_names].
  destruct Hl as [|x x' l l' Hx Hl]; [reflexivity|]. destruct Hx as [|a a' Ha]; [reflexivity|].
  destruct Hl as [|y y' l l' Hy Hl]; [now rewrite (F a a' Ha)|]. destruct Hy as [|b b' Hb]; [now rewrite (F a a' Ha)|].
  now rewrite (F a a' Ha), (F b b' Hb).
Qed.
Definition operand (x : option (expr ext)) : GEN := match x with Some a => SQL a | None => fun ps _ => Ok (None, ps) end.
Lemma sql_op o l : o <> OMember -> SQL (EOp false o l) =
  match o with
  | OCast | OMod | OIsof => fun _ _ => Err NotImplementedError
  | _ => match SQLBinaryExpressionMethod o with Some q => GenericBinary (map operand l) q | None => fun _ _ => Err KeyError end
  end.
Proof. destruct o; intros N; try reflexivity. contradiction. Qed.
Lemma sql_member l : SQL (EOp false OMember l) = fun ps _ => s <- SQLExpressionMember qualifyNames tableName mangledNames entityType (EOp false OMember l) ;; Ok (s, ps).
Proof. reflexivity. Qed.
Lemma sql_call m l : SQL (ECall m l) =
  match find (fun p => str_eqb (fst p) m) (SQLCallExpressionMethod sqlite) with Some p => snd p (map SQL l) | None => fun _ _ => Err KeyError end.
Proof. reflexivity. Qed.
Lemma agrees_refl_pure (r : result (option str)) : agrees (fun ps _ => s <- r ;; Ok (s, ps)) (fun ps _ => s <- r ;; Ok (s, ps)).
Proof. intros ps ps' c L. apply same_pure. intros s. now apply same_ok. Qed.
Lemma agrees_alike : forall e e', alike e e' -> agrees (SQL e) (SQL e').
Proof.
  fix F 3. intros e e' H. destruct H as [v w|n|m l l' Hl|u o l l' Hl].
  - intros ps ps' ctx L a qs a' qs' E E'. cbn [SQLExpression] in E, E'. destruct (PrepareSQLValue other v) as [p|]; [|discriminate].
    destruct (PrepareSQLValue other w) as [p'|]; [|discriminate]. cbn [bind AddParam] in E, E'. injection E as <- <-. injection E' as <- <-.
    split; [reflexivity|]. rewrite !app_length. cbn [length]. lia.
  - apply agrees_refl_pure.
  - rewrite !sql_call. destruct (find _ _) as [p|] eqn:Fd; [|apply agrees_err].
    apply find_some in Fd. destruct Fd as [Fd _]. assert (K := keeps_methods). rewrite Forall_forall in K. apply (K p Fd).
    clear Fd K p. induction Hl as [|x x' l l' Hx Hl IH]; cbn [map]; constructor; [apply F; exact Hx|exact IH].
  - destruct u; [apply agrees_err|].
    assert (G : Forall2 agrees (map operand l) (map operand l')).
    { clear o. induction Hl as [|x x' l l' Hx Hl IH]; cbn [map]; constructor; [|exact IH].
      destruct Hx as [|a b Hab]; [intros ps ps' c L; now apply same_ok|]. cbn [operand]. apply F. exact Hab. }
    assert (D : o = OMember \/ o <> OMember) by (destruct o; (now left) || (right; discriminate)).
    destruct D as [->|N].
    + rewrite !sql_member. unfold SQLExpressionMember.
      rewrite <- (names_alike (EOp false OMember l) (EOp false OMember l') (A_op _ _ _ _ Hl)). apply agrees_refl_pure.
    + rewrite !sql_op by exact N.
      destruct o; try apply agrees_err; try (now apply agrees_binary); contradiction.
Qed.

(** *** Clauses *)
Notation Where := (WhereClause other sqlite qualifyNames tableName mangledNames entityType).
Lemma same_prepare {B} v w (f f' : V -> result (B * list V)) : (forall p p', same (f p) (f' p')) ->
  same (bind (PrepareSQLValue other v) f) (bind (PrepareSQLValue other w) f').
Proof. intros F. destruct (PrepareSQLValue other v); [|apply same_err]. destruct (PrepareSQLValue other w); [apply F|apply same_err_r]. Qed.
Lemma same_entity k k' : map fst k = map fst k' -> forall ps ps', length ps = length ps' ->
  same (WhereEntityClause other mangledNames k ps) (WhereEntityClause other mangledNames k' ps').
Proof.
  revert k'. induction k as [|[n v] k IH]; intros [|[n' v'] k'] H ps ps' L; try discriminate; [now apply same_ok|].
  cbn [map fst] in H. injection H as <- H. cbn [WhereEntityClause]. destruct (mangledNames [n]); [|apply same_err].
  apply same_prepare. intros p p'. cbn [AddParam]. apply same_bind.
  - apply (IH k' H). rewrite !app_length. cbn [length]. lia.
  - intros x qs qs' L1. now apply same_ok.
Qed.
Lemma same_skip names : forall tok tok' ket ps ps', length tok = length tok' -> length ps = length ps' ->
  same (skip_text other names tok ket ps) (skip_text other names tok' ket ps').
Proof.
  induction names as [|[n desc] names IH]; intros tok tok' ket ps ps' T L; [apply same_err|].
  destruct tok as [|v tok], tok' as [|v' tok']; try discriminate. cbn [length] in T. injection T as T.
  cbn [skip_text]. apply same_prepare. intros p p'. cbn [AddParam].
  assert (L1 : length ((ps ++ [p]) ++ [p]) = length ((ps' ++ [p']) ++ [p'])) by (rewrite !app_length; cbn [length]; lia).
  destruct names as [|[n2 d2] names]; [apply same_ok; rewrite !app_length; cbn [length]; lia|].
  apply same_bind; [now apply IH|]. intros r qs qs' L2. now apply same_ok.
Qed.
Lemma same_where k k' f f' names t t' : alike_keys k k' -> alike_filter f f' -> alike_token t t' ->
  forall ps ps', length ps = length ps' -> same (Where k f (skip_of names t) ps) (Where k' f' (skip_of names t') ps').
Proof.
  intros Hk Hf Ht ps ps' L. unfold WhereClause. apply same_bind.
  { destruct k as [k|], k' as [k'|]; try contradiction; [now apply same_entity|now apply same_ok]. }
  intros w1 ps1 ps1' L1. apply same_bind.
  { destruct f as [f|], f' as [f'|]; try contradiction; [|now apply same_ok]. apply same_bind; [now apply agrees_alike|].
    intros s qs qs' L2. apply same_pure. intros x. now apply same_ok. }
  intros w2 ps2 ps2' L2. apply same_bind.
  { destruct t as [t|], t' as [t'|]; try contradiction; cbn [skip_of]; [|now apply same_ok]. unfold WhereSkiptokenClause.
    apply same_bind; [now apply same_skip|]. intros s qs qs' L3. now apply same_ok. }
  intros w3 ps3 ps3' L3. destruct (w1 ++ w2 ++ w3); now apply same_ok.
Qed.
Lemma same_cols o o' : Forall2 alike o o' -> forall names ps ps', length ps = length ps' ->
  same (OrderByCols other sqlite qualifyNames tableName mangledNames entityType o names ps)
       (OrderByCols other sqlite qualifyNames tableName mangledNames entityType o' names ps').
Proof.
  induction 1 as [|e e' o o' He _ IH]; intros names ps ps' L; [now apply same_ok|]. destruct names as [|[n d] names]; [apply same_err|].
  cbn [OrderByCols]. apply same_bind; [now apply agrees_alike|]. intros s qs qs' L1. apply same_bind; [now apply IH|].
  intros l rs rs' L2. now apply same_ok.
Qed.
Lemma same_page columns o o' names f f' t t' : Forall2 alike o o' -> alike_filter f f' -> alike_token t t' ->
  same (page_query other sqlite qualifyNames tableName mangledNames entityType columns o names f t)
       (page_query other sqlite qualifyNames tableName mangledNames entityType columns o' names f' t').
Proof.
  intros Ho Hf Ht. unfold page_query. apply same_bind; [now apply same_cols|]. intros cols qs qs' L.
  apply same_bind; [exact (same_where None None f f' names t t' I Hf Ht qs qs' L)|]. intros w rs rs' L2. now apply same_ok.
Qed.
End Alike.

(** ** Reading the WHERE clause *)
Section Where.
Context {O : Type}.
Variable other : edm_type -> pyv -> result O.
Variable sqlite qualifyNames : bool.
Variable tableName : str.
Variable mangledNames : list str -> option str.
Variable entityType : list (str * pdef).
Variable strength : bop -> nat.
Notation V := (@sqlv O).
Notation SQL := (SQLExpression other sqlite qualifyNames tableName mangledNames entityType).
Notation Where := (WhereClause other sqlite qualifyNames tableName mangledNames entityType).
Hypothesis usual_strength : usual strength.
Hypothesis names_quoted : forall p f, mangledNames p = Some f -> exists n, quoted_as f n.
Hypothesis table_quoted : exists n, quoted_as tableName n.
Notation column := (column qualifyNames tableName mangledNames).
Notation functions := (functions sqlite).
Notation nav := (nav entityType).
Notation stands' := (stands functions column (param_of other)).
Notation shows := (shows strength).

Lemma shows_marks h k t ts k' : shows h k t ts k' -> (k <= k')%nat /\ marks t = seq k (k' - k).
Proof.
  induction 1; cbn [marks]; rewrite ?Nat.sub_diag; try (split; [lia|reflexivity]); try assumption.
  - split; [lia|]. replace (S k - k)%nat with 1%nat by lia. reflexivity.
  - destruct IHshows1 as [L1 ->], IHshows2 as [L2 ->]. split; [lia|]. replace (k2 - k)%nat with ((k1 - k) + (k2 - k1))%nat by lia. rewrite seq_app. do 2 f_equal. lia.
  - destruct IHshows1 as [L1 ->], IHshows2 as [L2 ->]. split; [lia|]. replace (k2 - k)%nat with ((k1 - k) + (k2 - k1))%nat by lia. rewrite seq_app. do 2 f_equal. lia.
  - destruct IHshows1 as [L1 ->], IHshows2 as [L2 ->]. split; [lia|]. replace (k2 - k)%nat with ((k1 - k) + (k2 - k1))%nat by lia. rewrite seq_app. do 2 f_equal. lia.
Qed.
(** a part of the clause; [C] is what is needed to read it *)
Definition piece (C : Prop) (k : nat) (s : str) (t : sql) (k' : nat) : Prop :=
  closed s /\ (k <= k')%nat /\ marks t = seq k (k' - k) /\ exists h, (h = None \/ h = Some BEq) /\ (C -> shows h k t (lex s) k').
Lemma piece_shows (C : Prop) k s t k' h : closed s -> (h = None \/ h = Some BEq) -> shows h k t (lex s) k' -> piece C k s t k'.
Proof. intros Cl H S. destruct (shows_marks _ _ _ _ _ S) as [L M]. repeat split; auto. exists h. auto. Qed.
(** the parts and AND between them *)
Inductive pieces (C : Prop) : nat -> list str -> list sql -> nat -> Prop :=
| Pc_nil : forall k, pieces C k [] [] k
| Pc_cons : forall k s t k1 l ts k2, piece C k s t k1 -> pieces C k1 l ts k2 -> pieces C k (s :: l) (t :: ts) k2.
Lemma pieces_app C k l ts k1 l' ts' k2 : pieces C k l ts k1 -> pieces C k1 l' ts' k2 -> pieces C k (l ++ l') (ts ++ ts') k2.
Proof. induction 1; cbn [app]; intros H2; [exact H2|]. econstructor; eauto. Qed.
Lemma pieces_marks C k l ts k' : pieces C k l ts k' -> (k <= k')%nat /\ concat (map marks ts) = seq k (k' - k).
Proof.
  induction 1 as [k|k s t k1 l ts k2 P _ [L2 IH]]; cbn [map concat]; [split; [lia|]; now rewrite Nat.sub_diag|].
  destruct P as (_ & L1 & M & _). rewrite M, IH. split; [lia|]. replace (k2 - k)%nat with ((k1 - k) + (k2 - k1))%nat by lia. rewrite seq_app. do 2 f_equal. lia.
Qed.
Lemma strength_and_eq : (strength BAnd < strength BEq)%nat.
Proof. apply (proj1 usual_strength). cbn. lia. Qed.
Lemma pieces_shows (C : Prop) (HC : C) l ts k1 k2 : pieces C k1 l ts k2 -> forall h k t s, closed s -> ok_left strength BAnd h -> shows h k t (lex s) k1 ->
  exists h', shows h' k (all_of t ts) (lex (s ++ concat (map (app (lit " AND ")) l))) k2.
Proof.
  induction 1 as [k1|k1 s1 t1 k2 l ts k3 P _ IH]; intros h k t s Cl Ok S; cbn [map concat].
  - rewrite app_nil_r. exists h. exact S.
  - destruct P as (C1 & _ & _ & h1 & H1 & S1). specialize (S1 HC).
    destruct (infix_lex s (lit "AND") s1 (KWord (lit "AND")) Cl C1 I eq_refl) as [C2 L2].
    destruct (IH (Some BAnd) k (SBin BAnd t t1) (s ++ 32 :: lit "AND" ++ 32 :: s1)) as [h' S'].
    + exact C2.
    + cbn [ok_left]. lia.
    + rewrite L2. apply (Sh_bin strength BAnd h h1 k t (lex s) k1 t1 (lex s1) k2 S S1 Ok). destruct H1 as [->| ->]; cbn [ok_right]; [exact I|left; exact strength_and_eq].
    + exists h'. cbn [all_of fold_left]. unfold all_of in S'. revert S'. rewrite <- !app_assoc. cbn [app lit]. rewrite <- ?app_assoc. auto.
Qed.
Lemma sjoin_concat sep x l : sjoin sep (x :: l) = x ++ concat (map (app sep) l).
Proof.
  revert x. induction l as [|y l IH]; intros x; [cbn [sjoin map concat]; now rewrite app_nil_r|].
  change (sjoin sep (x :: y :: l)) with (x ++ sep ++ sjoin sep (y :: l)). rewrite IH. cbn [map concat]. now rewrite <- !app_assoc.
Qed.
Lemma pieces_read (C : Prop) (HC : C) s l t ts k' : pieces C 0 (s :: l) (t :: ts) k' ->
  exists t', read_text strength (sjoin (lit " AND ") (s :: l)) = Some t' /\ regroup t' (all_of t ts).
Proof.
  intros P. inversion_clear P as [|? ? ? k1 ? ? ? P1 P2]. destruct P1 as (C1 & _ & _ & h & H & S).
  destruct (pieces_shows C HC _ _ _ _ P2 h 0%nat t s C1) as [h' S'].
  - destruct H as [->| ->]; cbn [ok_left]; [exact I|]. assert (X := strength_and_eq). lia.
  - exact (S HC).
  - destruct (read_shows strength usual_strength _ _ _ _ S') as (t' & R & E). exists t'. split; [|exact R]. unfold read_text. now rewrite sjoin_concat.
Qed.

(** *** The parts *)
Lemma nth_last (ps : list V) p qs : nth_error ((ps ++ [p]) ++ qs) (length ps) = Some p.
Proof. rewrite <- app_assoc, nth_error_app2 by lia. now rewrite Nat.sub_diag. Qed.
Lemma key_test_mono names ps qs x t : key_test (param_of other) ps names x t -> key_test (param_of other) (ps ++ qs) names x t.
Proof.
  intros [k v c name i N Q (p & Pp & Np)]. apply (Q_key _ _ names k v c name i N Q). exists p. split; [exact Pp|].
  rewrite nth_error_app1; [exact Np|]. apply nth_error_Some. congruence.
Qed.
Lemma entity_pieces C keys : forall ps l ps', WhereEntityClause other mangledNames keys ps = Ok (l, ps') ->
  exists ts vals, ps' = ps ++ vals /\ pieces C (length ps) l ts (length ps') /\ Forall2 (key_test (param_of other) ps' mangledNames) keys ts.
Proof.
  induction keys as [|[k v] keys IH]; intros ps l ps'; cbn [WhereEntityClause].
  - intros H. injection H as <- <-. exists [], []. rewrite app_nil_r. repeat constructor.
  - destruct (mangledNames [k]) as [n|] eqn:N; [|discriminate]. destruct (PrepareSQLValue other v) as [p|] eqn:E; [|discriminate].
    cbn [bind AddParam]. destruct (WhereEntityClause other mangledNames keys (ps ++ [p])) as [[l1 ps1]|] eqn:W; [|discriminate].
    cbn [bind]. intros H. injection H as <- <-. destruct (IH _ _ _ W) as (ts & vals & -> & Pc & F).
    destruct (names_quoted _ _ N) as [name Q].
    exists (SBin BEq (SCol [name]) (SMark (length ps)) :: ts), (p :: vals). split; [now rewrite <- app_assoc|]. split.
    + apply (Pc_cons C _ _ _ (S (length ps))); [|rewrite app_length, Nat.add_1_r in Pc; exact Pc].
      assert (R := run_quoted _ _ Q).
      assert (R2 : lex_run L0 (n ++ [61; 63]) = ([KId name; KOp (lit "="); KMark], L0)).
      { rewrite lex_run_app, R. reflexivity. }
      apply (piece_shows C _ _ _ _ (Some BEq)); [unfold closed; cbn [lit app]; now rewrite R2|now right|].
      unfold lex. cbn [lit app]. change (61 :: [63]) with [61; 63]. rewrite R2.
      apply (Sh_bin strength BEq None None (length ps) (SCol [name]) [KId name] (length ps) (SMark (length ps)) [KMark] (S (length ps)));
        [apply Sh_col1|apply Sh_mark|exact I|exact I].
    + constructor.
      * apply (Q_key _ _ mangledNames k v n name (length ps) N Q). exists p. split; [now apply prepare_param|]. apply nth_last.
      * exact F.
Qed.
Lemma word_run acc l : forallb word_char l = true -> lex_run (LWord acc) l = ([], LWord (acc ++ l)).
Proof.
  revert acc. induction l as [|c l IH]; intros acc Hl; cbn [lex_run]; [now rewrite app_nil_r|].
  cbn [forallb] in Hl. apply andb_prop in Hl. destruct Hl as [Hc Hl]. cbn [lex_step]. rewrite Hc.
  rewrite IH by exact Hl. now rewrite <- app_assoc.
Qed.
Lemma start_letter c : letter c = true -> start c = ([], LWord [c]).
Proof.
  intros Hc. assert (H := Hc). unfold letter, between in H. unfold start.
  repeat match goal with |- context [c =? ?n] => destruct (Z.eqb_spec c n) as [->|]; [discriminate H|] end. now rewrite Hc.
Qed.
Lemma column_shows n c : column_text n c -> closed n /\ forall k, shows None k c (lex n) k.
Proof.
  intros [f name Q|f name t tn Q T|x w L W _].
  - split; [exact (closed_quoted _ _ Q)|]. intros k. rewrite (lex_quoted _ _ Q). constructor.
  - change (t ++ [46] ++ f) with (t ++ 46 :: f). split.
    + apply closed_cut; [exact (closed_quoted _ _ T)|cbn; tauto|exact (closed_quoted _ _ Q)].
    + intros k. rewrite lex_cut; [|exact (closed_quoted _ _ T)|cbn; tauto]. rewrite (lex_quoted _ _ T), (lex_quoted _ _ Q). constructor.
  - assert (R : lex_run L0 (x :: w) = ([], LWord (x :: w))).
    { cbn [lex_run lex_step]. rewrite (start_letter _ L). rewrite (word_run [x] w W). reflexivity. }
    split; [unfold closed; now rewrite R|]. intros k. unfold lex. rewrite R. constructor.
Qed.
Definition cmp (desc : bool) : bop := if desc then BLt else BGt.
Lemma compare_piece n c (w : string) o k : column_text n c -> closed (lit w) -> lex (lit w) = [op_tok o] ->
  closed (n ++ 32 :: lit w ++ 32 :: lit "?") /\ shows (Some o) k (SBin o c (SMark k)) (lex (n ++ 32 :: lit w ++ 32 :: lit "?")) (S k).
Proof.
  intros H Cw Lw. destruct (column_shows _ _ H) as [Cn Sn]. destruct (infix_lex n (lit w) (lit "?") _ Cn I Cw Lw) as [C L].
  split; [exact C|]. rewrite L. change (lex (lit "?")) with [KMark].
  apply (Sh_bin strength o None None k c (lex n) k (SMark k) [KMark] (S k)); [apply Sn|apply Sh_mark|exact I|exact I].
Qed.
Lemma cmp_text (desc : bool) : closed (lit (if desc then "<" else ">")) /\ lex (lit (if desc then "<" else ">")) = [op_tok (cmp desc)].
Proof. destruct desc; split; exact I || reflexivity. Qed.
Lemma beyond_mono ps qs cols vs t : beyond (param_of other) ps cols vs t -> beyond (param_of other) (ps ++ qs) cols vs t.
Proof.
  assert (M : forall i v, param_at (param_of other) ps i v -> param_at (param_of other) (ps ++ qs) i v).
  { intros i v (p & Pp & Np). exists p. split; [exact Pp|]. rewrite nth_error_app1; [exact Np|]. apply nth_error_Some. congruence. }
  induction 1; constructor; auto.
Qed.
Lemma skip_shows names : forall cols, same_columns names cols -> forall tok ket ps s ps', skip_text other names tok ket ps = Ok (s, ps') ->
  exists body t vals, s = body ++ repeat 41 ket /\ ps' = ps ++ vals /\ closed body /\ shows None (length ps) t (lex body) (length ps') /\
    beyond (param_of other) ps' cols tok t.
Proof.
  induction names as [|[n desc] names IH]; intros cols F tok ket ps s ps'; [discriminate|].
  destruct tok as [|v tok]; [discriminate|]. inversion F as [|? [c desc'] ? cols' [Hc Hd] F']; subst. cbn [fst snd] in Hc, Hd. subst desc'.
  cbn [skip_text]. destruct (PrepareSQLValue other v) as [p|] eqn:E; [|discriminate]. cbn [bind AddParam].
  destruct (cmp_text desc) as [Cw Lw].
  destruct (compare_piece n c _ (cmp desc) (length ps) Hc Cw Lw) as [C1 S1].
  set (first := n ++ 32 :: lit (if desc then "<" else ">") ++ 32 :: lit "?") in *.
  destruct names as [|n2 names].
  - intros H. injection H as <- <-. inversion F'; subst.
    exists ([] ++ 40 :: first ++ 41 :: []), (SBin (cmp desc) c (SMark (length ps))), [p].
    split; [unfold first; cbn [app lit repeat]; rewrite <- !app_assoc; cbn [app]; rewrite <- ?app_assoc; reflexivity|]. split; [reflexivity|]. split.
    { apply closed_cut; [exact closed_nil|cbn; tauto|]. apply closed_cut; [exact C1|cbn; tauto|exact closed_nil]. }
    split.
    + rewrite lex_cut; [|exact closed_nil|cbn; tauto]. rewrite lex_cut; [|exact C1|cbn; tauto]. rewrite app_length, Nat.add_1_r.
      exact (Sh_br strength _ _ _ _ _ S1).
    + apply Q_last. exists p. split; [now apply prepare_param|]. rewrite nth_error_app2 by lia. now rewrite Nat.sub_diag.
  - destruct (skip_text other (n2 :: names) tok (S (S ket)) ((ps ++ [p]) ++ [p])) as [[rest ps1]|] eqn:W; [|discriminate].
    cbn [bind]. intros H. injection H as <- <-.
    destruct (IH cols' F' tok _ _ _ _ W) as (body & t & vals & -> & -> & Cb & Sb & B).
    destruct (compare_piece n c "=" BEq (S (length ps)) Hc I eq_refl) as [C2 S2].
    set (second := n ++ 32 :: lit "=" ++ 32 :: lit "?") in *.
    destruct (infix_lex second (lit "AND") body (KWord (lit "AND")) C2 Cb I eq_refl) as [C3 L3].
    set (third := second ++ 32 :: lit "AND" ++ 32 :: body) in *.
    assert (C4 : closed ([] ++ 40 :: third ++ 41 :: [])).
    { apply closed_cut; [exact closed_nil|cbn; tauto|]. apply closed_cut; [exact C3|cbn; tauto|exact closed_nil]. }
    assert (L4 : lex ([] ++ 40 :: third ++ 41 :: []) = KOpen :: lex third ++ [KClose]).
    { rewrite lex_cut; [|exact closed_nil|cbn; tauto]. rewrite lex_cut; [|exact C3|cbn; tauto]. reflexivity. }
    set (fourth := [] ++ 40 :: third ++ 41 :: []) in *.
    destruct (infix_lex first (lit "OR") fourth (KWord (lit "OR")) C1 C4 I eq_refl) as [C5 L5].
    set (fifth := first ++ 32 :: lit "OR" ++ 32 :: fourth) in *.
    exists ([] ++ 40 :: fifth ++ 41 :: []), (SBin BOr (SBin (cmp desc) c (SMark (length ps))) (SBin BAnd (SBin BEq c (SMark (S (length ps)))) t)), (p :: p :: vals).
    split.
    { unfold fifth, fourth, third, first, second. cbn [app lit repeat]. rewrite <- ?app_assoc. cbn [app]. rewrite <- ?app_assoc. cbn [app]. rewrite <- ?app_assoc. cbn [app]. rewrite <- ?app_assoc. reflexivity. }
    split; [rewrite <- !app_assoc; reflexivity|]. split.
    { apply closed_cut; [exact closed_nil|cbn; tauto|]. apply closed_cut; [exact C5|cbn; tauto|exact closed_nil]. }
    split.
    + rewrite lex_cut; [|exact closed_nil|cbn; tauto]. rewrite lex_cut; [|exact C5|cbn; tauto]. rewrite L5, L4, L3.
      replace (length ((ps ++ [p]) ++ [p])) with (S (S (length ps))) in Sb by (rewrite !app_length; cbn [length]; lia).
      set (k' := length (((ps ++ [p]) ++ [p]) ++ vals)) in *.
      refine (Sh_br strength (Some BOr) _ _ _ _ _).
      apply (Sh_bin strength BOr (Some (cmp desc)) None _ _ _ (S (length ps)) _ _ k' S1).
      * refine (Sh_br strength (Some BAnd) _ _ _ _ _).
        apply (Sh_bin strength BAnd (Some BEq) None _ _ _ (S (S (length ps))) _ _ k' S2 Sb); [|exact I].
        cbn [ok_left]. assert (X := strength_and_eq). lia.
      * cbn [ok_left]. assert (X := proj1 usual_strength BOr (cmp desc)). destruct desc; cbn [cmp class] in *; lia.
      * exact I.
    + apply Q_more; [inversion F'; discriminate| | |exact B].
      * exists p. split; [now apply prepare_param|]. rewrite <- app_assoc. apply nth_last.
      * exists p. split; [now apply prepare_param|].
        replace (S (length ps)) with (length (ps ++ [p])) by (rewrite app_length; cbn [length]; lia). apply nth_last.
Qed.
Lemma filter_piece e ps os ps' : formed nav e -> SQL e ps QAnd = Ok (os, ps') ->
  exists s t vals, os = Some s /\ ps' = ps ++ vals /\ piece (clear strength t) (length ps) (lit "(" ++ s ++ lit ")") t (length ps') /\ stands' ps' t e.
Proof.
  intros F H.
  destruct (translated other sqlite qualifyNames tableName mangledNames entityType names_quoted table_quoted e F _ _ _ _ H) as (s & t & vals & -> & -> & C & L & G & M & S).
  exists s, t, vals. split; [reflexivity|]. split; [reflexivity|]. split; [|exact S].
  change (lit "(" ++ s ++ lit ")") with ([] ++ 40 :: s ++ 41 :: []). split; [|split; [|split]].
  - apply closed_cut; [exact closed_nil|cbn; tauto|]. apply closed_cut; [exact C|cbn; tauto|exact closed_nil].
  - rewrite app_length. lia.
  - rewrite app_length. rewrite M. f_equal. lia.
  - exists None. split; [now left|]. intros Cl.
    rewrite lex_cut; [|exact closed_nil|cbn; tauto]. rewrite lex_cut; [|exact C|cbn; tauto]. rewrite L, app_length.
    eapply Sh_br. exact (shows_show strength usual_strength t G Cl _ _ M _).
Qed.
(** ** The clause *)
Lemma where_read keys f skip cols w ps :
  match f with Some e => formed nav e | None => True end ->
  match skip with Some (names, _) => same_columns names cols | None => True end ->
  Where keys f skip [] = Ok (w, ps) ->
  exists tk tf tc, 
    match keys with None => tk = [] | Some l => Forall2 (key_test (param_of other) ps mangledNames) l tk end /\
    opt (fun e t => stands' ps t e) f tf /\
    opt (fun x t => beyond (param_of other) ps cols (snd x) t) skip tc /\
    concat (map marks (tk ++ tf ++ tc)) = seq 0 (length ps) /\
    match tk ++ tf ++ tc with
    | [] => w = []
    | t :: l => exists c, w = lit " WHERE " ++ c /\
        (Forall (clear strength) tf -> exists t', read_text strength c = Some t' /\ regroup t' (all_of t l))
    end.
Proof.
  intros Ff Fs. unfold WhereClause.
  destruct (match keys with Some k => WhereEntityClause other mangledNames k [] | None => Ok ([], []) end) as [[w1 ps1]|] eqn:E1; [|discriminate].
  cbn [bind].
  destruct (match f with Some f => '(s, ps) <- SQL f ps1 QAnd ;; s <- joined s ;; Ok ([lit "(" ++ s ++ lit ")"], ps) | None => Ok ([], ps1) end)
    as [[w2 ps2]|] eqn:E2; [|discriminate]. cbn [bind].
  destruct (match skip with Some (names, tok) => '(s, ps) <- WhereSkiptokenClause other names tok ps2 ;; Ok ([s], ps) | None => Ok ([], ps2) end)
    as [[w3 ps3]|] eqn:E3; [|discriminate]. cbn [bind].
  (* the filter *)
  assert (H2 : exists tf vals, ps2 = ps1 ++ vals /\ pieces (Forall (clear strength) tf) (length ps1) w2 tf (length ps2) /\
    opt (fun e t => stands' ps2 t e) f tf).
  { destruct f as [e|].
    - destruct (SQL e ps1 QAnd) as [[os qs]|] eqn:Es; [|discriminate]. cbn [bind] in E2.
      destruct (filter_piece e ps1 os qs Ff Es) as (s & t & vals & -> & -> & P & S). cbn [joined bind] in E2. injection E2 as <- <-.
      exists [t], vals. split; [reflexivity|]. split.
      + eapply Pc_cons; [|apply Pc_nil]. destruct P as (P1 & P2 & P3 & h & P4 & P5). repeat split; auto. exists h. split; [exact P4|].
        intros C. apply P5. now inversion C.
      + exists t. auto.
    - injection E2 as <- <-. exists [], []. rewrite app_nil_r. repeat split. apply Pc_nil. }
  destruct H2 as (tf & v2 & -> & P2 & O2).
  assert (H1 : exists tk vals, ps1 = [] ++ vals /\ pieces (Forall (clear strength) tf) 0 w1 tk (length ps1) /\
    match keys with None => tk = [] | Some l => Forall2 (key_test (param_of other) ps1 mangledNames) l tk end).
  { destruct keys as [k|].
    - destruct (entity_pieces (Forall (clear strength) tf) k [] w1 ps1 E1) as (tk & vals & -> & P & F). exists tk, vals. auto.
    - injection E1 as <- <-. exists [], []. repeat split. apply Pc_nil. }
  destruct H1 as (tk & v1 & -> & P1 & O1). cbn [app] in *.
  assert (H3 : exists tc vals, ps3 = (v1 ++ v2) ++ vals /\ pieces (Forall (clear strength) tf) (length (v1 ++ v2)) w3 tc (length ps3) /\
    opt (fun x t => beyond (param_of other) ps3 cols (snd x) t) skip tc).
  { destruct skip as [[names tok]|].
    - unfold WhereSkiptokenClause in E3. destruct (skip_text other names tok 0 (v1 ++ v2)) as [[s qs]|] eqn:Es; [|discriminate]. cbn [bind] in E3. injection E3 as <- <-.
      destruct (skip_shows names cols Fs tok _ _ _ _ Es) as (body & t & vals & -> & -> & Cb & Sb & B).
      exists [t], vals. split; [reflexivity|]. split.
      + eapply Pc_cons; [|apply Pc_nil]. cbn [repeat]. rewrite app_nil_r. apply (piece_shows _ _ _ _ _ None); auto.
      + exists t. auto.
    - injection E3 as <- <-. exists [], []. rewrite app_nil_r. repeat split. apply Pc_nil. }
  destruct H3 as (tc & v3 & -> & P3 & O3).
  assert (P : pieces (Forall (clear strength) tf) 0 (w1 ++ w2 ++ w3) (tk ++ tf ++ tc) (length ((v1 ++ v2) ++ v3))).
  { eapply pieces_app; [exact P1|]. eapply pieces_app; [exact P2|exact P3]. }
  intros H. assert (ps = (v1 ++ v2) ++ v3) as -> by (destruct (w1 ++ w2 ++ w3); now injection H).
  exists tk, tf, tc. split.
  { destruct keys as [k|]; [|exact O1]. clear - O1. rewrite <- app_assoc. induction O1; constructor; auto using key_test_mono. }
  split.
  { destruct f as [e|]; cbn [opt] in *; [|exact O2]. destruct O2 as (t & -> & S). exists t. split; [reflexivity|]. now apply stands_mono. }
  split; [exact O3|]. split.
  { destruct (pieces_marks _ _ _ _ _ P) as [_ M]. rewrite M. f_equal. lia. }
  destruct (w1 ++ w2 ++ w3) as [|s l], (tk ++ tf ++ tc) as [|t ts]; try (now inversion P).
  - now injection H.
  - injection H as <-. eexists. split; [reflexivity|]. intros C. apply (pieces_read _ C _ _ _ _ _ P).
Qed.
End Where.
