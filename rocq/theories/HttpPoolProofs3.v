(** Cleaning up, and every step of the pool. *)
From Coq Require Import List Arith Bool ZArith Lia Permutation.
From Verif Require Import Py HttpPool HttpPoolSpec HttpPoolProofs HttpPoolProofs2.
Import ListNotations.
Open Scope nat_scope.

Section Steps.
Variable limit : nat.
Variable values : list cid -> list cid.
Hypothesis values_perm : forall l, Permutation (values l) l.
Notation Good := (Good limit).
Definition expired (m : mgr) (bound : Z) (c : cid) : bool := (o_last (heap m c) <? bound)%Z.

(** ** IdleCleanup *)
Lemma idle_loop_good bound l : forall tr m, Good tr m -> NoDup l -> (forall c, In c l -> In c (idle m)) ->
  exists m', idle_loop bound l m = (m', filter (expired m bound) l, true) /\ Good (tr ++ map Closed (filter (expired m bound) l)) m' /\
    active m' = active m /\ threads m' = threads m /\ heap m' = heap m /\ closing m' = closing m /\ nextId m' = nextId m /\
    (forall d, In d (idle m') <-> In d (idle m) /\ ~ In d (filter (expired m bound) l)).
Proof.
  induction l as [|c l IH]; intros tr m GD ND IN.
  - exists m. cbn [idle_loop filter map]. rewrite app_nil_r. split; [reflexivity|]. split; [exact GD|]. do 5 (split; [reflexivity|]). intros d. cbn [In]. tauto.
  - apply NoDup_cons_iff in ND as [N1 N2]. cbn [idle_loop filter]. change (o_last (heap m c) <? bound)%Z with (expired m bound c). destruct (expired m bound c) eqn:E.
    + destruct GD as (I & L & w & O & R). assert (IC : In c (idle m)) by (apply IN; now left). destruct (leave m c I IC) as (m1 & E1 & I1 & A1 & T1 & D1 & H1 & X1 & C1 & R1). rewrite E1.
      assert (HI : has tg_eqb (o_target (heap m c)) c (idleT m)) by (apply (i_it m I); auto). destruct HI as (l0 & GL & _). rewrite GL.
      destruct (R1 w R) as [R2 IW]. destruct (IH (tr ++ [Closed c]) m1) as (m2 & E2 & G2 & A2 & T2 & H2 & C2 & X2 & D2).
      * split; [assumption|]. split; [rewrite A1, D1; assert (X := length_drop c (idle m) (i_idle m I) IC); lia|]. exists (forget c w). split; [|assumption].
        apply o_snoc with (w := w); [assumption|]. eapply f_closed. exact IW.
      * assumption.
      * intros d Hd. rewrite D1. apply drop_In. split; [apply IN; now right|]. intros ->. contradiction.
      * assert (F : filter (expired m1 bound) l = filter (expired m bound) l) by (apply filter_ext; intros d; unfold expired; now rewrite H1). rewrite F in *.
        rewrite E2. exists m2. split; [reflexivity|]. split; [cbn [map]; rewrite <- app_assoc in G2; exact G2|]. split; [congruence|]. split; [congruence|]. split; [congruence|]. split; [congruence|]. split; [congruence|].
        intros d. rewrite D2, D1, drop_In. cbn [In]. intuition congruence.
    + destruct (IH tr m GD N2) as (m2 & E2 & G2 & REST); [intros d Hd; apply IN; now right|]. exists m2. split; [exact E2|]. split; [exact G2|exact REST].
Qed.
(** ** ActiveCleanup *)
Lemma bound_list_In m t c : NoDup (map fst (threads m)) -> In (t, c) (bound_list values m) <-> has Nat.eqb t c (threads m).
Proof.
  intros ND. unfold bound_list, has. rewrite in_flat_map. split.
  - intros ([u l] & H & J). cbn in J. apply in_map_iff in J as (d & [= -> ->] & J). exists l. split; [|now apply (proj1 (values_In values values_perm _ _))].
    apply In_get; [apply Nat.eqb_eq|assumption|assumption].
  - intros (l & G & J). exists (t, l). split; [apply (get_In _ Nat.eqb_eq _ _ _ G)|]. cbn. apply in_map. now apply (proj2 (values_In values values_perm _ _)).
Qed.
Lemma bound_list_NoDup m : Inv m -> NoDup (map snd (bound_list values m)).
Proof.
  intros I. unfold bound_list. assert (K := i_ths m I).
  assert (A : forall t l, In (t, l) (threads m) -> NoDup l /\ forall c, In c l -> o_thread (heap m c) = Some t).
  { intros t l H. apply In_get with (eqb := Nat.eqb) in H; [|apply Nat.eqb_eq|assumption]. split; [apply (i_thn m I _ _ H)|]. intros c J.
    assert (X : has Nat.eqb t c (threads m)) by (exists l; auto). apply (i_thr m I) in X. apply (i_act m I) in X as (X & _). apply (f_equal fst) in X. symmetry. exact X. }
  revert K A. generalize (threads m). intros ths. induction ths as [|[t l] ths IH]; [intros; constructor|]. cbn [map fst snd flat_map]. intros K A. apply NoDup_cons_iff in K as [K1 K2].
  rewrite map_app, map_map. cbn [snd]. rewrite map_id.
  assert (D : forall c, In c (values l) -> ~ In c (map snd (flat_map (fun p => map (pair (fst p)) (values (snd p))) ths))).
  { intros c Hc J. apply (proj1 (values_In values values_perm _ _)) in Hc. apply in_map_iff in J as ([u d] & E & J). cbn in E. subst d. apply in_flat_map in J as ([u' l'] & J1 & J2). cbn in J2. apply in_map_iff in J2 as (d & [= -> ->] & J2).
    apply (proj1 (values_In values values_perm _ _)) in J2. destruct (A t l) as [_ A1]; [now left|]. destruct (A u l') as [_ A2]; [now right|]. specialize (A1 c Hc). specialize (A2 c J2). assert (t = u) by congruence. subst u. apply K1. apply (in_map fst _ _ J1). }
  assert (N1 : NoDup (values l)) by (apply (Permutation_NoDup (Permutation_sym (values_perm l))); apply (A t l); now left).
  assert (N2 : NoDup (map snd (flat_map (fun p => map (pair (fst p)) (values (snd p))) ths))) by (apply IH; [assumption|intros; apply A; now right]).
  revert N1 D. generalize (values l). intros v. induction v as [|c v IHv]; [intros; exact N2|]. intros N1 D. apply NoDup_cons_iff in N1 as [N1 N3]. cbn. constructor.
  - rewrite in_app_iff. intros [H|H]; [contradiction|]. apply (D c); [now left|exact H].
  - apply IHv; [assumption|]. intros d H. apply D. now right.
Qed.
Lemma active_loop_good bound l : forall tr m, Good tr m -> NoDup (map snd l) -> (forall t c, In (t, c) l -> has Nat.eqb t c (threads m)) ->
  let cs := filter (expired m bound) (map snd l) in
  exists m', active_loop bound l m = (m', cs, true) /\ Good (tr ++ map Killed cs) m' /\
    idle m' = idle m /\ heap m' = heap m /\ closing m' = closing m /\ nextId m' = nextId m /\
    length (active m') + length cs = length (active m) /\
    (forall k d, get key_eqb k (active m') = Some d <-> get key_eqb k (active m) = Some d /\ ~ In d cs).
Proof.
  induction l as [|[t c] l IH]; intros tr m GD ND IN cs.
  - exists m. unfold cs. cbn [active_loop filter map]. rewrite app_nil_r. split; [reflexivity|]. split; [exact GD|]. do 4 (split; [reflexivity|]). split; [cbn; lia|]. intros k d. cbn [In]. tauto.
  - cbn [map snd] in ND. apply NoDup_cons_iff in ND as [N1 N2]. unfold cs. cbn [active_loop filter map snd]. change (o_last (heap m c) <? bound)%Z with (expired m bound c). destruct (expired m bound c) eqn:E.
    + destruct GD as (I & L & w & O & R). assert (HC : has Nat.eqb t c (threads m)) by (apply IN; now left). destruct (take_away m t c I HC) as (T & G & I1 & L1 & HT & ACT & R1). rewrite T.
      match goal with |- context [get key_eqb ?k (active m)] => replace (get key_eqb k (active m)) with (Some c) by (symmetry; exact G) end.
      set (m1 := mkMgr _ _ (del _ _ _) _ _ _ _) in *. destruct (R1 w R) as [R2 IW].
      destruct (IH (tr ++ [Killed c]) m1) as (m2 & E2 & G2 & D2 & H2 & C2 & X2 & L2 & A2).
      * split; [assumption|]. split; [change (idle m1) with (idle m); lia|]. exists (forget c w). split; [|assumption]. apply o_snoc with (w := w); [assumption|]. eapply f_killed. exact IW.
      * assumption.
      * intros u d Hd. apply HT. split; [apply IN; now right|]. intros ->. apply N1. apply (in_map snd _ _ Hd).
      * change (filter (expired m1 bound) (map snd l)) with (filter (expired m bound) (map snd l)) in *. fold m1. rewrite E2.
        exists m2. split; [reflexivity|]. split; [cbn [map]; rewrite <- app_assoc in G2; exact G2|]. split; [exact D2|]. split; [exact H2|]. split; [exact C2|]. split; [exact X2|]. split; [cbn [length]; lia|].
        intros k d. rewrite A2, ACT. cbn [In]. intuition congruence.
    + destruct (IH tr m GD N2) as (m2 & E2 & REST); [intros u d Hd; apply IN; now right|]. exists m2. split; [exact E2|exact REST].
Qed.

(** ** Every step *)
Lemma attempt_good w now tr s s' es o : Good tr (pool s) -> attempt limit values w now s = (s', es, o) ->
  Good (tr ++ es) (pool s') /\ closing (pool s') = closing (pool s) /\
  match o with
  | Enqueued c => waiting s' = waiting s /\ woken s' = woken s /\ get key_eqb (Some (w_t w), w_tg w) (active (pool s')) = Some c /\
      In (Queued c (w_t w) (w_tg w) (w_r w)) es /\
      length (active (pool s)) <= length (active (pool s')) /\
      (forall k, k <> (Some (w_t w), w_tg w) -> get key_eqb k (active (pool s')) = get key_eqb k (active (pool s))) /\
      (forall d, d < nextId (pool s) -> o_queue (heap (pool s') d) = o_queue (heap (pool s) d) ++ (if d =? c then [w_r w] else [])) /\
      (nextId (pool s) <= c -> o_queue (heap (pool s') c) = [w_r w]) /\
      (get key_eqb (Some (w_t w), w_tg w) (active (pool s)) = None -> length (active (pool s')) = S (length (active (pool s)))) /\
      (forall d, get key_eqb (Some (w_t w), w_tg w) (active (pool s)) = Some d -> d = c /\ es = [Queued c (w_t w) (w_tg w) (w_r w)])
  | Waits => es = [] /\ s' = mkSys (pool s) (waiting s ++ [w]) (woken s) /\ idle (pool s) = [] /\ limit <= length (active (pool s)) /\
      get key_eqb (Some (w_t w), w_tg w) (active (pool s)) = None /\ w_timeout w <> Some 0%Z /\ (forall d, w_timeout w = Some d -> (now <= w_start w + d)%Z)
  | Raised RequestManagerBusy => es = [] /\ s' = s /\ idle (pool s) = [] /\ limit <= length (active (pool s)) /\
      get key_eqb (Some (w_t w), w_tg w) (active (pool s)) = None /\ exists d, w_timeout w = Some d /\ (d = 0 \/ now > w_start w + d)%Z
  | Raised NotImplementedError => waiting s' = waiting s /\ woken s' = woken s /\ supported (w_tg w) = false /\ active (pool s') = active (pool s) /\
      get key_eqb (Some (w_t w), w_tg w) (active (pool s)) = None
  | _ => False
  end.
Proof.
  intros GD. unfold attempt. destruct (search limit values _ _ _ _) as [[m es0] r] eqn:S. apply (search_good limit values values_perm) with (tr := tr) in S; [|assumption|lia].
  destruct S as (G1 & C1 & Q1 & GO & K1). destruct r as [c| |e|].
  - destruct K1 as (K1 & K2 & K3). intros E. injection E as <- <- <-. cbn [pool waiting woken]. split; [|split; [exact C1|]].
    + destruct G1 as (I & L & w0 & O & R). split; [|split; [exact L|]].
      * apply (inv_heap m); try reflexivity; [|exact I]. intros d. apply enqueue_heap.
      * exists w0. split; [|apply (rel_heap w0 m); try reflexivity; [intros d; apply enqueue_heap|exact R]]. rewrite app_assoc. apply o_snoc with (w := w0); [exact O|].
        apply f_queued. apply R. split; [|exact K1]. apply (i_act m I) in K1 as (K1 & _). congruence.
    + split; [reflexivity|]. split; [reflexivity|]. split; [exact K1|]. split; [apply in_app_iff; right; now left|]. cbn [enqueue active].
      split; [destruct K3 as [(A & -> & ->)|(A & B)]; lia|]. split; [exact GO|]. split; [|split].
      * intros d LT. cbn [pool enqueue heap]. unfold upd. destruct (d =? c) eqn:E; [apply Nat.eqb_eq in E; subst d; cbn [o_queue]|rewrite app_nil_r]; now rewrite Q1.
      * intros LE. cbn [pool enqueue heap]. rewrite upd_same. cbn [o_queue]. destruct K2 as [[_ ->]|K2]; [reflexivity|lia].
      * destruct K3 as [(A & -> & ->)|(A & B)]; rewrite A; (split; [first [discriminate|auto]|]); [intros d [= <-]; auto|discriminate].
  - destruct K1 as (-> & -> & D & LE & N). destruct (match w_timeout w with None => false | Some d => _ end) eqn:T; intros E; injection E as <- <- <-.
    + cbn [pool]. rewrite app_nil_r in G1. split; [now rewrite app_nil_r|]. split; [reflexivity|]. split; [reflexivity|]. split; [now destruct s|]. repeat split; auto.
      destruct (w_timeout w) as [d|]; [|discriminate]. exists d. split; [reflexivity|]. apply orb_prop in T as [T|T]; [left; now apply Z.eqb_eq|right]. apply Z.gtb_lt in T. lia.
    + cbn [pool]. split; [assumption|]. split; [reflexivity|]. split; [reflexivity|]. split; [reflexivity|]. repeat split; auto.
      * intros X. rewrite X in T. cbn in T. discriminate.
      * intros d X. rewrite X in T. apply orb_false_iff in T as [_ T]. rewrite Z.gtb_ltb in T. apply Z.ltb_ge in T. lia.
  - destruct K1 as (-> & SU & A & N). intros E. injection E as <- <- <-. cbn [pool waiting woken]. split; [exact G1|]. auto 10.
  - destruct K1.
Qed.

(** What the wakening of threads keeps true: while a call waits, each connection that could be active has a call that will look for it *)
Definition Awake (s : sys) : Prop := waiting s <> [] -> limit <= length (active (pool s)) + length (woken s).
Definition all_supported (s : sys) : Prop := forall w, In w (waiting s ++ woken s) -> supported (w_tg w) = true.
Lemma notify_awake n m s : waiting s <> [] -> limit <= length (active m) + n + length (woken s) ->
  Awake (notify n (mkSys m (waiting s) (woken s))).
Proof.
  intros N L. unfold Awake, notify. cbn [waiting pool woken]. intros W. rewrite app_length, firstn_length.
  assert (X : n < length (waiting s)) by (destruct (le_lt_dec (length (waiting s)) n) as [H|H]; [rewrite skipn_all2 in W by assumption; contradiction|assumption]). lia.
Qed.
Lemma without_length {A} i (l : list A) w : nth_error l i = Some w -> S (length (without i l)) = length l.
Proof.
  intros H. assert (i < length l) by (apply nth_error_Some; congruence). unfold without. rewrite app_length, firstn_length, skipn_length. lia.
Qed.
Lemma without_In {A} i (l : list A) x : In x (without i l) -> In x l.
Proof. unfold without. rewrite in_app_iff. intros [H|H]; [rewrite <- (firstn_skipn i l)|rewrite <- (firstn_skipn (S i) l)]; apply in_app_iff; auto. Qed.

Lemma step_good tr s e s' es o : Good tr (pool s) -> possible s e -> no_surprise s e -> step limit values s e = (s', es, o) ->
  Good (tr ++ es) (pool s') /\ o <> Raised KeyError /\ o <> Forever.
Proof.
  intros GD P NS. destruct e as [w now|i now|i|t c n now|t c now|d now|d now|]; cbn [step].
  - unfold QueueRequest. destruct (closing (pool s)) eqn:C.
    + intros E. injection E as <- <- <-. rewrite app_nil_r. split; [exact GD|]. split; discriminate.
    + intros E. apply attempt_good with (tr := tr) in E as (G & _ & K); [|assumption]. split; [assumption|]. split; intros ->; exact K.
  - destruct (nth_error (woken s) i) as [w|] eqn:N.
    + intros E. apply attempt_good with (tr := tr) in E as (G & _ & K); [|assumption]. split; [assumption|]. split; intros ->; exact K.
    + intros E. injection E as <- <- <-. rewrite app_nil_r. split; [exact GD|]. split; discriminate.
  - destruct (nth_error (waiting s) i) as [w|]; intros E; injection E as <- <- <-; rewrite app_nil_r; cbn [pool]; (split; [assumption|split; discriminate]).
  - intros E. injection E as <- <- <-. rewrite app_nil_r. cbn [pool]. split; [|split; discriminate]. destruct GD as (I & L & w & O & R). split; [|split; [exact L|]].
    + apply (inv_heap (pool s)); try reflexivity; [intros d; apply touch_heap|exact I].
    + exists w. split; [exact O|]. apply (rel_heap w (pool s)); try reflexivity; [intros d; apply touch_heap|exact R].
  - cbn in P. destruct P as (LT & T & _). destruct GD as (I & L & w & O & R). set (m1 := touch c 0 now (pool s)).
    assert (I1 : Inv m1) by (apply (inv_heap (pool s)); try reflexivity; [intros d; apply touch_heap|exact I]).
    assert (R1 : Rel w m1) by (apply (rel_heap w (pool s)); try reflexivity; [intros d; apply touch_heap|exact R]).
    destruct (DeactivateConnection c m1) as [[m2 es2] n2] eqn:D. intros E. injection E as <- <- <-.
    assert (T1 : o_thread (heap m1 c) = Some t) by (unfold m1; rewrite (proj2 (touch_heap c 0 now (pool s) c)); exact T).
    assert (TG : o_target (heap m1 c) = o_target (heap (pool s) c)) by apply touch_heap.
    assert (S1 : forall d, get key_eqb (Some t, o_target (heap m1 c)) (active m1) = Some d -> d = c).
    { intros d G. destruct (Nat.eq_dec d c) as [|N]; [assumption|]. exfalso. apply NS. cbn. exists d. split; [assumption|]. rewrite TG in G. apply get_In in G; [exact G|apply key_eqb_eq]. }
    apply (deactivate m1 c t w) in D as (I2 & _ & _ & _ & _ & D); auto. change (pool (notify n2 _)) with m2. split; [|split; discriminate]. destruct D as [(G & -> & -> & R2 & L2 & IW)|(G & -> & -> & R2 & A2 & D2)].
    + split; [exact I2|]. change (active m1) with (active (pool s)) in L2. assert (X := rel_length w (pool s) I R). assert (Y := rel_length _ m2 I2 R2). unfold set_owner in Y. rewrite map_length in Y. split; [lia|].
      exists (set_owner c None w). split; [|exact R2]. apply o_snoc with (w := w); [exact O|]. eapply f_idled. exact IW.
    + split; [exact I2|]. split; [rewrite A2, D2; exact L|]. exists w. rewrite app_nil_r. auto.
  - unfold IdleCleanup. destruct (idle_loop_good (now - d) (values (idle (pool s))) tr (pool s)) as (m2 & E2 & G2 & _); [assumption| | |].
    + apply (Permutation_NoDup (Permutation_sym (values_perm _))). apply GD.
    + intros c H. now apply (proj1 (values_In values values_perm _ _)).
    + rewrite E2. intros E. injection E as <- <- <-. split; [exact G2|]. split; discriminate.
  - unfold ActiveCleanup. destruct (active_loop_good (now - d) (bound_list values (pool s)) tr (pool s)) as (m2 & E2 & G2 & _); [assumption| | |].
    + apply bound_list_NoDup, GD.
    + intros t c H. apply bound_list_In; [apply GD|assumption].
    + rewrite E2. intros E. injection E as <- <- <-. split; [exact G2|]. split; discriminate.
  - unfold CloseRound. intros E. injection E as <- <- <-. rewrite app_nil_r. cbn [pool]. split; [|split; [destruct (_ =? 0); discriminate|destruct (_ =? 0); discriminate]].
    destruct GD as (I & L & w & O & R). split; [|split; [exact L|]].
    + apply (inv_heap (pool s)); try reflexivity; [intros d; auto|exact I].
    + exists w. split; [exact O|]. apply (rel_heap w (pool s)); try reflexivity; exact R.
Qed.
(** Calls that wait are of different threads, which have no connection to the targets they wait for *)
Definition Apart (s : sys) : Prop :=
  NoDup (map w_t (waiting s ++ woken s)) /\
  (forall w, In w (waiting s ++ woken s) -> get key_eqb (Some (w_t w), w_tg w) (active (pool s)) = None).
Lemma without_perm {A} i (l : list A) w : nth_error l i = Some w -> Permutation l (w :: without i l).
Proof.
  intros H. unfold without. apply nth_error_split in H as (l1 & l2 & -> & <-). rewrite firstn_app, Nat.sub_diag, firstn_all. cbn [firstn]. rewrite app_nil_r.
  replace (S (length l1)) with (length (l1 ++ [w])) by (rewrite app_length; cbn; lia). rewrite (app_assoc l1 [w] l2 : l1 ++ w :: l2 = (l1 ++ [w]) ++ l2), skipn_app, skipn_all, Nat.sub_diag. cbn [skipn app].
  rewrite <- app_assoc. apply Permutation_sym, Permutation_middle.
Qed.
Lemma apart_perm s s' : Permutation (waiting s' ++ woken s') (waiting s ++ woken s) ->
  (forall k, get key_eqb k (active (pool s)) = None -> get key_eqb k (active (pool s')) = None) -> Apart s -> Apart s'.
Proof.
  intros P K [N G]. split.
  - apply (Permutation_NoDup (Permutation_map w_t (Permutation_sym P)) N).
  - intros w H. apply K, G. apply (Permutation_in _ P H).
Qed.
Lemma notify_perm n m s : Permutation (waiting (notify n (mkSys m (waiting s) (woken s))) ++ woken (notify n (mkSys m (waiting s) (woken s)))) (waiting s ++ woken s).
Proof.
  unfold notify. cbn [waiting woken]. rewrite <- (firstn_skipn n (waiting s)) at 3. rewrite app_assoc. eapply perm_trans; [apply Permutation_app_comm|]. rewrite <- !app_assoc. apply Permutation_refl.
Qed.
Lemma attempt_apart w now tr s s' es o : Good tr (pool s) -> Apart s -> ~ busy s (w_t w) -> attempt limit values w now s = (s', es, o) -> Apart s'.
Proof.
  intros GD [N G] B E. apply attempt_good with (tr := tr) in E as (_ & _ & K); [|assumption].
  assert (NB : forall v, In v (waiting s ++ woken s) -> w_t v <> w_t w) by (intros v Hv X; apply B; unfold busy; rewrite <- X; now apply in_map).
  destruct o as [c| |e| | | |]; try contradiction.
  - unfold Apart. destruct K as (-> & -> & _ & _ & _ & GO & _). split; [assumption|]. intros v Hv. rewrite GO; [auto|]. intros X. injection X as X _. now apply (NB v).
  - destruct K as (_ & -> & _ & _ & K & _). split; cbn [waiting woken pool].
    + rewrite <- app_assoc. apply (Permutation_NoDup (Permutation_map w_t (Permutation_middle (waiting s) (woken s) w))). cbn. constructor; assumption.
    + intros v Hv. rewrite <- app_assoc in Hv. apply in_app_iff in Hv as [Hv|[<-|Hv]]; [apply G, in_app_iff; auto|assumption|apply G, in_app_iff; auto].
  - destruct e; try contradiction.
    + destruct K as (_ & -> & _). split; assumption.
    + destruct K as (A & B' & _ & C & _). split; rewrite A, B'; [assumption|rewrite C; assumption].
Qed.
Lemma step_apart tr s e s' es o : Good tr (pool s) -> possible s e -> no_surprise s e -> Apart s -> step limit values s e = (s', es, o) -> Apart s'.
Proof.
  intros GD P NS AP. destruct e as [w now|i now|i|t c n now|t c now|d now|d now|]; cbn [step].
  - unfold QueueRequest. destruct (closing (pool s)); [now intros E; injection E as <- <- <-|]. now apply attempt_apart with (tr := tr).
  - destruct (nth_error (woken s) i) as [w|] eqn:N; [|now intros E; injection E as <- <- <-]. assert (PM := without_perm i (woken s) w N). destruct AP as [A G].
    assert (PM2 : Permutation (waiting s ++ woken s) (w :: waiting s ++ without i (woken s))) by (eapply perm_trans; [apply Permutation_app_head, PM|apply Permutation_sym, Permutation_middle]).
    assert (A2 := Permutation_NoDup (Permutation_map w_t PM2) A). cbn [map] in A2. apply NoDup_cons_iff in A2 as [A2 A3].
    apply attempt_apart with (tr := tr); [exact GD| |exact A2]. split; [exact A3|]. intros v Hv. apply G. apply (Permutation_in _ (Permutation_sym PM2)). now right.
  - destruct (nth_error (waiting s) i) as [w|] eqn:N; [|now intros E; injection E as <- <- <-]. intros E. injection E as <- <- <-. apply apart_perm with (s := s); auto. cbn [waiting woken].
    assert (PM := without_perm i (waiting s) w N). rewrite app_assoc. eapply perm_trans; [apply Permutation_app_comm|]. cbn [app]. rewrite app_comm_cons. apply Permutation_app_tail. apply Permutation_sym, PM.
  - intros E. injection E as <- <- <-. exact AP.
  - cbn in P. destruct P as (LT & T & _). destruct (DeactivateConnection c _) as [[m2 es2] n2] eqn:D. intros E. injection E as <- <- <-. apply apart_perm with (s := s); [apply notify_perm| |assumption].
    intros k H. cbn [pool notify]. unfold DeactivateConnection in D. cbn [touch active heap] in D.
    match type of D with context [match ?g with Some _ => _ | None => _ end] => destruct g eqn:G0 end; injection D as <- <- <-; cbn [active]; [|exact H].
    match goal with |- get key_eqb k (del key_eqb ?k0 _) = None => destruct (key_dec k k0) as [->|NK] end; [apply get_del_same|rewrite get_del_other; [exact H|apply key_eqb_eq|exact NK]].
  - unfold IdleCleanup. destruct (idle_loop_good (now - d) (values (idle (pool s))) tr (pool s)) as (m2 & E2 & G2 & A2 & _); [assumption| | |].
    + apply (Permutation_NoDup (Permutation_sym (values_perm _))). apply GD.
    + intros c H. now apply (proj1 (values_In values values_perm _ _)).
    + rewrite E2. intros E. injection E as <- <- <-. apply apart_perm with (s := s); auto. cbn [pool]. now rewrite A2.
  - unfold ActiveCleanup. destruct (active_loop_good (now - d) (bound_list values (pool s)) tr (pool s)) as (m2 & E2 & G2 & D2 & H2 & C2 & X2 & L2 & A2); [assumption| | |].
    + apply bound_list_NoDup, GD.
    + intros t c H. apply bound_list_In; [apply GD|assumption].
    + rewrite E2. intros E. injection E as <- <- <-. apply apart_perm with (s := s); [apply notify_perm| |assumption]. intros k H. change (pool (notify _ _)) with m2.
      destruct (get key_eqb k (active m2)) as [x|] eqn:G; [|reflexivity]. apply A2 in G as [G _]. assert (X := eq_trans (eq_sym H) G). discriminate X.
  - unfold CloseRound. intros E. injection E as <- <- <-. exact AP.
Qed.
(** With schemes that are supported, no waking is lost *)
Lemma attempt_awake w now tr s s' es o : Good tr (pool s) -> supported (w_tg w) = true -> get key_eqb (Some (w_t w), w_tg w) (active (pool s)) = None ->
  (waiting s <> [] -> limit <= length (active (pool s)) + S (length (woken s))) -> attempt limit values w now s = (s', es, o) -> Awake s'.
Proof.
  intros GD SU G A E. apply attempt_good with (tr := tr) in E as (_ & _ & K); [|assumption]. unfold Awake. destruct o as [c| |e| | | |]; try contradiction.
  - destruct K as (-> & -> & _ & _ & _ & _ & _ & _ & K & _). intros W. specialize (A W). rewrite (K G). lia.
  - destruct K as (_ & -> & _ & K & _). cbn. lia.
  - destruct e; try contradiction.
    + destruct K as (_ & -> & _ & K & _). intros _. lia.
    + destruct K as (_ & _ & K & _). congruence.
Qed.
Lemma attempt_awake' w now tr s s' es o : Good tr (pool s) -> supported (w_tg w) = true -> Awake s -> attempt limit values w now s = (s', es, o) -> Awake s'.
Proof.
  intros GD SU A E. apply attempt_good with (tr := tr) in E as (_ & _ & K); [|assumption]. unfold Awake in *. destruct o as [c| |e| | | |]; try contradiction.
  - destruct K as (-> & -> & _ & _ & K & _). intros W. specialize (A W). lia.
  - destruct K as (_ & -> & _ & K & _). cbn. lia.
  - destruct e; try contradiction.
    + destruct K as (_ & -> & _ & K & _). intros _. lia.
    + destruct K as (_ & _ & K & _). congruence.
Qed.
Lemma step_awake tr s e s' es o : Good tr (pool s) -> possible s e -> polite s e -> Apart s -> all_supported s -> Awake s -> step limit values s e = (s', es, o) -> Awake s' /\ all_supported s'.
Proof.
  intros GD P [NS PO] AP AS AW. destruct e as [w now|i now|i|t c n now|t c now|d now|d now|]; cbn [step].
  - unfold QueueRequest. destruct (closing (pool s)); [now intros E; injection E as <- <- <-|]. intros E. split; [now apply attempt_awake' with (tr := tr) in E|].
    apply attempt_good with (tr := tr) in E as (_ & _ & K); [|assumption]. unfold all_supported in *. destruct o as [c| |e| | | |]; try contradiction.
    + destruct K as (-> & -> & _). assumption.
    + destruct K as (_ & -> & _). cbn [waiting woken]. intros v. rewrite <- app_assoc. rewrite in_app_iff. intros [Hv|[<-|Hv]]; [apply AS, in_app_iff; auto|assumption|apply AS, in_app_iff; auto].
    + destruct e; try contradiction; [destruct K as (_ & -> & _); assumption|destruct K as (-> & -> & _); assumption].
  - destruct (nth_error (woken s) i) as [w|] eqn:N; [|now intros E; injection E as <- <- <-]. assert (IW : In w (waiting s ++ woken s)) by (apply in_app_iff; right; eapply nth_error_In; eauto).
    assert (LW := without_length i (woken s) w N). intros E. split.
    + apply attempt_awake with (tr := tr) in E; [assumption|exact GD|now apply AS|now apply AP|]. cbn [waiting woken pool]. rewrite LW. exact AW.
    + assert (AS' : forall v, In v (waiting s ++ without i (woken s)) -> supported (w_tg v) = true).
      { intros v Hv. apply AS. apply in_app_iff in Hv as [Hv|Hv]; apply in_app_iff; [auto|right; eapply without_In; eauto]. }
      apply attempt_good with (tr := tr) in E as (_ & _ & K); [|assumption]. unfold all_supported in *. cbn [waiting woken] in K. destruct o as [c| |e| | | |]; try contradiction.
      * destruct K as (-> & -> & _). assumption.
      * destruct K as (_ & -> & _). cbn [waiting woken]. intros v. rewrite <- app_assoc. rewrite in_app_iff. intros [Hv|[<-|Hv]]; [apply AS', in_app_iff; auto|now apply AS|apply AS', in_app_iff; auto].
      * destruct e; try contradiction; [destruct K as (_ & -> & _); assumption|destruct K as (-> & -> & _); assumption].
  - destruct (nth_error (waiting s) i) as [w|] eqn:N; [|now intros E; injection E as <- <- <-]. intros E. injection E as <- <- <-. split.
    + unfold Awake in *. cbn [waiting woken pool]. intros W. rewrite app_length. cbn [length]. assert (X : waiting s <> []) by (intros X; rewrite X in N; destruct i; discriminate). specialize (AW X). lia.
    + intros v. cbn [waiting woken]. rewrite !in_app_iff. intros [Hv|[Hv|[<-|[]]]]; apply AS, in_app_iff; [left; eapply without_In; eauto|auto|left; eapply nth_error_In; eauto].
  - intros E. injection E as <- <- <-. split; assumption.
  - cbn in P. destruct P as (LT & T & _). destruct (DeactivateConnection c _) as [[m2 es2] n2] eqn:D. intros E. injection E as <- <- <-. split.
    + destruct (waiting s) as [|w0 ws] eqn:W.
      * unfold Awake, notify. cbn [waiting]. rewrite skipn_nil. intros X. now contradiction X.
      * rewrite <- W. apply notify_awake; [rewrite W; discriminate|]. assert (X : waiting s <> []) by (rewrite W; discriminate). specialize (AW X).
        assert (LL : length (active (pool s)) <= length (active m2) + n2).
        { destruct GD as (I & _). unfold DeactivateConnection in D. cbn [touch active heap] in D.
          match type of D with context [match ?g with Some _ => _ | None => _ end] => destruct g eqn:G0 end; injection D as <- <- <-; cbn [active]; [|lia].
          cbn [skipn] in G0. apply (length_del key_eqb key_eqb_eq) in G0; [|apply I]. lia. }
        lia.
    + intros v Hv. apply AS. apply (Permutation_in _ (notify_perm n2 m2 s) Hv).
  - unfold IdleCleanup. destruct (idle_loop_good (now - d) (values (idle (pool s))) tr (pool s)) as (m2 & E2 & G2 & A2 & _); [assumption| | |].
    + apply (Permutation_NoDup (Permutation_sym (values_perm _))). apply GD.
    + intros c H. now apply (proj1 (values_In values values_perm _ _)).
    + rewrite E2. intros E. injection E as <- <- <-. split; [|exact AS]. unfold Awake in *. cbn [pool waiting woken]. now rewrite A2.
  - unfold ActiveCleanup. destruct (active_loop_good (now - d) (bound_list values (pool s)) tr (pool s)) as (m2 & E2 & G2 & D2 & H2 & C2 & X2 & L2 & A2); [assumption| | |].
    + apply bound_list_NoDup, GD.
    + intros t c H. apply bound_list_In; [apply GD|assumption].
    + rewrite E2. intros E. injection E as <- <- <-. split; [|intros v Hv; apply AS; apply (Permutation_in _ (notify_perm _ m2 s) Hv)].
      destruct (waiting s) as [|w0 ws] eqn:W.
      * unfold Awake, notify. cbn [waiting]. rewrite skipn_nil. intros X. now contradiction X.
      * rewrite <- W. apply notify_awake; [rewrite W; discriminate|]. assert (X : waiting s <> []) by (rewrite W; discriminate). specialize (AW X). lia.
  - unfold CloseRound. intros E. injection E as <- <- <-. split; assumption.
Qed.
Lemma init_good : Good [] (pool init).
Proof.
  split; [|split; [cbn; lia|exists []; split; [constructor|]]].
  - constructor; cbn; try constructor; try discriminate; try (intros; discriminate); try tauto.
    + intros (l & H & _). discriminate.
    + intros (l & H & _). discriminate.
  - split; [constructor|]. intros c tg o. cbn. split; [intros []|]. intros [_ H]. destruct o; [discriminate|destruct H].
Qed.
Lemma runs_good tr s : runs limit values no_surprise tr s -> Good tr (pool s).
Proof. induction 1 as [|tr s e s' es o R IH P NS S]; [apply init_good|]. eapply step_good; eauto. Qed.
Lemma runs_apart tr s : runs limit values no_surprise tr s -> Apart s.
Proof.
  induction 1 as [|tr s e s' es o R IH P NS S]; [split; [constructor|intros ? []]|]. eapply step_apart; [apply runs_good, R|exact P|exact NS|exact IH|exact S].
Qed.
Lemma runs_weaken (P Q : sys -> event -> Prop) tr s : (forall s e, P s e -> Q s e) -> runs limit values P tr s -> runs limit values Q tr s.
Proof. intros H. induction 1 as [|tr s e s' es o R IH PO NS S]; [constructor|]. eapply runs_step; eauto. Qed.
Lemma runs_awake tr s : runs limit values polite tr s -> Awake s /\ all_supported s.
Proof.
  induction 1 as [|tr s e s' es o R IH P NS S].
  - split; [intros X; now contradiction X|intros ? []].
  - assert (R' : runs limit values no_surprise tr s) by (eapply runs_weaken; [|exact R]; intros ? ? [X _]; exact X). destruct IH as [A B]. eapply step_awake; [apply runs_good, R'|exact P|exact NS|eapply runs_apart, R'|exact B|exact A|exact S].
Qed.
End Steps.
