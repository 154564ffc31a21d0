(** C164-C170: the pool of database connections under every schedule of threads. *)
From Coq Require Import List Arith Bool ZArith Lia Permutation.
From Verif Require Import SqlPool SqlPoolSpec SqlPoolProofs SqlPoolProofs2 SqlPoolProofs3.
Import ListNotations.
Open Scope nat_scope.

Section Props.
(** Any level of thread safety of the database module, any limit *)
Variable safety : Z.
Variable maxConnections : nat.
Variable fuel : nat.
Notation runs := (runs safety maxConnections fuel).
Notation step := (step safety maxConnections fuel).
(** The limit: modules of level 0 have one connection *)
Definition limit : nat := if (safety =? 0)%Z then 1 else maxConnections.

(** * C164: a connection has one user, and is open *)
Theorem C164_exclusive h s : runs h s -> not_closed h ->
  (forall t t' c, holds h t c -> holds h t' c -> t = t') /\
  (forall t c c', holds h t c -> holds h t c' -> c = c') /\
  (forall t c, holds h t c -> is_open h c).
Proof.
  intros R N. assert (I := runs_inv _ _ _ false h s R N ltac:(discriminate)). assert (C := i_core _ _ _ _ _ I). unfold holds. split; [|split].
  - intros t t' c H1 H2. apply (hold_iff _ _ _ _ _ _ _ C) in H1 as (k & L & <-). apply (hold_iff _ _ _ _ _ _ _ C) in H2 as (k' & L' & E).
    apply lookup_In in L, L'. assert (A : In (t, k) (all (s_pool s))) by (apply in_app_iff; now left). assert (A' : In (t', k') (all (s_pool s))) by (apply in_app_iff; now left).
    assert (ND := c_conns _ _ _ _ _ C). revert ND A A' E. generalize (all (s_pool s)). clear. intros l. induction l as [|[u x] l IH]; intros ND; [intros []|].
    cbn [conns map snd] in ND. apply NoDup_cons_iff in ND as [N1 N2]. intros [[= -> ->]|A] [[= -> ->]|A'] E; auto.
    + exfalso. apply N1. rewrite <- E. apply (in_map (fun p => k_dbc (snd p)) _ _ A').
    + exfalso. apply N1. rewrite E. apply (in_map (fun p => k_dbc (snd p)) _ _ A).
  - intros t c c' H1 H2. apply (hold_iff _ _ _ _ _ _ _ C) in H1 as (k & L & <-). apply (hold_iff _ _ _ _ _ _ _ C) in H2 as (k' & L' & <-). congruence.
  - intros t c H. apply (hold_iff _ _ _ _ _ _ _ C) in H as (k & L & <-). apply lookup_In in L. unfold is_open. rewrite (c_open _ _ _ _ _ C). unfold all. rewrite conns_app. apply in_app_iff. left. apply (in_map (fun p => k_dbc (snd p)) _ _ L).
Qed.
(** * C165: no more connections than allowed are open *)
Theorem C165_limit h s : runs h s -> not_closed h -> NoDup (map fst (open_now h)) /\ length (open_now h) <= limit.
Proof.
  intros R N. assert (I := runs_inv _ _ _ false h s R N ltac:(discriminate)). assert (C := i_core _ _ _ _ _ I). split.
  - apply (Permutation_NoDup (Permutation_sym (c_open _ _ _ _ _ C))), C.
  - assert (L := Permutation_length (c_open _ _ _ _ _ C)). unfold conns, all in L. rewrite !map_length, app_length in L. rewrite L. apply (c_bound _ _ _ _ _ C).
Qed.
(** * C166: below level 2 of thread safety a connection is used only by the thread that opened it *)
Theorem C166_own h s t c : runs h s -> not_closed h -> (safety <= 1)%Z -> holds h t c -> In (c, t) (open_now h).
Proof.
  intros R N S H. assert (I := runs_inv _ _ _ false h s R N ltac:(discriminate)). assert (C := i_core _ _ _ _ _ I).
  apply (hold_iff _ _ _ _ _ _ _ C) in H as (k & L & <-). apply lookup_In in L. apply (c_opener _ _ _ _ _ C S). apply in_app_iff. now left.
Qed.

(** * C167: a thread gets a connection at once unless all are in use *)
(** Whether the thread [t] finds no connection: it has none, and others use all of them *)
Definition all_used (h : list event) (t : thread) : Prop :=
  (forall c, ~ holds h t c) /\ limit <= length (holders h) .
Lemma used_level0 up h s t : Inv safety maxConnections up h s -> (safety = 0)%Z -> (exists u c, holds h u c /\ u <> t) -> all_used h t.
Proof.
  intros I Z0 (u & c & H & NE). assert (M := i_mod _ _ _ _ _ I). unfold Mod, level0 in M. rewrite Z0 in M. cbn in M.
  destruct (module (s_pool s)) as [| |o n]; [contradiction|unfold holds in H; rewrite M in H; destruct H|]. destruct M as (_ & _ & _ & M). split.
  - intros c' H'. apply M in H. apply M in H'. congruence.
  - unfold limit. rewrite Z0. cbn. assert (X : In u (holders h)) by (apply nodup_In, (in_map fst _ _ H)). destruct (holders h); [destruct X|cbn; lia].
Qed.
(** Acquiring: while connections can be opened, the thread has a connection or waits, and it waits just
    if all are in use; a thread that has a connection gets that one *)
Theorem C167_acquire h s t pick : runs h s -> not_closed h -> database_up h -> ~ In t (who (waiting s)) ->
  exists s' es o, step s (Acquire t true pick) = Some (s', es, o) /\
    ((exists c, o = Got c /\ ~ all_used h t /\ forall c', holds h t c' -> c' = c) \/
     (exists f, o = Waits f /\ all_used h t /\ In (t, f, false) (waiting s') /\ es = [])).
Proof.
  intros R N U W. assert (I := runs_inv _ _ _ true h s R N ltac:(auto)). cbn [SqlPool.step].
  rewrite (proj2 (waits_for_none t (waiting s)) W). destruct (AcquireConnection safety maxConnections t true pick (s_pool s)) as [[p es] o] eqn:E.
  assert (A := attempt_acquire _ _ true t true pick h _ p es o (i_core _ _ _ _ _ I) (i_mod _ _ _ _ _ I) ltac:(auto) E).
  cbn [after]. eexists _, es, o. split; [reflexivity|]. unfold attempt in A. destruct o as [c| |f|[]| | | |]; try contradiction.
  - destruct A as (_ & _ & _ & A & A5). left. exists c. split; [reflexivity|]. split; [|exact A5]. intros [F1 F2]. destruct (A (proj2 (of_thread_none t (holding h)) F1)) as [_ X].
    rewrite (holders_length _ _ h s true I) in F2. unfold limit in F2. unfold cPoolMax, level0 in X. lia.
  - destruct A as (_ & _ & A & _). discriminate.
  - destruct A as (-> & -> & -> & A & A5 & A6). right. eexists. split; [reflexivity|]. split; [|split; [cbn [waiting]; apply in_app_iff; right; now left|reflexivity]].
    destruct (level0 safety) eqn:E0.
    + apply (used_level0 true h s t I); [now apply Z.eqb_eq|]. exact (A6 eq_refl eq_refl).
    + split; [now apply of_thread_none|]. rewrite (holders_length _ _ h s true I). destruct (A5 eq_refl) as [_ X]. unfold limit. unfold cPoolMax in X. exact X.
  - destruct A as (A & _). discriminate.
Qed.
(** If connections cannot always be opened it may raise an exception, but nothing else *)
Theorem C167_total h s a t : runs h s -> not_closed h -> (exists ok pick, a = Acquire t ok pick) \/ (exists ex ok pick alive, a = Wake t ex ok pick alive) ->
  forall s' es o, step s a = Some (s', es, o) -> (exists c, o = Got c) \/ (exists f, o = Waits f) \/ o = Nothing \/ o = Raised OpenError.
Proof.
  intros R N Ha s' es o. assert (I := runs_inv _ _ _ false h s R N ltac:(discriminate)).
  assert (X : forall ok ex p, attempt safety maxConnections false t ok ex h (s_pool s) p es o -> (exists c, o = Got c) \/ (exists f, o = Waits f) \/ o = Nothing \/ o = Raised OpenError).
  { intros ok ex p A. unfold attempt in A. destruct o as [c| |f|[]| | | |]; try contradiction; eauto. }
  destruct Ha as [(ok & pick & ->)|(ex & ok & pick & alive & ->)]; cbn [SqlPool.step].
  - destruct (waits_for t (waiting s)); [discriminate|]. destruct (AcquireConnection safety maxConnections t ok pick (s_pool s)) as [[p es'] o'] eqn:E. cbn [after]. intros [= _ <- <-].
    apply (X ok false p). apply (attempt_acquire _ _ false t ok pick h); [apply I|apply I|discriminate|exact E].
  - destruct (waits_for t (waiting s)) as [f|] eqn:W; [|discriminate].
    assert (F : f = if level0 safety then WModule else WConn) by (destruct (waits_for_In _ _ _ W) as [b Hb]; apply (i_wait _ _ _ _ _ I t f b Hb)).
    assert (Y : Some (after t (not_waiting t (waiting s)) (acquire_again safety maxConnections f t ex ok pick (s_pool s))) = Some (s', es, o) -> (exists c, o = Got c) \/ (exists f, o = Waits f) \/ o = Nothing \/ o = Raised OpenError).
    { destruct (acquire_again safety maxConnections f t ex ok pick (s_pool s)) as [[p es'] o'] eqn:E. cbn [after]. intros [= _ <- <-]. apply (X ok ex p).
      apply (attempt_again _ _ false t ex ok pick h s p es' o' I ltac:(discriminate) f W E). }
    rewrite F in *. destruct (level0 safety); exact Y.
Qed.

(** * C168: releasing *)
(** A release by the thread that holds the connection succeeds; any other changes nothing: what is
    held and open stays as it was, and the pool keeps all its properties *)
Theorem C168_release h s t c : runs h s -> not_closed h -> ~ In t (who (waiting s)) ->
  exists s' es o, step s (Release t c) = Some (s', es, o) /\ es = [] /\
    (holds h t c -> o = Released) /\
    (~ holds h t c -> (o = Raised RuntimeError \/ o = Logged) /\ holding ((Release t c, es, o) :: h) = holding h /\ waiting s' = waiting s).
Proof.
  intros R N W. assert (I := runs_inv _ _ _ false h s R N ltac:(discriminate)). cbn [SqlPool.step].
  rewrite (proj2 (waits_for_none t (waiting s)) W). destruct (ReleaseConnection t c (s_pool s)) as [[[p n] es] o] eqn:E. eexists _, es, o. split; [reflexivity|].
  destruct (release_core safety maxConnections false _ _ _ t c (i_core _ _ _ _ _ I) (i_mod _ _ _ _ _ I) p n es o E) as [(H1 & -> & -> & _)|(H1 & H2 & -> & -> & _)].
  - split; [reflexivity|]. split; [auto|]. intros X. contradiction.
  - split; [reflexivity|]. split; [intros X; contradiction|]. intros _. split; [exact H2|]. split; [now apply remove_one_absent|reflexivity].
Qed.

(** * C169: a free connection reaches a waiting thread *)
(** While some thread waits without having been notified, at least as many waiting threads were
    notified as there are connections that could be had *)
Theorem C169_notified_partial h s : (safety <> 0)%Z -> runs h s -> not_closed h -> database_up h ->
  (exists t f, In (t, f, false) (waiting s)) -> limit <= length (holders h) + notified (waiting s).
Proof.
  intros NZ R N U (t & f & Ht). assert (I := runs_inv _ _ _ true h s R N ltac:(auto)). rewrite (holders_length _ _ h s true I).
  assert (E0 : level0 safety = false) by (now apply Z.eqb_neq).
  assert (X := i_wake _ _ _ _ _ I eq_refl E0 (ex_intro _ (t, f, false) (conj Ht eq_refl))). exact X.
Qed.
(** A thread that wakes up, notified or not and even if its time is over, gets a connection if one
    can be had *)
Theorem C169_wakes_partial h s t ex pick alive : (safety <> 0)%Z -> runs h s -> not_closed h -> database_up h ->
  In t (who (waiting s)) -> length (holders h) < limit ->
  exists s' es c, step s (Wake t ex true pick alive) = Some (s', es, Got c).
Proof.
  intros NZ R N U W L. assert (I := runs_inv _ _ _ true h s R N ltac:(auto)). cbn [SqlPool.step]. assert (E0 : level0 safety = false) by (now apply Z.eqb_neq).
  destruct (waits_for t (waiting s)) as [f|] eqn:Wf; [|apply waits_for_none in Wf; contradiction].
  assert (F : f = WConn) by (destruct (waits_for_In _ _ _ Wf) as [b Hb]; destruct (i_wait _ _ _ _ _ I t f b Hb) as [_ X]; now rewrite E0 in X).
  subst f. destruct (acquire_again safety maxConnections WConn t ex true pick (s_pool s)) as [[p es] o] eqn:E.
  assert (A := attempt_again _ _ true t ex true pick h s p es o I ltac:(auto) WConn Wf E). cbn [after].
  rewrite (holders_length _ _ h s true I) in L. unfold limit in L. unfold attempt, cPoolMax in A. fold (level0 safety) in L. rewrite E0 in *.
  destruct o as [c| |f|[]| | | |]; try contradiction.
  - eexists _, es, c. reflexivity.
  - destruct A as (_ & _ & _ & A). specialize (A eq_refl). lia.
  - destruct A as (_ & _ & _ & _ & A & _). destruct (A eq_refl). lia.
  - destruct A as (A & _). discriminate.
Qed.

(** * C170: close *)
Lemma take_closing t k p es p' es' o : take t k p es = (p', es', o) -> closing p' = closing p.
Proof. unfold take. destruct (rl_acquire t (k_lock k)); now intros [= <- _ _]. Qed.
Lemma seek_closing t ok pick ex p p' es o : seek safety maxConnections t ok pick ex p = (p', es, o) -> closing p' = closing p.
Proof.
  unfold seek. repeat match goal with |- context [match ?x with _ => _ end] => destruct x end; try (intros E; apply take_closing in E; exact E); now intros [= <- _ _].
Qed.
Lemma seek_module_closing t ok pick p p' es o : seek_module safety maxConnections t ok pick p = (p', es, o) -> closing p' = closing p.
Proof.
  unfold seek_module. destruct (rl_acquire t (module p)); [|now intros [= <- _ _]]. cbn [locked module unlocked dead closing fresh].
  destruct (lookup t (locked p)) as [k|]; [destruct (rl_acquire t (k_lock k)); [now intros [= <- _ _]|]|]; intros E; apply seek_closing in E; exact E.
Qed.
Lemma release_closing t c p p' n es o : ReleaseConnection t c p = (p', n, es, o) -> closing p' = closing p.
Proof. unfold ReleaseConnection. repeat match goal with |- context [match ?x with _ => _ end] => destruct x end; now intros [= <- _ _ _]. Qed.
Lemma close_rest_closing t alive p es p' es' o : close_rest fuel t alive p es = (p', es', o) -> closing p' = closing p.
Proof.
  unfold close_rest. destruct (close_locked fuel t alive (locked p)) as [[l es1] o1]. destruct o1; try (now intros [= <- _ _]).
  cbn [dead]. destruct (close_dead fuel t alive (rev (dead p))) as [[d es2] o2]. now intros [= <- _ _].
Qed.
Lemma step_closing s a s' es o : step s a = Some (s', es, o) ->
  closing (s_pool s') = match a with Close _ _ => true | _ => closing (s_pool s) end.
Proof.
  destruct a as [t ok pick|t ex ok pick alive|t c|t alive]; cbn [SqlPool.step].
  - destruct (waits_for t (waiting s)); [discriminate|]. unfold AcquireConnection. destruct (closing (s_pool s)) eqn:E; [now intros [= <- _ _]|].
    destruct (seek_module safety maxConnections t ok pick (s_pool s)) as [[p e1] o1] eqn:F. cbn [after]. intros [= <- _ _]. cbn [s_pool]. now rewrite (seek_module_closing _ _ _ _ _ _ _ F).
  - destruct (waits_for t (waiting s)) as [[| |d k]|]; [| | |discriminate]; cbn [acquire_again].
    + destruct ex; [now intros [= <- _ _]|]. destruct (seek_module safety maxConnections t ok pick (s_pool s)) as [[p e1] o1] eqn:F. cbn [after]. intros [= <- _ _]. exact (seek_module_closing _ _ _ _ _ _ _ F).
    + destruct (seek safety maxConnections t ok pick ex (s_pool s)) as [[p e1] o1] eqn:F. cbn [after]. intros [= <- _ _]. exact (seek_closing _ _ _ _ _ _ _ _ F).
    + destruct (close_again fuel d k t alive (s_pool s)) as [[p e1] o1] eqn:F. cbn [after]. intros [= <- _ _]. cbn [s_pool]. revert F. unfold close_again.
      destruct (close_one fuel t alive true k) as [[e2 b]|]; [|now intros [= <- _ _]]. destruct d; [|intros F; exact (close_rest_closing _ _ _ _ _ _ _ F)].
      destruct (close_dead fuel t alive (rev (dead (s_pool s)))) as [[d2 e3] o3]. now intros [= <- _ _].
  - destruct (waits_for t (waiting s)); [discriminate|]. destruct (ReleaseConnection t c (s_pool s)) as [[[p n] e1] o1] eqn:F. intros [= <- _ _]. exact (release_closing _ _ _ _ _ _ _ F).
  - destruct (waits_for t (waiting s)); [discriminate|]. destruct (close fuel t alive (s_pool s)) as [[p e1] o1] eqn:F. cbn [after]. intros [= <- _ _]. exact (close_rest_closing _ _ _ _ _ _ _ F).
Qed.
(** After close has begun no thread that asks for a connection gets one *)
Theorem C170_refuses_partial h s t alive es o : runs h s -> In (Close t alive, es, o) h ->
  forall u ok pick s' es' o', step s (Acquire u ok pick) = Some (s', es', o') -> s' = s /\ es' = [] /\ o' = Nothing.
Proof.
  intros R Hc. assert (X : closing (s_pool s) = true).
  { induction R as [|h s a s' es1 o1 R IH E]; [destruct Hc|]. rewrite (step_closing _ _ _ _ _ E). destruct Hc as [[= -> -> ->]|Hc]; [reflexivity|]. specialize (IH Hc). destruct a; auto. }
  intros u ok pick s' es' o'. cbn [SqlPool.step]. destruct (waits_for u (waiting s)); [discriminate|]. unfold AcquireConnection. rewrite X. cbn [after]. intros [= <- <- <-]. split; [now destruct s|auto].
Qed.
(** close closes the connections nobody uses *)
Theorem C170_idle_partial h s t alive s' es o c : runs h s -> not_closed h -> step s (Close t alive) = Some (s', es, o) ->
  is_open h c -> (forall u, ~ holds h u c) -> In (Closed c) es.
Proof.
  intros R N E Oc NH. assert (I := runs_inv _ _ _ false h s R N ltac:(discriminate)). assert (C := i_core _ _ _ _ _ I). revert E. cbn [SqlPool.step].
  destruct (waits_for t (waiting s)); [discriminate|]. destruct (close fuel t alive (s_pool s)) as [[p e1] o1] eqn:F. cbn [after]. intros [= _ <- _].
  unfold is_open in Oc. rewrite (c_open _ _ _ _ _ C) in Oc. unfold all in Oc. rewrite conns_app in Oc. apply in_app_iff in Oc as [Oc|Oc].
  - exfalso. unfold conns in Oc. apply in_map_iff in Oc as ([u k] & E1 & Hk). apply (NH u). apply (hold_iff _ _ _ _ _ _ _ C). exists k. split; [now apply (core_lookup _ _ _ _ _ _ _ C)|exact E1].
  - unfold close, close_rest in F. cbn [locked dead module unlocked closing fresh] in F. destruct (close_locked fuel t alive (locked (s_pool s))) as [[l es1] o2].
    assert (X : In (Closed c) (map (fun q => Closed (k_dbc (snd q))) (unlocked (s_pool s)))).
    { unfold conns in Oc. apply in_map_iff in Oc as (q & <- & Hq). now apply (in_map (fun q => Closed (k_dbc (snd q)))). }
    destruct o2; try (injection F as <- <- <-; apply in_app_iff; now left). destruct (close_dead fuel t alive (rev (dead (s_pool s)))) as [[d es2] o3]. injection F as <- <- <-. apply in_app_iff. now left.
Qed.
End Props.

(** ** Executions *)
Fixpoint exec (safety : Z) (mx fuel : nat) (acts : list action) : option (list event * system) :=
  match acts with
  | [] => Some ([], start safety)
  | a :: acts => match exec safety mx fuel acts with
                 | Some (h, s) => match step safety mx fuel s a with Some (s', es, o) => Some ((a, es, o) :: h, s') | None => None end
                 | None => None
                 end
  end.
Lemma runs_exec safety mx fuel acts : forall h s, exec safety mx fuel acts = Some (h, s) -> runs safety mx fuel h s.
Proof.
  induction acts as [|a acts IH]; intros h s; cbn [exec]; [intros [= <- <-]; apply R_start|].
  destruct (exec safety mx fuel acts) as [[h1 s1]|]; [|discriminate]. destruct (step safety mx fuel s1 a) as [[[s2 es] o]|] eqn:E; [|discriminate].
  intros [= <- <-]. apply (R_step safety mx fuel h1 s1); [now apply IH|exact E].
Qed.
(** The latest action first *)
Ltac play sf mx fl acts R :=
  let r := eval vm_compute in (exec sf mx fl acts) in
  match r with Some (?h, ?s) => assert (R : runs sf mx fl h s) by (apply (runs_exec sf mx fl acts); vm_compute; reflexivity) end.
Definition everybody (_ : thread) : bool := true.
Ltac no_close := let X := fresh in intros ? ? ? ? X; repeat destruct X as [X|X]; [discriminate ..|exact X].
Ltac up := let X := fresh in intros ? ? ? X; repeat destruct X as [X|X]; [injection X as <- _ _; (reflexivity || exact I) ..|exact (False_ind _ X)].

(** ** Refuted *)
(** A thread that cannot open its connection keeps the module lock: at level 0 nobody else gets one *)
Theorem C167_level0_refuted : ~ forall fuel h s t s' es f, runs 0 1 fuel h s -> not_closed h ->
  step 0 1 fuel s (Acquire t true 0) = Some (s', es, Waits f) -> all_used 0 1 h t.
Proof.
  intros H. play 0%Z 1 1 [Acquire 1 false 0] R. destruct (H _ _ _ 2 _ _ _ R ltac:(no_close) ltac:(vm_compute; reflexivity)) as [_ X]. vm_compute in X. lia.
Qed.
(** At level 0 the notice of a free connection is lost when it reaches a thread whose time is over *)
Theorem C169_level0_refuted : ~ forall fuel h s, runs 0 1 fuel h s -> not_closed h -> database_up h ->
  (exists t f, In (t, f, false) (waiting s)) -> limit 0 1 <= length (holders h) + notified (waiting s).
Proof.
  intros H. play 0%Z 1 1 [Wake 2 true true 0 everybody; Release 1 0; Acquire 3 true 0; Acquire 2 true 0; Acquire 1 true 0] R.
  specialize (H _ _ _ R ltac:(no_close) ltac:(up)). assert (X := H ltac:(exists 3, WModule; now left)). vm_compute in X. lia.
Qed.
(** The notice is lost when the notified thread cannot open a connection *)
Theorem C169_open_refuted : ~ forall fuel h s, runs 1 1 fuel h s -> not_closed h ->
  (exists t f, In (t, f, false) (waiting s)) -> limit 1 1 <= length (holders h) + notified (waiting s).
Proof.
  intros H. play 1%Z 1 1 [Wake 2 false false 0 everybody; Release 1 0; Acquire 3 true 0; Acquire 2 true 0; Acquire 1 true 0] R.
  specialize (H _ _ _ R ltac:(no_close)). assert (X := H ltac:(exists 3, WConn; now left)). vm_compute in X. lia.
Qed.
(** A thread that waits when the container is closed gets a new connection afterwards *)
Theorem C170_waiting_refuted : ~ forall fuel h s a es c, runs 1 1 fuel ((a, es, Got c) :: h) s -> not_closed h.
Proof.
  intros H. play 1%Z 1 1 [Wake 2 false true 0 everybody; Wake 3 false true 0 everybody; Close 3 everybody; Acquire 2 true 0; Acquire 1 true 0] R.
  refine (H _ _ _ _ _ _ R _ _ _ _ (or_intror (or_introl eq_refl))).
Qed.
(** close never ends, and keeps every other thread out, if a thread has died holding a connection *)
Theorem C170_ends_refuted : ~ forall h s t alive, (forall fuel, runs 1 1 fuel h s) -> exists fuel s' es o, step 1 1 fuel s (Close t alive) = Some (s', es, o) /\ o <> Stuck.
Proof.
  intros H. set (d := fun t : thread => negb (t =? 1)).
  destruct (H [(Acquire 1 true 0, [Opened 0 1], Got 0)] (mkSystem (mkPool Dummy [(1, mkClock 1 (Owned 1 1) 1 0)] [] [] false 1) []) 2 d) as (fuel & s' & es & o & E & NE).
  { intros fuel. apply (runs_exec 1 1 fuel [Acquire 1 true 0]). reflexivity. }
  apply NE. revert E. cbn [step waiting waits_for find s_pool].
  assert (X : forall fuel, close_one fuel 2 d false (mkClock 1 (Owned 1 1) 1 0) = None).
  { intros n. induction n as [|n IH]; [reflexivity|]. cbn [close_one]. change (rl_acquire 2 (k_lock (mkClock 1 (Owned 1 1) 1 0))) with (@None rlock). change (d (k_tid (mkClock 1 (Owned 1 1) 1 0))) with false. cbv iota. now rewrite IH. }
  unfold close, close_rest. cbn [locked close_locked]. rewrite X. cbn [after]. now intros [= _ _ <-].
Qed.
(** At level 0 close closes a connection that a living thread is using *)
Theorem C170_in_use_refuted : ~ forall fuel h s t alive s' es o c u, runs 0 1 fuel h s -> not_closed h ->
  step 0 1 fuel s (Close t alive) = Some (s', es, o) -> In (Closed c) es -> alive u = true -> u <> t -> ~ holds h u c.
Proof.
  intros H. play 0%Z 1 1 [Acquire 1 true 0] R.
  refine (H _ _ _ 2 everybody _ _ _ 0 1 R ltac:(no_close) ltac:(vm_compute; reflexivity) _ eq_refl _ _); [now left|discriminate|now left].
Qed.
(** A connection in use when close is called stays open although its thread releases it while close waits *)
Theorem C170_closes_all_refuted : ~ forall fuel h s es u ex ok pick alive c, runs 1 1 (S fuel) ((Wake u ex ok pick alive, es, Closes) :: h) s ->
  (forall t, ~ holds h t c) -> ~ is_open ((Wake u ex ok pick alive, es, Closes) :: h) c.
Proof.
  intros H. play 1%Z 1 1 [Wake 2 false true 0 everybody; Release 1 0; Close 2 everybody; Acquire 1 true 0] R.
  apply (H 0 _ _ _ _ _ _ _ _ 0 R); [intros t X; exact X|now left].
Qed.

(** ** Non-vacuity: two connections, three threads, level 1 *)
Example ex_two : exists h s, runs 1 2 1 h s /\ not_closed h /\ database_up h /\
  holding h = [(3, 2); (1, 0)] /\ map fst (open_now h) = [2; 0] /\
  map snd h = [Got 2; Released; Waits WConn; Got 1; Released; Got 0; Got 0].
Proof.
  play 1%Z 2 1 [Wake 3 false true 0 everybody; Release 2 1; Acquire 3 true 0; Acquire 2 true 0; Release 1 0; Acquire 1 true 0; Acquire 1 true 0] R.
  eexists _, _. split; [exact R|]. split; [no_close|]. split; [up|]. split; [reflexivity|]. split; reflexivity.
Qed.
(** At level 2 the third thread takes over the open connection; at level 1 it opens its own *)
Example ex_shared : exists h s, runs 2 2 1 h s /\ holding h = [(3, 1); (1, 0)] /\ open_now h = [(1, 2); (0, 1)].
Proof.
  play 2%Z 2 1 [Wake 3 false true 0 everybody; Release 2 1; Acquire 3 true 0; Acquire 2 true 0; Acquire 1 true 0] R.
  eexists _, _. split; [exact R|]. split; reflexivity.
Qed.
(** At level 0 threads take turns *)
Example ex_level0 : exists h s, runs 0 5 1 h s /\ holding h = [(2, 1)] /\ open_now h = [(1, 2)] /\ map snd h = [Got 1; Released; Waits WModule; Got 0].
Proof.
  play 0%Z 5 1 [Wake 2 false true 0 everybody; Release 1 0; Acquire 2 true 0; Acquire 1 true 0] R.
  eexists _, _. split; [exact R|]. split; [reflexivity|]. split; reflexivity.
Qed.
(** Releases of what is not held; close with connections idle and in use *)
Example ex_release : exists h s, runs 1 2 1 h s /\ map snd h = [Logged; Raised RuntimeError; Got 0].
Proof. play 1%Z 2 1 [Release 1 7; Release 2 0; Acquire 1 true 0] R. eexists _, _. split; [exact R|reflexivity]. Qed.
Example ex_close : exists h s, runs 1 2 1 h s /\ map snd h = [Nothing; Closes; Released; Got 1; Released; Got 0] /\ open_now h = [].
Proof. play 1%Z 2 1 [Acquire 1 true 0; Close 3 everybody; Release 2 1; Acquire 2 true 0; Release 1 0; Acquire 1 true 0] R. eexists _, _. split; [exact R|split; reflexivity]. Qed.
(** A thread waits without notice: all connections are in use *)
Example ex_waiting : exists h s, runs 1 1 1 h s /\ (exists t f, In (t, f, false) (waiting s)) /\ holders h = [1] /\ notified (waiting s) = 0.
Proof. play 1%Z 1 1 [Acquire 2 true 0; Acquire 1 true 0] R. eexists _, _. split; [exact R|]. split; [exists 2, WConn; now left|split; reflexivity]. Qed.

Print Assumptions C164_exclusive.
Print Assumptions C165_limit.
Print Assumptions C166_own.
Print Assumptions C167_acquire.
Print Assumptions C167_total.
Print Assumptions C167_level0_refuted.
Print Assumptions C168_release.
Print Assumptions C169_notified_partial.
Print Assumptions C169_wakes_partial.
Print Assumptions C169_level0_refuted.
Print Assumptions C169_open_refuted.
Print Assumptions C170_refuses_partial.
Print Assumptions C170_idle_partial.
Print Assumptions C170_waiting_refuted.
Print Assumptions C170_ends_refuted.
Print Assumptions C170_in_use_refuted.
Print Assumptions C170_closes_all_refuted.
