(** What a pool of HTTP connections promises to the threads that share it. *)
From Coq Require Import List Arith Bool ZArith Lia Permutation.
From Verif Require Import Py HttpPool HttpPoolSpec HttpPoolProofs HttpPoolProofs2 HttpPoolProofs3 HttpPoolProofs4 HttpPoolProofs5.
Import ListNotations.
Open Scope nat_scope.

(** Pools to compute with *)
Definition same (l : list cid) : list cid := l.
Lemma same_perm l : Permutation (same l) l.
Proof. apply Permutation_refl. Qed.
Definition siteA : target := (lit "http", lit "a.example.com", 80%Z).
Definition siteB : target := (lit "http", lit "b.example.com", 80%Z).
Definition siteF : target := (lit "ftp", lit "f.example.com", 21%Z).
Definition ask (t : thread) (tg : target) (r : request) : waiter := mkW t tg r None 0%Z.
Definition history (limit : nat) (evs : list event) : list effect := fst (fst (play limit same init evs)).
Definition state (limit : nat) (evs : list event) : sys := snd (fst (play limit same init evs)).
Lemma calm_runs limit evs : playable limit same true init evs = true -> runs limit same no_surprise (history limit evs) (state limit evs).
Proof. intros H. apply (play_runs limit same no_surprise true (fun s e K => K eq_refl) evs init [] (runs_init _ _ _) H). Qed.
Lemma any_runs limit evs : playable limit same false init evs = true -> runs limit same anything (history limit evs) (state limit evs).
Proof. intros H. apply (play_runs limit same anything false (fun s e K => I) evs init [] (runs_init _ _ _) H). Qed.
Lemma triple {A B C} (x : A * B * C) c : snd x = c -> x = (fst (fst x), snd (fst x), c).
Proof. intros <-. now destruct x as [[a b] c]. Qed.
(** Two threads share two connections: both wait in turn, one connection changes hands *)
Definition shared : list event :=
  [EQueue (ask 1 siteA 11) 0; EQueue (ask 2 siteB 12) 0; EQueue (ask 1 siteA 13) 1; EQueue (ask 3 siteA 14) 2; ETask 1 1 2 3; EIdle 1 1 4; EResume 0 5; EIdle 2 2 6].
Example shared_runs : runs 2 same no_surprise (history 2 shared) (state 2 shared).
Proof. apply calm_runs. reflexivity. Qed.
Example shared_is : history 2 shared =
  [Created 1 siteA; Bound 1 1; Queued 1 1 siteA 11; Created 2 siteB; Bound 2 2; Queued 2 2 siteB 12; Queued 1 1 siteA 13; Idled 1; Bound 1 3; Queued 1 3 siteA 14; Idled 2].
Proof. reflexivity. Qed.
Definition shared_entries : list entry := [(2, siteB, None); (1, siteA, Some 3)].
Local Ltac add w := apply (o_snoc 2 _ w).
Example shared_obeys : obeys 2 (history 2 shared) shared_entries.
Proof.
  rewrite shared_is.
  change (obeys 2 ((((((((((([] ++ [Created 1 siteA]) ++ [Bound 1 1]) ++ [Queued 1 1 siteA 11]) ++ [Created 2 siteB]) ++ [Bound 2 2]) ++ [Queued 2 2 siteB 12]) ++ [Queued 1 1 siteA 13]) ++ [Idled 1]) ++ [Bound 1 3]) ++ [Queued 1 3 siteA 14]) ++ [Idled 2]) shared_entries).
  add [(2, siteB, Some 2); (1, siteA, Some 3)]; [|apply (f_idled 2 [(2, siteB, Some 2); (1, siteA, Some 3)] 2 siteB 2); cbn; auto].
  add [(2, siteB, Some 2); (1, siteA, Some 3)]; [|apply f_queued; cbn; auto].
  add [(2, siteB, Some 2); (1, siteA, None)]; [|apply (f_bound 2 [(2, siteB, Some 2); (1, siteA, None)] 1 siteA 3); [cbn; auto|intros d [H|[H|[]]]; discriminate]].
  add [(2, siteB, Some 2); (1, siteA, Some 1)]; [|apply (f_idled 2 [(2, siteB, Some 2); (1, siteA, Some 1)] 1 siteA 1); cbn; auto].
  add [(2, siteB, Some 2); (1, siteA, Some 1)]; [|apply f_queued; cbn; auto].
  add [(2, siteB, Some 2); (1, siteA, Some 1)]; [|apply f_queued; cbn; auto].
  add [(2, siteB, None); (1, siteA, Some 1)]; [|apply (f_bound 2 [(2, siteB, None); (1, siteA, Some 1)] 2 siteB 2); [cbn; auto|intros d [H|[H|[]]]; discriminate]].
  add [(1, siteA, Some 1)]; [|apply f_created; [cbn; lia|intros [H|[]]; discriminate]].
  add [(1, siteA, Some 1)]; [|apply f_queued; cbn; auto].
  add [(1, siteA, None : option thread)]; [|apply (f_bound 2 [(1, siteA, None)] 1 siteA 1); [cbn; auto|intros d [H|[]]; discriminate]].
  add (@nil entry); [constructor|apply f_created; [cbn; lia|intros []]].
Qed.
(** A thread notices late that its connection was killed *)
Definition late : list event := [EQueue (ask 1 siteA 11) 0; EActiveCleanup 0 1; EQueue (ask 1 siteA 12) 1; EIdle 1 1 2].

Section Pools.
Variable limit : nat.
Variable values : list cid -> list cid.
Hypothesis values_perm : forall l, Permutation (values l) l.
Notation step := (step limit values).
Notation runs := (runs limit values).

(** * C222: at most maxConnections connections *)
Theorem C222_limit_partial tr s : runs no_surprise tr s -> NoDup (live tr) /\ length (live tr) <= limit.
Proof.
  intros R. destruct (runs_good limit values values_perm _ _ R) as (_ & _ & w & O & _). rewrite (obeys_live limit tr w O). split; [now apply (obeys_ids limit tr)|]. rewrite map_length. now apply (obeys_limit limit tr).
Qed.

(** * C223: connections are exclusive, and not used again *)
Theorem C223_rules_partial tr s : runs no_surprise tr s -> exists w, obeys limit tr w.
Proof. intros R. destruct (runs_good limit values values_perm _ _ R) as (_ & _ & w & O & _). eauto. Qed.
Theorem C223_owner_partial a c t tg r b s : runs no_surprise (a ++ Queued c t tg r :: b) s ->
  exists w, obeys limit a w /\ In (c, tg, Some t) w /\ (forall d, In (d, tg, Some t) w -> d = c) /\ (forall g o, In (c, g, o) w -> g = tg /\ o = Some t).
Proof.
  intros R. destruct (C223_rules_partial _ _ R) as (w & O). replace (a ++ Queued c t tg r :: b) with ((a ++ [Queued c t tg r]) ++ b) in O by (rewrite <- app_assoc; reflexivity).
  apply obeys_app in O as (v & O). inversion O as [E|tr u e w' O' F E]; [destruct a; discriminate|]. apply app_inj_tail in E as [-> ->].
  inversion F as [| |w0 c0 tg0 t0 r0 H| | |]; subst. exists v. split; [assumption|]. split; [assumption|]. split.
  - intros d Hd. now apply (obeys_single limit a v O' d c tg t).
  - intros g o Hg. assert (ND := obeys_ids limit a v O'). assert (E : (c, g, o) = (c, tg, Some t)); [|now injection E].
    clear - ND H Hg. induction v as [|x v IH]; [destruct H|]. cbn in ND. apply NoDup_cons_iff in ND as [N ND]. destruct H as [->|H], Hg as [Hg|Hg]; auto.
    + exfalso. apply N. change (id_of (c, tg, Some t)) with (id_of (c, g, o)). now apply in_map.
    + subst x. exfalso. apply N. change (id_of (c, g, o)) with (id_of (c, tg, Some t)). now apply in_map.
Qed.
Theorem C223_ended_partial a c e b s : runs no_surprise (a ++ e :: b) s -> ending c e -> forall x, In x b -> about x <> c.
Proof.
  intros R EN. destruct (C223_rules_partial _ _ R) as (w & O). apply (gone limit a c e EN b w O). intros x Hx Cx AX.
  assert (O1 : exists v, obeys limit (a ++ [e]) v) by (apply (obeys_app limit _ b w); now rewrite <- app_assoc). destruct O1 as (v & O1).
  assert (IC : In c (created a)).
  { inversion O1 as [E|tr u e' w' O' F E]; [destruct a; discriminate|]. apply app_inj_tail in E as [-> ->].
    assert (IU : In c (map id_of u)). { destruct EN as [-> | ->]; inversion F as [| | | |w0 c0 tg H|w0 c0 tg t H]; subst; apply (in_map id_of) in H; exact H. }
    rewrite <- (obeys_live limit a u O') in IU. apply live_from_In in IU as [[]|(tg & IU)]. unfold created. apply in_map_iff. exists (Created c tg). split; [reflexivity|]. apply filter_In. auto. }
  apply created_lt in R as [ND _]. unfold created in ND. rewrite filter_app, map_app in ND.
  assert (IB : In c (map about (filter creation (e :: b)))). { rewrite <- AX. apply in_map. apply filter_In. split; [now right|assumption]. }
  clear - ND IC IB. unfold created in IC. induction (map about (filter creation a)) as [|y l IH]; [destruct IC|]. cbn in ND. apply NoDup_cons_iff in ND as [N ND]. destruct IC as [->|IC]; [|auto]. apply N, in_or_app. now right.
Qed.
Theorem C223_new_each_time P tr s : runs P tr s -> NoDup (created tr).
Proof. intros R. now apply created_lt in R. Qed.

(** * C224: a request is put at the end of the queue of its connection, and of no other *)
Lemma tries_attempt s e q now s' es o : tries s e q now -> step s e = (s', es, o) ->
  exists s0, pool s0 = pool s /\ waiting s0 = waiting s /\ attempt limit values q now s0 = (s', es, o).
Proof.
  intros [[-> C]|(i & -> & N)]; cbn [HttpPool.step].
  - unfold QueueRequest. rewrite C. intros E. exists s. auto.
  - rewrite N. intros E. eexists. split; [|split; [|exact E]]; reflexivity.
Qed.
Theorem C224_queued tr s e q now s' es c : runs no_surprise tr s -> possible s e -> tries s e q now -> step s e = (s', es, Enqueued c) ->
  (exists w, obeys limit (tr ++ es) w /\ In (c, w_tg q, Some (w_t q)) w) /\
  (forall d, In d (live tr) -> o_queue (heap (pool s') d) = o_queue (heap (pool s) d) ++ (if d =? c then [w_r q] else [])) /\
  (forall tg, In (Created c tg) es -> tg = w_tg q /\ o_queue (heap (pool s') c) = [w_r q]) /\
  (In c (live tr) \/ In (Created c (w_tg q)) es) /\
  In (Queued c (w_t q) (w_tg q) (w_r q)) es.
Proof.
  intros R PO T S. assert (NS : no_surprise s e) by (destruct T as [[-> _]|(i & -> & _)]; intros []). assert (G := runs_good limit values values_perm _ _ R).
  assert (G1 := proj1 (step_good limit values values_perm _ _ _ _ _ _ G PO NS S)). assert (S' := step_ids limit values _ _ _ _ _ S). destruct (tries_attempt _ _ _ _ _ _ _ T S) as (s0 & P0 & W0 & A).
  apply (attempt_good limit values values_perm) with (tr := tr) in A; [|now rewrite P0]. rewrite P0 in A. destruct A as (_ & _ & _ & _ & GA & IQ & _ & _ & Q1 & Q2 & _ & _).
  destruct G1 as (I1 & _ & w & O & RW). assert (IW : In (c, w_tg q, Some (w_t q)) w). { apply (proj2 RW). split; [|exact GA]. apply (i_act _ I1) in GA as (GA & _). congruence. }
  assert (CR : forall tg, In (Created c tg) es -> tg = w_tg q).
  { intros tg H. destruct (in_split _ _ H) as (x & y & ->). clear - O H IW R S'.
    assert (K : forall l v, obeys limit ((tr ++ x ++ [Created c tg]) ++ l) v -> (forall z, In z l -> creation z = true -> about z <> c) -> forall g o, In (c, g, o) v -> g = tg).
    { intros l. induction l as [|z l IH] using rev_ind; intros v O1 NC g o HI.
      - rewrite app_nil_r, app_assoc in O1. inversion O1 as [E|tr' u e' w' O' F E]; [destruct (tr ++ x); discriminate|]. apply app_inj_tail in E as [-> ->]. inversion F as [w0 c0 tg0 L0 N0| | | | |]; subst. destruct HI as [HI|HI]; [congruence|].
        exfalso. apply N0. now apply (in_map id_of _ (c, g, o)).
      - rewrite app_assoc in O1. inversion O1 as [E|tr' u e' w' O' F E]; [destruct ((tr ++ x ++ [Created c tg]) ++ l); discriminate|]. apply app_inj_tail in E as [-> ->].
        assert (IHu := IH u O' (fun z' Hz => NC z' (in_or_app _ _ _ (or_introl Hz)))).
        assert (NZ : creation z = true -> about z <> c) by (apply NC, in_or_app; right; now left).
        inversion F; subst; try (eapply IHu; exact HI).
        + destruct HI as [HI|HI]; [injection HI as -> <- <-; exfalso; now apply NZ|eapply IHu; exact HI].
        + apply set_owner_In in HI as [[_ HI]|(-> & _ & z & HI)]; eapply IHu; exact HI.
        + apply set_owner_In in HI as [[_ HI]|(-> & _ & z & HI)]; eapply IHu; exact HI.
        + apply filter_In in HI as [HI _]. eapply IHu; exact HI.
        + apply filter_In in HI as [HI _]. eapply IHu; exact HI. }
    symmetry. apply (K y w) with (o := Some (w_t q)); [now rewrite <- !app_assoc| |exact IW].
    destruct S' as (_ & _ & S3). intros z Hz CZ AZ. rewrite filter_app in S3. cbn [filter creation] in S3. rewrite app_length in S3. cbn [length] in S3.
    assert (length (filter creation y) > 0); [|lia]. destruct (filter creation y) eqn:FY; [|cbn; lia]. assert (X : In z (filter creation y)) by (apply filter_In; auto). rewrite FY in X. destruct X. }
  split; [eauto|]. split; [|split; [|split; [|exact IQ]]].
  - intros d Hd. apply Q1. eapply live_lt; eauto.
  - intros tg H. split; [now apply CR|]. apply Q2. destruct S' as (_ & S2 & _). eapply S2; eauto.
  - assert (IL : In c (live (tr ++ es))) by (rewrite (obeys_live limit _ _ O); now apply (in_map id_of _ (c, w_tg q, Some (w_t q)))). unfold live in IL. rewrite live_from_app in IL. apply live_from_In in IL as [IL|(tg & IL)]; [now left|].
    right. rewrite <- (CR tg IL). exact IL.
Qed.

(** * C225: which connection is chosen *)
(** The schemes there are connections for *)
Theorem C225_schemes (tg : target) : supported tg = true <-> fst (fst tg) = lit "http" \/ fst (fst tg) = lit "https".
Proof. unfold supported. rewrite orb_true_iff, !Py.str_eqb_eq. tauto. Qed.
Theorem C225_choice tr s w e q now s' es o : runs no_surprise tr s -> obeys limit tr w -> tries s e q now -> supported (w_tg q) = true -> step s e = (s', es, o) ->
  let t := w_t q in let tg := w_tg q in let last c := o_last (heap (pool s) c) in
  (forall c, In (c, tg, Some t) w -> es = [Queued c t tg (w_r q)] /\ o = Enqueued c) /\
  ((forall c, ~ In (c, tg, Some t) w) ->
    ((exists c, In (c, tg, None) w) ->
      exists c, In (c, tg, None) w /\ (forall d, In (d, tg, None) w -> (last d <= last c)%Z) /\ es = [Bound c t; Queued c t tg (w_r q)] /\ o = Enqueued c) /\
    ((forall c, ~ In (c, tg, None) w) ->
      (length w < limit -> exists c, es = [Created c tg; Bound c t; Queued c t tg (w_r q)] /\ o = Enqueued c) /\
      (length w = limit -> (exists d g, In (d, g, None) w) ->
        exists d g c, In (d, g, None) w /\ (forall d' g', In (d', g', None) w -> (last d <= last d')%Z) /\ es = [Closed d; Created c tg; Bound c t; Queued c t tg (w_r q)] /\ o = Enqueued c) /\
      (length w = limit -> (forall d g, ~ In (d, g, None) w) ->
        es = [] /\
        match w_timeout q with
        | None => o = Waits
        | Some d => if (d =? 0)%Z || (now >? w_start q + d)%Z then o = Raised RequestManagerBusy else o = Waits
        end /\
        (o = Waits -> waiting s' = waiting s ++ [q]) /\ (o = Raised RequestManagerBusy -> waiting s' = waiting s)))).
Proof.
  intros R O T SU S t tg last. assert (G := runs_good limit values values_perm _ _ R). assert (RW := good_world limit tr (pool s) w G O). assert (LE := rel_length w (pool s) (proj1 G) RW).
  destruct (tries_attempt _ _ _ _ _ _ _ T S) as (s0 & P0 & W0 & A). unfold attempt in A. rewrite P0 in A.
  split; [|intros NO].
  - intros c H. apply RW in H as [_ H]. rewrite (search_own limit values _ _ _ _ c H) in A. injection A as <- <- <-. auto.
  - assert (GN : get key_eqb (Some t, tg) (active (pool s)) = None).
    { destruct (get key_eqb (Some t, tg) (active (pool s))) as [c|] eqn:GC; [|reflexivity]. exfalso. apply (NO c). apply RW. split; [|exact GC]. apply (i_act _ (proj1 G)) in GC as (GC & _). congruence. }
    split.
    + intros (c & H). apply RW in H as [H1 H2]. destruct (search_idle limit values values_perm (length (idle (pool s))) t tg tr (pool s) c G GN H2 H1) as (d & m' & E & ID & TD & MAX).
      unfold t, tg in E. rewrite E in A. injection A as <- <- <-. exists d. split; [apply RW; auto|]. split; [|auto]. intros x Hx. apply RW in Hx as [Hx1 Hx2]. now apply MAX.
    + intros NI. assert (NT : forall c, In c (idle (pool s)) -> o_target (heap (pool s) c) <> tg) by (intros c H X; apply (NI c); apply RW; auto). split; [|split].
      * intros L. destruct (search_new limit values (length (idle (pool s))) t tg tr (pool s) G GN NT) as (m' & E); [lia|exact SU|]. unfold t, tg in E. rewrite E in A. injection A as <- <- <-. eexists. split; reflexivity.
      * intros L (d & g & H). apply RW in H as [H1 H2]. destruct (search_evict limit values values_perm t tg tr (pool s) d G GN NT) as (x & n & m' & E & IX & MIN); [lia|exact H2|exact SU|]. unfold t, tg in E. rewrite E in A. injection A as <- <- <-.
        exists x, (o_target (heap (pool s) x)), n. split; [apply RW; auto|]. split; [|split; reflexivity]. intros y gy Hy. apply RW in Hy as [_ Hy]. now apply MIN.
      * intros L N. assert (NIL : idle (pool s) = []). { destruct (idle (pool s)) as [|x l] eqn:IE; [reflexivity|]. exfalso. apply (N x (o_target (heap (pool s) x))). apply RW. split; [reflexivity|]. rewrite IE. now left. }
        rewrite (search_full limit values values_perm (length (idle (pool s))) (w_t q) (w_tg q) tr (pool s) G GN NIL) in A by (rewrite NIL in LE; cbn in LE; lia).
        destruct (w_timeout q) as [d|]; [destruct ((d =? 0)%Z || (now >? w_start q + d)%Z)|]; injection A as <- <- <-; (split; [reflexivity|]; split; [reflexivity|]; split; [intros X|intros X]; try discriminate X; cbn [waiting]; congruence).
Qed.

(** * C226: no call waits while there is room *)
Theorem C226_awake_partial tr s w : runs polite tr s -> obeys limit tr w -> waiting s <> [] -> woken s = [] ->
  length w = limit /\ forall e, In e w -> owner_of e <> None.
Proof.
  intros R O W K. destruct (runs_awake limit values values_perm _ _ R) as [A _]. specialize (A W). rewrite K in A. cbn in A.
  assert (R' : runs no_surprise tr s) by (eapply runs_weaken; [|exact R]; intros ? ? [X _]; exact X). assert (G := runs_good limit values values_perm _ _ R').
  assert (RW := good_world limit tr (pool s) w G O). assert (LE := rel_length w (pool s) (proj1 G) RW). destruct G as (I & L & _). assert (length (idle (pool s)) = 0) by lia. split; [lia|].
  intros [[c tg] o] H1 H2. cbn in H2. subst o. apply RW in H1 as [_ H1]. destruct (idle (pool s)); [destruct H1|discriminate].
Qed.

(** * C227: closing *)
Theorem C227_refused s q now : closing (pool s) = true -> step s (EQueue q now) = (s, [], Raised ConnectionClosed).
Proof. intros H. cbn [HttpPool.step]. unfold QueueRequest. now rewrite H. Qed.
Theorem C227_close s s' es o : step s ECloseRound = (s', es, o) -> closing (pool s') = true /\ es = [].
Proof. cbn. unfold CloseRound. intros E. injection E as <- <- <-. auto. Qed.
Theorem C227_for_good s e s' es o : step s e = (s', es, o) -> closing (pool s) = true -> closing (pool s') = true.
Proof. apply step_closing. Qed.
Theorem C227_nothing_new_partial s e s' es o : step s e = (s', es, o) -> closing (pool s) = true -> waiting s = [] -> woken s = [] ->
  waiting s' = [] /\ woken s' = [] /\ forall x, In x es -> exists c, x = Idled c \/ x = Closed c \/ x = Killed c.
Proof. apply step_closed. Qed.
Theorem C227_finishes tr s w now now' s1 es1 o1 s2 es2 o2 s3 es3 o3 : runs no_surprise tr s -> obeys limit tr w ->
  (forall c tg o, In (c, tg, o) w -> (o_last (heap (pool s) c) < now /\ o_last (heap (pool s) c) < now')%Z) ->
  step s (EActiveCleanup 0 now) = (s1, es1, o1) -> step s1 (EIdleCleanup 0 now') = (s2, es2, o2) -> step s2 ECloseRound = (s3, es3, o3) ->
  o3 = Done /\ (forall c, In (Killed c) es1 <-> exists tg t, In (c, tg, Some t) w) /\ (forall c, In (Closed c) es2 <-> exists tg, In (c, tg, None) w) /\ live (tr ++ es1 ++ es2) = [].
Proof.
  intros R O LT S1 S2 S3. assert (G := runs_good limit values values_perm _ _ R). assert (RW := good_world limit tr (pool s) w G O).
  assert (G1 := proj1 (step_good limit values values_perm _ _ (EActiveCleanup 0 now) _ _ _ G I (fun x => x) S1)). assert (G2 := proj1 (step_good limit values values_perm _ _ (EIdleCleanup 0 now') _ _ _ G1 I (fun x => x) S2)). cbn [HttpPool.step] in S1, S2, S3.
  destruct (active_cleanup limit values values_perm _ _ _ _ _ _ _ _ G O S1) as (_ & K1 & _ & _ & _ & D1 & H1 & A1). assert (G1' := G1). destruct G1' as (_ & _ & w1 & O1 & RW1).
  destruct (idle_cleanup limit values values_perm _ _ _ _ _ _ _ _ G1 O1 S2) as (_ & K2 & _ & _ & _ & A2 & H2 & D2).
  assert (KA : forall c, In (Killed c) es1 <-> exists tg t, In (c, tg, Some t) w).
  { intros c. rewrite K1. split; [intros (x & tg & t & [= ->] & H & _); eauto|]. intros (tg & t & H). exists c, tg, t. split; [reflexivity|]. split; [exact H|]. destruct (LT _ _ _ H) as [X _]. lia. }
  assert (KI : forall c, In (Closed c) es2 <-> exists tg, In (c, tg, None) w).
  { intros c. rewrite K2. split.
    - intros (x & tg & [= ->] & H & _). apply RW1 in H as [H0 H]. rewrite H1 in H0. rewrite D1 in H. exists tg. apply RW. auto.
    - intros (tg & H). destruct (LT _ _ _ H) as [_ X]. apply RW in H as [H0 H]. exists c, tg. split; [reflexivity|]. split; [|rewrite H1; lia]. apply RW1. rewrite H1, D1. auto. }
  destruct G2 as (I2 & _ & w2 & O2 & RW2). assert (E2 : w2 = []).
  { destruct w2 as [|[[c tg] [t|]] w2]; [reflexivity| |]; exfalso; assert (X := proj1 (proj2 RW2 _ _ _) (or_introl eq_refl)); destruct X as [X0 X].
    - rewrite A2 in X. apply A1 in X as [X N]. apply N, KA. exists tg, t. apply RW. rewrite H2, H1 in X0. auto.
    - apply D2 in X as [X N]. apply N, KI. exists tg. apply RW. rewrite H2, H1 in X0. rewrite D1 in X. auto. }
  subst w2. assert (LE := rel_length [] (pool s2) I2 RW2). cbn [length] in LE. split; [|split; [exact KA|split; [exact KI|]]].
  - unfold CloseRound in S3. rewrite <- LE in S3. cbn in S3. now injection S3 as <- <- <-.
  - rewrite app_assoc. now rewrite (obeys_live limit _ _ O2).
Qed.

(** * C228: exactly the inactive are cleaned up *)
Theorem C228_active tr s w d now s' es o : runs no_surprise tr s -> obeys limit tr w -> step s (EActiveCleanup d now) = (s', es, o) ->
  o = Returned /\ NoDup es /\
  (forall e, In e es <-> exists c tg t, e = Killed c /\ In (c, tg, Some t) w /\ (o_last (heap (pool s) c) < now - d)%Z) /\
  woken s' = woken s ++ firstn (length es) (waiting s) /\ waiting s' = skipn (length es) (waiting s).
Proof. intros R O S. destruct (active_cleanup limit values values_perm tr s w d now s' es o (runs_good limit values values_perm _ _ R) O S) as (A & B & C & D & E & _). auto 6. Qed.
Theorem C228_idle tr s w d now s' es o : runs no_surprise tr s -> obeys limit tr w -> step s (EIdleCleanup d now) = (s', es, o) ->
  o = Returned /\ NoDup es /\
  (forall e, In e es <-> exists c tg, e = Closed c /\ In (c, tg, None) w /\ (o_last (heap (pool s) c) < now - d)%Z) /\
  woken s' = woken s /\ waiting s' = waiting s.
Proof. intros R O S. destruct (idle_cleanup limit values values_perm tr s w d now s' es o (runs_good limit values values_perm _ _ R) O S) as (A & B & C & D & E & _). auto 6. Qed.

(** * C229: the pool does not fail of itself *)
Theorem C229_no_errors_partial tr s e s' es o : runs no_surprise tr s -> possible s e -> no_surprise s e -> step s e = (s', es, o) ->
  o <> Raised KeyError /\ o <> Forever /\
  (o = Raised NotImplementedError -> exists q now, tries s e q now /\ supported (w_tg q) = false) /\
  (o = Raised ConnectionClosed -> exists q now, e = EQueue q now /\ closing (pool s) = true).
Proof.
  intros R P NS S. assert (G := runs_good limit values values_perm _ _ R). destruct (step_good limit values values_perm _ _ _ _ _ _ G P NS S) as (_ & A & B). split; [exact A|]. split; [exact B|].
  destruct e as [q now|i now|i|t c n now|t c now|d now|d now|]; cbn [HttpPool.step] in S.
  - unfold QueueRequest in S. destruct (closing (pool s)) eqn:C.
    + injection S as <- <- <-. split; [discriminate|]. eauto.
    + apply (attempt_good limit values values_perm) with (tr := tr) in S as (_ & _ & K); [|exact G]. split; intros ->; [|destruct K]. exists q, now. split; [left; auto|]. apply K.
  - destruct (nth_error (woken s) i) as [q|] eqn:N; [|injection S as <- <- <-; split; discriminate].
    apply (attempt_good limit values values_perm) with (tr := tr) in S as (_ & _ & K); [|exact G]. split; intros ->; [|destruct K]. exists q, now. split; [right; eauto|]. apply K.
  - destruct (nth_error (waiting s) i); injection S as <- <- <-; split; discriminate.
  - injection S as <- <- <-; split; discriminate.
  - destruct (DeactivateConnection _ _) as [[m es0] n]. injection S as <- <- <-; split; discriminate.
  - unfold IdleCleanup in S. destruct (idle_loop _ _ _) as [[m cs] ok]. destruct ok; injection S as <- <- <-; split; discriminate.
  - unfold ActiveCleanup in S. destruct (active_loop _ _ _) as [[m cs] ok]. destruct ok; injection S as <- <- <-; split; discriminate.
  - injection S as <- <- <-. split; destruct (_ =? 0); discriminate.
Qed.
End Pools.

(** * What is not so *)
Theorem C222_limit_refuted : exists limit values tr s, (forall l, Permutation (values l) l) /\ runs limit values anything tr s /\ ~ length (live tr) <= limit.
Proof.
  exists 1, same, (history 1 (late ++ [EQueue (ask 1 siteB 13) 3%Z])), (state 1 (late ++ [EQueue (ask 1 siteB 13) 3%Z])). split; [exact same_perm|]. split; [apply any_runs; reflexivity|].
  vm_compute. lia.
Qed.
Theorem C223_refuted : exists limit values a c t tg r b s, (forall l, Permutation (values l) l) /\ runs limit values anything (a ++ Killed c :: b) s /\ In (Queued c t tg r) b.
Proof.
  exists 1, same, [Created 1 siteA; Bound 1 1; Queued 1 1 siteA 11], 1, 1, siteA, 13, [Created 2 siteA; Bound 2 1; Queued 2 1 siteA 12; Idled 1; Bound 1 1; Queued 1 1 siteA 13], (state 1 (late ++ [EQueue (ask 1 siteA 13) 3%Z])).
  split; [exact same_perm|]. split; [|cbn; auto 10]. apply (any_runs 1 (late ++ [EQueue (ask 1 siteA 13) 3%Z])). reflexivity.
Qed.
Definition unlucky : list event := [EQueue (ask 1 siteA 11) 0; EQueue (ask 2 siteF 12) 0; EQueue (ask 3 siteB 13) 0; EIdle 1 1 1; EResume 0 2].
Theorem C226_awake_refuted : exists limit values tr s, (forall l, Permutation (values l) l) /\ runs limit values no_surprise tr s /\ obeys limit tr [] /\ limit > 0 /\ waiting s <> [] /\ woken s = [].
Proof.
  exists 1, same, (history 1 unlucky), (state 1 unlucky). split; [exact same_perm|]. assert (R : runs 1 same no_surprise (history 1 unlucky) (state 1 unlucky)) by (apply calm_runs; reflexivity). split; [exact R|]. split; [|split; [lia|split; [vm_compute; discriminate|reflexivity]]].
  destruct (runs_good 1 same same_perm _ _ R) as (_ & _ & w & O & _). assert (L := obeys_live 1 _ _ O). assert (E : live (history 1 unlucky) = []) by (vm_compute; reflexivity). rewrite E in L. clear E. destruct w; [exact O|discriminate L].
Qed.
Definition closed_late : list event := [EQueue (ask 1 siteA 11) 0; EQueue (ask 2 siteB 12) 0; ECloseRound; EActiveCleanup 0 1].
Theorem C227_nothing_new_refuted : exists limit values tr s e s' es c, (forall l, Permutation (values l) l) /\ runs limit values no_surprise tr s /\ closing (pool s) = true /\ possible s e /\
  step limit values s e = (s', es, Enqueued c) /\ In (Created c siteB) es.
Proof.
  set (s := state 1 closed_late). exists 1, same, (history 1 closed_late), s, (EResume 0 2), (fst (fst (step 1 same s (EResume 0 2)))), (snd (fst (step 1 same s (EResume 0 2)))), 2.
  split; [exact same_perm|]. split; [apply calm_runs; reflexivity|]. split; [reflexivity|]. split; [apply possibleb_ok; reflexivity|]. split; [apply triple; vm_compute; reflexivity|]. vm_compute. auto.
Qed.
Theorem C229_refuted : exists limit values tr s d now s' es, (forall l, Permutation (values l) l) /\ runs limit values anything tr s /\ step limit values s (EActiveCleanup d now) = (s', es, Raised KeyError).
Proof.
  set (s := state 1 late). exists 1, same, (history 1 late), s, 0%Z, 9%Z, (fst (fst (step 1 same s (EActiveCleanup 0 9)))), (snd (fst (step 1 same s (EActiveCleanup 0 9)))).
  split; [exact same_perm|]. split; [apply any_runs; reflexivity|]. apply triple. vm_compute. reflexivity.
Qed.

(** * The theorems at work *)
Example limit_used : NoDup (live (history 2 shared)) /\ length (live (history 2 shared)) <= 2.
Proof. exact (C222_limit_partial 2 same same_perm _ _ shared_runs). Qed.
Example limit_reached : length (live (history 2 shared)) = 2.
Proof. reflexivity. Qed.
Example owner_used : exists w, obeys 2 (firstn 9 (history 2 shared)) w /\ In (1, siteA, Some 3) w /\ (forall d, In (d, siteA, Some 3) w -> d = 1) /\ (forall g o, In (1, g, o) w -> g = siteA /\ o = Some 3).
Proof. exact (C223_owner_partial 2 same same_perm (firstn 9 (history 2 shared)) 1 3 siteA 14 [Idled 2] (state 2 shared) shared_runs). Qed.
(** thread 1 wants site A: nothing of its own, nothing idle there, no room, so the idle connection to B goes *)
Example choice_used : let x := step 2 same (state 2 shared) (EQueue (ask 1 siteA 15) 7) in
  snd (fst x) = [Closed 2; Created 3 siteA; Bound 3 1; Queued 3 1 siteA 15] /\ snd x = Enqueued 3 /\
  o_queue (heap (pool (fst (fst x))) 3) = [15] /\ o_queue (heap (pool (fst (fst x))) 1) = [14].
Proof. vm_compute. auto. Qed.
Example choice_meets : tries (state 2 shared) (EQueue (ask 1 siteA 15) 7) (ask 1 siteA 15) 7 /\ supported siteA = true /\ possible (state 2 shared) (EQueue (ask 1 siteA 15) 7) /\
  (forall c, ~ In (c, siteA, Some 1) shared_entries) /\ (forall c, ~ In (c, siteA, None) shared_entries) /\ length shared_entries = 2 /\ In (2, siteB, None) shared_entries.
Proof.
  split; [left; auto|]. split; [reflexivity|]. split; [apply possibleb_ok; reflexivity|]. unfold shared_entries. split; [intros c [H|[H|[]]]; discriminate|]. split; [intros c [H|[H|[]]]; discriminate|]. split; [reflexivity|now left].
Qed.
Example waiting_meets : exists s tr w, runs 1 same polite tr s /\ obeys 1 tr w /\ waiting s <> [] /\ woken s = [].
Proof.
  set (evs := [EQueue (ask 1 siteA 11) 0; EQueue (ask 2 siteB 12) 0]). assert (R : runs 1 same no_surprise (history 1 evs) (state 1 evs)) by (apply calm_runs; reflexivity).
  destruct (C223_rules_partial 1 same same_perm _ _ R) as (w & O). exists (state 1 evs), (history 1 evs), w. split; [|split; [exact O|split; [vm_compute; discriminate|reflexivity]]].
  change (history 1 evs) with (([] ++ history 1 [EQueue (ask 1 siteA 11) 0%Z]) ++ []).
  eapply runs_step with (e := EQueue (ask 2 siteB 12) 0) (s := state 1 [EQueue (ask 1 siteA 11) 0%Z]).
  - eapply runs_step with (e := EQueue (ask 1 siteA 11) 0) (s := init); [constructor|apply possibleb_ok; reflexivity|split; [intros []|reflexivity]|reflexivity].
  - apply possibleb_ok. reflexivity.
  - split; [intros []|reflexivity].
  - reflexivity.
Qed.
Example cleanup_used : snd (step 2 same (state 2 shared) (EActiveCleanup 1 9)) = Returned /\ snd (fst (step 2 same (state 2 shared) (EActiveCleanup 1 9))) = [Killed 1] /\ snd (fst (step 2 same (state 2 shared) (EIdleCleanup 1 9))) = [Closed 2].
Proof. cbn. auto. Qed.
Example close_used : let s1 := fst (fst (step 2 same (state 2 shared) (EActiveCleanup 0 9))) in let s2 := fst (fst (step 2 same s1 (EIdleCleanup 0 9))) in snd (step 2 same s2 ECloseRound) = Done.
Proof. reflexivity. Qed.
Example close_meets : forall c tg o, In (c, tg, o) shared_entries -> (o_last (heap (pool (state 2 shared)) c) < 9 /\ o_last (heap (pool (state 2 shared)) c) < 9)%Z.
Proof. intros c tg o [H|[H|[]]]; injection H as <- <- <-; vm_compute; auto. Qed.

Print Assumptions C222_limit_partial.
Print Assumptions C222_limit_refuted.
Print Assumptions C223_rules_partial.
Print Assumptions C223_owner_partial.
Print Assumptions C223_ended_partial.
Print Assumptions C223_new_each_time.
Print Assumptions C223_refuted.
Print Assumptions C224_queued.
Print Assumptions C225_choice.
Print Assumptions C225_schemes.
Print Assumptions C226_awake_partial.
Print Assumptions C226_awake_refuted.
Print Assumptions C227_refused.
Print Assumptions C227_close.
Print Assumptions C227_for_good.
Print Assumptions C227_nothing_new_partial.
Print Assumptions C227_nothing_new_refuted.
Print Assumptions C227_finishes.
Print Assumptions C228_active.
Print Assumptions C228_idle.
Print Assumptions C229_no_errors_partial.
Print Assumptions C229_refuted.
