(** The choices of the search, what cleaning up does, and histories to compute with. *)
From Coq Require Import List Arith Bool ZArith Lia Permutation.
From Verif Require Import Py HttpPool HttpPoolSpec HttpPoolProofs HttpPoolProofs2 HttpPoolProofs3 HttpPoolProofs4.
Import ListNotations.
Open Scope nat_scope.

Section Choices.
Variable limit : nat.
Variable values : list cid -> list cid.
Hypothesis values_perm : forall l, Permutation (values l) l.
Notation search := (search limit values).
Lemma good_world tr m w : Good limit tr m -> obeys limit tr w -> Rel w m.
Proof. intros (_ & _ & w' & O' & R) O. now rewrite (obeys_det limit tr w O w' O'). Qed.

Lemma search_own fuel t tg m c : get key_eqb (Some t, tg) (active m) = Some c -> search fuel t tg m = (m, [], Found c).
Proof. intros G. destruct fuel; cbn [HttpPool.search]; now rewrite G. Qed.
Lemma search_idle fuel t tg tr m c : Good limit tr m -> get key_eqb (Some t, tg) (active m) = None -> In c (idle m) -> o_target (heap m c) = tg ->
  exists c m', search fuel t tg m = (m', [Bound c t], Found c) /\ In c (idle m) /\ o_target (heap m c) = tg /\
    (forall d, In d (idle m) -> o_target (heap m d) = tg -> (o_last (heap m d) <= o_last (heap m c))%Z).
Proof.
  intros GD G IC T. assert (H : has tg_eqb tg c (idleT m)) by (apply (i_it m (proj1 GD)); auto). destruct H as (l & GT & _).
  destruct (bind_idle limit values values_perm t tg tr m l GD G GT) as (d & l' & m' & S & A & _ & _ & _ & _ & ID & TD & MAX & _).
  exists d, m'. split; [|auto]. destruct fuel; cbn [HttpPool.search]; now rewrite G, GT, S, A.
Qed.
Lemma no_idle_target tr m tg : Good limit tr m -> (forall c, In c (idle m) -> o_target (heap m c) <> tg) -> get tg_eqb tg (idleT m) = None.
Proof.
  intros (I & _) N. destruct (get tg_eqb tg (idleT m)) as [l|] eqn:G; [|reflexivity]. exfalso. assert (X := i_itn m I _ _ G). cbn in X. destruct l as [|c l]; [now apply X|].
  assert (H : has tg_eqb tg c (idleT m)) by (exists (c :: l); split; [assumption|now left]). apply (i_it m I) in H as [H1 H2]. now apply (N c).
Qed.
Lemma search_new fuel t tg tr m : Good limit tr m -> get key_eqb (Some t, tg) (active m) = None -> (forall c, In c (idle m) -> o_target (heap m c) <> tg) ->
  length (active m) + length (idle m) < limit -> supported tg = true -> exists m', search fuel t tg m = (m', [Created (nextId m) tg; Bound (nextId m) t], Found (nextId m)).
Proof.
  intros GD G N L S. assert (GT := no_idle_target tr m tg GD N). destruct (bind_new limit t tg tr m GD G L S) as (m0 & m' & NC & A & _). exists m'. apply Nat.ltb_lt in L.
  destruct fuel; cbn [HttpPool.search]; now rewrite G, GT, L, NC, A.
Qed.
Lemma search_full fuel t tg tr m : Good limit tr m -> get key_eqb (Some t, tg) (active m) = None -> idle m = [] -> limit <= length (active m) ->
  search fuel t tg m = (m, [], Full).
Proof.
  intros GD G N L. assert (GT : get tg_eqb tg (idleT m) = None) by (apply (no_idle_target tr); [assumption|rewrite N; intros ? []]).
  assert (V : sort (heap m) (values (idle m)) = []).
  { rewrite N. assert (X : values [] = []) by (apply Permutation_nil, Permutation_sym, values_perm). now rewrite X. }
  assert (LL : (length (active m) + length (idle m) <? limit) = false) by (apply Nat.ltb_ge; rewrite N; cbn; lia).
  destruct fuel; cbn [HttpPool.search]; now rewrite G, GT, LL, V.
Qed.
Lemma search_evict t tg tr m c : Good limit tr m -> get key_eqb (Some t, tg) (active m) = None -> (forall c, In c (idle m) -> o_target (heap m c) <> tg) ->
  length (active m) + length (idle m) = limit -> In c (idle m) -> supported tg = true ->
  exists d n m', search (length (idle m)) t tg m = (m', [Closed d; Created n tg; Bound n t], Found n) /\ In d (idle m) /\
    (forall x, In x (idle m) -> (o_last (heap m d) <= o_last (heap m x))%Z).
Proof.
  intros GD G N L IC S. assert (GT := no_idle_target tr m tg GD N). destruct (length (idle m)) as [|f] eqn:LI; [destruct (idle m); [destruct IC|discriminate]|].
  destruct (sort (heap m) (values (idle m))) as [|d l'] eqn:SO.
  { exfalso. apply sort_nil in SO. assert (P := Permutation_length (values_perm (idle m))). rewrite SO, LI in P. discriminate. }
  assert (SO' := SO). apply oldest in SO as [ID MIN]. apply (proj1 (values_In values values_perm _ _)) in ID. destruct GD as (I & LE & w & O & R).
  destruct (leave m d I ID) as (m1 & E1 & I1 & A1 & T1 & D1 & H1 & N1 & C1 & R1). destruct (R1 w R) as [R2 IW].
  assert (X := length_drop d (idle m) (i_idle m I) ID).
  assert (GD1 : Good limit (tr ++ [Closed d]) m1).
  { split; [assumption|]. split; [rewrite A1, D1; lia|]. exists (forget d w). split; [|assumption]. apply o_snoc with (w := w); [assumption|]. eapply f_closed. exact IW. }
  destruct (search_new f t tg _ m1 GD1) as (m2 & E2).
  - now rewrite A1.
  - intros x Hx. rewrite D1 in Hx. apply drop_In in Hx as [Hx _]. rewrite H1. now apply N.
  - rewrite A1, D1. lia.
  - assumption.
  - exists d, (nextId m1), m2. split.
    + cbn [HttpPool.search]. rewrite G, GT, SO'. assert (LL : (length (active m) + length (idle m) <? limit) = false) by (apply Nat.ltb_ge; lia). rewrite LL.
      unfold DeleteIdleConnection. rewrite (proj2 (mem_In d (idle m)) ID), E1, E2. reflexivity.
    + split; [assumption|]. intros x Hx. apply MIN. now apply (proj2 (values_In values values_perm _ _)).
Qed.
(** Cleaning up *)
Lemma active_cleanup tr s w d now s' es o : Good limit tr (pool s) -> obeys limit tr w -> ActiveCleanup values d now s = (s', es, o) ->
  o = Returned /\ (forall e, In e es <-> exists c tg t, e = Killed c /\ In (c, tg, Some t) w /\ (o_last (heap (pool s) c) < now - d)%Z) /\ NoDup es /\
  woken s' = woken s ++ firstn (length es) (waiting s) /\ waiting s' = skipn (length es) (waiting s) /\
  idle (pool s') = idle (pool s) /\ heap (pool s') = heap (pool s) /\
  (forall k c, get key_eqb k (active (pool s')) = Some c <-> get key_eqb k (active (pool s)) = Some c /\ ~ In (Killed c) es).
Proof.
  intros GD O. assert (R := good_world tr (pool s) w GD O). unfold ActiveCleanup. assert (ND := bound_list_NoDup values values_perm (pool s) (proj1 GD)).
  destruct (active_loop_good limit values values_perm (now - d)%Z (bound_list values (pool s)) tr (pool s)) as (m2 & E2 & G2 & D2 & H2 & C2 & X2 & L2 & A2); [assumption|assumption| |].
  { intros t c H. apply (bound_list_In values values_perm); [apply GD|assumption]. }
  cbv zeta in E2, G2, L2, A2. rewrite E2. intros E. injection E as <- <- <-. set (cs := filter _ _) in *. rewrite map_length. split; [reflexivity|].
  assert (IM : forall c, In (Killed c) (map Killed cs) <-> In c cs) by (intros c; rewrite in_map_iff; split; [intros (x & [= ->] & H); assumption|intros H; eauto]).
  split; [|split; [|repeat split]].
  - intros e. rewrite in_map_iff. destruct GD as (I & _). split.
    + intros (c & <- & H). apply filter_In in H as [H X]. apply in_map_iff in H as ([t c'] & EC & H). cbn in EC. subst c'. apply (bound_list_In values values_perm) in H; [|apply I].
      apply (i_thr (pool s) I) in H. exists c, (o_target (heap (pool s) c)), t. split; [reflexivity|]. split; [apply R; auto|]. apply Z.ltb_lt in X. exact X.
    + intros (c & tg & t & -> & H & X). exists c. split; [reflexivity|]. apply filter_In. split; [|now apply Z.ltb_lt]. apply (in_map snd _ (t, c)). apply (bound_list_In values values_perm); [apply I|].
      apply (i_thr (pool s) I). apply R in H as [<- H]. exact H.
  - apply (FinFun.Injective_map_NoDup (f := Killed)); [intros x y [= ->]; reflexivity|]. now apply NoDup_filter.
  - exact D2.
  - exact H2.
  - apply A2 in H as [H _]. exact H.
  - rewrite IM. now apply A2 in H as [_ H].
  - intros [H N]. rewrite IM in N. apply A2. auto.
Qed.
Lemma idle_cleanup tr s w d now s' es o : Good limit tr (pool s) -> obeys limit tr w -> IdleCleanup values d now s = (s', es, o) ->
  o = Returned /\ (forall e, In e es <-> exists c tg, e = Closed c /\ In (c, tg, None) w /\ (o_last (heap (pool s) c) < now - d)%Z) /\ NoDup es /\
  woken s' = woken s /\ waiting s' = waiting s /\ active (pool s') = active (pool s) /\ heap (pool s') = heap (pool s) /\
  (forall c, In c (idle (pool s')) <-> In c (idle (pool s)) /\ ~ In (Closed c) es).
Proof.
  intros GD O. assert (R := good_world tr (pool s) w GD O). unfold IdleCleanup.
  assert (ND : NoDup (values (idle (pool s)))) by (apply (Permutation_NoDup (Permutation_sym (values_perm _))); apply GD).
  destruct (idle_loop_good limit values values_perm (now - d)%Z (values (idle (pool s))) tr (pool s)) as (m2 & E2 & G2 & A2 & T2 & H2 & C2 & X2 & D2); [assumption|assumption| |].
  { intros c H. now apply (proj1 (values_In values values_perm _ _)). }
  rewrite E2. intros E. injection E as <- <- <-. set (cs := filter _ _) in *. split; [reflexivity|].
  assert (IM : forall c, In (Closed c) (map Closed cs) <-> In c cs) by (intros c; rewrite in_map_iff; split; [intros (x & [= ->] & H); assumption|intros H; eauto]).
  split; [|split; [|repeat split]].
  - intros e. rewrite in_map_iff. split.
    + intros (c & <- & H). apply filter_In in H as [H X]. apply (proj1 (values_In values values_perm _ _)) in H. exists c, (o_target (heap (pool s) c)). split; [reflexivity|]. split; [apply R; auto|]. now apply Z.ltb_lt in X.
    + intros (c & tg & -> & H & X). exists c. split; [reflexivity|]. apply filter_In. split; [|now apply Z.ltb_lt]. apply (proj2 (values_In values values_perm _ _)). now apply R in H as [_ H].
  - apply (FinFun.Injective_map_NoDup (f := Closed)); [intros x y [= ->]; reflexivity|]. now apply NoDup_filter.
  - exact A2.
  - exact H2.
  - now apply D2 in H.
  - rewrite IM. now apply D2 in H as [_ H].
  - intros [H N]. rewrite IM in N. apply D2. auto.
Qed.

(** * Being asked to close *)
Lemma leave_idle_closing c m m' ok : leave_idle c m = (m', ok) -> closing m' = closing m.
Proof. unfold leave_idle. destruct (get _ _ _); [destruct (mem _ _)|]; intros E; injection E as <- <-; reflexivity. Qed.
Lemma activate_closing c t m m' ok : ActivateConnection c t m = (m', ok) -> closing m' = closing m.
Proof. unfold ActivateConnection. destruct (mem _ _); intros E; [now apply leave_idle_closing in E|]. injection E as <- <-. reflexivity. Qed.
Lemma delete_closing c m m' es ok : DeleteIdleConnection c m = (m', es, ok) -> closing m' = closing m.
Proof.
  unfold DeleteIdleConnection. destruct (mem _ _); [|intros E; injection E as <- <- <-; reflexivity].
  destruct (leave_idle c m) as [m1 ok1] eqn:L. apply leave_idle_closing in L. destruct ok1; intros E; injection E as <- <- <-; assumption.
Qed.
Lemma search_closing fuel t tg : forall m m' es r, search fuel t tg m = (m', es, r) -> closing m' = closing m.
Proof.
  induction fuel as [|fuel IH]; intros m m' es r; cbn [HttpPool.search];
  (destruct (get key_eqb _ _); [intros E; injection E as <- <- <-; reflexivity|]);
  (destruct (get tg_eqb _ _) as [l|];
   [destruct (rev _) as [|c l']; [intros E; injection E as <- <- <-; reflexivity|];
    destruct (ActivateConnection c t m) as [m1 ok] eqn:A; apply activate_closing in A; destruct ok; intros E; injection E as <- <- <-; assumption|]);
  (destruct (_ <? _);
   [unfold NewConnection; destruct (supported tg); [|intros E; injection E as <- <- <-; reflexivity]; cbv zeta beta iota;
    match goal with |- context [ActivateConnection ?c t ?m0] => destruct (ActivateConnection c t m0) as [m1 ok] eqn:A end; apply activate_closing in A; destruct ok; intros E; injection E as <- <- <-; assumption|]);
  (destruct (sort _ _) as [|c l']; [intros E; injection E as <- <- <-; reflexivity|]);
  destruct (DeleteIdleConnection c m) as [[m1 es1] ok] eqn:D; apply delete_closing in D; destruct ok; try (intros E; injection E as <- <- <-; assumption).
  destruct (search fuel t tg m1) as [[m2 es2] r2] eqn:S. apply IH in S. intros E. injection E as <- <- <-. congruence.
Qed.
Lemma attempt_closing w now s s' es o : attempt limit values w now s = (s', es, o) -> closing (pool s') = closing (pool s).
Proof.
  unfold attempt. destruct (search _ _ _ _) as [[m es0] r] eqn:S. apply search_closing in S.
  destruct r; [|destruct (match w_timeout w with None => false | Some _ => _ end)| |]; intros E; injection E as <- <- <-; exact S.
Qed.
Lemma idle_loop_closing bound l : forall m m' cs ok, idle_loop bound l m = (m', cs, ok) -> closing m' = closing m.
Proof.
  induction l as [|c l IH]; intros m m' cs ok; cbn [idle_loop]; [intros E; injection E as <- <- <-; reflexivity|]. destruct (_ <? _)%Z; [|apply IH]. destruct (get _ _ _).
  - destruct (leave_idle c m) as [m1 ok1] eqn:L. apply leave_idle_closing in L. destruct ok1; [|intros E; injection E as <- <- <-; assumption].
    destruct (idle_loop bound l m1) as [[m2 cs2] ok2] eqn:S. apply IH in S. intros E; injection E as <- <- <-. congruence.
  - destruct (idle_loop bound l _) as [[m2 cs2] ok2] eqn:S. apply IH in S. intros E; injection E as <- <- <-. exact S.
Qed.
Lemma active_loop_closing bound l : forall m m' cs ok, active_loop bound l m = (m', cs, ok) -> closing m' = closing m.
Proof.
  induction l as [|[t c] l IH]; intros m m' cs ok; cbn [active_loop]; [intros E; injection E as <- <- <-; reflexivity|]. destruct (_ <? _)%Z; [|apply IH]. destruct (get key_eqb _ _).
  - destruct (active_loop bound l _) as [[m2 cs2] ok2] eqn:S. apply IH in S. intros E; injection E as <- <- <-. exact S.
  - intros E; injection E as <- <- <-. reflexivity.
Qed.
Lemma deactivate_closing c m m' es n : DeactivateConnection c m = (m', es, n) -> closing m' = closing m /\ forall x, In x es -> x = Idled c.
Proof. unfold DeactivateConnection. destruct (get key_eqb _ _); intros E; injection E as <- <- <-; (split; [reflexivity|]); [intros x [H|[]]; auto|intros x []]. Qed.
Lemma step_closing s e s' es o : step limit values s e = (s', es, o) -> closing (pool s) = true -> closing (pool s') = true.
Proof.
  destruct e as [w now|i now|i|t c n now|t c now|d now|d now|]; cbn [step].
  - unfold QueueRequest. intros E H. rewrite H in E. injection E as <- <- <-. exact H.
  - destruct (nth_error _ _) as [w|]; [|intros E; injection E as <- <- <-; auto]. intros E. apply attempt_closing in E. cbn in E. congruence.
  - destruct (nth_error _ _); intros E; injection E as <- <- <-; auto.
  - intros E; injection E as <- <- <-. auto.
  - destruct (DeactivateConnection _ _) as [[m es0] n] eqn:D. apply deactivate_closing in D as [D _]. intros E; injection E as <- <- <-. cbn in *. congruence.
  - unfold IdleCleanup. destruct (idle_loop _ _ _) as [[m cs] ok] eqn:L. apply idle_loop_closing in L. destruct ok; intros E; injection E as <- <- <-; cbn; congruence.
  - unfold ActiveCleanup. destruct (active_loop _ _ _) as [[m cs] ok] eqn:L. apply active_loop_closing in L. destruct ok; intros E; injection E as <- <- <-; cbn; congruence.
  - unfold CloseRound. intros E; injection E as <- <- <-. reflexivity.
Qed.
Lemma notify_empty n s : waiting s = [] -> woken s = [] -> waiting (notify n s) = [] /\ woken (notify n s) = [].
Proof. intros A B. unfold notify. cbn [waiting woken]. rewrite A, B, skipn_nil, firstn_nil. auto. Qed.
Lemma step_closed s e s' es o : step limit values s e = (s', es, o) -> closing (pool s) = true -> waiting s = [] -> woken s = [] ->
  waiting s' = [] /\ woken s' = [] /\ forall x, In x es -> exists c, x = Idled c \/ x = Closed c \/ x = Killed c.
Proof.
  destruct e as [w now|i now|i|t c n now|t c now|d now|d now|]; cbn [step]; intros E C A B.
  - unfold QueueRequest in E. rewrite C in E. injection E as <- <- <-. split; [assumption|]. split; [assumption|]. intros x [].
  - rewrite B in E. destruct i; injection E as <- <- <-; (split; [assumption|]; split; [assumption|]; intros x []).
  - rewrite A in E. destruct i; injection E as <- <- <-; (split; [assumption|]; split; [assumption|]; intros x []).
  - injection E as <- <- <-. split; [assumption|]. split; [assumption|]. intros x [].
  - destruct (DeactivateConnection _ _) as [[m es0] n] eqn:D. apply deactivate_closing in D as [_ D]. injection E as <- <- <-.
    destruct (notify_empty n (mkSys m (waiting s) (woken s)) A B) as [X Y]. split; [exact X|]. split; [exact Y|]. intros x H. apply D in H. eauto.
  - unfold IdleCleanup in E. destruct (idle_loop _ _ _) as [[m cs] ok]. destruct ok; injection E as <- <- <-; (split; [exact A|]; split; [exact B|]); intros x H; [|destruct H]. apply in_map_iff in H as (c & <- & _). eauto.
  - unfold ActiveCleanup in E. destruct (active_loop _ _ _) as [[m cs] ok]. destruct ok; injection E as <- <- <-.
    + destruct (notify_empty (length cs) (mkSys m (waiting s) (woken s)) A B) as [X Y]. split; [exact X|]. split; [exact Y|]. intros x H. apply in_map_iff in H as (c & <- & _). eauto.
    + split; [exact A|]. split; [exact B|]. intros x [].
  - injection E as <- <- <-. split; [exact A|]. split; [exact B|]. intros x [].
Qed.
Lemma live_from_In c es : forall l, In c (live_from l es) -> In c l \/ exists tg, In (Created c tg) es.
Proof.
  induction es as [|e es IH]; intros l H; [now left|]. destruct e; cbn [live_from] in H; apply IH in H as [H|(tg0 & H)]; try (right; exists tg0; now right); try (now left);
  try (apply filter_In in H as [H _]; now left). destruct H as [<-|H]; [right; exists tg; now left|now left].
Qed.
Lemma live_lt P tr s c : runs limit values P tr s -> In c (live tr) -> c < nextId (pool s).
Proof.
  intros R H. apply live_from_In in H as [[]|(tg & H)]. apply (created_lt limit values) in R as [_ R]. apply R. unfold created. apply in_map_iff. exists (Created c tg). split; [reflexivity|]. apply filter_In. auto.
Qed.

(** * Histories to compute with *)
Definition busyb (s : sys) (t : thread) : bool := existsb (Nat.eqb t) (map w_t (waiting s ++ woken s)).
Definition possibleb (s : sys) (e : event) : bool :=
  match e with
  | EQueue w _ => negb (busyb s (w_t w))
  | EResume i _ => i <? length (woken s)
  | ETimeout i => match nth_error (waiting s) i with Some w => match w_timeout w with Some _ => true | None => false end | None => false end
  | ETask t c _ _ | EIdle t c _ => (c <? nextId (pool s)) && ot_eqb (o_thread (heap (pool s) c)) (Some t) && negb (busyb s t)
  | _ => true
  end.
Lemma busyb_false s t : negb (busyb s t) = true -> ~ busy s t.
Proof. intros H B. apply negb_true_iff in H. unfold busyb in H. assert (X : existsb (Nat.eqb t) (map w_t (waiting s ++ woken s)) = true) by (apply existsb_exists; exists t; split; [exact B|apply Nat.eqb_refl]). congruence. Qed.
Lemma possibleb_ok s e : possibleb s e = true -> possible s e.
Proof.
  destruct e as [w now|i now|i|t c n now|t c now|d now|d now|]; cbn [possibleb possible]; try (intros; exact I).
  - apply busyb_false.
  - apply Nat.ltb_lt.
  - destruct (nth_error _ _) as [w|] eqn:N; [|discriminate]. destruct (w_timeout w) eqn:T; [|discriminate]. intros _. exists w. split; [reflexivity|congruence].
  - rewrite !andb_true_iff. intros [[A B] C]. apply Nat.ltb_lt in A. apply ot_eqb_eq in B. apply busyb_false in C. auto.
  - rewrite !andb_true_iff. intros [[A B] C]. apply Nat.ltb_lt in A. apply ot_eqb_eq in B. apply busyb_false in C. auto.
Qed.
Fixpoint play (s : sys) (evs : list event) : list effect * sys * list outcome :=
  match evs with
  | [] => ([], s, [])
  | e :: evs => let '(s1, es, o) := step limit values s e in let '(tr, s2, os) := play s1 evs in (es ++ tr, s2, o :: os)
  end.
Definition surpriseb (s : sys) (e : event) : bool :=
  match e with
  | EIdle t c _ => existsb (fun p => key_eqb (fst p) (Some t, o_target (heap (pool s) c)) && negb (snd p =? c)) (active (pool s))
  | _ => false
  end.
Lemma surpriseb_ok s e : surpriseb s e = false -> no_surprise s e.
Proof.
  intros H X. destruct e; cbn in X; try contradiction. destruct X as (d & N & X). cbn in H. apply (f_equal negb) in H. cbn in H. assert (Y : forall p, In p (active (pool s)) -> (key_eqb (fst p) (Some t, o_target (heap (pool s) c)) && negb (snd p =? c)) = false).
  { intros p Hp. destruct (_ && _) eqn:B; [|reflexivity]. assert (Z : existsb (fun p => key_eqb (fst p) (Some t, o_target (heap (pool s) c)) && negb (snd p =? c)) (active (pool s)) = true) by (apply existsb_exists; eauto). rewrite Z in H. discriminate. }
  specialize (Y _ X). cbn in Y. rewrite (proj2 (key_eqb_eq _ _) eq_refl) in Y. apply Nat.eqb_neq in N. rewrite N in Y. discriminate.
Qed.
Fixpoint playable (calm : bool) (s : sys) (evs : list event) : bool :=
  match evs with
  | [] => true
  | e :: evs => possibleb s e && (negb calm || negb (surpriseb s e)) && playable calm (fst (fst (step limit values s e))) evs
  end.
Lemma play_runs (P : sys -> event -> Prop) calm : (forall s e, (calm = true -> no_surprise s e) -> P s e) -> forall evs s tr, runs limit values P tr s -> playable calm s evs = true ->
  runs limit values P (tr ++ fst (fst (play s evs))) (snd (fst (play s evs))).
Proof.
  intros HP. induction evs as [|e evs IH]; intros s tr R PL; cbn [play].
  - cbn. now rewrite app_nil_r.
  - cbn [playable] in PL. apply andb_prop in PL as [PL P2]. apply andb_prop in PL as [P0 P1]. destruct (step limit values s e) as [[s1 es] o] eqn:S. cbn [fst] in P2.
    assert (R1 : runs limit values P (tr ++ es) s1).
    { apply (runs_step limit values P tr s e s1 es o R); [now apply possibleb_ok| |exact S]. apply HP. intros CT. apply surpriseb_ok. rewrite CT in P1. cbn [negb orb] in P1. now apply (proj1 (negb_true_iff _)). }
    specialize (IH s1 _ R1 P2). destruct (play s1 evs) as [[tr2 s2] os]. cbn [fst snd] in *. now rewrite app_assoc.
Qed.
End Choices.
