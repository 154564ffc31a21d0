(** Invariants of all histories of the pool. *)
From Coq Require Import List Arith Bool ZArith Lia Permutation.
From Verif Require Import SqlPool SqlPoolSpec SqlPoolProofs SqlPoolProofs2.
Import ListNotations.
Open Scope nat_scope.

Definition who (w : list (thread * phase * bool)) : list thread := map (fun x => fst (fst x)) w.
Lemma waits_for_In t w f : waits_for t w = Some f -> exists b, In (t, f, b) w.
Proof.
  unfold waits_for. match goal with |- context [find ?g w] => destruct (find g w) as [[[u g'] b]|] eqn:E end; [|discriminate]. intros [= <-]. apply find_some in E as [E1 E2]. apply Nat.eqb_eq in E2. cbn in *. subst u. eauto.
Qed.
Lemma waits_for_none t w : waits_for t w = None <-> ~ In t (who w).
Proof.
  unfold waits_for, who. induction w as [|[[u f] b] w IH]; cbn [find fst map In]; [tauto|].
  destruct (Nat.eqb_spec u t) as [->|E]; [split; [discriminate|intros H; exfalso; auto]|]. rewrite IH. tauto.
Qed.
Lemma not_waiting_In t w x : In x (not_waiting t w) <-> In x w /\ fst (fst x) <> t.
Proof. unfold not_waiting. rewrite filter_In, negb_true_iff, Nat.eqb_neq. reflexivity. Qed.
Lemma not_waiting_who t w : NoDup (who w) -> NoDup (who (not_waiting t w)) /\ ~ In t (who (not_waiting t w)).
Proof.
  intros N. split.
  - unfold who, not_waiting in *. induction w as [|x w IH]; [constructor|]. cbn [map] in N. apply NoDup_cons_iff in N as [N1 N2]. cbn [filter]. destruct (negb _); [|auto].
    cbn [map]. constructor; [|auto]. intros X. apply N1. apply in_map_iff in X as (y & <- & Hy). apply filter_In in Hy as [Hy _]. now apply (in_map (fun x => fst (fst x))).
  - intros X. apply in_map_iff in X as (y & E & Hy). apply not_waiting_In in Hy. tauto.
Qed.
Lemma not_waiting_absent t w : ~ In t (who w) -> not_waiting t w = w.
Proof.
  induction w as [|[[u f] b] w IH]; [reflexivity|]. intros N. unfold not_waiting. cbn [filter fst]. cbn [who map In fst] in N. destruct (Nat.eqb_spec u t); [exfalso; auto|]. cbn [negb]. f_equal. apply IH. tauto.
Qed.
Lemma not_waiting_notified t w : NoDup (who w) -> notified w <= S (notified (not_waiting t w)).
Proof.
  induction w as [|[[u f] b] w IH]; intros N; [cbn; lia|]. cbn [who map fst] in N. apply NoDup_cons_iff in N as [N1 N2].
  assert (E1 : notified ((u, f, b) :: w) = (if b then 1 else 0) + notified w) by (now destruct b).
  assert (E2 : not_waiting t ((u, f, b) :: w) = if u =? t then not_waiting t w else (u, f, b) :: not_waiting t w) by (unfold not_waiting; cbn [filter fst]; now destruct (u =? t)).
  rewrite E1, E2. destruct (Nat.eqb_spec u t) as [->|E].
  - rewrite not_waiting_absent by exact N1. destruct b; lia.
  - specialize (IH N2). assert (E3 : notified ((u, f, b) :: not_waiting t w) = (if b then 1 else 0) + notified (not_waiting t w)) by (now destruct b). lia.
Qed.
Lemma notify_who w : who (notify w) = who w.
Proof. unfold who. induction w as [|[[u f] [|]] w IH]; cbn [notify map fst]; [reflexivity|now rewrite IH|reflexivity]. Qed.
Lemma notify_In w t f b : In (t, f, b) (notify w) -> exists b', In (t, f, b') w.
Proof.
  induction w as [|[[u g] [|]] w IH]; cbn [notify]; [intros []| |].
  - intros [[= <- <- <-]|X]; [eauto using in_eq|]. destruct (IH X) as (b' & Y). eauto using in_cons.
  - intros [[= <- <- <-]|X]; eauto using in_eq, in_cons.
Qed.
Lemma notify_notified w : (exists x, In x w /\ snd x = false) -> notified (notify w) = S (notified w).
Proof.
  unfold notified. induction w as [|[[u g] [|]] w IH]; intros (x & Hx & Ex); cbn [notify filter snd length].
  - destruct Hx.
  - destruct Hx as [<-|Hx]; [discriminate|]. rewrite IH by eauto. reflexivity.
  - reflexivity.
Qed.
Lemma notify_unnotified w x : In x (notify w) -> snd x = false -> exists y, In y w /\ snd y = false.
Proof.
  induction w as [|[[u g] [|]] w IH]; cbn [notify]; [intros []| |].
  - intros [<-|X] E; [discriminate|]. destruct (IH X E) as (y & Y1 & Y2). eauto using in_cons.
  - intros _ _. exists (u, g, false). split; [now left|reflexivity].
Qed.

Section Pool.
Variable safety : Z.
Variable maxConnections : nat.
Notation cPoolMax := (cPoolMax safety maxConnections).
Notation level0 := (level0 safety).
Notation Core := (Core safety maxConnections).
Notation Mod := (Mod safety).
Variable fuel : nat.
Notation step := (step safety maxConnections fuel).
Notation runs := (runs safety maxConnections fuel).

Record Inv (up : bool) (h : list event) (s : system) : Prop := {
  i_core : Core (holding h) (open_now h) (s_pool s);
  i_mod : Mod up (holding h) (module (s_pool s));
  i_who : NoDup (who (waiting s));
  i_wait : forall t f b, In (t, f, b) (waiting s) -> of_thread t (holding h) = [] /\ f = if level0 then WModule else WConn;
  i_wake : up = true -> level0 = false -> (exists x, In x (waiting s) /\ snd x = false) ->
           cPoolMax <= length (locked (s_pool s)) + notified (waiting s) }.

Definition action_ok (up : bool) (a : action) : Prop := (forall t alive, a <> Close t alive) /\ (up = true -> opens a).
Lemma of_thread_other t t' c H : t' <> t -> of_thread t' ((t, c) :: H) = of_thread t' H.
Proof. intros N. unfold of_thread. cbn [filter fst]. destruct (Nat.eqb_spec t t'); [congruence|reflexivity]. Qed.

(** What an attempt to acquire does: it has the connection, or waits, or has failed to open one *)
Definition attempt (up : bool) (t : thread) (ok expired : bool) (h : list event) (p p' : pool) (es : list effect) (o : outcome) : Prop :=
  match o with
  | Got c => Core ((t, c) :: holding h) (open_after es (open_now h)) p' /\ Mod up ((t, c) :: holding h) (module p') /\
      length (locked p) <= length (locked p') <= S (length (locked p)) /\ (of_thread t (holding h) = [] -> length (locked p') = S (length (locked p)) /\ length (locked p) < cPoolMax) /\
      (forall c', In (t, c') (holding h) -> c' = c)
  | Waits f => f = (if level0 then WModule else WConn) /\ p' = p /\ es = [] /\ of_thread t (holding h) = [] /\
      (level0 = false -> expired = false /\ cPoolMax <= length (locked p)) /\ (level0 = true -> up = true -> exists u c, In (u, c) (holding h) /\ u <> t)
  | Nothing => p' = p /\ es = [] /\ expired = true /\ (level0 = false -> cPoolMax <= length (locked p))
  | Raised OpenError => ok = false /\ Core (holding h) (open_after es (open_now h)) p' /\ Mod up (holding h) (module p') /\ locked p' = locked p
  | _ => False
  end.
Lemma attempt_module up t ok pick h p p' es o : Core (holding h) (open_now h) p -> Mod up (holding h) (module p) -> (up = true -> ok = true) ->
  seek_module safety maxConnections t ok pick p = (p', es, o) -> attempt up t ok false h p p' es o.
Proof.
  intros C M U E. assert (S := seek_module_core safety maxConnections up (holding h) (open_now h) p t ok pick C M U p' es o E).
  unfold attempt. destruct o as [c| |f|[]| | | |]; try exact S; try contradiction.
  - destruct S as (S1 & S2 & S3 & S4). split; [exact S1|]. split; [exact S2|]. split; [|split; [exact S3|intros c' Hc; now destruct (S4 c' Hc)]].
    destruct (of_thread t (holding h)) as [|x l] eqn:Eo; [destruct (S3 eq_refl); lia|]. assert (X : In x (of_thread t (holding h))) by (rewrite Eo; now left).
    unfold of_thread in X. apply filter_In in X as [X Y]. destruct x as [u c']. cbn in Y. apply Nat.eqb_eq in Y. subst u. destruct (S4 c' X). lia.
  - destruct S as (S1 & S2 & S3 & S4 & S5 & S6). auto 10.
Qed.
Lemma attempt_acquire up t ok pick h p p' es o : Core (holding h) (open_now h) p -> Mod up (holding h) (module p) -> (up = true -> ok = true) ->
  AcquireConnection safety maxConnections t ok pick p = (p', es, o) -> attempt up t ok false h p p' es o.
Proof. intros C M U. unfold AcquireConnection. destruct (c_state _ _ _ _ _ C) as [-> _]. now apply attempt_module. Qed.
Lemma attempt_again up t ex ok pick h s p' es o : Inv up h s -> (up = true -> ok = true) -> forall f, waits_for t (waiting s) = Some f ->
  acquire_again safety maxConnections f t ex ok pick (s_pool s) = (p', es, o) -> attempt up t ok ex h (s_pool s) p' es o.
Proof.
  intros I U f W. destruct (waits_for_In _ _ _ W) as [b Hb]. destruct (i_wait _ _ _ I t f b Hb) as [Ho ->]. assert (C := i_core _ _ _ I). assert (M := i_mod _ _ _ I).
  unfold acquire_again. destruct level0 eqn:E0.
  - destruct ex.
    + intros [= <- <- <-]. unfold attempt. rewrite E0. repeat split. discriminate.
    + now apply attempt_module.
  - intros E. assert (L : lookup t (locked (s_pool s)) = None) by (apply (none_held _ _ _ _ _ _ C); exact Ho).
    assert (S := seek_core _ _ _ _ _ t ok pick ex C L p' es o E). unfold SqlPoolProofs2.Mod in M. rewrite E0 in M. rewrite M in S.
    unfold attempt, SqlPoolProofs2.Mod. rewrite E0. destruct o as [c| |f|[]| | | |]; try contradiction.
    + destruct S as (S1 & S2 & S3 & S4). split; [exact S1|]. split; [exact S2|]. split; [lia|]. split; [auto|]. intros c' Hc. rewrite of_thread_none in Ho. now apply Ho in Hc.
    + destruct S as (-> & -> & S3 & m & Em & ->). cbn [rl_release] in Em. injection Em as <-. split; [|auto]. unfold with_module. rewrite <- M. now destruct (s_pool s).
    + destruct S as (-> & -> & -> & -> & S5). repeat split; auto. discriminate.
    + now destruct S.
    + exact S.
Qed.

Lemma after_inv up h s t a w p' es o ok ex : Inv up h s -> (exists x y z, a = Acquire t x y /\ z = 0) \/ (exists x y z u, a = Wake t x y z u) ->
  (forall x, In x w -> In x (waiting s)) -> NoDup (who w) -> ~ In t (who w) -> notified (waiting s) <= S (notified w) -> (notified (waiting s) <= notified w \/ of_thread t (holding h) = []) ->
  (up = true -> ok = true) -> attempt up t ok ex h (s_pool s) p' es o ->
  Inv up ((a, es, o) :: h) (mkSystem p' (match o with Waits f => w ++ [(t, f, false)] | _ => w end)).
Proof.
  intros I Ha Hw Nw Nt Nn Nn' U A. assert (C := i_core _ _ _ I). assert (M := i_mod _ _ _ I).
  assert (HH : holding ((a, es, o) :: h) = match o with Got c => (t, c) :: holding h | _ => holding h end).
  { destruct Ha as [(x & y & _ & -> & _)|(x & y & z & u & ->)]; destruct o; reflexivity. }
  assert (OO : open_now ((a, es, o) :: h) = open_after es (open_now h)) by reflexivity.
  unfold attempt in A. destruct o as [c| |f|[]| | | |]; try contradiction.
  - destruct A as (A1 & A2 & A3 & A4 & A5). constructor; cbn [s_pool waiting]; rewrite ?HH, ?OO; auto.
    + intros u f b Hu. assert (Hu' := Hw _ Hu). destruct (i_wait _ _ _ I u f b Hu') as [X Y]. split; [|exact Y]. rewrite of_thread_other; [exact X|]. intros ->. apply Nt. apply (in_map (fun x => fst (fst x)) _ _ Hu).
    + intros U0 L0 (x & Hx & Ex). assert (B := i_wake _ _ _ I U0 L0 (ex_intro _ x (conj (Hw x Hx) Ex))). destruct Nn' as [?|Z]; [lia|]. destruct (A4 Z). lia.
  - destruct A as (-> & -> & A3 & A4). cbn [open_after fold_left] in OO. constructor; cbn [s_pool waiting]; rewrite ?HH, ?OO; auto.
    + intros u f b Hu. apply (i_wait _ _ _ I u f b), Hw, Hu.
    + intros U0 L0 _. specialize (A4 L0). lia.
  - destruct A as (-> & -> & -> & A4 & A5 & A6). cbn [open_after fold_left] in OO. constructor; cbn [s_pool waiting]; rewrite ?HH, ?OO; auto.
    + unfold who. rewrite map_app. cbn [map fst]. apply (Permutation_NoDup (Permutation_app_comm [t] _)). now constructor.
    + intros u f b Hu. apply in_app_iff in Hu as [Hu|[[= <- <- <-]|[]]]; [apply (i_wait _ _ _ I u f b), Hw, Hu|]. split; [exact A4|reflexivity].
    + intros U0 L0 _. destruct (A5 L0). lia.
  - destruct A as (A1 & A2 & A3 & A4). constructor; cbn [s_pool waiting]; rewrite ?HH, ?OO; auto.
    + intros u f b Hu. apply (i_wait _ _ _ I u f b), Hw, Hu.
    + intros U0 _ _. rewrite (U U0) in A1. discriminate.
Qed.

Lemma step_inv up h s a s' es o : Inv up h s -> action_ok up a -> step s a = Some (s', es, o) -> Inv up ((a, es, o) :: h) s'.
Proof.
  intros I [NC OK]. assert (C := i_core _ _ _ I). assert (M := i_mod _ _ _ I). destruct a as [t ok pick|t ex ok pick alive|t c|t alive]; cbn [SqlPool.step opens] in *.
  - destruct (waits_for t (waiting s)) eqn:W; [discriminate|]. destruct (AcquireConnection safety maxConnections t ok pick (s_pool s)) as [[p' es'] o'] eqn:E. cbn [after]. intros [= <- <- <-].
    apply waits_for_none in W. eapply after_inv with (ok := ok) (ex := false); eauto; [left; now exists ok, pick, 0|apply I|].
    now apply (attempt_acquire up t ok pick).
  - destruct (waits_for t (waiting s)) as [f|] eqn:W; [|discriminate].
    assert (F : f = if level0 then WModule else WConn) by (destruct (waits_for_In _ _ _ W) as [b Hb]; apply (i_wait _ _ _ I t f b Hb)).
    assert (FF : Some (after t (not_waiting t (waiting s)) (acquire_again safety maxConnections f t ex ok pick (s_pool s))) = Some (s', es, o) -> Inv up ((Wake t ex ok pick alive, es, o) :: h) s').
    { destruct (acquire_again safety maxConnections f t ex ok pick (s_pool s)) as [[p' es'] o'] eqn:E. cbn [after]. intros [= <- <- <-].
      destruct (not_waiting_who t (waiting s) (i_who _ _ _ I)) as [N1 N2].
      eapply after_inv with (ok := ok) (ex := ex); eauto 10.
      - intros x Hx. apply not_waiting_In in Hx. tauto.
      - apply not_waiting_notified, I.
      - right. destruct (waits_for_In _ _ _ W) as [b Hb]. apply (i_wait _ _ _ I t f b Hb).
      - now apply (attempt_again up t ex ok pick h s p' es' o' I OK f). }
    rewrite F in *. destruct level0; exact FF.
  - destruct (waits_for t (waiting s)) eqn:W; [discriminate|]. destruct (ReleaseConnection t c (s_pool s)) as [[[p' n] es'] o'] eqn:E. intros [= <- <- <-].
    destruct (release_core safety maxConnections up _ _ _ t c C M p' n es' o' E) as [(H1 & -> & -> & H4 & H5 & H6)|(H1 & H2 & -> & -> & H5 & H6 & H7)].
    + constructor; cbn [s_pool waiting holding open_now open_after fold_left]; auto.
      * destruct n; [rewrite notify_who|]; apply I.
      * intros u f b Hu. assert (X : exists b', In (u, f, b') (waiting s)) by (destruct n; [now apply notify_In in Hu|eauto]). destruct X as (b' & X).
        destruct (i_wait _ _ _ I u f b' X) as [Y1 Y2]. split; [|exact Y2]. rewrite of_thread_remove, Y1. now destruct (u =? t).
      * intros U0 L0 (x & Hx & Ex). destruct n.
        -- destruct (notify_unnotified _ _ Hx Ex) as (y & Hy). assert (B := i_wake _ _ _ I U0 L0 (ex_intro _ y Hy)). rewrite notify_notified by eauto. lia.
        -- assert (B := i_wake _ _ _ I U0 L0 (ex_intro _ x (conj Hx Ex))). lia.
    + constructor; cbn [s_pool waiting holding open_now open_after fold_left]; rewrite ?(remove_one_absent _ _ H1); auto.
      * now rewrite H6.
      * apply I.
      * apply I.
      * rewrite H7. apply I.
  - exfalso. apply (NC t alive). reflexivity.
Qed.
Lemma start_inv up : Inv up [] (start safety).
Proof.
  constructor; cbn [s_pool waiting start new_pool holding open_now].
  - constructor; cbn; try constructor; try (intros; contradiction); auto. lia.
  - unfold SqlPoolProofs2.Mod. cbn [module new_pool]. now destruct level0.
  - constructor.
  - intros t f b [].
  - intros _ _ (x & [] & _).
Qed.
Lemma runs_inv up h s : runs h s -> not_closed h -> (up = true -> database_up h) -> Inv up h s.
Proof.
  intros R. induction R as [|h s a s' es o R IH E]; intros N U; [apply start_inv|].
  apply step_inv with (s := s); [| |exact E].
  - apply IH; [intros t al es' o' X; exact (N t al es' o' (or_intror X))|]. intros U0 a' es' o' X. apply (U U0 a' es' o'). now right.
  - split; [|intros U0; apply (U U0 a es o); now left]. intros t al ->. exact (N t al es o (or_introl eq_refl)).
Qed.
(** The threads that hold a connection are those of the locked table *)
Lemma holders_locked h s up : Inv up h s -> Permutation (holders h) (keys (locked (s_pool s))).
Proof.
  intros I. assert (C := i_core _ _ _ I). apply NoDup_Permutation; [apply NoDup_nodup|apply (NoDup_keys_app _ _ (c_keys _ _ _ _ _ C))|].
  intros t. unfold holders. rewrite nodup_In. rewrite in_map_iff. split.
  - intros ([t' c] & E & X). cbn in E. subst t'. apply (hold_iff _ _ _ _ _ _ _ C) in X as (k & L & _). apply lookup_In in L. apply (in_map fst _ _ L).
  - intros X. apply in_map_iff in X as ([t' k] & E & X). cbn in E. subst t'. exists (t, k_dbc k). split; [reflexivity|]. apply (hold_iff _ _ _ _ _ _ _ C). exists k. split; [|reflexivity]. now apply (core_lookup _ _ _ _ _ _ _ C).
Qed.
Lemma holders_length h s up : Inv up h s -> length (holders h) = length (locked (s_pool s)).
Proof. intros I. rewrite (Permutation_length (holders_locked h s up I)). unfold keys. apply map_length. Qed.
End Pool.
