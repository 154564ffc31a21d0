(** What follows from the rules, and the choices of the search. *)
From Coq Require Import List Arith Bool ZArith Lia Permutation.
From Verif Require Import Py HttpPool HttpPoolSpec HttpPoolProofs HttpPoolProofs2 HttpPoolProofs3.
Import ListNotations.
Open Scope nat_scope.

(** * The rules *)
Lemma filter_length_le {A} (f : A -> bool) l : length (filter f l) <= length l.
Proof. induction l as [|a l IH]; [cbn; lia|]. cbn. destruct (f a); cbn; lia. Qed.
Lemma follows_ids limit w e w' : follows limit w e w' -> NoDup (map id_of w) -> NoDup (map id_of w').
Proof.
  destruct 1; intros ND; rewrite ?set_owner_ids, ?forget_ids; try assumption; try (now apply NoDup_drop). cbn. now constructor.
Qed.
Lemma obeys_ids limit tr w : obeys limit tr w -> NoDup (map id_of w).
Proof. induction 1 as [|tr w e w' O IH F]; [constructor|]. now apply (follows_ids limit w e w'). Qed.
Lemma obeys_limit limit tr w : obeys limit tr w -> length w <= limit.
Proof.
  induction 1 as [|tr w e w' O IH F]; [cbn; lia|]. destruct F; cbn [length]; unfold set_owner; rewrite ?map_length; try lia.
  - unfold forget. pose proof (filter_length_le (fun e => negb (id_of e =? c)) w). lia.
  - unfold forget. pose proof (filter_length_le (fun e => negb (id_of e =? c)) w). lia.
Qed.
Lemma live_from_app l a b : live_from l (a ++ b) = live_from (live_from l a) b.
Proof. revert l. induction a as [|e a IH]; intros l; [reflexivity|]. destruct e; cbn; apply IH. Qed.
Lemma obeys_live limit tr w : obeys limit tr w -> live tr = map id_of w.
Proof.
  induction 1 as [|tr w e w' O IH F]; [reflexivity|]. unfold live in *. rewrite live_from_app, IH. destruct F; cbn [live_from]; rewrite ?set_owner_ids, ?forget_ids; reflexivity.
Qed.
(** A thread owns at most one connection to a target *)
Lemma obeys_single limit tr w : obeys limit tr w -> forall c d tg t, In (c, tg, Some t) w -> In (d, tg, Some t) w -> c = d.
Proof.
  induction 1 as [|tr w e w' O IH F]; [intros ? ? ? ? []|]. assert (ND := obeys_ids limit tr w O). destruct F as [w c tg L N|w c tg t B NO|w c tg t r B|w c tg t B|w c tg B|w c tg t B]; intros x y g u.
  - intros [E|H1] [E'|H2]; try discriminate. eapply IH; eauto.
  - rewrite !set_owner_In. intros [[N1 H1]|(-> & E1 & z1 & H1)] [[N2 H2]|(-> & E2 & z2 & H2)].
    + eapply IH; eauto.
    + injection E2 as ->. destruct (nodup_entry w c tg g None z2 ND B H2) as [<- _]. now apply NO in H1.
    + injection E1 as ->. destruct (nodup_entry w c tg g None z1 ND B H1) as [<- _]. now apply NO in H2.
    + reflexivity.
  - apply IH.
  - rewrite !set_owner_In. intros [[N1 H1]|(_ & E1 & _)] [[N2 H2]|(_ & E2 & _)]; try discriminate. eapply IH; eauto.
  - rewrite !forget_In. intros [H1 _] [H2 _]. eapply IH; eauto.
  - rewrite !forget_In. intros [H1 _] [H2 _]. eapply IH; eauto.
Qed.
Lemma obeys_app limit a : forall b w, obeys limit (a ++ b) w -> exists v, obeys limit a v.
Proof.
  intros b. induction b as [|e b IH] using rev_ind; intros w O; [rewrite app_nil_r in O; eauto|].
  rewrite app_assoc in O. inversion O as [E|tr v e' w' O' F E].
  - destruct (a ++ b); discriminate.
  - apply app_inj_tail in E as [-> ->]. eauto.
Qed.
Lemma obeys_det limit tr w : obeys limit tr w -> forall w', obeys limit tr w' -> w = w'.
Proof.
  induction 1 as [|tr w e w1 O IH F]; intros w2 O2; inversion O2 as [E|tr' v e' w' O' F' E]; try (destruct tr; discriminate); [reflexivity| |].
  - destruct tr'; discriminate.
  - apply app_inj_tail in E as [-> ->]. specialize (IH v O'). subst v. destruct F; inversion F'; subst; reflexivity.
Qed.
(** Once closed or killed, a connection that is not created again is not used again *)
Lemma gone limit a c e : ending c e -> forall b w, obeys limit (a ++ e :: b) w -> (forall x, In x b -> creation x = true -> about x <> c) ->
  ~ In c (map id_of w) /\ forall x, In x b -> about x <> c.
Proof.
  intros EN b. induction b as [|x b IH] using rev_ind; intros w O NC.
  - split; [|intros ? []]. inversion O as [E|tr v e' w' O' F E]; [destruct a; discriminate|]. apply app_inj_tail in E as [-> ->].
    destruct EN as [-> | ->]; inversion F; subst; rewrite forget_ids, drop_In; tauto.
  - rewrite app_comm_cons, app_assoc in O. inversion O as [E|tr v x' w' O' F E]; [destruct (a ++ e :: b); discriminate|]. apply app_inj_tail in E as [-> ->].
    destruct (IH v O') as [N1 N2]; [intros y Hy; apply NC, in_app_iff; auto|].
    assert (NX : creation x = true -> about x <> c) by (apply NC, in_app_iff; right; now left).
    assert (XX : about x <> c /\ ~ In c (map id_of w)).
    { destruct F as [v d tg L N|v d tg t B NO|v d tg t r B|v d tg t B|v d tg B|v d tg t B]; cbn [about];
        try (assert (D : d <> c) by (intros ->; apply N1; apply (in_map id_of _ _ B))).
      - split; [now apply NX|]. cbn. intros [->|H]; [now apply NX|contradiction].
      - split; [assumption|now rewrite set_owner_ids].
      - split; assumption.
      - split; [assumption|now rewrite set_owner_ids].
      - split; [assumption|rewrite forget_ids, drop_In; tauto].
      - split; [assumption|rewrite forget_ids, drop_In; tauto]. }
    split; [apply XX|]. intros y Hy. apply in_app_iff in Hy as [Hy|[<-|[]]]; [auto|apply XX].
Qed.

(** * Ids *)
Section Ids.
Variable limit : nat.
Variable values : list cid -> list cid.
Definition new_ids (m m' : mgr) (es : list effect) : Prop :=
  nextId m <= nextId m' /\ (forall c tg, In (Created c tg) es -> nextId m <= c < nextId m') /\ length (filter creation es) <= 1.
Lemma leave_idle_next c m m' ok : leave_idle c m = (m', ok) -> nextId m' = nextId m.
Proof. unfold leave_idle. destruct (get _ _ _); [destruct (mem _ _)|]; intros E; injection E as <- <-; reflexivity. Qed.
Lemma activate_next c t m m' ok : ActivateConnection c t m = (m', ok) -> nextId m' = nextId m.
Proof. unfold ActivateConnection. destruct (mem _ _); intros E; [now apply leave_idle_next in E|]. injection E as <- <-. reflexivity. Qed.
Lemma search_ids fuel t tg : forall m m' es r, search limit values fuel t tg m = (m', es, r) -> new_ids m m' es.
Proof.
  assert (NN : forall m, new_ids m m []) by (intros m; repeat split; [lia|destruct H|destruct H|cbn; lia]).
  induction fuel as [fuel IH] using lt_wf_ind. intros m m' es r.
  assert (U : search limit values fuel t tg m =
    match get key_eqb (Some t, tg) (active m) with
    | Some c => (m, [], Found c)
    | None =>
        match get tg_eqb tg (idleT m) with
        | Some l =>
            match rev (sort (heap m) (values l)) with
            | c :: _ => let '(m, ok) := ActivateConnection c t m in if ok then (m, [Bound c t], Found c) else (m, [], Failed KeyError)
            | [] => (m, [], Failed KeyError)
            end
        | None =>
            if length (active m) + length (idle m) <? limit then
              match NewConnection tg m with
              | None => (m, [], Failed NotImplementedError)
              | Some (m, c) => let '(m, ok) := ActivateConnection c t m in if ok then (m, [Created c tg; Bound c t], Found c) else (m, [Created c tg], Failed KeyError)
              end
            else
              match sort (heap m) (values (idle m)) with
              | c :: _ =>
                  let '(m, es, ok) := DeleteIdleConnection c m in
                  if ok then match fuel with O => (m, es, Endless) | S fuel => let '(m, es', r) := search limit values fuel t tg m in (m, es ++ es', r) end
                  else (m, es, Failed KeyError)
              | [] => (m, [], Full)
              end
        end
    end) by (destruct fuel; reflexivity).
  rewrite U. clear U. destruct (get key_eqb _ _); [intros E; injection E as <- <- <-; apply NN|].
  destruct (get tg_eqb _ _) as [l|].
  { destruct (rev _) as [|c l']; [intros E; injection E as <- <- <-; apply NN|]. destruct (ActivateConnection c t m) as [m1 ok] eqn:A. apply activate_next in A.
    destruct ok; intros E; injection E as <- <- <-; (split; [lia|]); split; cbn; try lia; intros d tg' H; try tauto; destruct H as [H|[]]; discriminate. }
  destruct (_ <? limit).
  { unfold NewConnection. destruct (supported tg); [|intros E; injection E as <- <- <-; apply NN]. destruct (ActivateConnection _ _ _) as [m1 ok] eqn:A. apply activate_next in A. cbn [nextId] in A.
    destruct ok; intros E; injection E as <- <- <-; (split; [lia|]); split; try (cbn; lia).
    - intros d tg' [H|[H|[]]]; [injection H as <- _; lia|discriminate].
    - intros d tg' [H|[]]. injection H as <- _. lia. }
  destruct (sort _ _) as [|c l']; [intros E; injection E as <- <- <-; apply NN|].
  assert (D : forall m1 es1 ok, DeleteIdleConnection c m = (m1, es1, ok) -> nextId m1 = nextId m /\ forall x, In x es1 -> x = Closed c).
  { intros m1 es1 ok. unfold DeleteIdleConnection. destruct (mem _ _); [|intros E; injection E as <- <- <-; split; [reflexivity|intros ? []]].
    destruct (leave_idle c m) as [m2 ok2] eqn:L. apply leave_idle_next in L. intros E. injection E as <- <- <-. split; [assumption|]. destruct ok2; intros x; [intros [<-|[]]; reflexivity|intros []]. }
  assert (F0 : forall es1, (forall x, In x es1 -> x = Closed c) -> filter creation es1 = []).
  { intros es1. induction es1 as [|x es1 IHe]; [reflexivity|]. intros H. rewrite (H x) by now left. cbn. apply IHe. intros; apply H; now right. }
  destruct (DeleteIdleConnection c m) as [[m1 es1] ok]. destruct (D m1 es1 ok eq_refl) as [D1 D2].
  assert (NC : forall d tg', ~ In (Created d tg') es1) by (intros d tg' H; apply D2 in H; discriminate).
  destruct ok; [destruct fuel as [|fuel]|].
  - intros E. injection E as <- <- <-. split; [lia|]. split; [intros d tg' H; now apply NC in H|rewrite F0 by assumption; cbn; lia].
  - destruct (search limit values fuel t tg m1) as [[m2 es2] r2] eqn:S. apply IH in S as (S1 & S2 & S3); [|lia]. intros E. injection E as <- <- <-.
    split; [lia|]. split; [intros d tg' H; apply in_app_iff in H as [H|H]; [now apply NC in H|apply S2 in H; lia]|]. rewrite filter_app, F0 by assumption. exact S3.
  - intros E. injection E as <- <- <-. split; [lia|]. split; [intros d tg' H; now apply NC in H|rewrite F0 by assumption; cbn; lia].
Qed.
Lemma attempt_ids w now s s' es o : attempt limit values w now s = (s', es, o) -> new_ids (pool s) (pool s') es.
Proof.
  unfold attempt. destruct (search _ _ _ _ _ _) as [[m es0] r] eqn:S. apply search_ids in S as (S1 & S2 & S3).
  destruct r as [c| |e|]; [|destruct (match w_timeout w with None => false | Some _ => _ end)| |]; intros E; injection E as <- <- <-; cbn [pool]; (split; [exact S1|]); split; auto.
  - intros d tg H. apply in_app_iff in H as [H|[H|[]]]; [auto|discriminate]. eapply S2; eauto.
  - rewrite filter_app. cbn. rewrite app_nil_r. exact S3.
Qed.
Lemma idle_loop_next bound l : forall m m' cs ok, idle_loop bound l m = (m', cs, ok) -> nextId m' = nextId m.
Proof.
  induction l as [|c l IH]; intros m m' cs ok; cbn [idle_loop]; [intros E; injection E as <- <- <-; reflexivity|]. destruct (_ <? _)%Z; [|apply IH]. destruct (get _ _ _).
  - destruct (leave_idle c m) as [m1 ok1] eqn:L. apply leave_idle_next in L. destruct ok1; [|intros E; injection E as <- <- <-; assumption].
    destruct (idle_loop bound l m1) as [[m2 cs2] ok2] eqn:S. apply IH in S. intros E; injection E as <- <- <-. congruence.
  - destruct (idle_loop bound l _) as [[m2 cs2] ok2] eqn:S. apply IH in S. intros E; injection E as <- <- <-. exact S.
Qed.
Lemma active_loop_next bound l : forall m m' cs ok, active_loop bound l m = (m', cs, ok) -> nextId m' = nextId m.
Proof.
  induction l as [|[t c] l IH]; intros m m' cs ok; cbn [active_loop]; [intros E; injection E as <- <- <-; reflexivity|]. destruct (_ <? _)%Z; [|apply IH]. destruct (get key_eqb _ _).
  - destruct (active_loop bound l _) as [[m2 cs2] ok2] eqn:S. apply IH in S. intros E; injection E as <- <- <-. exact S.
  - intros E; injection E as <- <- <-. reflexivity.
Qed.
Lemma no_creation {A} (f : A -> effect) l : (forall a, creation (f a) = false) -> filter creation (map f l) = [] /\ forall c tg, ~ In (Created c tg) (map f l).
Proof.
  intros H. split.
  - induction l as [|a l IH]; [reflexivity|]. cbn. now rewrite H.
  - intros c tg X. apply in_map_iff in X as (a & E & _). specialize (H a). rewrite E in H. discriminate.
Qed.
Lemma step_ids s e s' es o : step limit values s e = (s', es, o) -> new_ids (pool s) (pool s') es.
Proof.
  assert (NN : forall m m', nextId m' = nextId m -> new_ids m m' []) by (intros m m' H; repeat split; [lia|destruct H0|destruct H0|cbn; lia]).
  destruct e as [w now|i now|i|t c n now|t c now|d now|d now|]; cbn [step].
  - unfold QueueRequest. destruct (closing _); [intros E; injection E as <- <- <-; now apply NN|apply attempt_ids].
  - destruct (nth_error _ _); [apply (attempt_ids w now (mkSys _ _ _))|intros E; injection E as <- <- <-; now apply NN].
  - destruct (nth_error _ _); intros E; injection E as <- <- <-; now apply NN.
  - intros E; injection E as <- <- <-; now apply NN.
  - unfold DeactivateConnection. destruct (get key_eqb _ _); intros E; injection E as <- <- <-; [|now apply NN]. cbn [pool notify]. split; [cbn; lia|]. split; [intros ? ? [H|[]]; discriminate|cbn; lia].
  - unfold IdleCleanup. destruct (idle_loop _ _ _) as [[m2 cs] ok] eqn:S. apply idle_loop_next in S. destruct ok; intros E; injection E as <- <- <-; [|now apply NN]. cbn [pool].
    destruct (no_creation Closed cs (fun _ => eq_refl)) as [F0 NC]. split; [lia|]. split; [intros c tg H; now apply NC in H|rewrite F0; cbn; lia].
  - unfold ActiveCleanup. destruct (active_loop _ _ _) as [[m2 cs] ok] eqn:S. apply active_loop_next in S. destruct ok; intros E; injection E as <- <- <-; [|now apply NN]. cbn [pool notify].
    destruct (no_creation Killed cs (fun _ => eq_refl)) as [F0 NC]. split; [lia|]. split; [intros c tg H; now apply NC in H|rewrite F0; cbn; lia].
  - unfold CloseRound. intros E; injection E as <- <- <-; now apply NN.
Qed.
(** Ids are given once *)
Lemma created_lt P tr s : runs limit values P tr s -> NoDup (created tr) /\ forall c, In c (created tr) -> c < nextId (pool s).
Proof.
  induction 1 as [|tr s e s' es o R [IH1 IH2] PO NS S]; [split; [constructor|intros ? []]|]. apply step_ids in S as (S1 & S2 & S3). unfold created in *. rewrite filter_app, map_app.
  assert (E : forall x, In x (filter creation es) -> nextId (pool s) <= about x < nextId (pool s')).
  { intros x H. apply filter_In in H as [H C]. destruct x; try discriminate. cbn. eapply S2; eauto. }
  split.
  - destruct (filter creation es) as [|x [|y l]] eqn:F; [cbn; now rewrite app_nil_r| |cbn in S3; lia]. cbn [map].
    apply (Permutation_NoDup (Permutation_sym (Permutation_app_comm (map about (filter creation tr)) [about x]))). cbn. constructor; [|assumption].
    intros H. apply IH2 in H. specialize (E x (or_introl eq_refl)). lia.
  - intros c H. apply in_app_iff in H as [H|H]; [specialize (IH2 c H); lia|]. apply in_map_iff in H as (x & <- & H). apply E in H. lia.
Qed.
End Ids.
