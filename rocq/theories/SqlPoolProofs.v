(** Proofs about the pool of connections. *)
From Coq Require Import List Arith Bool ZArith Lia Permutation.
From Verif Require Import SqlPool SqlPoolSpec.
Import ListNotations.
Open Scope nat_scope.

(** ** Lists with keys *)
Definition keys {B} (l : list (nat * B)) : list nat := map fst l.
Definition without {B} (x : nat) (l : list (nat * B)) : list (nat * B) := filter (fun p => negb (fst p =? x)) l.
Lemma without_In {B} x y (b : B) l : In (y, b) (without x l) <-> In (y, b) l /\ y <> x.
Proof. unfold without. rewrite filter_In. cbn [fst]. rewrite negb_true_iff, Nat.eqb_neq. reflexivity. Qed.
Lemma without_none {B} x (l : list (nat * B)) : ~ In x (keys l) -> without x l = l.
Proof.
  induction l as [|[y b] l IH]; intros N; [reflexivity|]. unfold without in *. cbn [filter fst]. cbn [keys map fst In] in N.
  destruct (Nat.eqb_spec y x); [exfalso; auto|]. cbn [negb]. f_equal. apply IH. auto.
Qed.
Lemma without_perm {B} x (b : B) l : NoDup (keys l) -> In (x, b) l -> Permutation l ((x, b) :: without x l).
Proof.
  induction l as [|[y c] l IH]; intros N H; [destruct H|]. cbn [keys map fst] in N. apply NoDup_cons_iff in N as [N1 N2].
  unfold without. cbn [filter fst]. destruct (Nat.eqb_spec y x) as [->|E].
  - cbn [negb]. destruct H as [[= ->]|H]; [|exfalso; apply N1, (in_map fst _ _ H)].
    fold (without x l). now rewrite without_none.
  - cbn [negb]. destruct H as [[= -> ->]|H]; [contradiction|]. rewrite perm_swap. constructor. apply IH; assumption.
Qed.
Lemma lookup_In t k l : lookup t l = Some k -> In (t, k) l.
Proof.
  unfold lookup. match goal with |- context [find ?f l] => destruct (find f l) as [p|] eqn:E end; [|discriminate]. intros [= <-]. apply find_some in E as [E1 E2]. apply Nat.eqb_eq in E2. subst t. now destruct p.
Qed.
Lemma lookup_iff t k l : NoDup (keys l) -> (lookup t l = Some k <-> In (t, k) l).
Proof.
  intros N. split; [apply lookup_In|]. unfold lookup. induction l as [|[y c] l IH]; intros H; [destruct H|].
  cbn [keys map fst] in N. apply NoDup_cons_iff in N as [N1 N2]. cbn [find fst]. destruct (Nat.eqb_spec y t) as [->|E].
  - destruct H as [[= ->]|H]; [reflexivity|]. exfalso. apply N1, (in_map fst _ _ H).
  - destruct H as [[= -> ->]|H]; [contradiction|]. apply IH; assumption.
Qed.
Lemma lookup_none t l : lookup t l = None <-> ~ In t (keys l).
Proof.
  unfold lookup. induction l as [|[y c] l IH]; cbn [find keys map fst In]; [tauto|].
  destruct (Nat.eqb_spec y t) as [->|E]; [split; [discriminate|intros H; exfalso; auto]|]. rewrite IH. unfold keys. tauto.
Qed.
Lemma lookup_del t t' l : lookup t' (del t l) = if t' =? t then None else lookup t' l.
Proof.
  unfold lookup, del. induction l as [|[y c] l IH]; cbn [filter find fst]; [now destruct (t' =? t)|].
  destruct (Nat.eqb_spec y t) as [->|E]; cbn [negb].
  - rewrite IH. destruct (Nat.eqb_spec t' t) as [->|E']; [reflexivity|]. destruct (Nat.eqb_spec t t'); [congruence|reflexivity].
  - cbn [find fst]. destruct (Nat.eqb_spec y t') as [->|E'].
    + destruct (Nat.eqb_spec t' t); [contradiction|reflexivity].
    + exact IH.
Qed.
Lemma lookup_put t t' k l : lookup t' (put t k l) = if t' =? t then Some k else lookup t' l.
Proof.
  unfold put. unfold lookup at 1. cbn [find fst]. rewrite Nat.eqb_sym. destruct (t' =? t) eqn:E; [reflexivity|].
  fold (lookup t' (del t l)). now rewrite lookup_del, E.
Qed.
Lemma popitem_perm n l p rest : popitem n l = Some (p, rest) -> Permutation l (p :: rest).
Proof.
  unfold popitem. destruct (nth_error l n) as [q|] eqn:E.
  - intros [= <- <-]. rewrite <- (firstn_skipn n l) at 1.
    assert (X : skipn n l = q :: skipn (S n) l).
    { clear -E. revert n E. induction l as [|x l IH]; intros [|n] E; try discriminate; [now injection E as ->|]. cbn [skipn nth_error] in *. now apply IH. }
    rewrite X. symmetry. apply Permutation_middle.
  - destruct l as [|x l]; [discriminate|]. now intros [= <- <-].
Qed.
Lemma popitem_none n l : popitem n l = None -> l = [].
Proof. unfold popitem. destruct (nth_error l n); [discriminate|]. now destruct l. Qed.

(** ** What is held *)
Definition of_thread (t : thread) (H : list (thread * conn)) := filter (fun x => fst x =? t) H.
Lemma same_iff x y : same x y = true <-> x = y.
Proof.
  unfold same. destruct x as [a b], y as [c d]. cbn [fst snd]. rewrite andb_true_iff, !Nat.eqb_eq. split; [intros [-> ->]; reflexivity|intros [= -> ->]; auto].
Qed.
Lemma of_thread_remove t t' c H : of_thread t' (remove_one (t, c) H) = if t' =? t then remove_one (t, c) (of_thread t' H) else of_thread t' H.
Proof.
  unfold of_thread. induction H as [|[y d] H IH]; [now destruct (t' =? t)|]. cbn [remove_one filter fst].
  destruct (same (t, c) (y, d)) eqn:S.
  - apply same_iff in S as [= -> ->]. destruct (Nat.eqb_spec y t') as [->|E].
    + rewrite Nat.eqb_refl. cbn [remove_one]. now rewrite (proj2 (same_iff (t', d) (t', d)) eq_refl).
    + rewrite Nat.eqb_sym. destruct (Nat.eqb_spec y t'); [contradiction|reflexivity].
  - cbn [filter fst]. destruct (Nat.eqb_spec y t') as [->|E].
    + rewrite IH. destruct (Nat.eqb_spec t' t) as [->|E']; [|reflexivity]. cbn [remove_one]. now rewrite S.
    + exact IH.
Qed.
Lemma remove_one_incl x y H : In x (remove_one y H) -> In x H.
Proof. induction H as [|z H IH]; [tauto|]. cbn [remove_one In]. destruct (same y z); [tauto|]. cbn [In]. tauto. Qed.
Lemma remove_one_length x H : In x H -> S (length (remove_one x H)) = length H.
Proof.
  induction H as [|y H IH]; [intros []|]. intros Hx. cbn [remove_one length]. destruct (same x y) eqn:E; [reflexivity|].
  destruct Hx as [->|Hx]; [rewrite (proj2 (same_iff x x) eq_refl) in E; discriminate|]. cbn [length]. now rewrite IH.
Qed.
Lemma remove_one_absent x H : ~ In x H -> remove_one x H = H.
Proof.
  induction H as [|y H IH]; [reflexivity|]. intros N. cbn [remove_one In] in *. destruct (same x y) eqn:E; [apply same_iff in E; subst; tauto|]. f_equal. tauto.
Qed.

Section Pool.
Variable safety : Z.
Variable maxConnections : nat.
Notation cPoolMax := (cPoolMax safety maxConnections).
Notation level0 := (level0 safety).
Notation new_lock := (new_lock safety).
Definition conns (l : list (thread * clock)) : list conn := map (fun p => k_dbc (snd p)) l.
Definition all (p : pool) := locked p ++ unlocked p.

Record Core (H : list (thread * conn)) (O : list (conn * thread)) (p : pool) : Prop := {
  c_keys : NoDup (keys (all p));
  c_conns : NoDup (conns (all p));
  c_locked : forall t k, In (t, k) (locked p) -> k_tid k = t /\ 1 <= k_locked k /\ k_lock k = if level0 then Dummy else Owned t (k_locked k);
  c_unlocked : forall t k, In (t, k) (unlocked p) -> k_locked k = 0 /\ k_lock k = new_lock;
  c_hold : forall t, of_thread t H = match lookup t (locked p) with Some k => repeat (t, k_dbc k) (k_locked k) | None => [] end;
  c_open : Permutation (map fst O) (conns (all p));
  c_opener : (safety <= 1)%Z -> forall t k, In (t, k) (all p) -> In (k_dbc k, t) O;
  c_bound : length (locked p) + length (unlocked p) <= cPoolMax;
  c_fresh : forall c, In c (conns (all p)) -> c < fresh p;
  c_state : closing p = false /\ dead p = [] }.

Lemma NoDup_keys_app (a b : list (thread * clock)) : NoDup (keys (a ++ b)) -> NoDup (keys a) /\ NoDup (keys b) /\ forall t, In t (keys a) -> ~ In t (keys b).
Proof.
  unfold keys. rewrite map_app. intros N. induction a as [|[x k] a IH]; cbn [map app fst] in *.
  - split; [constructor|]. split; [exact N|]. intros t [].
  - apply NoDup_cons_iff in N as [N1 N2]. destruct (IH N2) as (A & B & C). split; [constructor; [rewrite in_app_iff in N1; tauto|exact A]|]. split; [exact B|].
    intros t [<-|Ht]; [rewrite in_app_iff in N1; tauto|now apply C].
Qed.
Lemma core_lookup H O p t k : Core H O p -> (lookup t (locked p) = Some k <-> In (t, k) (locked p)).
Proof. intros C. apply lookup_iff, (NoDup_keys_app (locked p) (unlocked p)), C. Qed.
Lemma hold_iff H O p t c : Core H O p -> (In (t, c) H <-> exists k, lookup t (locked p) = Some k /\ k_dbc k = c).
Proof.
  intros C. transitivity (In (t, c) (of_thread t H)).
  { unfold of_thread. rewrite filter_In. cbn [fst]. rewrite Nat.eqb_refl. tauto. }
  rewrite (c_hold _ _ _ C). destruct (lookup t (locked p)) as [k|] eqn:E.
  - apply (core_lookup _ _ _ _ _ C) in E. destruct (c_locked _ _ _ C t k E) as (_ & X & _). destruct (k_locked k) as [|n]; [lia|]. split.
    + intros X'. apply repeat_spec in X'. injection X' as ->. eauto.
    + intros (k' & [= <-] & <-). now left.
  - split; [intros []|intros (k & [=] & _)].
Qed.

(** An entry of the pool changes or moves: what must be shown about the new pool *)
Lemma core_move H O p H' O' p' : Core H O p ->
  (forall t, of_thread t H' = match lookup t (locked p') with Some k => repeat (t, k_dbc k) (k_locked k) | None => [] end) ->
  NoDup (keys (all p')) -> Permutation (conns (all p')) (conns (all p)) -> O' = O ->
  (forall t k, In (t, k) (locked p') -> k_tid k = t /\ 1 <= k_locked k /\ k_lock k = if level0 then Dummy else Owned t (k_locked k)) ->
  (forall t k, In (t, k) (unlocked p') -> k_locked k = 0 /\ k_lock k = new_lock) ->
  ((safety <= 1)%Z -> forall t k, In (t, k) (all p') -> exists k', In (t, k') (all p) /\ k_dbc k' = k_dbc k) ->
  fresh p' = fresh p -> closing p' = closing p -> dead p' = dead p -> Core H' O' p'.
Proof.
  intros C E1 E2 E3 -> E5 E6 E7 F1 F2 F3. constructor; auto.
  - apply (Permutation_NoDup (Permutation_sym E3)), C.
  - rewrite E3. apply C.
  - intros S t k Hk. destruct (E7 S t k Hk) as (k' & Hk' & <-). now apply (c_opener _ _ _ C S).
  - apply Permutation_length in E3. unfold conns, all in E3. rewrite !map_length, !app_length in E3. rewrite E3. apply C.
  - intros c Hc. rewrite F1. apply (c_fresh _ _ _ C). rewrite <- E3. exact Hc.
  - rewrite F2, F3. apply C.
Qed.
Lemma NoDup_keys_perm (a b : list (thread * clock)) : Permutation a b -> NoDup (keys a) -> NoDup (keys b).
Proof. intros P. apply Permutation_NoDup, Permutation_map, P. Qed.
Lemma del_without t l : del t l = without t l.
Proof. reflexivity. Qed.

(** Taking a connection [k] that was in the pool or is new *)
Lemma take_core H O p t k rest es p' es' o : lookup t (locked p) = None -> Core H O p ->
  k_locked k = 0 -> k_lock k = new_lock ->
  forall dbc O' fr, NoDup (conns ((t, mkClock t new_lock 1 dbc) :: locked p ++ rest)) ->
  NoDup (keys (locked p ++ rest)) -> ~ In t (keys rest) -> (forall q, In q rest -> In q (unlocked p)) ->
  Permutation (map fst O') (dbc :: conns (locked p ++ rest)) ->
  ((safety <= 1)%Z -> In (dbc, t) O' /\ forall c u, In (c, u) O -> In c (conns (locked p ++ rest)) -> In (c, u) O') ->
  S (length (locked p) + length rest) <= cPoolMax ->
  (forall c, In c (dbc :: conns (locked p ++ rest)) -> c < fr) ->
  take t (mkClock (k_tid k) (k_lock k) (k_locked k) dbc) (mkPool (module p) (locked p) rest (dead p) (closing p) fr) es = (p', es', o) ->
  o = Got dbc /\ es' = es /\ Core ((t, dbc) :: H) O' p' /\ module p' = module p /\ length (locked p') = S (length (locked p)).
Proof.
  intros L C K1 K2 dbc O' fr N1 N2 N3 Hr PO OP B F. unfold take. cbn [k_lock k_locked k_dbc module locked unlocked dead closing fresh]. rewrite K1, K2.
  assert (A : exists l, rl_acquire t new_lock = Some l /\ l = if level0 then Dummy else Owned t 1).
  { unfold SqlPool.new_lock. destruct level0; cbn [rl_acquire]; eauto. }
  destruct A as (l & -> & El). intros [= <- <- <-]. split; [reflexivity|]. split; [reflexivity|].
  assert (D : del t (locked p) = locked p) by (apply without_none, lookup_none, L).
  assert (D2 : length (put t {| k_tid := t; k_lock := l; k_locked := 1; k_dbc := dbc |} (locked p)) = S (length (locked p))) by (unfold put; rewrite D; reflexivity).
  split; [|split; [reflexivity|exact D2]].
  constructor; cbn [module locked unlocked dead closing fresh all]; unfold all; cbn [locked unlocked]; try (unfold put; rewrite D; cbn [app]).
  - cbn [keys map fst]. constructor; [|exact N2]. unfold keys. rewrite map_app, in_app_iff. intros [X|X]; [|now apply N3]. now apply lookup_none in L.
  - exact N1.
  - intros t' k' [[= <- <-]|Hk]; [|apply (c_locked _ _ _ C); exact Hk]. cbn [k_tid k_locked k_lock]. split; [reflexivity|]. split; [lia|exact El].
  - intros t' k' Hk. apply (c_unlocked _ _ _ C t'), Hr, Hk.
  - intros t'. change ((t, {| k_tid := t; k_lock := l; k_locked := 1; k_dbc := dbc |}) :: locked p) with ([(t, {| k_tid := t; k_lock := l; k_locked := 1; k_dbc := dbc |})] ++ locked p).
    rewrite <- D. change ([(t, {| k_tid := t; k_lock := l; k_locked := 1; k_dbc := dbc |})] ++ del t (locked p)) with (put t {| k_tid := t; k_lock := l; k_locked := 1; k_dbc := dbc |} (locked p)).
    rewrite lookup_put. unfold of_thread. cbn [filter fst]. rewrite (Nat.eqb_sym t t'). destruct (Nat.eqb_spec t' t) as [->|E].
    + cbn [k_dbc k_locked repeat]. f_equal. fold (of_thread t H). now rewrite (c_hold _ _ _ C), L.
    + apply C.
  - rewrite PO. reflexivity.
  - intros S t' k' [[= <- <-]|Hk]; destruct (OP S) as [O1 O2]; [exact O1|]. apply O2.
    + apply (c_opener _ _ _ C S). unfold all. apply in_app_iff in Hk as [Hk|Hk]; apply in_app_iff; auto.
    + apply (in_map (fun p => k_dbc (snd p)) _ _ Hk).
  - cbn [length]. exact B.
  - exact F.
  - apply C.
Qed.

Definition with_module (m : rlock) (p : pool) : pool := mkPool m (locked p) (unlocked p) (dead p) (closing p) (fresh p).
Lemma core_module H O p m : Core H O p -> Core H O (with_module m p).
Proof. intros C. destruct C. constructor; assumption. Qed.
Lemma conns_without t k (l : list (thread * clock)) : NoDup (keys l) -> In (t, k) l -> Permutation (conns l) (k_dbc k :: conns (without t l)).
Proof. intros N Hk. unfold conns. change (k_dbc k) with (k_dbc (snd (t, k))). rewrite <- (map_cons (fun p : thread * clock => k_dbc (snd p))). apply Permutation_map, without_perm; assumption. Qed.
Lemma conns_app a b : conns (a ++ b) = conns a ++ conns b.
Proof. apply map_app. Qed.
Lemma keys_app (a b : list (thread * clock)) : keys (a ++ b) = keys a ++ keys b.
Proof. apply map_app. Qed.

(** Closing one of the open connections *)
Lemma closed_perm (O : list (conn * thread)) c l : NoDup (c :: l) -> Permutation (map fst O) (c :: l) ->
  Permutation (map fst (without c O)) l.
Proof.
  intros N P. assert (N' : NoDup (keys O)) by (apply (Permutation_NoDup (Permutation_sym P)), N).
  assert (I : In c (map fst O)) by (rewrite P; now left). apply in_map_iff in I as ([c' u] & E & I). cbn in E. subst c'.
  apply (Permutation_cons_inv (a := c)). rewrite <- P. change c with (fst (c, u)) at 1. rewrite <- (map_cons fst). apply Permutation_map. symmetry. now apply without_perm.
Qed.

Lemma seek_core H O p t ok pick ex : Core H O p -> lookup t (locked p) = None ->
  forall p' es o, seek safety maxConnections t ok pick ex p = (p', es, o) ->
  match o with
  | Got c => Core ((t, c) :: H) (open_after es O) p' /\ module p' = module p /\ length (locked p') = S (length (locked p)) /\ length (locked p) < cPoolMax
  | Waits f => f = WConn /\ p' = p /\ es = [] /\ ex = false /\ cPoolMax <= length (locked p)
  | Nothing => ex = true /\ es = [] /\ cPoolMax <= length (locked p) /\ exists m, rl_release t (module p) = Some m /\ p' = with_module m p
  | Raised OpenError => ok = false /\ Core H (open_after es O) p' /\ module p' = module p /\ locked p' = locked p
  | Raised RuntimeError => rl_release t (module p) = None /\ cPoolMax <= length (locked p)
  | _ => False
  end.
Proof.
  intros C L p' es o. unfold seek. destruct (NoDup_keys_app _ _ (c_keys _ _ _ C)) as (NK1 & NK2 & NK3).
  assert (NL : ~ In t (keys (locked p))) by (apply lookup_none, L).
  assert (B := c_bound _ _ _ C).
  destruct (lookup t (unlocked p)) as [k|] eqn:LU.
  - (* its own connection *)
    apply lookup_In in LU. destruct (c_unlocked _ _ _ C t k LU) as [K1 K2].
    assert (PM := without_perm t k (unlocked p) NK2 LU). assert (PC := conns_without t k (unlocked p) NK2 LU).
    assert (PL : length (unlocked p) = S (length (del t (unlocked p)))) by exact (Permutation_length PM). rewrite <- del_without in PM, PC.
    assert (X : Permutation (k_dbc k :: conns (locked p ++ del t (unlocked p))) (conns (all p))).
    { unfold all. rewrite !conns_app, PC. apply Permutation_middle. }
    replace k with (mkClock (k_tid k) (k_lock k) (k_locked k) (k_dbc k)) at 1 by (now destruct k). intros E.
    assert (T := take_core H O p t k (del t (unlocked p)) [] p' es o L C K1 K2 (k_dbc k) O (fresh p)).
    destruct T as (-> & -> & T1 & T2 & T3).
    + cbn [conns map snd k_dbc]. fold (conns (locked p ++ del t (unlocked p))). apply (Permutation_NoDup (Permutation_sym X)), C.
    + rewrite keys_app. assert (Y : NoDup (keys ((t, k) :: locked p ++ del t (unlocked p)))).
      { eapply NoDup_keys_perm; [|apply (c_keys _ _ _ C)]. unfold all. eapply perm_trans; [apply Permutation_app_head, PM|symmetry; apply Permutation_middle]. }
      cbn [keys map fst] in Y. fold (keys (locked p ++ del t (unlocked p))) in Y. apply NoDup_cons_iff in Y as [_ Y]. rewrite <- keys_app. exact Y.
    + intros Hk. apply in_map_iff in Hk as ([y b] & Ey & Hk). cbn in Ey. subst y. apply without_In in Hk. tauto.
    + intros [y b] Hq. apply without_In in Hq. tauto.
    + rewrite (c_open _ _ _ C). symmetry. exact X.
    + intros S. split; [apply (c_opener _ _ _ C S); unfold all; apply in_app_iff; auto|auto].
    + lia.
    + intros c Hc. apply (c_fresh _ _ _ C). rewrite <- X. exact Hc.
    + exact E.
    + cbn [open_after fold_left]. split; [exact T1|]. split; [exact T2|]. split; [exact T3|]. lia.
  - assert (NU : ~ In t (keys (unlocked p))) by (apply lookup_none, LU).
    destruct (Nat.ltb_spec (length (unlocked p) + length (locked p)) cPoolMax) as [Lt|Ge].
    + destruct ok.
      * (* a new connection *)
        intros E. assert (T := take_core H O p t (mkClock t new_lock 0 (fresh p)) (unlocked p) [Opened (fresh p) t] p' es o L C eq_refl eq_refl (fresh p) ((fresh p, t) :: O) (S (fresh p))).
        assert (NF : ~ In (fresh p) (conns (all p))) by (intros X; apply (c_fresh _ _ _ C) in X; lia).
        destruct T as (-> & -> & T1 & T2 & T3).
        -- cbn [conns map snd k_dbc]. constructor; [exact NF|apply C].
        -- apply C.
        -- exact NU.
        -- auto.
        -- cbn [map fst]. constructor. apply C.
        -- intros S. split; [now left|intros; now right].
        -- lia.
        -- intros c [<-|Hc]; [lia|]. apply (c_fresh _ _ _ C) in Hc. lia.
        -- exact E.
        -- cbn [open_after fold_left]. split; [exact T1|]. split; [exact T2|]. split; [exact T3|]. lia.
      * intros [= <- <- <-]. split; [reflexivity|]. cbn [open_after fold_left]. auto.
    + destruct (popitem pick (unlocked p)) as [[[u k] rest]|] eqn:PI.
      * apply popitem_perm in PI. assert (Hk : In (u, k) (unlocked p)) by (rewrite PI; now left).
        destruct (c_unlocked _ _ _ C u k Hk) as [K1 K2].
        assert (PL := Permutation_length PI). cbn [length] in PL.
        assert (X : Permutation (k_dbc k :: conns (locked p ++ rest)) (conns (all p))).
        { unfold all. rewrite !conns_app. rewrite (Permutation_map _ PI : Permutation (conns (unlocked p)) (conns ((u, k) :: rest))). apply Permutation_middle. }
        assert (NK : NoDup (keys ((u, k) :: locked p ++ rest))).
        { eapply NoDup_keys_perm; [|apply (c_keys _ _ _ C)]. unfold all. eapply perm_trans; [apply Permutation_app_head, PI|symmetry; apply Permutation_middle]. }
        cbn [keys map fst] in NK. fold (keys (locked p ++ rest)) in NK. apply NoDup_cons_iff in NK as [NK0 NK].
        assert (NR : ~ In t (keys rest)).
        { intros Hr. apply NU. unfold keys. rewrite (Permutation_map fst PI). cbn [map In]. right. exact Hr. }
        assert (IR : forall q, In q rest -> In q (unlocked p)) by (intros q Hq; rewrite PI; now right).
        assert (NC : NoDup (k_dbc k :: conns (locked p ++ rest))) by (apply (Permutation_NoDup (Permutation_sym X)), C).
        destruct (Z.gtb_spec safety 1) as [G|G].
        -- (* another thread's connection *)
           replace k with (mkClock (k_tid k) (k_lock k) (k_locked k) (k_dbc k)) at 1 by (now destruct k). intros E.
           assert (T := take_core H O p t k rest [] p' es o L C K1 K2 (k_dbc k) O (fresh p)).
           destruct T as (-> & -> & T1 & T2 & T3); auto.
           ++ rewrite (c_open _ _ _ C). symmetry. exact X.
           ++ intros S. lia.
           ++ lia.
           ++ intros c Hc. apply (c_fresh _ _ _ C). rewrite <- X. exact Hc.
           ++ cbn [open_after fold_left]. split; [exact T1|]. split; [exact T2|]. split; [exact T3|]. lia.
        -- assert (PO : Permutation (map fst (without (k_dbc k) O)) (conns (locked p ++ rest))).
           { apply closed_perm; [exact NC|]. rewrite (c_open _ _ _ C). symmetry. exact X. }
           assert (NF : ~ In (fresh p) (conns (locked p ++ rest))).
           { intros Y. assert (Z1 : In (fresh p) (conns (all p))) by (rewrite <- X; now right). apply (c_fresh _ _ _ C) in Z1. lia. }
           assert (OW : forall c v, In (c, v) O -> In c (conns (locked p ++ rest)) -> In (c, v) (without (k_dbc k) O)).
           { intros c v Hc Hc'. apply without_In. split; [exact Hc|]. intros ->. apply NoDup_cons_iff in NC as [NC _]. contradiction. }
           destruct ok.
           ++ (* closed and opened again *)
              intros E. assert (T := take_core H O p t k rest [Closed (k_dbc k); Opened (fresh p) t] p' es o L C K1 K2 (fresh p) ((fresh p, t) :: without (k_dbc k) O) (S (fresh p))).
              destruct T as (-> & -> & T1 & T2 & T3); auto.
              ** cbn [conns map snd k_dbc]. constructor; [exact NF|]. apply NoDup_cons_iff in NC. apply NC.
              ** cbn [map fst]. now constructor.
              ** intros S. split; [now left|]. intros c v Hc Hc'. right. now apply OW.
              ** lia.
              ** intros c [<-|Hc]; [lia|]. assert (Z1 : In c (conns (all p))) by (rewrite <- X; now right). apply (c_fresh _ _ _ C) in Z1. lia.
              ** cbn [open_after fold_left]. split; [exact T1|]. split; [exact T2|]. split; [exact T3|]. lia.
           ++ intros [= <- <- <-]. split; [reflexivity|]. split; [|split; reflexivity]. cbn [open_after fold_left]. fold (without (k_dbc k) O).
              constructor; cbn [module locked unlocked dead closing fresh all]; unfold all; cbn [locked unlocked].
              ** exact NK.
              ** apply NoDup_cons_iff in NC. apply NC.
              ** apply C.
              ** intros t' k' Hk'. apply (c_unlocked _ _ _ C t'), IR, Hk'.
              ** apply C.
              ** exact PO.
              ** intros S t' k' Hk'. apply OW; [|apply (in_map (fun p => k_dbc (snd p)) _ _ Hk')]. apply (c_opener _ _ _ C S).
                 unfold all. apply in_app_iff in Hk' as [Hk'|Hk']; apply in_app_iff; auto.
              ** lia.
              ** intros c Hc. apply (c_fresh _ _ _ C). rewrite <- X. now right.
              ** apply C.
      * apply popitem_none in PI. rewrite PI in *. cbn [length Nat.add] in *. destruct ex.
        -- destruct (rl_release t (module p)) as [m|] eqn:RM; intros [= <- <- <-].
           ++ split; [reflexivity|]. split; [reflexivity|]. split; [lia|]. exists m. split; [reflexivity|]. unfold with_module. now rewrite PI.
           ++ split; [reflexivity|lia].
        -- intros [= <- <- <-]. repeat split. lia.
Qed.

(** The thread has a connection already *)
Lemma again_core H O p t k l : Core H O p -> lookup t (locked p) = Some k -> rl_acquire t (k_lock k) = Some l ->
  Core ((t, k_dbc k) :: H) O (mkPool (module p) (put t (mkClock (k_tid k) l (S (k_locked k)) (k_dbc k)) (locked p)) (unlocked p) (dead p) (closing p) (fresh p)).
Proof.
  intros C L A. assert (Lk := L). apply lookup_In in Lk. destruct (c_locked _ _ _ C t k Lk) as (K1 & K2 & K3).
  destruct (NoDup_keys_app _ _ (c_keys _ _ _ C)) as (NK1 & NK2 & NK3).
  assert (PM := without_perm t k (locked p) NK1 Lk). rewrite <- del_without in PM.
  apply (core_move H O p); cbn [module locked unlocked dead closing fresh all]; unfold all; cbn [locked unlocked]; auto.
  - intros t'. rewrite lookup_put. unfold of_thread. cbn [filter fst]. rewrite (Nat.eqb_sym t t'). destruct (Nat.eqb_spec t' t) as [->|E].
    + cbn [k_dbc k_locked repeat]. f_equal. fold (of_thread t H). now rewrite (c_hold _ _ _ C), L.
    + apply C.
  - unfold put. cbn [app keys map fst]. exact (NoDup_keys_perm _ _ (Permutation_app_tail (unlocked p) PM) (c_keys _ _ _ C)).
  - unfold put. rewrite !conns_app. apply Permutation_app_tail. symmetry. exact (Permutation_map (fun q : thread * clock => k_dbc (snd q)) PM).
  - intros t' k' [[= <- <-]|Hk]; [|apply without_In in Hk; apply (c_locked _ _ _ C); tauto]. cbn [k_tid k_locked k_lock].
    split; [exact K1|]. split; [lia|]. rewrite K3 in A. destruct level0; cbn [rl_acquire] in A; [now injection A|]. rewrite Nat.eqb_refl in A. now injection A.
  - apply (c_unlocked _ _ _ C).
  - intros _ t' k' Hk. cbn [put app] in Hk. destruct Hk as [[= <- <-]|Hk].
    + exists k. split; [apply in_app_iff; now left|reflexivity].
    + exists k'. split; [|reflexivity]. apply in_app_iff. apply in_app_iff in Hk as [Hk|Hk]; [apply without_In in Hk|]; tauto.
Qed.
Lemma again_ok H O p t k : Core H O p -> lookup t (locked p) = Some k -> exists l, rl_acquire t (k_lock k) = Some l.
Proof.
  intros C L. apply lookup_In in L. destruct (c_locked _ _ _ C t k L) as (_ & _ & ->). destruct level0; cbn [rl_acquire]; [eauto|]. rewrite Nat.eqb_refl. eauto.
Qed.
End Pool.
