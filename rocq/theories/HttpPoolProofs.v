(** Dictionaries, sorting, and what the dictionaries of the pool keep true. *)
From Coq Require Import List Arith Bool ZArith Lia Permutation.
From Verif Require Import Py HttpPool HttpPoolSpec.
Import ListNotations.
Open Scope nat_scope.

(** * Keys *)
Lemma tg_eqb_eq a b : tg_eqb a b = true <-> a = b.
Proof.
  destruct a as [[a1 a2] a3], b as [[b1 b2] b3]. unfold tg_eqb. cbn. rewrite !andb_true_iff, !str_eqb_eq, Z.eqb_eq. split.
  - intros [[-> ->] ->]. reflexivity.
  - intros [= -> -> ->]. auto.
Qed.
Lemma ot_eqb_eq a b : ot_eqb a b = true <-> a = b.
Proof.
  destruct a, b; cbn; rewrite ?Nat.eqb_eq; split; intros H; try discriminate; try reflexivity; congruence.
Qed.
Lemma key_eqb_eq a b : key_eqb a b = true <-> a = b.
Proof.
  destruct a as [a1 a2], b as [b1 b2]. unfold key_eqb. cbn. rewrite andb_true_iff, ot_eqb_eq, tg_eqb_eq. split.
  - intros [-> ->]. reflexivity.
  - intros [= -> ->]. auto.
Qed.

(** * Dictionaries *)
Section Dict.
Context {K V : Type}.
Variable eqb : K -> K -> bool.
Hypothesis eqb_eq : forall a b, eqb a b = true <-> a = b.
Notation get := (get (V := V) eqb). Notation del := (del (V := V) eqb). Notation put := (put (V := V) eqb).
Lemma eqb_refl k : eqb k k = true. Proof. apply eqb_eq. reflexivity. Qed.
Lemma eqb_neq a b : a <> b -> eqb a b = false.
Proof. intros N. destruct (eqb a b) eqn:E; [|reflexivity]. apply eqb_eq in E. contradiction. Qed.
Lemma get_cons k p l : get k (p :: l) = if eqb (fst p) k then Some (snd p) else get k l.
Proof. unfold HttpPool.get. cbn. now destruct (eqb (fst p) k). Qed.
Lemma get_del_same k l : get k (del k l) = None.
Proof.
  induction l as [|[a v] l IH]; [reflexivity|]. cbn [HttpPool.del filter fst]. destruct (eqb a k) eqn:E; cbn [negb]; [exact IH|].
  rewrite get_cons. cbn [fst]. rewrite E. exact IH.
Qed.
Lemma get_del_other k k' l : k' <> k -> get k' (del k l) = get k' l.
Proof.
  intros N. induction l as [|[a v] l IH]; [reflexivity|]. cbn [HttpPool.del filter fst]. destruct (eqb a k) eqn:E; cbn [negb].
  - apply eqb_eq in E. subst a. rewrite get_cons. cbn [fst]. rewrite eqb_neq by congruence. exact IH.
  - rewrite !get_cons. cbn [fst]. destruct (eqb a k'); [reflexivity|exact IH].
Qed.
Lemma get_put_same k v l : get k (put k v l) = Some v.
Proof. unfold HttpPool.put. rewrite get_cons. cbn. now rewrite eqb_refl. Qed.
Lemma get_put_other k k' v l : k' <> k -> get k' (put k v l) = get k' l.
Proof. intros N. unfold HttpPool.put. rewrite get_cons. cbn [fst]. rewrite eqb_neq by congruence. now apply get_del_other. Qed.
Lemma get_In k v l : get k l = Some v -> In (k, v) l.
Proof.
  induction l as [|[a x] l IH]; [discriminate|]. rewrite get_cons. cbn [fst snd]. destruct (eqb a k) eqn:E; intros H.
  - apply eqb_eq in E. left. congruence.
  - right. auto.
Qed.
Lemma In_get k v l : NoDup (map fst l) -> In (k, v) l -> get k l = Some v.
Proof.
  induction l as [|[a x] l IH]; [intros _ []|]. cbn [map fst]. intros ND. apply NoDup_cons_iff in ND as [N1 N2]. rewrite get_cons. cbn [fst snd]. intros [[= -> ->]|H].
  - now rewrite eqb_refl.
  - rewrite eqb_neq; [auto|]. intros ->. apply N1. apply (in_map fst _ _ H).
Qed.
Lemma get_None k l : get k l = None -> ~ In k (map fst l).
Proof.
  induction l as [|[a x] l IH]; [intros _ []|]. rewrite get_cons. cbn [fst snd map]. destruct (eqb a k) eqn:E; [discriminate|]. intros H [->|I]; [|now apply IH].
  rewrite eqb_refl in E. discriminate.
Qed.
Lemma del_incl k l x : In x (del k l) -> In x l. Proof. unfold HttpPool.del. rewrite filter_In. tauto. Qed.
Lemma del_keys k l : ~ In k (map fst (del k l)).
Proof. intros H. apply in_map_iff in H as ([a v] & E & H). cbn in E. subst a. apply filter_In in H as [_ H]. cbn in H. rewrite eqb_refl in H. discriminate. Qed.
Lemma NoDup_del k l : NoDup (map fst l) -> NoDup (map fst (del k l)).
Proof.
  induction l as [|[a v] l IH]; [intros _; constructor|]. cbn [map fst]. intros ND. apply NoDup_cons_iff in ND as [N1 N2].
  cbn [HttpPool.del filter fst]. destruct (negb (eqb a k)); [|now apply IH]. cbn [map fst]. constructor; [|now apply IH].
  intros H. apply N1. apply in_map_iff in H as (x & E & H). rewrite <- E. apply in_map. eapply del_incl. exact H.
Qed.
Lemma NoDup_put k v l : NoDup (map fst l) -> NoDup (map fst (put k v l)).
Proof. intros ND. unfold HttpPool.put. cbn [map fst]. constructor; [apply del_keys|now apply NoDup_del]. Qed.
Lemma length_del k l v : NoDup (map fst l) -> get k l = Some v -> S (length (del k l)) = length l.
Proof.
  induction l as [|[a x] l IH]; [discriminate|]. cbn [map fst]. intros ND. apply NoDup_cons_iff in ND as [N1 N2]. rewrite get_cons. cbn [fst snd].
  cbn [HttpPool.del filter fst]. destruct (eqb a k) eqn:E; cbn [negb]; intros H.
  - apply eqb_eq in E. subst a. cbn [length]. f_equal. clear - N1 eqb_eq. induction l as [|[b y] l IH]; [reflexivity|]. cbn [filter fst].
    rewrite eqb_neq by (intros ->; apply N1; now left). cbn [negb length]. f_equal. apply IH. intros H. apply N1. now right.
  - cbn [length]. f_equal. now apply IH.
Qed.
Lemma length_del_none k l : get k l = None -> length (del k l) = length l.
Proof.
  induction l as [|[a x] l IH]; [reflexivity|]. rewrite get_cons. cbn [fst snd]. cbn [HttpPool.del filter fst]. destruct (eqb a k) eqn:E; cbn [negb]; intros H; [discriminate|].
  cbn [length]. f_equal. now apply IH.
Qed.
End Dict.

(** * Dictionaries of connections *)
Lemma mem_In c l : mem c l = true <-> In c l.
Proof. unfold mem. rewrite existsb_exists. split; [intros (x & H & E); apply Nat.eqb_eq in E; now subst|intros H; exists c; now rewrite Nat.eqb_refl]. Qed.
Lemma drop_In c d l : In d (drop c l) <-> In d l /\ d <> c.
Proof. unfold drop. rewrite filter_In, negb_true_iff, Nat.eqb_neq. tauto. Qed.
Lemma add_In c d l : In d (add c l) <-> d = c \/ In d l.
Proof. unfold add. cbn [In]. rewrite drop_In. destruct (Nat.eq_dec d c); intuition congruence. Qed.
Lemma NoDup_drop c l : NoDup l -> NoDup (drop c l). Proof. apply NoDup_filter. Qed.
Lemma NoDup_add c l : NoDup l -> NoDup (add c l).
Proof. intros H. constructor; [rewrite drop_In; tauto|now apply NoDup_drop]. Qed.
Lemma drop_none c l : ~ In c l -> drop c l = l.
Proof.
  induction l as [|d l IH]; [reflexivity|]. intros N. unfold drop. cbn [filter]. assert (E : d <> c) by (intros ->; apply N; now left). apply Nat.eqb_neq in E. rewrite E. cbn [negb]. f_equal.
  apply IH. intros H. apply N. now right.
Qed.
Lemma length_drop c l : NoDup l -> In c l -> S (length (drop c l)) = length l.
Proof.
  induction l as [|d l IH]; [intros _ []|]. intros ND I. apply NoDup_cons_iff in ND as [N1 N2]. unfold drop. cbn [filter]. destruct (d =? c) eqn:E; cbn [negb].
  - apply Nat.eqb_eq in E. subst d. fold (drop c l). rewrite drop_none by assumption. reflexivity.
  - cbn [length]. f_equal. apply IH; [assumption|]. destruct I as [->|I]; [rewrite Nat.eqb_refl in E; discriminate|assumption].
Qed.
Lemma length_add c l : ~ In c l -> length (add c l) = S (length l).
Proof. intros N. unfold add. cbn [length]. now rewrite drop_none. Qed.
Lemma upd_same c o h : upd c o h c = o. Proof. unfold upd. now rewrite Nat.eqb_refl. Qed.
Lemma upd_other c o h d : d <> c -> upd c o h d = h d.
Proof. intros N. unfold upd. apply Nat.eqb_neq in N. now rewrite N. Qed.

(** Dictionaries of dictionaries *)
Section Multi.
Context {K : Type}.
Variable eqb : K -> K -> bool.
Hypothesis eqb_eq : forall a b, eqb a b = true <-> a = b.
Lemma K_dec (a b : K) : a = b \/ a <> b.
Proof. destruct (eqb a b) eqn:E; [left; now apply eqb_eq|right]. intros ->. rewrite (proj2 (eqb_eq b b) eq_refl) in E. discriminate. Qed.
Definition has (k : K) (c : cid) (it : list (K * list cid)) : Prop := exists l, get eqb k it = Some l /\ In c l.
Lemma has_into k c it k' d :
  has k' d (put eqb k match get eqb k it with Some l => add c l | None => [c] end it) <-> has k' d it \/ (k' = k /\ d = c).
Proof.
  unfold has. destruct (K_dec k' k) as [->|N].
  - rewrite get_put_same by assumption. destruct (get eqb k it) as [l|]; split.
    + intros (l' & [= <-] & H). apply add_In in H as [->|H]; [now right|left; eauto].
    + intros [(l' & [= <-] & H)|[_ ->]]; eexists; split; eauto; apply add_In; auto.
    + intros (l' & [= <-] & [<-|[]]). now right.
    + intros [(l' & H & _)|[_ ->]]; [discriminate|]. eexists; split; eauto. now left.
  - rewrite get_put_other by assumption. intuition congruence.
Qed.
Lemma has_keep k c it l k' d : get eqb k it = Some l ->
  has k' d (put eqb k (drop c l) it) <-> has k' d it /\ ~ (k' = k /\ d = c).
Proof.
  intros G. unfold has. destruct (K_dec k' k) as [->|N].
  - rewrite get_put_same by assumption. rewrite G. split.
    + intros (l' & [= <-] & H). apply drop_In in H as [H NE]. split; [eauto|tauto].
    + intros [(l' & [= <-] & H) NE]. eexists; split; eauto. apply drop_In. split; [assumption|tauto].
  - rewrite get_put_other by assumption. intuition congruence.
Qed.
Lemma has_out k c it l k' d : get eqb k it = Some l ->
  has k' d match drop c l with [] => del eqb k it | l' => put eqb k l' it end <-> has k' d it /\ ~ (k' = k /\ d = c).
Proof.
  intros G. destruct (drop c l) as [|x l'] eqn:D.
  - unfold has. destruct (K_dec k' k) as [->|N].
    + rewrite get_del_same by assumption. rewrite G. split; [intros (? & ? & _); discriminate|]. intros [(l' & [= <-] & H) NE]. exfalso.
      assert (X : In d (drop c l)) by (apply drop_In; split; [assumption|tauto]). rewrite D in X. destruct X.
    + rewrite get_del_other by assumption. intuition congruence.
  - rewrite <- D. now apply has_keep.
Qed.
Lemma NoDup_out k c it l : NoDup (map fst it) ->
  NoDup (map fst match drop c l with [] => del eqb k it | l' => put eqb k l' it end).
Proof. intros ND. destruct (drop c l); [now apply NoDup_del|now apply NoDup_put]. Qed.
Definition inner (Q : list cid -> Prop) (it : list (K * list cid)) : Prop := forall k l, get eqb k it = Some l -> Q l.
Lemma inner_put Q k l it : inner Q it -> Q l -> inner Q (put eqb k l it).
Proof. intros I q k' l'. destruct (K_dec k' k) as [->|N]; [rewrite get_put_same by assumption; now intros [= <-]|rewrite get_put_other by assumption; apply I]. Qed.
Lemma inner_del Q k it : inner Q it -> inner Q (del eqb k it).
Proof. intros I k' l'. destruct (K_dec k' k) as [->|N]; [rewrite get_del_same by assumption; discriminate|rewrite get_del_other by assumption; apply I]. Qed.
Lemma inner_out Q k c it l : inner Q it -> (forall x l', drop c l = x :: l' -> Q (drop c l)) ->
  inner Q match drop c l with [] => del eqb k it | l' => put eqb k l' it end.
Proof. intros I q. destruct (drop c l) as [|x l'] eqn:D; [now apply inner_del|]. apply inner_put; [assumption|]. eapply q. reflexivity. Qed.
End Multi.

(** * Sorting *)
Lemma insert_perm h c l : Permutation (insert h c l) (c :: l).
Proof.
  induction l as [|d l IH]; [apply Permutation_refl|]. cbn [insert]. destruct (_ <=? _)%Z; [apply Permutation_refl|].
  eapply perm_trans; [apply perm_skip, IH|apply perm_swap].
Qed.
Lemma sort_perm h l : Permutation (sort h l) l.
Proof. induction l as [|c l IH]; [apply Permutation_refl|]. cbn. eapply perm_trans; [apply insert_perm|now apply perm_skip]. Qed.
Inductive sorted (h : cid -> cobj) : list cid -> Prop :=
| s_nil : sorted h []
| s_cons c l : (forall d, In d l -> (o_last (h c) <= o_last (h d))%Z) -> sorted h l -> sorted h (c :: l).
Lemma insert_sorted h c l : sorted h l -> sorted h (insert h c l).
Proof.
  induction 1 as [|d l H S IH]; [constructor; [intros ? []|constructor]|]. cbn [insert]. destruct (_ <=? _)%Z eqn:E.
  - apply Z.leb_le in E. constructor; [|now constructor]. intros x [->|I]; [assumption|]. specialize (H x I). lia.
  - apply Z.leb_gt in E. constructor; [|assumption]. intros x I. apply (Permutation_in _ (insert_perm h c l)) in I. destruct I as [->|I]; [lia|auto].
Qed.
Lemma sort_sorted h l : sorted h (sort h l).
Proof. induction l; [constructor|now apply insert_sorted]. Qed.
Lemma sorted_first h c l d : sorted h (c :: l) -> In d (c :: l) -> (o_last (h c) <= o_last (h d))%Z.
Proof. inversion 1; subst. intros [->|I]; [lia|auto]. Qed.
Lemma sorted_app h l c d : sorted h (l ++ [c]) -> In d (l ++ [c]) -> (o_last (h d) <= o_last (h c))%Z.
Proof.
  induction l as [|x l IH]; intros S I.
  - destruct I as [->|[]]. lia.
  - cbn in S. inversion S as [|? ? H S' E]; subst. destruct I as [->|I]; [apply H, in_app_iff; right; now left|auto].
Qed.
Lemma youngest h l c l' : rev (sort h l) = c :: l' -> In c l /\ (forall d, In d l -> (o_last (h d) <= o_last (h c))%Z).
Proof.
  intros E. assert (S : sort h l = rev l' ++ [c]) by (rewrite <- (rev_involutive (sort h l)), E; reflexivity). split.
  - apply (Permutation_in _ (sort_perm h l)). rewrite S. apply in_app_iff. right. now left.
  - intros d I. apply (Permutation_in _ (Permutation_sym (sort_perm h l))) in I. assert (X := sort_sorted h l). rewrite S in I, X. eapply sorted_app; eauto.
Qed.
Lemma oldest h l c l' : sort h l = c :: l' -> In c l /\ (forall d, In d l -> (o_last (h c) <= o_last (h d))%Z).
Proof.
  intros S. split.
  - apply (Permutation_in _ (sort_perm h l)). rewrite S. now left.
  - intros d I. apply (Permutation_in _ (Permutation_sym (sort_perm h l))) in I. assert (X := sort_sorted h l). rewrite S in I, X. eapply sorted_first; eauto.
Qed.
Lemma sort_nil h l : sort h l = [] -> l = [].
Proof. intros E. assert (P := Permutation_length (sort_perm h l)). rewrite E in P. now destruct l. Qed.

(** * What the dictionaries keep true *)
Record Inv (m : mgr) : Prop := mkInv {
  i_keys : NoDup (map fst (active m));
  i_ths : NoDup (map fst (threads m));
  i_its : NoDup (map fst (idleT m));
  i_idle : NoDup (idle m);
  i_act : forall k c, get key_eqb k (active m) = Some c ->
    k = (o_thread (heap m c), o_target (heap m c)) /\ o_thread (heap m c) <> None /\ c < nextId m;
  i_thr : forall t c, has Nat.eqb t c (threads m) <-> get key_eqb (Some t, o_target (heap m c)) (active m) = Some c;
  i_thn : inner Nat.eqb (@NoDup cid) (threads m);
  i_idl : forall c, In c (idle m) -> o_thread (heap m c) = None /\ c < nextId m;
  i_it : forall tg c, has tg_eqb tg c (idleT m) <-> In c (idle m) /\ o_target (heap m c) = tg;
  i_itn : inner tg_eqb (fun l => l <> []) (idleT m) }.
(** The rules' view of the pool *)
Definition Rel (w : list entry) (m : mgr) : Prop :=
  NoDup (map id_of w) /\
  forall c tg o, In (c, tg, o) w <->
    o_target (heap m c) = tg /\
    match o with Some t => get key_eqb (Some t, tg) (active m) = Some c | None => In c (idle m) end.

Lemma rel_length w m : Inv m -> Rel w m -> length w = length (active m) + length (idle m).
Proof.
  intros I [ND R]. assert (P : Permutation (map id_of w) (map snd (active m) ++ idle m)).
  - apply NoDup_Permutation; [assumption| |].
    + assert (A : NoDup (map snd (active m))).
      { assert (K := i_keys m I). assert (A := i_act m I). assert (G : forall k c, In (k, c) (active m) -> k = (o_thread (heap m c), o_target (heap m c))).
        { intros k c H. apply A. apply In_get; [apply key_eqb_eq|assumption|assumption]. }
        clear A. revert K G. generalize (active m). intros l. induction l as [|[k c] l IH]; [constructor|]. cbn [map fst snd]. intros K G. apply NoDup_cons_iff in K as [K1 K2]. constructor.
        - intros H. apply in_map_iff in H as ([k' c'] & E & H). cbn in E. subst c'. apply K1. rewrite (G k c) by now left. rewrite <- (G k' c) by now right. apply (in_map fst _ _ H).
        - apply IH; [assumption|]. intros; apply G; now right. }
      assert (D : forall c, In c (map snd (active m)) -> ~ In c (idle m)).
      { intros c H J. apply in_map_iff in H as ([k c'] & E & H). cbn in E. subst c'. apply In_get with (eqb := key_eqb) in H; [|apply key_eqb_eq|apply I]. apply (i_act m I) in H as (_ & H & _). apply H. apply (i_idl m I c J). }
      assert (N := i_idle m I). revert A D. generalize (map snd (active m)). intros l. induction l as [|c l IH]; [intros; assumption|]. intros A D. apply NoDup_cons_iff in A as [A1 A2]. cbn. constructor.
      * rewrite in_app_iff. intros [H|H]; [contradiction|]. apply (D c); [now left|assumption].
      * apply IH; [assumption|]. intros d H. apply D. now right.
    + intros c. rewrite in_app_iff. split.
      * intros H. apply in_map_iff in H as ([[c' tg] o] & E & H). cbn in E. subst c'. apply R in H as [<- H]. destruct o as [t|]; [left|now right].
        apply get_In in H; [|apply key_eqb_eq]. apply (in_map snd _ _ H).
      * intros [H|H].
        -- apply in_map_iff in H as ([k c'] & E & H). cbn in E. subst c'. apply In_get with (eqb := key_eqb) in H; [|apply key_eqb_eq|apply I]. assert (A := i_act m I _ _ H). destruct A as (E & N & _).
           destruct (o_thread (heap m c)) as [t|] eqn:T; [|contradiction]. apply (in_map id_of w (c, o_target (heap m c), Some t)). apply R. split; [reflexivity|]. congruence.
        -- apply (in_map id_of w (c, o_target (heap m c), None)). apply R. auto.
  - apply Permutation_length in P. rewrite app_length, !map_length in P. exact P.
Qed.

(** Neither depends on times and queues *)
Lemma inv_heap m m' : (forall c, o_target (heap m' c) = o_target (heap m c) /\ o_thread (heap m' c) = o_thread (heap m c)) ->
  nextId m' = nextId m -> active m' = active m -> threads m' = threads m -> idleT m' = idleT m -> idle m' = idle m -> Inv m -> Inv m'.
Proof.
  intros H N A T IT L [I1 I2 I3 I4 I5 I6 I7 I8 I9 I10]. constructor; rewrite ?N, ?A, ?T, ?IT, ?L; try assumption.
  - intros k c. destruct (H c) as [-> ->]. auto.
  - intros t c. destruct (H c) as [-> _]. auto.
  - intros c. destruct (H c) as [_ ->]. auto.
  - intros tg c. destruct (H c) as [-> _]. auto.
Qed.
Lemma rel_heap w m m' : (forall c, o_target (heap m' c) = o_target (heap m c)) -> active m' = active m -> idle m' = idle m -> Rel w m -> Rel w m'.
Proof. intros H A L [ND R]. split; [assumption|]. intros c tg o. rewrite (H c), A, L. apply R. Qed.
Lemma touch_heap c n now m d : o_target (heap (touch c n now m) d) = o_target (heap m d) /\ o_thread (heap (touch c n now m) d) = o_thread (heap m d).
Proof. cbn. unfold upd. destruct (d =? c) eqn:E; [apply Nat.eqb_eq in E; subst|]; auto. Qed.
Lemma enqueue_heap c r m d : o_target (heap (enqueue c r m) d) = o_target (heap m d) /\ o_thread (heap (enqueue c r m) d) = o_thread (heap m d).
Proof. cbn. unfold upd. destruct (d =? c) eqn:E; [apply Nat.eqb_eq in E; subst|]; auto. Qed.

(** * Entries *)
Lemma set_owner_In c o w d tg o' : In (d, tg, o') (set_owner c o w) <->
  (d <> c /\ In (d, tg, o') w) \/ (d = c /\ o' = o /\ exists x, In (c, tg, x) w).
Proof.
  unfold set_owner. rewrite in_map_iff. split.
  - intros ([[e tg'] x] & E & H). cbn in E. destruct (e =? c) eqn:EC.
    + apply Nat.eqb_eq in EC. subst e. injection E as <- <- <-. right. eauto.
    + apply Nat.eqb_neq in EC. injection E as <- <- <-. left. auto.
  - intros [[N H]|(-> & -> & x & H)].
    + exists (d, tg, o'). cbn. apply Nat.eqb_neq in N. rewrite N. auto.
    + exists (c, tg, x). cbn. rewrite Nat.eqb_refl. auto.
Qed.
Lemma set_owner_ids c o w : map id_of (set_owner c o w) = map id_of w.
Proof. unfold set_owner. rewrite map_map. apply map_ext. intros [[d tg] x]. cbn. now destruct (d =? c). Qed.
Lemma forget_In c w e : In e (forget c w) <-> In e w /\ id_of e <> c.
Proof. unfold forget. rewrite filter_In, negb_true_iff, Nat.eqb_neq. tauto. Qed.
Lemma forget_ids c w : map id_of (forget c w) = drop c (map id_of w).
Proof. unfold forget, drop. induction w as [|e w IH]; [reflexivity|]. cbn [filter map]. destruct (id_of e =? c); cbn [negb map]; [exact IH|]. now rewrite IH. Qed.
