(** Pages in memory. *)
From Coq Require Import Lia Zify Permutation Sorted.
From Verif Require Import Py Iso Dec Shapes XmlChars XmlCharsSpec XmlCharsProofs HttpCore HttpSpec HttpProofs3 OdPage OdPageSpec.
Open Scope Z_scope.
Open Scope list_scope.

(** ** Sorting by several rules *)
Section Sorts.
Context {E : Type}.
Implicit Types f g : E -> E -> comparison.
Definition both f g : E -> E -> comparison := fun a b => thenc (f a b) (g a b).
Lemma stable_insert f g x l : preorder f -> preorder g -> Forall (fun y => g x y <> Gt) l ->
  StronglySorted (le_ (both f g)) l -> StronglySorted (le_ (both f g)) (insert f x l).
Proof.
  intros F G Hx S. induction S as [|y l S IH Hy]; [repeat constructor|]. cbn [insert].
  apply Forall_cons_iff in Hx as [Hxy Hx].
  assert (H : f x y <> Gt -> StronglySorted (le_ (both f g)) (x :: y :: l)).
  { intros H. constructor; [now constructor|].
    assert (X : le_ (both f g) x y).
    { unfold le_, both. destruct (f x y); [exact Hxy|discriminate|congruence]. }
    constructor; [exact X|]. eapply Forall_impl; [|exact Hy]. intros z Hz.
    exact (pre_le_trans _ (then_preorder f g F G) x y z X Hz). }
  destruct (f y x) eqn:Ey.
  - apply H. rewrite (pre_opp f F y x), Ey. discriminate.
  - constructor; [apply IH; exact Hx|]. rewrite Forall_forall in Hy |- *. intros z Hz. rewrite insert_perm in Hz.
    destruct Hz as [<-|Hz]; [unfold le_, both; rewrite Ey; discriminate|apply Hy, Hz].
  - apply H. rewrite (pre_opp f F y x), Ey. discriminate.
Qed.
Lemma stable_sort f g l : preorder f -> preorder g ->
  StronglySorted (le_ g) l -> StronglySorted (le_ (both f g)) (sort f l).
Proof.
  intros F G S. induction S as [|x l S IH Hx]; [constructor|].
  change (sort f (x :: l)) with (insert f x (sort f l)). apply stable_insert; try assumption.
  rewrite Forall_forall in *. intros y Hy. rewrite sort_perm in Hy. apply Hx, Hy.
Qed.

Variable key : E -> E -> comparison.
Fixpoint compound (rules : list ((E -> E -> comparison) * bool)) : E -> E -> comparison :=
  match rules with [] => key | r :: rules' => both (direct r) (compound rules') end.
Hypothesis K : preorder key.
Lemma direct_preorder (r : (E -> E -> comparison) * bool) : preorder (fst r) -> preorder (direct r).
Proof. intros R. destruct r as [f []]; [apply flip_preorder, R|exact R]. Qed.
Lemma compound_preorder (rules : list ((E -> E -> comparison) * bool)) : Forall (fun r => preorder (fst r)) rules -> preorder (compound rules).
Proof.
  induction 1 as [|r rules R _ IH]; [exact K|]. cbn [compound]. apply then_preorder; [now apply direct_preorder|exact IH].
Qed.
Lemma compound_before (rules : list ((E -> E -> comparison) * bool)) a b : Forall (fun r => preorder (fst r)) rules ->
  compound rules a b <> Gt <-> before rules key a b.
Proof.
  induction 1 as [|[r d] rules R _ IH]; [reflexivity|]. cbn [compound before]. unfold both, direct. cbn [fst snd] in *.
  rewrite <- IH. destruct d.
  - rewrite (pre_opp r R a b). destruct (r a b); cbn; intuition congruence.
  - destruct (r a b); cbn; intuition congruence.
Qed.

Lemma OrderEntities_cons paging r rules es :
  OrderEntities key paging (r :: rules) es = sort (direct r) (OrderEntities key paging rules es).
Proof. unfold OrderEntities. cbn [rev]. rewrite fold_left_app. reflexivity. Qed.
Lemma OrderEntities_perm paging rules es : Permutation (OrderEntities key paging rules es) es.
Proof.
  induction rules as [|r rules IH].
  - unfold OrderEntities. cbn. destruct paging; [apply sort_perm|reflexivity].
  - rewrite OrderEntities_cons, sort_perm. exact IH.
Qed.
Lemma OrderEntities_sorted (rules : list ((E -> E -> comparison) * bool)) es : Forall (fun r => preorder (fst r)) rules ->
  StronglySorted (le_ (compound rules)) (OrderEntities key true rules es).
Proof.
  induction 1 as [|r rules R RR IH].
  - unfold OrderEntities. cbn. apply sort_sorted, K.
  - rewrite OrderEntities_cons. cbn [compound]. apply stable_sort; [now apply direct_preorder|now apply compound_preorder|exact IH].
Qed.
Lemma compound_eq rules a b : compound rules a b = Eq -> key a b = Eq.
Proof.
  induction rules as [|r rules IH]; [tauto|]. cbn [compound]. unfold both, thenc. destruct (direct r a b); try discriminate. exact IH.
Qed.
Lemma OrderEntities_unique (rules : list ((E -> E -> comparison) * bool)) es es' : Forall (fun r => preorder (fst r)) rules ->
  (forall a b, In a es -> In b es -> key a b = Eq -> a = b) -> Permutation es es' ->
  OrderEntities key true rules es = OrderEntities key true rules es'.
Proof.
  intros R U PM. apply (sorted_unique (compound rules) (compound_preorder rules R)).
  - intros a b Ia Ib. rewrite OrderEntities_perm in Ia, Ib. intros H. apply compound_eq in H. now apply U.
  - now rewrite !OrderEntities_perm.
  - now apply OrderEntities_sorted.
  - now apply OrderEntities_sorted.
Qed.
End Sorts.

(** ** Slices *)
Section Slices.
Context {E : Type}.
Implicit Types es : list E.
Lemma from_spec eMin es : forall i, from eMin i es = skipn (Z.to_nat (eMin - i)) es.
Proof.
  induction es as [|e es IH]; intros i; cbn [from]; [now rewrite skipn_nil|]. rewrite IH. destruct (i >=? eMin) eqn:H.
  - replace (Z.to_nat (eMin - i)) with O by lia. replace (Z.to_nat (eMin - (i + 1))) with O by lia. reflexivity.
  - replace (Z.to_nat (eMin - i)) with (S (Z.to_nat (eMin - (i + 1)))) by lia. reflexivity.
Qed.
Lemma between_spec eMin eMax es : eMin <= eMax -> forall i, i <= eMax ->
  between eMin eMax i es =
  (firstn (Z.to_nat (eMax - Z.max i eMin)) (skipn (Z.to_nat (eMin - i)) es),
   if eMax - i <? Z.of_nat (length es) then Some eMax else None).
Proof.
  intros Hm. induction es as [|e es IH]; intros i Hi; cbn [between length].
  - rewrite skipn_nil, firstn_nil. destruct (eMax - i <? Z.of_nat 0) eqn:X; [lia|reflexivity].
  - destruct (i <? eMin) eqn:H.
    + rewrite IH by lia. replace (Z.to_nat (eMin - i)) with (S (Z.to_nat (eMin - (i + 1)))) by lia. cbn [skipn].
      replace (Z.max (i + 1) eMin) with (Z.max i eMin) by lia.
      replace (eMax - (i + 1) <? Z.of_nat (length es)) with (eMax - i <? Z.of_nat (S (length es))) by lia. reflexivity.
    + destruct (i <? eMax) eqn:H2.
      * rewrite IH by lia. replace (Z.to_nat (eMin - i)) with O by lia. replace (Z.to_nat (eMin - (i + 1))) with O by lia. cbn [skipn].
        replace (Z.to_nat (eMax - Z.max i eMin)) with (S (Z.to_nat (eMax - Z.max (i + 1) eMin))) by lia. cbn [firstn].
        replace (eMax - (i + 1) <? Z.of_nat (length es)) with (eMax - i <? Z.of_nat (S (length es))) by lia. reflexivity.
      * replace (Z.to_nat (eMax - Z.max i eMin)) with O by lia. cbn [firstn].
        replace (eMax - i <? Z.of_nat (S (length es))) with true by lia. f_equal. f_equal. lia.
Qed.
End Slices.

(** ** Tokens *)
Lemma hex_run_spec s : Forall hex_digit s -> forall v, hex_run s v = Some (fold_left (fun v c => v * 16 + hex_of_digit c) s v).
Proof.
  induction 1 as [|c s H _ IH]; intros v; cbn [hex_run fold_left]; [reflexivity|].
  assert (X : hex_value c = Some (hex_of_digit c)).
  { unfold hex_digit in H. unfold hex_value, hex_of_digit.
    destruct (c <=? 57) eqn:E1; [replace (48 <=? c) with true by lia; reflexivity|]. rewrite andb_false_r.
    destruct (c <=? 70) eqn:E2; [replace (65 <=? c) with true by lia; cbn [andb]; try reflexivity|rewrite andb_false_r].
    replace (97 <=? c) with true by lia. replace (c <=? 102) with true by lia. reflexivity. }
  rewrite X. apply IH.
Qed.
Lemma strip_hex s : Forall hex_digit s -> strip s = s.
Proof.
  intros H. assert (L : forall t, Forall hex_digit t -> lstrip t = t).
  { intros [|c t] Ht; [reflexivity|]. cbn [lstrip]. apply Forall_inv in Ht. unfold hex_digit in Ht.
    assert (is_space c = false) as ->; [|reflexivity]. unfold is_space. lia. }
  unfold strip. rewrite (L s H), (L (rev s)); [apply rev_involutive|]. apply Forall_rev, H.
Qed.
Lemma int16_hexstr n : 0 <= n -> int16 (hexstr n) = Some n.
Proof.
  intros Hn. unfold hexstr. destruct (n <? 0) eqn:X; [lia|]. destruct (fmt_X_spec 0 n Hn) as (H1 & H2 & H3).
  unfold int16. rewrite strip_hex by exact H1. destruct (fmt_X 0 n) as [|c s] eqn:Es; [congruence|].
  assert (D : hex_digits_of (c :: s) = Some n).
  { unfold hex_digits_of. rewrite hex_run_spec by exact H1. f_equal. exact H2. }
  assert (U : hex_unsigned (c :: s) = Some n).
  { unfold hex_unsigned. destruct s as [|x s']; [destruct c as [|[| |]|]; try exact D; repeat (destruct p; try exact D)|].
    assert (Hx : (x =? 120) || (x =? 88) = false).
    { apply Forall_inv_tail, Forall_inv in H1. unfold hex_digit in H1. lia. }
    rewrite Hx. destruct c as [|p|p]; try exact D; repeat (destruct p; try exact D). }
  apply Forall_inv in H1. unfold hex_digit in H1.
  destruct c as [|p|p]; try exact U; repeat (destruct p; try exact U; try lia).
Qed.

(** ** One page *)
Section Page.
Context {E : Type}.
Implicit Types es : list E.

(** Where the page starts *)
Definition start (p : page) : Z :=
  match skip p with Some s => s | None => 0 end +
  match skiptoken p with Some t => match int16 t with Some n => n | None => 0 end | None => 0 end.
Definition forced (p : page) : option Z :=
  match topmax p with
  | Some m => if m =? 0 then None else
              match top p with Some t => if t >? m then Some m else None | None => Some m end
  | None => None
  end.
Definition stopped (s n : Z) es : bool := s + n <? Z.of_nat (length es).
Lemma iterpage_spec b es p : 0 <= start p -> (forall t, top p = Some t -> 0 <= t) -> (forall m, topmax p = Some m -> 0 <= m) ->
  iterpage b es p =
  if match top p with Some t => t =? 0 | None => false end then ([], p)
  else
    let s := start p in
    let next := match forced p with Some m => Some (hexstr (s + m)) | None => None end in
    let size := page_size (top p) (topmax p) in
    (slice (Z.to_nat s) (match size with Some n => Some (Z.to_nat n) | None => None end) es,
     if b then
       if match size with Some n => stopped s n es | None => false end then
         match next, size with
         | Some t, _ => mkPage (top p) None (Some t) next (topmax p)
         | None, Some n => mkPage (top p) (Some (s + n)) None next (topmax p)
         | None, None => p
         end
       else mkPage (Some 0) (Some 0) None next (topmax p)
     else mkPage (top p) (skip p) (skiptoken p) next (topmax p)).
Proof.
  intros Hs Ht Hm. unfold iterpage. destruct p as [tp sk tok nx tm]. unfold start, forced, page_size in *. cbn [top skip skiptoken nextSkiptoken topmax] in *.
  destruct (match tp with Some t => t =? 0 | None => false end) eqn:E0; [reflexivity|].
  set (tk := match tok with Some t => match int16 t with Some n => n | None => 0 end | None => 0 end) in *.
  assert (Emin : match sk with Some s => s + tk | None => tk end = match sk with Some s => s | None => 0 end + tk) by (destruct sk; lia).
  rewrite Emin. set (s := match sk with Some s => s | None => 0 end + tk) in *. clearbody s. cbv zeta.
  assert (B : forall n next, 0 <= n ->
    match between s (s + n) 0 es with
    | (l, None) => (l, if b then mkPage (Some 0) (Some 0) None next tm else mkPage tp sk tok next tm)
    | (l, Some i) => (l, if b then match next with None => mkPage tp (Some i) None next tm | Some t => mkPage tp None (Some t) next tm end
                         else mkPage tp sk tok next tm)
    end = (slice (Z.to_nat s) (Some (Z.to_nat n)) es,
           if b then if stopped s n es then match next with None => mkPage tp (Some (s + n)) None next tm | Some t => mkPage tp None (Some t) next tm end
                     else mkPage (Some 0) (Some 0) None next tm
           else mkPage tp sk tok next tm)).
  { intros n next Hn. rewrite between_spec by lia. unfold slice, stopped.
    replace (Z.to_nat (s + n - Z.max 0 s)) with (Z.to_nat n) by lia. replace (s - 0) with s by lia. replace (s + n - 0) with (s + n) by lia.
    destruct (s + n <? Z.of_nat (length es)); [|reflexivity]. reflexivity. }
  assert (F : forall next, (from s 0 es, if b then mkPage (Some 0) (Some 0) None next tm else mkPage tp sk tok next tm)
             = (slice (Z.to_nat s) None es, if b then mkPage (Some 0) (Some 0) None next tm else mkPage tp sk tok next tm)).
  { intros next. rewrite from_spec. replace (s - 0) with s by lia. reflexivity. }
  destruct tm as [m|].
  - specialize (Hm m eq_refl). destruct (m =? 0) eqn:Em.
    + destruct tp as [t|]; [|apply F]. specialize (Ht t eq_refl). etransitivity; [exact (B t None Ht)|]. destruct b; [|reflexivity]. destruct (stopped s t es); reflexivity.
    + destruct tp as [t|].
      * specialize (Ht t eq_refl). destruct (t >? m) eqn:Et.
        -- etransitivity; [exact (B m (Some (hexstr (s + m))) Hm)|]. replace (Z.min t m) with m by lia. destruct b; [|reflexivity]. destruct (stopped s m es); reflexivity.
        -- etransitivity; [exact (B t None Ht)|]. replace (Z.min t m) with t by lia. destruct b; [|reflexivity]. destruct (stopped s t es); reflexivity.
      * etransitivity; [exact (B m (Some (hexstr (s + m))) Hm)|]. destruct b; [|reflexivity]. destruct (stopped s m es); reflexivity.
  - destruct tp as [t|]; [|apply F]. specialize (Ht t eq_refl). etransitivity; [exact (B t None Ht)|]. destruct b; [|reflexivity]. destruct (stopped s t es); reflexivity.
Qed.

(** The state before page [k] *)
Definition at_page (s k : nat) es (p : page) : Prop :=
  match page_size (top p) (topmax p) with
  | Some n => start p = Z.of_nat s + Z.of_nat k * n
  | None => k = O /\ start p = Z.of_nat s
  end.
Lemma nth_page_end s n es k : (length es <= s + k * n)%nat -> nth_page s (Some n) es k = [].
Proof. intros H. unfold nth_page. rewrite skipn_all2 by exact H. apply firstn_nil. Qed.
Lemma ended_pages ess n m nx k : pages ess n (mkPage (Some 0) (Some 0) None nx m) k = repeat (@nil E) k.
Proof. revert n. induction k as [|k IH]; intros n; [reflexivity|].
  change ([] :: pages ess (S n) (mkPage (Some 0) (Some 0) None nx m) k = [] :: repeat (@nil E) k). f_equal. apply IH.
Qed.
Definition to_size (o : option Z) : option nat := match o with Some n => Some (Z.to_nat n) | None => None end.

Lemma pages_from ess L s (H : forall n, ess n = L) k : forall j n p,
  (forall t, top p = Some t -> 0 < t) -> (forall m, topmax p = Some m -> 0 <= m) -> at_page s j L p ->
  pages ess n p k = map (nth_page s (to_size (page_size (top p) (topmax p))) L) (seq j k).
Proof.
  induction k as [|k IH]; intros j n p Ht Hm A; cbn [pages seq map]; [reflexivity|].
  assert (Hsz : forall z, page_size (top p) (topmax p) = Some z -> 0 < z).
  { unfold page_size. intros z. destruct (top p) as [t|], (topmax p) as [m|]; try discriminate; intros Hz;
    repeat match goal with |- _ => specialize (Ht _ eq_refl) | |- _ => specialize (Hm _ eq_refl) end;
    try (destruct (m =? 0) eqn:Em); injection Hz as <- || discriminate; lia. }
  rewrite iterpage_spec; [|unfold at_page in A; destruct (page_size (top p) (topmax p)) eqn:Ez; [specialize (Hsz _ eq_refl)|]; nia|intros t Et; specialize (Ht t Et); lia|exact Hm].
  destruct (match top p with Some t => t =? 0 | None => false end) eqn:E0.
  { destruct (top p) as [t|]; [|discriminate]. specialize (Ht t eq_refl). lia. }
  cbv zeta. cbn [andb]. rewrite H. unfold at_page in A.
  destruct (page_size (top p) (topmax p)) as [z|] eqn:Ez; cbn [to_size].
  - specialize (Hsz z eq_refl). destruct (stopped (start p) z L) eqn:Es.
    + f_equal.
      * unfold slice, nth_page. do 2 f_equal. rewrite A. nia.
      * match goal with |- pages _ _ ?q _ = _ => assert (Q : top q = top p /\ topmax q = topmax p /\ start q = start p + z) end.
        { unfold forced, page_size in *. unfold start in *. destruct p as [tp sk tok nx tm]. cbn [top skip skiptoken topmax] in *.
          destruct tm as [m|]; [destruct (m =? 0) eqn:Em|]; [| |].
          - destruct tp as [t|]; [|discriminate]. injection Ez as ->. cbn. split; [reflexivity|]. split; [reflexivity|]. lia.
          - assert (J : (match tp with Some t => if t >? m then Some m else None | None => Some m end = Some m /\ z = m) \/
                        (match tp with Some t => if t >? m then Some m else None | None => Some m end = None /\ tp = Some z)).
            { destruct tp as [t|]; [destruct (t >? m) eqn:Et|]; injection Ez as <-; [left; split; [reflexivity|lia]|right; split; [reflexivity|f_equal; lia]|left; split; reflexivity]. }
            destruct J as [[-> ->]|[-> ->]]; cbn [top topmax skip skiptoken].
            + split; [reflexivity|]. split; [reflexivity|]. rewrite int16_hexstr by (rewrite A; specialize (Hm m eq_refl); nia). lia.
            + split; [reflexivity|]. split; [reflexivity|]. lia.
          - destruct tp as [t|]; [|discriminate]. injection Ez as ->. cbn. split; [reflexivity|]. split; [reflexivity|]. lia. }
        destruct Q as (Q1 & Q2 & Q3).
        rewrite (IH (S j)); [rewrite Q1, Q2, Ez; reflexivity|rewrite Q1; exact Ht|rewrite Q2; exact Hm|].
        unfold at_page. rewrite Q1, Q2, Ez, Q3, A. lia.
    + f_equal.
      * unfold slice, nth_page. do 2 f_equal. rewrite A. nia.
      * rewrite ended_pages. unfold stopped in Es. clear -Es A Hsz.
        assert (X : forall k j', (j < j')%nat -> repeat [] k = map (nth_page s (Some (Z.to_nat z)) L) (seq j' k)).
        { induction k0 as [|k0 IHk]; intros j' Hj; [reflexivity|]. cbn [repeat seq map]. f_equal; [|apply IHk; lia].
          symmetry. apply nth_page_end. nia. }
        apply X. lia.
  - destruct A as [-> A]. f_equal.
    + unfold slice, nth_page. rewrite A. f_equal. lia.
    + rewrite ended_pages. clear. assert (X : forall k j', (0 < j')%nat -> repeat [] k = map (nth_page s None L) (seq j' k)).
      { induction k0 as [|k0 IHk]; intros j' Hj; [reflexivity|]. cbn [repeat seq map]. f_equal; [|apply IHk; lia]. destruct j'; [lia|reflexivity]. }
      apply X. lia.
Qed.
End Page.
