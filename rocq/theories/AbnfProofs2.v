(** Every string of a rule may be generated. *)
From Coq Require Import List Arith Bool ZArith Lia.
From Verif Require Import Py Abnf AbnfSpec AbnfProofs.
Import ListNotations.
Open Scope nat_scope.

Lemma set_nth_length {A} (x : A) : forall n l, n < length l -> length (set_nth n x l) = length l.
Proof. intros n l L. unfold set_nth. rewrite app_length, firstn_length, Nat.min_l by lia. cbn [length]. rewrite skipn_length. lia. Qed.
Lemma nth_error_set_nth {A} (x : A) : forall n l i, n < length l ->
  nth_error (set_nth n x l) i = if i =? n then Some x else nth_error l i.
Proof.
  unfold set_nth. induction n as [|n IH]; intros [|y l] i L; try (cbn in L; lia).
  - destruct i; reflexivity.
  - destruct i as [|i]; [reflexivity|]. cbn [firstn skipn nth_error app Nat.eqb]. apply IH. cbn in L; lia.
Qed.
Lemma nth_set_nth {A} (d x : A) : forall n l i, n < length l -> nth i (set_nth n x l) d = if i =? n then x else nth i l d.
Proof.
  unfold set_nth. induction n as [|n IH]; intros [|y l] i L; try (cbn in L; lia).
  - destruct i; reflexivity.
  - destruct i as [|i]; [reflexivity|]. cbn [firstn skipn nth app Nat.eqb]. apply IH. cbn in L; lia.
Qed.
Lemma set_nth_twice {A} (x y : A) : forall n l, n < length l -> set_nth n x (set_nth n y l) = set_nth n x l.
Proof.
  unfold set_nth. induction n as [|n IH]; intros [|z l] L; try (cbn in L; lia); [reflexivity|].
  cbn [firstn skipn app]. f_equal. apply IH. cbn in L; lia.
Qed.
Lemma set_nth_same {A} (d : A) : forall n l, n < length l -> set_nth n (nth n l d) l = l.
Proof.
  unfold set_nth. induction n as [|n IH]; intros [|z l] L; try (cbn in L; lia); [reflexivity|].
  cbn [firstn skipn app nth]. f_equal. apply IH. cbn in L; lia.
Qed.
Lemma unbump_bump r d rc : r < length rc -> unbump r d (bump r d rc) = rc.
Proof.
  intro L. unfold unbump, bump. rewrite set_nth_twice by exact L. rewrite nth_set_nth by exact L. rewrite Nat.eqb_refl.
  rewrite Nat.add_sub. apply set_nth_same; exact L.
Qed.
Lemma bump_length r d rc : r < length rc -> length (bump r d rc) = length rc.
Proof. apply set_nth_length. Qed.
Lemma bump_le r d rc M N : r < length rc -> (forall i, nth i rc 0 + (N + d) <= M) -> forall i, nth i (bump r d rc) 0 + N <= M.
Proof. intros L H i. unfold bump. rewrite nth_set_nth by exact L. pose proof (H i). pose proof (H r). destruct (i =? r); lia. Qed.

Lemma any_case_complete : forall s t, Forall2 same_letter s t ->
  exists cs, forall more, any_case s (cs ++ more) = Some (t, more).
Proof.
  induction 1 as [|a b s t AB F (cs & IH)]; [exists []; reflexivity|].
  cbn [any_case]. destruct (IsALPHA a) eqn:A.
  - assert (X : exists x, (x = 0 \/ x = 1)%Z /\ (if (x =? 0)%Z then upper a else lower a) = b).
    { unfold IsALPHA in A. unfold upper, lower.
      destruct AB as [<- | [[L ->] | [L ->]]].
      - destruct (Z.leb_spec 97 a), (Z.leb_spec a 122); [exists 1%Z | exists 0%Z ..]; cbn [Z.eqb andb];
          (split; [lia|]); try reflexivity.
        destruct (Z.leb_spec 65 a), (Z.leb_spec a 90); try reflexivity; lia.
      - exists 1%Z. split; [right; reflexivity|]. cbn [Z.eqb]. destruct (Z.leb_spec 65 a), (Z.leb_spec a 90); try reflexivity; lia.
      - exists 0%Z. split; [left; reflexivity|]. cbn [Z.eqb]. destruct (Z.leb_spec 97 a), (Z.leb_spec a 122); try reflexivity; lia. }
    destruct X as (x & X01 & XB). exists (x :: cs). intro more. unfold randrange. cbn [app].
    replace ((0 <=? x)%Z && (x <? 2)%Z) with true by (destruct X01 as [-> | ->]; reflexivity).
    rewrite IH. rewrite XB. reflexivity.
  - exists cs. intro more. rewrite IH.
    destruct AB as [<- | [[L ->] | [L ->]]]; [reflexivity | |];
      exfalso; unfold IsALPHA in A; destruct (Z.leb_spec 65 a), (Z.leb_spec a 90), (Z.leb_spec 97 a), (Z.leb_spec a 122); try discriminate A; lia.
Qed.

Section Rules.
Variable R : list (option str * body).
(** with these choices the rule adds [s], and leaves the counters as they were *)
Definition runs (q : nat) (s : str) (N : nat) (cs : list Z) : Prop :=
  forall M stack rc more out, length rc = length R -> (forall i, nth i rc 0 + N <= M) ->
  exists n, forall fuel, generate R M (n + fuel) ((q, Start) :: stack) rc (cs ++ more) out = generate R M fuel stack rc more (out ++ s).
Lemma runs_more q s N N' cs : N <= N' -> runs q s N cs -> runs q s N' cs.
Proof. intros L H M stack rc more out E C. apply H; [exact E|]. intro i. pose proof (C i). lia. Qed.
Definition parts_run (N : nat) : list nat -> list (str * list Z) -> Prop := Forall2 (fun q p => runs q (fst p) N (snd p)).
Lemma parts_more N N' l ps : N <= N' -> parts_run N l ps -> parts_run N' l ps.
Proof. intros L H. induction H; constructor; [eapply runs_more; eassumption | assumption]. Qed.

Lemma sequence_runs r nm l b (B : nth_error R r = Some (nm, b))
  (SB : b = Sequence l \/ exists q, b = Alias q /\ l = [q]) N :
  forall k ps, parts_run N (skipn k l) ps -> forall M stack rc more out,
  length rc = length R -> (forall i, nth i rc 0 + N <= M) -> k <= length l ->
  exists n, forall fuel,
    match nth_error l k with
    | Some q => generate R M (n + fuel) ((q, Start) :: (r, At k) :: stack) rc (concat (map snd ps) ++ more) out
    | None => generate R M (n + fuel) stack (unbump r 1 rc) (concat (map snd ps) ++ more) out
    end = generate R M fuel stack (unbump r 1 rc) more (out ++ concat (map fst ps)).
Proof.
  intros k ps H. remember (length l - k) as d eqn:ED. revert k ps H ED.
  induction d as [|d IH]; intros k ps H ED M stack rc more out LR C LK.
  - assert (K : nth_error l k = None) by (apply nth_error_None; lia). rewrite K. rewrite (nth_none_skipn _ _ K) in H. inversion H; subst.
    exists 0. intro fuel. cbn. rewrite app_nil_r. reflexivity.
  - destruct (nth_error l k) as [q|] eqn:K; [|apply nth_error_None in K; lia].
    rewrite (skipn_nth _ _ _ K) in H. inversion H as [|? p ? ps' H1 H2]; subst. destruct p as [s cs]. cbn [fst snd] in *.
    destruct (H1 M ((r, At k) :: stack) rc (concat (map snd ps') ++ more) out LR C) as [n1 G1].
    destruct (IH (S k) ps' H2 ltac:(lia) M stack rc more (out ++ s) LR C ltac:(lia)) as [n2 G2].
    exists (n1 + S n2). intro fuel. cbn [map concat snd fst]. rewrite <- app_assoc.
    replace (n1 + S n2 + fuel) with (n1 + (S n2 + fuel)) by lia. rewrite G1.
    rewrite app_assoc. rewrite <- G2. cbn [generate Nat.add]. rewrite B.
    destruct SB as [-> | (q' & -> & ->)]; reflexivity.
Qed.
Lemma repeat_runs r nm mn mx q (B : nth_error R r = Some (nm, Repeat mn mx q)) N :
  forall k ps, parts_run N (repeat q k) ps -> forall M stack rc more out extra,
  length rc = length R -> (forall i, nth i rc 0 + N <= M) ->
  exists n, forall fuel,
    (if k =? 0 then generate R M (n + fuel) stack (unbump r extra rc) (concat (map snd ps) ++ more) out
     else generate R M (n + fuel) ((q, Start) :: (r, Left k extra) :: stack) rc (concat (map snd ps) ++ more) out)
    = generate R M fuel stack (unbump r extra rc) more (out ++ concat (map fst ps)).
Proof.
  induction k as [|k IH]; intros ps H M stack rc more out extra LR C.
  - inversion H; subst. exists 0. intro fuel. cbn. rewrite app_nil_r. reflexivity.
  - cbn [repeat] in H. inversion H as [|? p ? ps' H1 H2]; subst. destruct p as [s cs]. cbn [fst snd] in *.
    destruct (H1 M ((r, Left (S k) extra) :: stack) rc (concat (map snd ps') ++ more) out LR C) as [n1 G1].
    destruct (IH ps' H2 M stack rc more (out ++ s) extra LR C) as [n2 G2].
    exists (n1 + S n2). intro fuel. cbn [map concat snd fst Nat.eqb]. rewrite <- app_assoc.
    replace (n1 + S n2 + fuel) with (n1 + (S n2 + fuel)) by lia. rewrite G1.
    rewrite app_assoc. rewrite <- G2. cbn [generate Nat.add]. rewrite B. cbn [Nat.sub]. rewrite Nat.sub_0_r. reflexivity.
Qed.

Lemma In_nth_Z (l : list nat) q : In q l -> exists c, (0 <= c < Z.of_nat (length l))%Z /\ nth (Z.to_nat c) l 0 = q.
Proof. intro I. destruct (In_nth l q 0 I) as (i & L & E). exists (Z.of_nat i). split; [lia|]. rewrite Nat2Z.id. exact E. Qed.

Lemma derive_runs : forall r s, derive R r s -> exists N cs, runs r s N cs.
Proof.
  apply (derive_ind2 R (fun r s _ => exists N cs, runs r s N cs)
    (fun l s _ => exists N ps, parts_run N l ps /\ s = concat (map fst ps))).
  - intros r nm s B. exists 0, []. intros M stack rc more out LR C. exists 1. intro fuel. cbn [Nat.add generate]. rewrite B. reflexivity.
  - intros r nm s t B F. destruct (any_case_complete s t F) as [cs A]. exists 0, cs. intros M stack rc more out LR C. exists 1. intro fuel.
    cbn [Nat.add generate]. rewrite B. rewrite A. reflexivity.
  - intros r nm lo hi c B L1 L2. exists 0, [c]. intros M stack rc more out LR C. exists 1. intro fuel.
    cbn [Nat.add generate app]. rewrite B. unfold randrange.
    destruct (Z.leb_spec lo hi); [|lia]. destruct (Z.leb_spec lo c); [|lia]. destruct (Z.ltb_spec c (hi + 1)); [|lia]. cbn [andb].
    destruct (Z.ltb_spec c 0); [lia|]. destruct (Z.ltb_spec 1114111 c); [lia|]. reflexivity.
  - intros r nm l s B D (N & ps & P & ->). exists (N + 1), (concat (map snd ps)). intros M stack rc more out LR C.
    assert (LT : r < length rc) by (rewrite LR; apply nth_error_Some; rewrite B; discriminate).
    destruct (sequence_runs r nm l (Sequence l) B (or_introl eq_refl) N 0 ps P M stack (bump r 1 rc) more out
      ltac:(rewrite bump_length by exact LT; exact LR) (bump_le r 1 rc M N LT C) (Nat.le_0_l _)) as [n G].
    exists (S n). intro fuel. cbn [Nat.add generate]. rewrite B. rewrite G. rewrite unbump_bump by exact LT. reflexivity.
  - intros r nm l q s B I D (N & cs & RQ). destruct (In_nth_Z l q I) as (c & LC & EC).
    exists (N + 2), (c :: cs). intros M stack rc more out LR C.
    assert (LT : r < length rc) by (rewrite LR; apply nth_error_Some; rewrite B; discriminate).
    assert (C1 : forall i, nth i (bump r 1 rc) 0 + (N + 1) <= M) by (apply bump_le; [exact LT|]; intro i; pose proof (C i); lia).
    assert (FL : filter (fun q => nth q (bump r 1 rc) 0 <? M) l = l).
    { clear I EC LC B. induction l as [|x l IHl]; [reflexivity|]. cbn [filter]. destruct (Nat.ltb_spec (nth x (bump r 1 rc) 0) M); [f_equal; exact IHl|].
      pose proof (C1 x). lia. }
    destruct (RQ M ((r, At 0) :: stack) (bump r 1 rc) more out ltac:(rewrite bump_length by exact LT; exact LR)
      ltac:(intro i; pose proof (C1 i); lia)) as [n G].
    exists (S (n + 1)). intro fuel. cbn [Nat.add generate app]. rewrite B, FL. unfold randrange.
    destruct l as [|x l]; [destruct I|].
    destruct (Z.leb_spec 0 c); [|lia]. destruct (Z.ltb_spec c (Z.of_nat (length (x :: l)))); [|lia]. cbn [andb].
    rewrite EC. rewrite <- Nat.add_assoc. rewrite G. cbn [Nat.add generate]. rewrite B. rewrite unbump_bump by exact LT. reflexivity.
  - intros r nm mn mx q k s B L1 L2 D (N & ps & P & ->).
    exists (N + (k - mn)), (Z.of_nat k :: concat (map snd ps)). intros M stack rc more out LR C.
    assert (LT : r < length rc) by (rewrite LR; apply nth_error_Some; rewrite B; discriminate).
    destruct (repeat_runs r nm mn mx q B N k ps P M stack (bump r (k - mn) rc) more out (k - mn)
      ltac:(rewrite bump_length by exact LT; exact LR) (bump_le r (k - mn) rc M N LT C)) as [n G].
    exists (S n). intro fuel. cbn [Nat.add generate app]. rewrite B. cbv zeta.
    pose proof (C r) as CR.
    set (mx' := match mx with Some m => if mn + (M - nth r rc 0) <? m then mn + (M - nth r rc 0) else m | None => mn + (M - nth r rc 0) end).
    assert (LM : k <= mx').
    { unfold mx'. destruct mx as [m|]; [|lia]. pose proof (L2 m eq_refl). destruct (mn + (M - nth r rc 0) <? m); lia. }
    destruct (Nat.ltb_spec mx' mn); [lia|]. unfold randrange.
    destruct (Z.leb_spec (Z.of_nat mn) (Z.of_nat k)); [|lia]. destruct (Z.ltb_spec (Z.of_nat k) (Z.of_nat mx' + 1)); [|lia]. cbn [andb].
    rewrite Nat2Z.id. rewrite G. rewrite unbump_bump by exact LT. reflexivity.
  - intros r nm q s B D (N & cs & RQ). exists (N + 1), (cs ++ []). intros M stack rc more out LR C.
    assert (LT : r < length rc) by (rewrite LR; apply nth_error_Some; rewrite B; discriminate).
    destruct (sequence_runs r nm [q] (Alias q) B (or_intror (ex_intro _ q (conj eq_refl eq_refl))) N 0 [(s, cs)]
      ltac:(constructor; [exact RQ | constructor]) M stack (bump r 1 rc) more out
      ltac:(rewrite bump_length by exact LT; exact LR) (bump_le r 1 rc M N LT C) (Nat.le_0_l _)) as [n G].
    exists (S n). intro fuel. cbn [Nat.add generate]. rewrite B. cbn [map concat fst snd] in G. rewrite G.
    rewrite unbump_bump by exact LT. rewrite app_nil_r. reflexivity.
  - exists 0, []. split; [constructor | reflexivity].
  - intros q l s t D (N1 & cs & R1) E (N2 & ps & P & ->). exists (N1 + N2), ((s, cs) :: ps). split; [|reflexivity].
    constructor; [eapply runs_more; [|exact R1]; lia | eapply parts_more; [|exact P]; lia].
Qed.
End Rules.

Lemma generate_complete B name s : language B name s ->
  exists least choices, forall maxOptRepeat, least <= maxOptRepeat ->
  exists fuel, GenerateData B name maxOptRepeat fuel choices = Generated s.
Proof.
  intros (r & L & D). destruct (derive_runs _ _ _ D) as (N & cs & RN). exists N, cs. intros M LM.
  destruct (RN M [] (repeat 0 (length (rules B))) [] [] (repeat_length _ _)) as [n G].
  { intro i. rewrite nth_repeat. exact LM. }
  exists (n + 1). unfold GenerateData. rewrite L. rewrite app_nil_r in G. rewrite G. reflexivity.
Qed.
Lemma generate_sound_data B name M fuel cs s : GenerateData B name M fuel cs = Generated s -> language B name s.
Proof.
  unfold GenerateData. destruct (lookup (lowers name) (ids B)) as [r|] eqn:L; [|discriminate]. intro H.
  destruct (generate_sound _ _ _ _ _ _ _ _ H) as (ss & F & ->). inversion F as [|? s ? ss' F1 F2]; subst. inversion F2; subst.
  exists r. split; [exact L|]. cbn. rewrite app_nil_r. unfold frame in F1. cbn [fst snd] in F1.
  destruct (nth_error (rules B) r) as [[nm b]|]; [destruct b; exact F1 | exact F1].
Qed.
