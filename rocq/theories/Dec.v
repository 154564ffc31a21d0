(** Decimal notation of natural numbers: facts about [fmt] (Python's [str(n)], ["%i"%n]
    for n >= 0) used by several modules. *)
From Verif Require Import Py Iso.
Ltac Zify.zify_convert_to_euclidean_division_equations_flag ::= constr:(true).

Definition is_dec (c : Z) : Prop := 48 <= c <= 57.
(** The number written by a string of decimal digits *)
Definition dval (s : str) : Z := fold_left (fun v c => v * 10 + (c - 48)) s 0.
(** [str(n)] for any integer *)
Definition pystr (n : Z) : str := if n <? 0 then 45 :: fmt (- n) else fmt n.

Lemma dec_fuel_acc f : forall n acc, dec_fuel f n acc = dec_fuel f n [] ++ acc.
Proof.
  induction f as [|f IH]; intros n acc; [reflexivity|]. cbn [dec_fuel].
  destruct (n <? 10); [reflexivity|]. rewrite IH, (IH _ [_]), <- app_assoc. reflexivity.
Qed.

Lemma dec_fuel_digits f : forall n, 0 <= n -> Forall is_dec (dec_fuel f n []).
Proof.
  induction f as [|f IH]; intros n Hn; [constructor|]. cbn [dec_fuel].
  destruct (n <? 10) eqn:E.
  - constructor; [unfold is_dec, digit; lia|constructor].
  - rewrite dec_fuel_acc. apply Forall_app. split; [apply IH; lia|].
    constructor; [unfold is_dec, digit; lia|constructor].
Qed.

Lemma fmt_digits n : 0 <= n -> Forall is_dec (fmt n).
Proof. apply dec_fuel_digits. Qed.

Lemma fold_dval s : forall v, fold_left (fun v c => v * 10 + (c - 48)) s v
  = v * 10 ^ Z.of_nat (length s) + dval s.
Proof.
  unfold dval. induction s as [|c s IH]; intros v; cbn [fold_left length]; [lia|].
  rewrite IH, (IH (0 * 10 + _)). rewrite Nat2Z.inj_succ, Z.pow_succ_r by lia. lia.
Qed.

Lemma dval_app s t : dval (s ++ t) = dval s * 10 ^ Z.of_nat (length t) + dval t.
Proof. unfold dval at 1. rewrite fold_left_app. apply fold_dval. Qed.

Lemma dval_snoc s c : dval (s ++ [c]) = dval s * 10 + (c - 48).
Proof. rewrite dval_app. unfold dval at 2. cbn [fold_left length]. change (10 ^ Z.of_nat 1) with 10. lia. Qed.

Lemma dec_fuel_val f : forall n, 0 <= n < 2 ^ Z.of_nat f -> f <> O -> dval (dec_fuel f n []) = n.
Proof.
  induction f as [|f IH]; intros n Hn Hf; [congruence|]. cbn [dec_fuel].
  destruct (n <? 10) eqn:E.
  - unfold dval, digit; cbn [fold_left]. lia.
  - rewrite dec_fuel_acc, dval_snoc.
    assert (0 <= n / 10 < 2 ^ Z.of_nat f) as Hn'.
    { rewrite Nat2Z.inj_succ, Z.pow_succ_r in Hn by lia. lia. }
    destruct f as [|f]; [change (2 ^ Z.of_nat 0) with 1 in Hn'; lia|].
    rewrite IH by (assumption || congruence). unfold digit. lia.
Qed.

Lemma dval_fmt n : 0 <= n -> dval (fmt n) = n.
Proof.
  intros Hn. unfold fmt. apply dec_fuel_val; [|congruence]. split; [lia|].
  rewrite Nat2Z.inj_succ, Z2Nat.id by apply Z.log2_nonneg.
  destruct (Z.eq_dec n 0) as [->|]; [reflexivity|]. apply Z.log2_spec. lia.
Qed.

Lemma fmt_inj n m : 0 <= n -> 0 <= m -> fmt n = fmt m -> n = m.
Proof. intros Hn Hm E. rewrite <- (dval_fmt n Hn), E. apply dval_fmt, Hm. Qed.

Lemma fmt_cons n : exists a s, fmt n = a :: s.
Proof.
  unfold fmt. cbn [dec_fuel]. destruct (n <? 10); [eauto|].
  rewrite dec_fuel_acc. destruct (dec_fuel _ (n / 10) []); cbn [app]; eauto.
Qed.

Lemma fmt_not_nil n : fmt n <> [].
Proof. destruct (fmt_cons n) as (a & s & ->). discriminate. Qed.

Lemma dval_nonneg s : Forall is_dec s -> 0 <= dval s.
Proof.
  induction s as [|c s IH] using rev_ind; intros H; [unfold dval; cbn; lia|].
  apply Forall_app in H as [H1 H2]. inversion_clear H2. rewrite dval_snoc. unfold is_dec in *.
  specialize (IH H1). lia.
Qed.

Lemma pystr_inj n m : pystr n = pystr m -> n = m.
Proof.
  unfold pystr. destruct (n <? 0) eqn:En, (m <? 0) eqn:Em; intros E.
  - injection E as E. apply fmt_inj in E; lia.
  - destruct (fmt_cons m) as (a & s & F). pose proof (fmt_digits m ltac:(lia)) as D.
    rewrite F in *. injection E as <- _. inversion_clear D. unfold is_dec in *. lia.
  - destruct (fmt_cons n) as (a & s & F). pose proof (fmt_digits n ltac:(lia)) as D.
    rewrite F in *. injection E as -> _. inversion_clear D. unfold is_dec in *. lia.
  - apply fmt_inj in E; lia.
Qed.

(** The first digit of a positive number is not zero. *)
Lemma dec_fuel_head f : forall n, 0 < n < 2 ^ Z.of_nat f -> f <> O ->
  exists a s, dec_fuel f n [] = a :: s /\ a <> 48.
Proof.
  induction f as [|f IH]; intros n Hn Hf; [congruence|]. cbn [dec_fuel].
  destruct (n <? 10) eqn:E.
  - exists (digit n), []. split; [reflexivity|unfold digit; lia].
  - assert (0 < n / 10 < 2 ^ Z.of_nat f) as Hn'.
    { rewrite Nat2Z.inj_succ, Z.pow_succ_r in Hn by lia. lia. }
    destruct f as [|f]; [change (2 ^ Z.of_nat 0) with 1 in Hn'; lia|].
    destruct (IH _ Hn' ltac:(congruence)) as (a & s & F & Ha).
    rewrite dec_fuel_acc, F. exists a. eexists. split; [reflexivity|exact Ha].
Qed.

Lemma fmt_head n : 0 < n -> exists a s, fmt n = a :: s /\ a <> 48.
Proof.
  intros Hn. unfold fmt. apply dec_fuel_head; [|congruence]. split; [lia|].
  rewrite Nat2Z.inj_succ, Z2Nat.id by apply Z.log2_nonneg. apply Z.log2_spec. lia.
Qed.
