(** Proofs about OdEval.v: promotion, exact arithmetic *)
From Coq Require Import ZArith List Bool QArith Qpower Qabs Lia Lqa.
From Coq Require Floats.SpecFloat.
From Verif Require Import Py Iso OdExpr OdEval OdEvalSpec.
Import ListNotations Floats.SpecFloat.
Open Scope Z_scope.
Open Scope list_scope.

(** ** Promotion *)
Definition idx (a : edm_type) : option nat :=
  match a with
  | TByte => Some 0%nat | TInt16 => Some 1%nat | TInt32 => Some 2%nat | TInt64 => Some 3%nat | TDecimal => Some 4%nat
  | TSingle => Some 5%nat | TDouble => Some 6%nat | _ => None
  end.
Lemma idx_nth a i : idx a = Some i <-> nth_error tower i = Some a.
Proof.
  split.
  - destruct a; cbn; intros H; try discriminate; injection H as <-; reflexivity.
  - do 7 (destruct i as [|i]; [intros H; injection H as <-; reflexivity|]). cbn. destruct i; discriminate.
Qed.
Lemma wider_idx a b : wider a b <-> exists i j, idx a = Some i /\ idx b = Some j /\ (i < j)%nat.
Proof.
  split.
  - intros (l1 & l2 & l3 & H). exists (length l1), (length l1 + S (length l2))%nat. rewrite !idx_nth, H. split; [|split; [|lia]].
    + rewrite nth_error_app2, Nat.sub_diag by lia. reflexivity.
    + rewrite nth_error_app2 by lia. replace (length l1 + S (length l2) - length l1)%nat with (S (length l2)) by lia. cbn [nth_error].
      rewrite nth_error_app2, Nat.sub_diag by lia. reflexivity.
  - intros (i & j & Ha & Hb & Hij). exists (firstn i tower), (firstn (j - i - 1) (skipn (i + 1) tower)), (skipn (j + 1) tower).
    destruct a; cbn in Ha; try discriminate; injection Ha as <-; destruct b; cbn in Hb; try discriminate; injection Hb as <-; try lia; reflexivity.
Qed.
Lemma promote_joins a b t : PromoteTypes (Some a) (Some b) = Ok (Some t) <-> joins a b t.
Proof.
  unfold joins. rewrite !wider_idx. split.
  - destruct a, b; cbn; intros H; try discriminate; injection H as <-;
    first [left; split; reflexivity | right; left; split; [do 2 eexists; split; [reflexivity|split; [reflexivity|lia]]|reflexivity] | right; right; split; [do 2 eexists; split; [reflexivity|split; [reflexivity|lia]]|reflexivity]].
  - intros [[<- ->]|[[(i & j & Ha & Hb & Hij) ->]|[(i & j & Ha & Hb & Hij) ->]]].
    + destruct a; reflexivity.
    + destruct a; cbn in Ha; try discriminate; injection Ha as <-; destruct b; cbn in Hb; try discriminate; injection Hb as <-; try lia; reflexivity.
    + destruct b; cbn in Ha; try discriminate; injection Ha as <-; destruct a; cbn in Hb; try discriminate; injection Hb as <-; try lia; reflexivity.
Qed.
Lemma promote_fails a b : (forall t, ~ joins a b t) -> PromoteTypes (Some a) (Some b) = Err EvaluationError.
Proof.
  intros H. destruct (PromoteTypes (Some a) (Some b)) as [[t|]|e] eqn:P.
  - apply promote_joins in P. destruct (H t P).
  - destruct a, b; discriminate.
  - destruct a, b; first [discriminate | injection P as <-; reflexivity].
Qed.
Lemma type_eqb_refl t : type_eqb t t = true. Proof. destruct t; reflexivity. Qed.
Lemma type_eqb_eq a b : type_eqb a b = true <-> a = b.
Proof. split; [destruct a, b; first [discriminate | reflexivity]|intros ->; apply type_eqb_refl]. Qed.

(** ** Integers *)
Definition lo (t : edm_type) : Z :=
  match t with TByte => 0 | TSByte => -128 | TInt16 => -32768 | TInt32 => -2147483648 | _ => -9223372036854775808 end.
Definition hi (t : edm_type) : Z :=
  match t with TByte => 255 | TSByte => 127 | TInt16 => 32767 | TInt32 => 2147483647 | _ => 9223372036854775807 end.
Definition integer_t (t : edm_type) : Prop := t = TByte \/ t = TSByte \/ t = TInt16 \/ t = TInt32 \/ t = TInt64.
Lemma in_type_range t n : in_type t n <-> integer_t t /\ lo t <= n <= hi t.
Proof.
  unfold integer_t. split.
  - destruct t; cbn [in_type lo hi]; intros H; try contradiction; (split; [tauto|]); lia.
  - intros [H R]. destruct H as [->|[->|[->|[->| ->]]]]; cbn [in_type lo hi] in *; lia.
Qed.
Lemma set_value_int t n : integer_t t -> set_value t (Some (PInt n)) = if (n <? lo t) || (hi t <? n) then Err ValueError else Ok (Some (PInt n)).
Proof.
  intros H. assert (C : forall l h, set_int l h (PInt n) = if (n <? l) || (h <? n) then Err ValueError else Ok (PInt n)).
  { intros l h. unfold set_int. cbn [num_of num_compare num_int bind].
    assert (E1 : is_c Lt (Some (n ?= l)) = (n <? l)) by (unfold Z.ltb; destruct (n ?= l); reflexivity).
    assert (E2 : is_c Gt (Some (n ?= h)) = (h <? n)) by (rewrite Z.ltb_antisym; unfold Z.leb; destruct (n ?= h); reflexivity).
    rewrite E1, E2. reflexivity. }
  destruct H as [->|[->|[->|[->| ->]]]]; unfold set_value, lo, hi; rewrite C; destruct (_ || _); reflexivity.
Qed.
Lemma set_value_in t n : in_type t n -> set_value t (Some (PInt n)) = Ok (Some (PInt n)).
Proof.
  intros [H R]%in_type_range. rewrite set_value_int by assumption.
  destruct (Z.ltb_spec n (lo t)); [lia|]. destruct (Z.ltb_spec (hi t) n); [lia|]. reflexivity.
Qed.
Lemma set_value_out t n : integer_t t -> ~ in_type t n -> set_value t (Some (PInt n)) = Err ValueError.
Proof.
  intros H R. rewrite in_type_range in R. rewrite set_value_int by assumption.
  destruct (Z.ltb_spec n (lo t)); [reflexivity|]. destruct (Z.ltb_spec (hi t) n); [reflexivity|]. exfalso. apply R. split; [assumption|lia].
Qed.
(** an integer of a type is an integer of any wider integer type *)
Lemma in_wider a t n : in_type a n -> integer_t t -> a = t \/ wider a t -> in_type t n.
Proof.
  intros H I [->|W]; [assumption|]. apply wider_idx in W as (i & j & Ha & Hb & L).
  apply in_type_range in H as [J R]. apply in_type_range. split; [assumption|].
  destruct J as [->|[->|[->|[->| ->]]]], I as [->|[->|[->|[->| ->]]]]; cbn in Ha, Hb; try discriminate; injection Ha as <-; injection Hb as <-; try lia; cbn [lo hi] in *; lia.
Qed.
Lemma joins_l a b t : joins a b t -> a = t \/ wider a t.
Proof. intros [[-> ->]|[[H ->]|[H ->]]]; auto. Qed.
Lemma joins_r a b t : joins a b t -> b = t \/ wider b t.
Proof. intros [[-> ->]|[[H ->]|[H ->]]]; auto. Qed.
Lemma cast_int a t n : in_type a n -> integer_t t -> a = t \/ wider a t -> SimpleCast t (mkV (Some a) (Some (PInt n))) = Ok (mkV (Some t) (Some (PInt n))).
Proof.
  intros H I W. pose proof (in_wider a t n H I W) as K. unfold SimpleCast. cbn [v_type v_val]. destruct (type_eqb a t); [reflexivity|].
  rewrite set_value_in by assumption. reflexivity.
Qed.
Lemma computes_int t : t = TInt32 \/ t = TInt64 -> computes t = true /\ integer_t t /\ is_int t = true.
Proof. unfold integer_t. intros [->| ->]; (split; [reflexivity|split; [tauto|reflexivity]]). Qed.

Section Arith.
Context {E : Type}.
Lemma arithmetic_int op a b t x y z : joins a b t -> t = TInt32 \/ t = TInt64 -> in_type a x -> in_type b y ->
  op (PInt x) (PInt y) = Ok (PInt z) -> arithmetic E op (int_v a x) (int_v b y) = new_value E t (Some (PInt z)).
Proof.
  intros J T Hx Hy Ho. destruct (computes_int t T) as (C & I & _). unfold arithmetic, int_v, PromoteOperands. cbn [v_type].
  rewrite (proj2 (promote_joins a b t) J). cbn [bind]. rewrite C.
  rewrite (cast_int a t x Hx I (joins_l _ _ _ J)), (cast_int b t y Hy I (joins_r _ _ _ J)). cbn [bind v_val]. rewrite Ho. reflexivity.
Qed.
Lemma new_int_in t n : in_type t n -> new_value E t (Some (PInt n)) = Ok (int_v t n).
Proof. intros H. unfold new_value. rewrite set_value_in by assumption. reflexivity. Qed.
Lemma new_int_out t n : integer_t t -> ~ in_type t n -> new_value E t (Some (PInt n)) = Err ValueError.
Proof. intros H R. unfold new_value. rewrite set_value_out by assumption. reflexivity. Qed.
End Arith.

(** ** Decimals *)
Lemma pow10_pos k : 0 <= k -> 0 < 10 ^ k. Proof. intros. apply Z.pow_pos_nonneg; lia. Qed.
Lemma ndigits_loop f n : 0 <= n -> n < 2 ^ (Z.of_nat f + 1) ->
  1 <= digits_loop f n /\ n < 10 ^ digits_loop f n /\ (1 < digits_loop f n -> 10 ^ (digits_loop f n - 1) <= n).
Proof.
  revert n; induction f as [|f IH]; intros n H0 H.
  - cbn [digits_loop]. change (2 ^ (Z.of_nat 0 + 1)) with 2 in H. split; [lia|]. change (10 ^ 1) with 10. split; lia.
  - cbn [digits_loop]. destruct (Z.ltb_spec n 10) as [L|L].
    { split; [lia|]. change (10 ^ 1) with 10. split; lia. }
    assert (K : n / 10 < 2 ^ (Z.of_nat f + 1)).
    { apply Z.div_lt_upper_bound; [lia|]. rewrite Nat2Z.inj_succ in H.
      replace (Z.succ (Z.of_nat f) + 1) with (1 + (Z.of_nat f + 1)) in H by lia. rewrite Z.pow_add_r in H by lia.
      change (2 ^ 1) with 2 in H. pose proof (Z.pow_pos_nonneg 2 (Z.of_nat f + 1) ltac:(lia) ltac:(lia)). lia. }
    destruct (IH (n / 10) (Z.div_pos n 10 H0 ltac:(lia)) K) as (A & B & C).
    set (k := digits_loop f (n / 10)) in *. split; [lia|].
    pose proof (Z.div_mod n 10 ltac:(lia)) as D. pose proof (Z.mod_pos_bound n 10 ltac:(lia)) as M. split.
    + rewrite Z.pow_add_r by lia. change (10 ^ 1) with 10. lia.
    + intros _. replace (1 + k - 1) with k by lia. destruct (Z.eq_dec k 1) as [->|Nk].
      * change (10 ^ 1) with 10. lia.
      * specialize (C ltac:(lia)). replace k with (1 + (k - 1)) by lia. rewrite Z.pow_add_r by lia. change (10 ^ 1) with 10. lia.
Qed.
Lemma ndigits_spec n : 0 <= n -> 1 <= ndigits n /\ n < 10 ^ ndigits n /\ (1 < ndigits n -> 10 ^ (ndigits n - 1) <= n).
Proof.
  intros H. unfold ndigits. apply ndigits_loop; [assumption|]. rewrite Z2Nat.id by apply Z.log2_nonneg.
  destruct (Z.eq_dec n 0) as [->|]; [reflexivity|]. pose proof (Z.log2_spec n ltac:(lia)) as [_ L]. rewrite Z.add_1_r. exact L.
Qed.
Lemma ndigits_le n k : 0 <= n -> 1 <= k -> (ndigits n <= k <-> n < 10 ^ k).
Proof.
  intros H Hk. destruct (ndigits_spec n H) as (A & B & C). split; intros L.
  - pose proof (Z.pow_le_mono_r 10 (ndigits n) k ltac:(lia) ltac:(lia)). lia.
  - destruct (Z.le_gt_cases (ndigits n) k) as [|G]; [assumption|]. specialize (C ltac:(lia)).
    pose proof (Z.pow_le_mono_r 10 k (ndigits n - 1) ltac:(lia) ltac:(lia)). lia.
Qed.
Lemma dec_fix_small a : Z.abs (d_coef a) < 10 ^ 28 -> dec_fix a = a.
Proof.
  intros H. unfold dec_fix. destruct (Z.leb_spec (ndigits (Z.abs (d_coef a))) dec_prec) as [|G]; [reflexivity|].
  pose proof (proj2 (ndigits_le (Z.abs (d_coef a)) 28 ltac:(lia) ltac:(lia)) H). unfold dec_prec in G. lia.
Qed.
(** the nearest integer *)
Lemma half_even_near n d : 0 < d -> 2 * Z.abs (half_even n d * d - n) <= d.
Proof.
  intros H. unfold half_even. pose proof (Z.div_mod n d ltac:(lia)) as D. pose proof (Z.mod_pos_bound n d H) as M.
  destruct (Z.compare_spec (2 * (n mod d)) d); [destruct (Z.even (n / d))| |]; nia.
Qed.

Lemma ten_nz : ~ (10 # 1 == 0)%Q. Proof. intros H. discriminate H. Qed.
Lemma Qpow_pos (k : Z) : (0 < (10 # 1) ^ k)%Q.
Proof. apply Qpower_0_lt. reflexivity. Qed.
Lemma inject_pow10 k : 0 <= k -> (inject_Z (10 ^ k) == (10 # 1) ^ k)%Q.
Proof. intros H. change (10 # 1)%Q with (inject_Z 10). rewrite <- Zpower_Qpower by assumption. reflexivity. Qed.
Lemma at_exp_value a x : x <= d_exp a -> (inject_Z (at_exp a x) * (10 # 1) ^ x == dec_value a)%Q.
Proof.
  intros H. unfold at_exp, dec_value. rewrite inject_Z_mult, inject_pow10 by lia. rewrite <- Qmult_assoc, <- Qpower_plus by exact ten_nz.
  replace (d_exp a - x + x) with (d_exp a) by lia. reflexivity.
Qed.
Lemma dec_compare_value a b :
  match dec_compare a b with Lt => (dec_value a < dec_value b)%Q | Eq => (dec_value a == dec_value b)%Q | Gt => (dec_value b < dec_value a)%Q end.
Proof.
  unfold dec_compare. set (x := Z.min (d_exp a) (d_exp b)).
  pose proof (at_exp_value a x ltac:(lia)) as A. pose proof (at_exp_value b x ltac:(lia)) as B.
  destruct (Z.compare_spec (at_exp a x) (at_exp b x)) as [H|H|H].
  - rewrite <- A, <- B, H. reflexivity.
  - rewrite <- A, <- B. apply Qmult_lt_compat_r; [apply Qpow_pos|]. rewrite <- Zlt_Qlt. exact H.
  - rewrite <- A, <- B. apply Qmult_lt_compat_r; [apply Qpow_pos|]. rewrite <- Zlt_Qlt. exact H.
Qed.
Lemma dec_compare_is a b c : dec_compare a b = c <->
  match c with Lt => (dec_value a < dec_value b)%Q | Eq => (dec_value a == dec_value b)%Q | Gt => (dec_value b < dec_value a)%Q end.
Proof.
  pose proof (dec_compare_value a b) as H. split; [intros <-; exact H|].
  destruct (dec_compare a b), c; intros K; try reflexivity; exfalso; lra.
Qed.
Lemma unit28 : (inject_Z (2 * 10 ^ 27) * ((5 # 1) * (10 # 1) ^ (-28)) == 1)%Q.
Proof. vm_compute. reflexivity. Qed.
Lemma unit28_pos : (0 <= (5 # 1) * (10 # 1) ^ (-28))%Q.
Proof. apply Qmult_le_0_compat; [discriminate|apply Qlt_le_weak, Qpow_pos]. Qed.
(** the value of a number that _fix rounds *)
Lemma dec_fix_form a (n := ndigits (Z.abs (d_coef a))) (k := n - 28) (q := half_even (Z.abs (d_coef a)) (10 ^ k)) : 28 < n ->
  (dec_value (dec_fix a) == inject_Z (signed (d_coef a <? 0)%Z q) * (10 # 1) ^ (d_exp a + k))%Q.
Proof.
  intros G. unfold dec_fix. fold n. unfold dec_prec. fold k. fold q. destruct (Z.leb_spec n 28) as [|_]; [lia|].
  set (c := d_coef a) in *. destruct (ndigits_spec (Z.abs c) ltac:(lia)) as (_ & U & L). fold n in U, L. specialize (L ltac:(lia)).
  pose proof (half_even_near (Z.abs c) (10 ^ k) (pow10_pos k ltac:(lia))) as N. fold q in N.
  destruct (Z.leb_spec (ndigits q) 28) as [|Gq]; [reflexivity|]. unfold dec_value. cbn [d_coef d_exp].
  assert (Hq : q = 10 ^ 28).
  { assert (Q0 : 0 <= q). { pose proof (pow10_pos k ltac:(lia)). nia. }
    pose proof (ndigits_le q 28 Q0 ltac:(lia)) as I. assert (A : 10 ^ 28 <= q) by (destruct (Z.le_gt_cases (10 ^ 28) q); [assumption|]; exfalso; apply (proj2 I) in H; lia).
    assert (U2 : 10 ^ n = 10 ^ 28 * 10 ^ k) by (rewrite <- Z.pow_add_r by lia; f_equal; lia).
    pose proof (pow10_pos k ltac:(lia)). destruct (Z.le_gt_cases q (10 ^ 28)) as [|B]; [lia|]. exfalso.
    assert (10 ^ 28 * 10 ^ k + 10 ^ k <= q * 10 ^ k) by nia. lia. }
  rewrite Hq. change (10 ^ 28 / 10) with (10 ^ 27). rewrite (Qpower_plus _ (d_exp a + k) 1 ten_nz).
  destruct (c <? 0); unfold signed; change ((10 # 1) ^ 1)%Q with (10 # 1)%Q.
  - change (inject_Z (- 10 ^ 28)) with (inject_Z (- 10 ^ 27) * (10 # 1))%Q. ring.
  - change (inject_Z (10 ^ 28)) with (inject_Z (10 ^ 27) * (10 # 1))%Q. ring.
Qed.
(** _fix changes a number by no more than half a unit of the 28th digit *)
Lemma dec_fix_near a : (Qabs (dec_value (dec_fix a) - dec_value a) <= (5 # 1) * (10 # 1) ^ (-28) * Qabs (dec_value a))%Q.
Proof.
  set (c := d_coef a). set (n := ndigits (Z.abs c)).
  assert (Z0 : (Qabs (dec_value a - dec_value a) <= (5 # 1) * (10 # 1) ^ (-28) * Qabs (dec_value a))%Q).
  { setoid_replace (dec_value a - dec_value a)%Q with 0%Q by ring. cbn [Qabs Z.abs]. apply Qmult_le_0_compat; [exact unit28_pos|apply Qabs_nonneg]. }
  destruct (Z.leb_spec n 28) as [G|G].
  { replace (dec_fix a) with a; [exact Z0|]. unfold dec_fix. fold c. fold n. unfold dec_prec. destruct (Z.leb_spec n 28); [reflexivity|lia]. }
  clear Z0. rewrite (dec_fix_form a G). fold c. fold n. set (k := n - 28). set (q := half_even (Z.abs c) (10 ^ k)).
  destruct (ndigits_spec (Z.abs c) ltac:(lia)) as (_ & U & L). fold n in U, L. specialize (L ltac:(lia)).
  pose proof (half_even_near (Z.abs c) (10 ^ k) (pow10_pos k ltac:(lia))) as N. fold q in N.
  (* compare with c * 10^exp *)
  unfold dec_value. fold c. rewrite (Qpower_plus _ (d_exp a) k ten_nz), <- (inject_pow10 k) by lia.
  set (P := ((10 # 1) ^ d_exp a)%Q). assert (HP : (0 < P)%Q) by apply Qpow_pos.
  setoid_replace (inject_Z (signed (c <? 0) q) * (P * inject_Z (10 ^ k)) - inject_Z c * P)%Q with (inject_Z (signed (c <? 0) q * 10 ^ k - c) * P)%Q
    by (unfold Zminus; rewrite inject_Z_plus, inject_Z_mult, inject_Z_opp; ring).
  rewrite !Qabs_Qmult. rewrite (Qabs_pos P) by (apply Qlt_le_weak; exact HP). rewrite Qmult_assoc. apply Qmult_le_compat_r; [|apply Qlt_le_weak; exact HP].
  change (Qabs (inject_Z (signed (c <? 0) q * 10 ^ k - c))) with (inject_Z (Z.abs (signed (c <? 0) q * 10 ^ k - c))).
  change (Qabs (inject_Z c)) with (inject_Z (Z.abs c)).
  assert (S : Z.abs (signed (c <? 0) q * 10 ^ k - c) = Z.abs (q * 10 ^ k - Z.abs c)).
  { unfold signed. destruct (Z.ltb_spec c 0); [|rewrite (Z.abs_eq c) by lia; reflexivity].
    rewrite (Z.abs_neq c) by lia. rewrite <- (Z.abs_opp (q * 10 ^ k - - c)). f_equal. ring. }
  rewrite S. clear S.
  assert (F : Z.abs (q * 10 ^ k - Z.abs c) * (2 * 10 ^ 27) <= Z.abs c).
  { assert (10 ^ (n - 1) = 10 ^ 27 * 10 ^ k) by (rewrite <- Z.pow_add_r by lia; f_equal; lia). lia. }
  apply Qle_trans with (inject_Z (Z.abs (q * 10 ^ k - Z.abs c) * (2 * 10 ^ 27)) * ((5 # 1) * (10 # 1) ^ (-28)))%Q.
  - rewrite inject_Z_mult. set (w := inject_Z (Z.abs (q * 10 ^ k - Z.abs c))). rewrite <- Qmult_assoc.
    rewrite unit28, Qmult_1_r. apply Qle_refl.
  - rewrite (Qmult_comm _ (inject_Z (Z.abs c))). apply Qmult_le_compat_r; [rewrite <- Zle_Qle; exact F|exact unit28_pos].
Qed.

(** a number that can be written with 28 digits is not changed *)
Lemma inject_Z_cancel x y (P : Q) : (0 < P)%Q -> (inject_Z x * P == inject_Z y * P)%Q -> x = y.
Proof. intros H K. apply Qmult_inj_r in K; [|intros Z; rewrite Z in H; discriminate H]. apply inject_Z_injective. exact K. Qed.
Lemma dec_fix_exact a m e : (dec_value a == inject_Z m * (10 # 1) ^ e)%Q -> Z.abs m < 10 ^ 28 -> (dec_value (dec_fix a) == dec_value a)%Q.
Proof.
  intros V Hm. set (c := d_coef a). set (n := ndigits (Z.abs c)). destruct (Z.leb_spec n 28) as [G|G].
  { replace (dec_fix a) with a; [reflexivity|]. unfold dec_fix. fold c. fold n. unfold dec_prec. destruct (Z.leb_spec n 28); [reflexivity|lia]. }
  destruct (ndigits_spec (Z.abs c) ltac:(lia)) as (_ & U & L). fold n in U, L. specialize (L ltac:(lia)).
  rewrite (dec_fix_form a G). fold c. fold n. set (k := n - 28). unfold dec_value in *. fold c in V. fold c.
  assert (T : 10 ^ (n - 1) = 10 ^ 27 * 10 ^ k) by (rewrite <- Z.pow_add_r by lia; f_equal; lia).
  destruct (Z.le_gt_cases (d_exp a) e) as [H|H].
  - assert (C : c = m * 10 ^ (e - d_exp a)).
    { apply (inject_Z_cancel _ _ ((10 # 1) ^ d_exp a) (Qpow_pos _)). rewrite V, inject_Z_mult, inject_pow10 by lia.
      rewrite <- Qmult_assoc, <- (Qpower_plus _ _ _ ten_nz). replace (e - d_exp a + d_exp a) with e by lia. reflexivity. }
    assert (K : k <= e - d_exp a).
    { destruct (Z.le_gt_cases k (e - d_exp a)) as [|B]; [assumption|]. exfalso.
      assert (P : 10 ^ k = 10 ^ (k - 1 - (e - d_exp a)) * 10 ^ (e - d_exp a) * 10).
      { rewrite <- Z.pow_add_r by lia. replace k with (Z.succ (k - 1 - (e - d_exp a) + (e - d_exp a))) at 1 by lia. rewrite Z.pow_succ_r by lia. ring. }
      pose proof (pow10_pos (k - 1 - (e - d_exp a)) ltac:(lia)). pose proof (pow10_pos (e - d_exp a) ltac:(lia)).
      assert (A : Z.abs c = Z.abs m * 10 ^ (e - d_exp a)) by (rewrite C, Z.abs_mul, (Z.abs_eq (10 ^ _)) by lia; reflexivity).
      assert (10 ^ 28 * 10 ^ (e - d_exp a) <= Z.abs c).
      { etransitivity; [|exact L]. rewrite T, P. change (10 ^ 28) with (10 ^ 27 * 10). nia. }
      nia. }
    set (M := m * 10 ^ (e - d_exp a - k)). assert (C2 : c = M * 10 ^ k).
    { unfold M. rewrite <- Z.mul_assoc, <- Z.pow_add_r by lia. rewrite C. do 2 f_equal. lia. }
    pose proof (pow10_pos k ltac:(lia)) as Pk.
    assert (Q1 : half_even (Z.abs c) (10 ^ k) = Z.abs M).
    { rewrite C2, Z.abs_mul, (Z.abs_eq (10 ^ k)) by lia. unfold half_even. rewrite Z.mod_mul, Z.div_mul by lia.
      destruct (Z.compare_spec (2 * 0) (10 ^ k)); [lia|reflexivity|lia]. }
    rewrite Q1. assert (S : signed (c <? 0) (Z.abs M) = M).
    { unfold signed. destruct (Z.ltb_spec c 0); [rewrite Z.abs_neq by nia; lia|rewrite Z.abs_eq by nia; reflexivity]. }
    rewrite S, C2, inject_Z_mult, inject_pow10 by lia. rewrite <- Qmult_assoc, <- (Qpower_plus _ _ _ ten_nz). rewrite (Z.add_comm k). reflexivity.
  - exfalso. assert (C : c * 10 ^ (d_exp a - e) = m).
    { apply (inject_Z_cancel _ _ ((10 # 1) ^ e) (Qpow_pos _)). rewrite <- V, inject_Z_mult, inject_pow10 by lia.
      rewrite <- Qmult_assoc, <- (Qpower_plus _ _ _ ten_nz). replace (d_exp a - e + e) with (d_exp a) by lia. reflexivity. }
    pose proof (pow10_pos (d_exp a - e) ltac:(lia)). assert (Z.abs c <= Z.abs m) by (rewrite <- C, Z.abs_mul; nia).
    pose proof (Z.pow_le_mono_r 10 28 (n - 1) ltac:(lia) ltac:(lia)). lia.
Qed.

(** ** Sums, differences and products *)
Lemma fix_nearly a r : (dec_value a == r)%Q -> nearly unit_28 (dec_fix a) r.
Proof.
  intros H. split.
  - rewrite <- H. apply dec_fix_near.
  - intros m e V B. rewrite (dec_fix_exact a m e); [exact H| |exact B]. rewrite H. exact V.
Qed.
Lemma dec_add_nearly a b : nearly unit_28 (dec_add a b) (dec_value a + dec_value b).
Proof.
  unfold dec_add. set (x := Z.min (d_exp a) (d_exp b)). apply fix_nearly.
  rewrite <- (at_exp_value a x), <- (at_exp_value b x) by lia. unfold dec_value. cbn [d_coef d_exp]. rewrite inject_Z_plus. ring.
Qed.
Lemma dec_opp_value b : (dec_value (mkDec (- d_coef b) (d_exp b)) == - dec_value b)%Q.
Proof. unfold dec_value. cbn [d_coef d_exp]. rewrite inject_Z_opp. ring. Qed.
Lemma nearly_eq u d r r' : (r == r')%Q -> nearly u d r -> nearly u d r'.
Proof.
  intros H [A B]. split; [rewrite <- H; exact A|]. intros m e V K. rewrite (B m e); [exact H| |exact K]. rewrite H. exact V.
Qed.
Lemma dec_sub_nearly a b : nearly unit_28 (dec_sub a b) (dec_value a - dec_value b).
Proof. unfold dec_sub. eapply nearly_eq; [|apply dec_add_nearly]. rewrite dec_opp_value. ring. Qed.
Lemma dec_mul_nearly a b : nearly unit_28 (dec_mul a b) (dec_value a * dec_value b).
Proof.
  unfold dec_mul. apply fix_nearly. unfold dec_value. cbn [d_coef d_exp]. rewrite inject_Z_mult, (Qpower_plus _ _ _ ten_nz). ring.
Qed.
