(** Proofs about OdEval.v: texts; rounding of Decimals *)
From Coq Require Import ZArith List Bool QArith Qpower Qabs Lia Lqa.
From Coq Require Floats.SpecFloat.
From Verif Require Import Py Iso OdExpr OdEval OdEvalSpec OdEvalProofs OdEvalProofs2.
Import ListNotations Floats.SpecFloat.
Open Scope Z_scope.
Open Scope list_scope.

(** ** Texts *)
Lemma starts_spec p t : starts p t = true <-> exists v, t = p ++ v.
Proof.
  revert t; induction p as [|a p IH]; intros t; cbn [starts].
  - split; [intros _; exists t; reflexivity|reflexivity].
  - destruct t as [|b t]; [split; [discriminate|intros (v & H); discriminate H]|].
    rewrite andb_true_iff, Z.eqb_eq, IH. split.
    + intros (-> & v & ->). exists v. reflexivity.
    + intros (v & H). injection H as -> ->. split; [reflexivity|exists v; reflexivity].
Qed.
Lemma ends_spec p t : ends p t = true <-> exists u, t = u ++ p.
Proof.
  unfold ends. rewrite starts_spec. split.
  - intros (v & H). exists (rev v). rewrite <- (rev_involutive t), H, rev_app_distr, rev_involutive. reflexivity.
  - intros (u & ->). exists (rev u). apply rev_app_distr.
Qed.
Lemma find_from_spec p t : forall i, 0 <= i ->
  (find_from i p t = -1 /\ forall u v, t <> u ++ p ++ v) \/
  (exists u v, t = u ++ p ++ v /\ find_from i p t = i + Z.of_nat (length u) /\ forall u' v', t = u' ++ p ++ v' -> (length u <= length u')%nat).
Proof.
  induction t as [|c t IH]; intros i Hi; cbn [find_from].
  - destruct (starts p []) eqn:S.
    + apply starts_spec in S as (v & H). right. exists [], v. split; [exact H|]. cbn [length]. split; [lia|intros; lia].
    + left. split; [reflexivity|]. intros u v H. destruct u; [|discriminate H]. assert (X : starts p [] = true) by (apply starts_spec; exists v; exact H). congruence.
  - destruct (starts p (c :: t)) eqn:S.
    + apply starts_spec in S as (v & H). right. exists [], v. split; [exact H|]. cbn [length]. split; [lia|intros; lia].
    + assert (N : forall v, c :: t <> p ++ v) by (intros v H; assert (X : starts p (c :: t) = true) by (apply starts_spec; exists v; exact H); congruence).
      destruct (IH (i + 1) ltac:(lia)) as [[H K]|(u & v & -> & H & K)].
      * left. split; [exact H|]. intros [|x u] v Huv; [exact (N v Huv)|]. injection Huv as _ Huv. exact (K u v Huv).
      * right. exists (c :: u), v. split; [reflexivity|]. cbn [length]. split; [lia|]. intros [|x u'] v' Huv; [destruct (N v' Huv)|]. injection Huv as _ Huv. apply K in Huv. cbn [length]. lia.
Qed.
Lemma find_first p t : first_place p t (find_from 0 p t).
Proof. destruct (find_from_spec p t 0 ltac:(lia)) as [H|(u & v & H & K & M)]; [left; exact H|right; exists u, v; split; [exact H|split; [exact K|exact M]]]. Qed.
Lemma first_place_unique p s i j : first_place p s i -> first_place p s j -> i = j.
Proof.
  intros [[-> H]|(u & v & H & -> & M)] [[-> K]|(u' & v' & K & -> & M')]; [reflexivity|destruct (H _ _ K)|destruct (K _ _ H)|].
  f_equal. apply Nat.le_antisymm; [exact (M _ _ K)|exact (M' _ _ H)].
Qed.
Lemma find_holds p t : (0 <=? find_from 0 p t) = true <-> exists u v, t = u ++ p ++ v.
Proof.
  destruct (find_from_spec p t 0 ltac:(lia)) as [[-> H]|(u & v & H & -> & _)].
  - split; [discriminate|]. intros (u & v & K). destruct (H _ _ K).
  - split; [intros _; exists u, v; exact H|]. intros _. apply Z.leb_le. lia.
Qed.
Lemma replaced_cons p r c s t : (forall v, c :: s <> p ++ v) -> replaced p r s t -> replaced p r (c :: s) (c :: t).
Proof.
  intros N H. revert N. destruct H as [s' H|u v t' F R]; intros N.
  - apply R_none. intros [|x u] v K; [exact (N _ K)|]. injection K as _ K. exact (H _ _ K).
  - apply (R_first p r (c :: u) v t'); [|exact R]. right. exists (c :: u), v. split; [reflexivity|]. split; [reflexivity|].
    intros [|x u'] v' K; [destruct (N _ K)|]. injection K as _ K. cbn [length].
    destruct F as [[F _]|(u2 & v2 & E2 & L & M)]; [lia|]. pose proof (M _ _ K). lia.
Qed.
Lemma replace_loop_spec p r : p <> [] -> forall fuel t, (length t <= fuel)%nat -> replaced p r t (replace_loop fuel p r t).
Proof.
  intros Np. induction fuel as [|f IH]; intros t L; cbn [replace_loop].
  - destruct t; [|cbn in L; lia]. apply R_none. intros u v H. symmetry in H. apply app_eq_nil in H as [_ H]. apply app_eq_nil in H as [H _]. contradiction.
  - destruct (starts p t) eqn:S.
    + apply starts_spec in S as (v & ->). rewrite skipn_app, skipn_all, Nat.sub_diag. cbn [skipn app].
      apply (R_first p r [] v); [right; exists [], v; split; [reflexivity|split; [reflexivity|intros; cbn; lia]]|].
      apply IH. rewrite app_length in L. destruct p; [contradiction|cbn in L; lia].
    + destruct t as [|c t].
      * apply R_none. intros u v H. symmetry in H. apply app_eq_nil in H as [_ H]. apply app_eq_nil in H as [H _]. contradiction.
      * apply replaced_cons; [|apply IH; cbn in L; lia]. intros v H. assert (X : starts p (c :: t) = true) by (apply starts_spec; exists v; exact H). congruence.
Qed.
Lemma replace_spec p r t : p <> [] -> replaced p r t (replace p r t).
Proof. intros H. unfold replace. destruct p; [contradiction|]. apply replace_loop_spec; [exact H|lia]. Qed.
(** the words of the specification leave no choice *)
Lemma replaced_unique p r s t t' : replaced p r s t -> replaced p r s t' -> t = t'.
Proof.
  intros H. revert t'. induction H as [s N|u v t F R IH]; intros t' K.
  - inversion K as [? _ E|u v t F R E]; subst; [reflexivity|]. destruct (N u v eq_refl).
  - inversion K as [? N E|u' v' w F' R' E]; subst; [destruct (N u v eq_refl)|].
    rewrite E in F'. pose proof (first_place_unique _ _ _ _ F F') as L. apply Nat2Z.inj in L.
    assert (u' = u /\ p ++ v' = p ++ v) as [-> D].
    { clear -E L. revert u' L E. induction u as [|a u IHu]; intros [|b u'] L E; cbn in L; try lia; [split; [reflexivity|exact E]|].
      cbn in E. injection E as -> E. destruct (IHu u' ltac:(lia) E) as [-> H]. auto. }
    apply app_inv_head in D as ->. f_equal. f_equal. apply IH. exact R'.
Qed.
Section Strip.
Variable space : Z -> bool.
Lemma lstrip_spec s : exists u, s = u ++ lstrip space s /\ Forall (fun c => space c = true) u /\ forall c w, lstrip space s = c :: w -> space c = false.
Proof.
  induction s as [|c s (u & E & F & G)]; cbn [lstrip].
  - exists []. split; [reflexivity|]. split; [constructor|discriminate].
  - destruct (space c) eqn:S.
    + exists (c :: u). split; [cbn; f_equal; exact E|]. split; [constructor; assumption|exact G].
    + exists []. split; [reflexivity|]. split; [constructor|]. intros d w H. injection H as <- _. exact S.
Qed.
Lemma strip_spec s : trimmed space s (strip space s).
Proof.
  unfold strip. destruct (lstrip_spec s) as (u & E & F & G). set (m := lstrip space s) in *.
  destruct (lstrip_spec (rev m)) as (u' & E' & F' & G'). set (q := lstrip space (rev m)) in *.
  assert (M : m = rev q ++ rev u') by (rewrite <- rev_app_distr, <- E', rev_involutive; reflexivity).
  exists u, (rev u'). split; [rewrite <- M; exact E|]. split; [exact F|]. split; [apply Forall_rev; exact F'|]. split.
  - intros c w H. apply (G c (w ++ rev u')). rewrite M, H. reflexivity.
  - intros c w H. apply (G' c (rev w)). rewrite <- (rev_involutive q), H, rev_app_distr. reflexivity.
Qed.
End Strip.
Lemma slice_from_spec s i : 0 <= i -> slice_from s i = skipn (Z.to_nat i) s.
Proof.
  intros H. unfold slice_from, clip. destruct (Z.ltb_spec i 0); [lia|]. destruct (Z.le_gt_cases i (Z.of_nat (length s))).
  - rewrite Z.min_l by lia. reflexivity.
  - rewrite Z.min_r by lia. rewrite !skipn_all2 by lia. reflexivity.
Qed.
Lemma slice_spec s i n : 0 <= i -> 0 <= n -> slice s i (i + n) = firstn (Z.to_nat n) (skipn (Z.to_nat i) s).
Proof.
  intros Hi Hn. unfold slice, clip. destruct (Z.ltb_spec i 0); [lia|]. destruct (Z.ltb_spec (i + n) 0); [lia|].
  destruct (Z.le_gt_cases i (Z.of_nat (length s))).
  - rewrite (Z.min_l i) by lia. destruct (Z.le_gt_cases (i + n) (Z.of_nat (length s))).
    + rewrite Z.min_l by lia. f_equal. lia.
    + rewrite Z.min_r by lia. rewrite !firstn_all2; [reflexivity|rewrite skipn_length; lia|rewrite skipn_length; lia].
  - rewrite !Z.min_r by lia. rewrite !skipn_all2 by lia. rewrite !firstn_nil. reflexivity.
Qed.

(** ** Rounding *)
Definition rounding := [(below, is_floor); (above, is_ceiling); (half_up, is_round_up)].
Lemma q_ratio n d : 0 < d -> (inject_Z n / inject_Z d * inject_Z d == inject_Z n)%Q.
Proof. intros H. field. intros K. apply (inj_eq d 0) in K. lia. Qed.
Lemma q_lt_z x y d r : 0 < d -> (r * inject_Z d == inject_Z y)%Q -> x * d < y -> (inject_Z x < r)%Q.
Proof. intros H R L. apply Qmult_lt_r with (inject_Z d); [rewrite <- (Zlt_Qlt 0); exact H|]. rewrite R, <- inject_Z_mult, <- Zlt_Qlt. exact L. Qed.
Lemma q_le_z x y d r : 0 < d -> (r * inject_Z d == inject_Z y)%Q -> x * d <= y -> (inject_Z x <= r)%Q.
Proof. intros H R L. apply Qmult_le_r with (inject_Z d); [rewrite <- (Zlt_Qlt 0); exact H|]. rewrite R, <- inject_Z_mult, <- Zle_Qle. exact L. Qed.
Lemma q_gt_z x y d r : 0 < d -> (r * inject_Z d == inject_Z y)%Q -> y < x * d -> (r < inject_Z x)%Q.
Proof. intros H R L. apply Qmult_lt_r with (inject_Z d); [rewrite <- (Zlt_Qlt 0); exact H|]. rewrite R, <- inject_Z_mult, <- Zlt_Qlt. exact L. Qed.
Lemma q_ge_z x y d r : 0 < d -> (r * inject_Z d == inject_Z y)%Q -> y <= x * d -> (r <= inject_Z x)%Q.
Proof. intros H R L. apply Qmult_le_r with (inject_Z d); [rewrite <- (Zlt_Qlt 0); exact H|]. rewrite R, <- inject_Z_mult, <- Zle_Qle. exact L. Qed.
Lemma below_spec n d r : 0 < d -> (r * inject_Z d == inject_Z n)%Q -> is_floor r (below n d).
Proof.
  intros H R. pose proof (Z.div_mod n d ltac:(lia)). pose proof (Z.mod_pos_bound n d H). unfold below.
  split; [eapply q_le_z|eapply q_gt_z]; eauto; nia.
Qed.
Lemma above_spec n d r : 0 < d -> (r * inject_Z d == inject_Z n)%Q -> is_ceiling r (above n d).
Proof.
  intros H R. pose proof (Z.div_mod (- n) d ltac:(lia)). pose proof (Z.mod_pos_bound (- n) d H). unfold above.
  split; [eapply q_lt_z|eapply q_ge_z]; eauto; nia.
Qed.
Lemma half_up_bounds n d : 0 < d -> let k := half_up n d in
  - d <= 2 * (n - k * d) <= d /\ (2 * (n - k * d) = d -> k < 0) /\ (2 * (n - k * d) = - d -> 0 < k).
Proof.
  intros H. unfold half_up. destruct (Z.ltb_spec n 0).
  - pose proof (Z.div_mod (2 * - n + d) (2 * d) ltac:(lia)) as D. pose proof (Z.mod_pos_bound (2 * - n + d) (2 * d) ltac:(lia)).
    set (q := (2 * - n + d) / (2 * d)) in *. set (m := (2 * - n + d) mod (2 * d)) in *. cbn zeta. clearbody q m. split; [nia|]. split; intros; nia.
  - pose proof (Z.div_mod (2 * n + d) (2 * d) ltac:(lia)) as D. pose proof (Z.mod_pos_bound (2 * n + d) (2 * d) ltac:(lia)).
    set (q := (2 * n + d) / (2 * d)) in *. set (m := (2 * n + d) mod (2 * d)) in *. cbn zeta. clearbody q m. split; [nia|]. split; intros; nia.
Qed.
Lemma half_up_spec n d r : 0 < d -> (r * inject_Z d == inject_Z n)%Q -> is_round_up r (half_up n d).
Proof.
  intros H R. destruct (half_up_bounds n d H) as ([A B] & C & D). set (k := half_up n d) in *. unfold is_round_up.
  assert (R2 : ((r - inject_Z k) * inject_Z (2 * d) == inject_Z (2 * (n - k * d)))%Q).
  { unfold Zminus. rewrite !inject_Z_mult, inject_Z_plus, inject_Z_opp, inject_Z_mult. setoid_replace (inject_Z n) with (r * inject_Z d)%Q by (symmetry; exact R). ring. }
  set (x := (r - inject_Z k)%Q) in *. assert (P : (0 < inject_Z (2 * d))%Q) by (rewrite <- (Zlt_Qlt 0); lia).
  assert (HD : ((1 # 2) * inject_Z (2 * d) == inject_Z d)%Q) by (rewrite inject_Z_mult; change (inject_Z 2) with (2 # 1)%Q; ring).
  split; [split|split].
  - apply Qmult_le_r with (inject_Z (2 * d)); [exact P|]. rewrite R2. setoid_replace (- (1 # 2) * inject_Z (2 * d))%Q with (inject_Z (- d)); [rewrite <- Zle_Qle; exact A|]. rewrite inject_Z_opp. rewrite <- HD. ring.
  - apply Qmult_le_r with (inject_Z (2 * d)); [exact P|]. rewrite R2, HD, <- Zle_Qle. exact B.
  - intros K. apply C. apply inj_eq. rewrite <- R2, K. exact HD.
  - intros K. apply D. apply inj_eq. rewrite <- R2, K, inject_Z_opp, <- HD. ring.
Qed.
Lemma dec_ratio a : d_exp a < 0 -> (dec_value a * inject_Z (10 ^ (- d_exp a)) == inject_Z (d_coef a))%Q.
Proof.
  intros H. unfold dec_value. rewrite inject_pow10 by lia. rewrite <- Qmult_assoc, <- Qpower_plus by exact ten_nz.
  replace (d_exp a + - d_exp a) with 0 by lia. change ((10 # 1) ^ 0)%Q with 1%Q. ring.
Qed.
Lemma rounding_spec f P n d r : In (f, P) rounding -> 0 < d -> (r * inject_Z d == inject_Z n)%Q -> P r (f n d).
Proof.
  intros H. cbn in H. destruct H as [H|[H|[H|[]]]]; injection H as <- <-; [apply below_spec|apply above_spec|apply half_up_spec].
Qed.
Lemma rounding_int f (P : Q -> Z -> Prop) r k : In (f, P) rounding -> (r == inject_Z k)%Q -> P r k.
Proof.
  intros H R. assert (L : (inject_Z k < inject_Z (k + 1))%Q) by (rewrite <- Zlt_Qlt; lia). assert (L' : (inject_Z (k - 1) < inject_Z k)%Q) by (rewrite <- Zlt_Qlt; lia).
  cbn in H. destruct H as [H|[H|[H|[]]]]; injection H as <- <-.
  - split; rewrite R; [apply Qle_refl|exact L].
  - split; rewrite R; [exact L'|apply Qle_refl].
  - unfold is_round_up. assert (D : (r - inject_Z k == 0)%Q) by (rewrite R; ring). rewrite D. split; [split; discriminate|]. split; intros K; discriminate K.
Qed.
(** what round, floor and ceiling give for a Decimal *)
Lemma dec_integral_spec f P a : In (f, P) rounding -> exists k, (dec_value (dec_integral f a) == inject_Z k)%Q /\ P (dec_value a) k.
Proof.
  intros H. unfold dec_integral. destruct (Z.leb_spec 0 (d_exp a)) as [G|G].
  - exists (d_coef a * 10 ^ d_exp a). assert (V : (dec_value a == inject_Z (d_coef a * 10 ^ d_exp a))%Q) by (rewrite inject_Z_mult, inject_pow10 by exact G; reflexivity).
    split; [exact V|]. exact (rounding_int f P _ _ H V).
  - exists (f (d_coef a) (10 ^ (- d_exp a))). split; [apply dec_of_int_value|]. apply (rounding_spec f P _ _ _ H); [apply pow10_pos; lia|apply dec_ratio; exact G].
Qed.
Lemma rounding_bound f (P : Q -> Z -> Prop) r k M : In (f, P) rounding -> P r k -> (- inject_Z M <= r <= inject_Z M)%Q -> - M <= k <= M.
Proof.
  intros H K [A B]. assert (E : forall x y, (inject_Z x < inject_Z y)%Q -> x < y) by (intros x y; rewrite <- Zlt_Qlt; auto). rewrite <- inject_Z_opp in A.
  cbn in H. destruct H as [H|[H|[H|[]]]]; injection H as <- <-.
  - destruct K as [K1 K2]. assert (- M < k + 1) by (apply E; eapply Qle_lt_trans; eauto). assert (k <= M) by (rewrite Zle_Qle; eapply Qle_trans; eauto). lia.
  - destruct K as [K1 K2]. assert (k - 1 < M) by (apply E; eapply Qlt_le_trans; eauto). assert (- M <= k) by (rewrite Zle_Qle; eapply Qle_trans; eauto). lia.
  - destruct K as [[K1 K2] _]. assert (- M - 1 < k) by (apply E; unfold Zminus; rewrite inject_Z_plus; change (inject_Z (-(1))) with (-1)%Q; lra).
    assert (k < M + 1) by (apply E; rewrite inject_Z_plus; change (inject_Z 1) with 1%Q; lra). lia.
Qed.
Lemma dec_integral_ok f P a : In (f, P) rounding -> dec_ok a -> dec_ok (dec_integral f a).
Proof.
  intros H K. destruct (dec_integral_spec f P a H) as (k & V & S). pose proof (rounding_bound f P _ _ _ H S K) as B. unfold dec_ok. rewrite V, <- inject_Z_opp, <- !Zle_Qle. exact B.
Qed.
