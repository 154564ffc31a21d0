(** Proofs about escaping, character classes and white space. *)
From Verif Require Import Py Uri UriSpec UriProofs CharClass CharClassSpec CharClassProofs XmlChars.
From Verif Require XmlCharsSpec.
Import XmlCharsSpec.

Lemma mem_In c s : mem c s = true <-> In c s.
Proof.
  unfold mem. rewrite existsb_exists. split.
  - intros (x & Hx & E). apply Z.eqb_eq in E. now subst.
  - intros H. exists c. split; [exact H|apply Z.eqb_refl].
Qed.

(** ** Hexadecimal numbers *)
Lemma hexdigit_hex n : 0 <= n < 16 -> hex_digit (hexdigit n) /\ hex_of_digit (hexdigit n) = n.
Proof.
  intros H. unfold hexdigit, hex_digit, hex_of_digit.
  destruct (n <? 10) eqn:E.
  - replace (48 + n <=? 57) with true by (symmetry; lia). lia.
  - replace (65 + (n - 10) <=? 57) with false by (symmetry; lia).
    replace (65 + (n - 10) <=? 70) with true by (symmetry; lia). lia.
Qed.

Lemma hex_fuel_acc f : forall n acc, hex_fuel f n acc = hex_fuel f n [] ++ acc.
Proof.
  induction f as [|f IH]; intros n acc; [reflexivity|]. cbn [hex_fuel].
  destruct (n <? 16); [reflexivity|]. rewrite IH, (IH (n / 16) [hexdigit (n mod 16)]), <- app_assoc. reflexivity.
Qed.

Lemma hex_number_snoc s c : hex_number (s ++ [c]) = hex_number s * 16 + hex_of_digit c.
Proof. unfold hex_number. rewrite fold_left_app. reflexivity. Qed.

Lemma hex_fuel_spec f : forall n, 0 <= n < 2 ^ Z.of_nat f -> f <> O ->
  Forall hex_digit (hex_fuel f n []) /\ hex_number (hex_fuel f n []) = n /\ hex_fuel f n [] <> [].
Proof.
  induction f as [|f IH]; intros n Hn Hf; [congruence|]. cbn [hex_fuel].
  destruct (n <? 16) eqn:E.
  - destruct (hexdigit_hex n) as [H1 H2]; [lia|]. split; [now constructor|]. split; [|discriminate].
    unfold hex_number. cbn. rewrite H2. reflexivity.
  - assert (H16 : 0 <= n mod 16 < 16) by (apply Z.mod_pos_bound; lia).
    destruct (hexdigit_hex (n mod 16) H16) as [H1 H2]. rewrite hex_fuel_acc.
    assert (Hs : 2 ^ Z.of_nat (S f) = 2 * 2 ^ Z.of_nat f) by (rewrite Nat2Z.inj_succ, Z.pow_succ_r; lia).
    destruct (IH (n / 16)) as (H3 & H4 & H5).
    + split; [apply Z.div_pos; lia|]. apply Z.div_lt_upper_bound; lia.
    + intros ->. cbn in Hn. lia.
    + split; [apply Forall_app; split; [exact H3|now constructor]|]. split.
      * rewrite hex_number_snoc, H4, H2. pose proof (Z.div_mod n 16). lia.
      * destruct (hex_fuel f (n / 16) []); [congruence|discriminate].
Qed.

Lemma hex_digits_spec n : 0 <= n ->
  Forall hex_digit (hex_digits n) /\ hex_number (hex_digits n) = n /\ hex_digits n <> [].
Proof.
  intros Hn. apply hex_fuel_spec; [|discriminate]. split; [exact Hn|].
  rewrite Nat2Z.inj_succ, Z2Nat.id by apply Z.log2_nonneg.
  destruct (Z.eq_dec n 0) as [->|Hz]; [cbn; lia|]. apply Z.log2_spec. lia.
Qed.

Lemma hex_number_zeros k s : hex_number (repeat 48 k ++ s) = hex_number s.
Proof.
  induction k as [|k IH]; [reflexivity|]. cbn [repeat app]. unfold hex_number in *. cbn [fold_left].
  replace (0 * 16 + hex_of_digit 48) with 0 by reflexivity. exact IH.
Qed.

Lemma fmt_X_spec w n : 0 <= n ->
  Forall hex_digit (fmt_X w n) /\ hex_number (fmt_X w n) = n /\ fmt_X w n <> [].
Proof.
  intros Hn. destruct (hex_digits_spec n Hn) as (H1 & H2 & H3). unfold fmt_X. repeat split.
  - apply Forall_app. split; [|exact H1]. apply Forall_forall. intros x Hx. apply repeat_spec in Hx. subst.
    left. lia.
  - now rewrite hex_number_zeros.
  - destruct (hex_digits n); [congruence|]. destruct (repeat 48 _); discriminate.
Qed.

Lemma ref_X w n : 0 <= n -> reference (lit "&#x" ++ fmt_X w n ++ lit ";") n.
Proof.
  intros Hn. destruct (fmt_X_spec w n Hn) as (H1 & H2 & H3).
  rewrite <- H2 at 2. now constructor.
Qed.

Lemma ref_D : reference (lit "&#xD;") 13.
Proof.
  apply (ref_hex [68]); [discriminate|]. apply Forall_cons; [right; left; lia|apply Forall_nil].
Qed.
Lemma ref_22 : reference (lit "&#x22;") 34.
Proof.
  apply (ref_hex [50; 50]); [discriminate|].
  apply Forall_cons; [left; lia|]. apply Forall_cons; [left; lia|apply Forall_nil].
Qed.
Lemma ref_27 : reference (lit "&#x27;") 39.
Proof.
  apply (ref_hex [50; 55]); [discriminate|].
  apply Forall_cons; [left; lia|]. apply Forall_cons; [left; lia|apply Forall_nil].
Qed.

(** ** Reading is unambiguous *)
Lemma ref_shape r c : reference r c -> exists b, r = 38 :: b ++ [59] /\ ~ In 59 b /\ b <> [].
Proof.
  intros H. destruct H as [| | | | |ds Hd HF|ds Hd HF].
  - exists (lit "amp"). cbn. intuition discriminate.
  - exists (lit "lt"). cbn. intuition discriminate.
  - exists (lit "gt"). cbn. intuition discriminate.
  - exists (lit "apos"). cbn. intuition discriminate.
  - exists (lit "quot"). cbn. intuition discriminate.
  - exists (lit "#x" ++ ds). split; [reflexivity|]. split; [|discriminate].
    rewrite in_app_iff. intros [H|H]; [cbn in H; intuition discriminate|].
    rewrite Forall_forall in HF. apply HF in H. unfold hex_digit in H. lia.
  - exists (lit "#" ++ ds). split; [reflexivity|]. split; [|discriminate].
    rewrite in_app_iff. intros [H|H]; [cbn in H; intuition discriminate|].
    rewrite Forall_forall in HF. apply HF in H. unfold dec_digit in H. lia.
Qed.

Lemma cut_59 b : forall s b' s', ~ In 59 b -> ~ In 59 b' -> b ++ 59 :: s = b' ++ 59 :: s' -> b = b' /\ s = s'.
Proof.
  induction b as [|x b IH]; intros s b' s' H1 H2 E; destruct b' as [|y b']; cbn in E.
  - injection E as ->. now split.
  - injection E as <- _. exfalso. apply H2. now left.
  - injection E as -> _. exfalso. apply H1. now left.
  - injection E as -> E. apply IH in E as [-> ->]; [now split| |]; cbn in *; tauto.
Qed.

Lemma ref_prefix r c s r' c' s' : reference r c -> reference r' c' -> r ++ s = r' ++ s' -> r = r' /\ s = s'.
Proof.
  intros H H' E. apply ref_shape in H as (b & -> & Hb & _). apply ref_shape in H' as (b' & -> & Hb' & _).
  cbn in E. injection E as E. rewrite <- !app_assoc in E. cbn in E.
  apply cut_59 in E as [-> ->]; [now split|exact Hb|exact Hb'].
Qed.

Lemma ref_fun r c : reference r c -> forall c', reference r c' -> c = c'.
Proof.
  assert (G : forall r c, reference r c -> forall r' c', reference r' c' -> r = r' -> c = c').
  { intros r1 c1 H r2 c2 H' E.
    destruct H as [| | | | |ds Hd HF|ds Hd HF]; destruct H' as [| | | | |ds' Hd' HF'|ds' Hd' HF'];
      try reflexivity; try discriminate E; cbn in E.
    - injection E as E. apply app_inj_tail in E as [-> _]. reflexivity.
    - exfalso. destruct ds' as [|x ds']; [congruence|]. cbn in E. injection E as <- E.
      apply Forall_cons_iff in HF' as [HF' _]. unfold dec_digit in HF'. lia.
    - exfalso. destruct ds as [|x ds]; [congruence|]. cbn in E. injection E as -> E.
      apply Forall_cons_iff in HF as [HF _]. unfold dec_digit in HF. lia.
    - injection E as E. apply app_inj_tail in E as [-> _]. reflexivity. }
  intros H c' H'. exact (G r c H r c' H' eq_refl).
Qed.

Lemma reads_text_fun s t : reads_text s t -> forall t', reads_text s t' -> t = t'.
Proof.
  induction 1 as [|c s t H1 H2 H3 H IH|r c s t Hr H IH]; intros t' H'.
  - inversion H' as [| |r c s t Hr _ E]; [reflexivity|].
    apply ref_shape in Hr as (b & -> & _). discriminate E.
  - inversion H' as [|c0 s0 t0 _ _ _ H0|r c0 s0 t0 Hr _ E]; subst.
    + f_equal. now apply IH.
    + apply ref_shape in Hr as (b & -> & _). injection E as E _. congruence.
  - inversion H' as [E|c0 s0 t0 G1 _ _ H0 E|r0 c0 s0 t0 Hr0 H0 E]; subst.
    + apply ref_shape in Hr as (b & -> & _). discriminate E.
    + apply ref_shape in Hr as (b & -> & _). injection E as E _. congruence.
    + destruct (ref_prefix _ _ _ _ _ _ Hr0 Hr E) as [-> ->].
      f_equal; [exact (ref_fun _ _ Hr _ Hr0)|exact (IH _ H0)].
Qed.

Lemma reads_att_fun q s t : reads_att q s t -> forall t', reads_att q s t' -> t = t'.
Proof.
  induction 1 as [|c s t H1 H2 H3 H4 H IH|c s t H1 H IH|r c s t Hr H IH]; intros t' H'.
  - inversion H' as [| | |r c s t Hr _ E]; [reflexivity|].
    apply ref_shape in Hr as (b & -> & _). discriminate E.
  - inversion H' as [|c0 s0 t0 _ _ _ _ H0|c0 s0 t0 G H0|r c0 s0 t0 Hr _ E]; subst.
    + f_equal. now apply IH.
    + tauto.
    + apply ref_shape in Hr as (b & -> & _). injection E as E _. congruence.
  - inversion H' as [|c0 s0 t0 _ _ _ G H0|c0 s0 t0 G H0|r c0 s0 t0 Hr _ E]; subst.
    + tauto.
    + f_equal. now apply IH.
    + apply ref_shape in Hr as (b & -> & _). injection E as <- _. unfold xml_space in H1. lia.
  - inversion H' as [E|c0 s0 t0 G1 _ _ _ H0 E|c0 s0 t0 G H0 E|r0 c0 s0 t0 Hr0 H0 E]; subst.
    + apply ref_shape in Hr as (b & -> & _). discriminate E.
    + apply ref_shape in Hr as (b & -> & _). injection E as E _. congruence.
    + apply ref_shape in Hr as (b & -> & _). injection E as -> _. unfold xml_space in G. lia.
    + destruct (ref_prefix _ _ _ _ _ _ Hr0 Hr E) as [-> ->].
      f_equal; [exact (ref_fun _ _ Hr _ Hr0)|exact (IH _ H0)].
Qed.

(** A quoted value ends at the first quotation mark. *)
Lemma reads_att_no_quote q s t : (q = 34 \/ q = 39) -> reads_att q s t -> ~ In q s.
Proof.
  intros Hq. induction 1 as [|c s t H1 H2 H3 H4 H IH|c s t H1 H IH|r c s t Hr H IH].
  - intros [].
  - intros [->|H5]; tauto.
  - intros [->|H5]; [unfold xml_space in H1; lia|tauto].
  - rewrite in_app_iff. intros [H5|H5]; [|tauto].
    clear -Hr H5 Hq. destruct Hr as [| | | | |ds Hd HF|ds Hd HF]; cbn in H5.
    1-5: intuition (subst; discriminate).
    + destruct H5 as [H5|[H5|[H5|H5]]]; [lia|lia|lia|].
      apply in_app_iff in H5 as [H5|[H5|[]]]; [|lia].
      rewrite Forall_forall in HF. apply HF in H5. unfold hex_digit in H5. lia.
    + destruct H5 as [H5|[H5|H5]]; [lia|lia|].
      apply in_app_iff in H5 as [H5|[H5|[]]]; [|lia].
      rewrite Forall_forall in HF. apply HF in H5. unfold dec_digit in H5. lia.
Qed.

Lemma reads_literal_fun s t t' : reads_literal s t -> reads_literal s t' -> t = t'.
Proof.
  intros (q & b & Hq & -> & H) (q' & b' & Hq' & E & H'). cbn in E. injection E as -> E.
  apply app_inj_tail in E as [-> _]. exact (reads_att_fun _ _ _ H _ H').
Qed.

(** ** EscapeCharData *)
Lemma esc_text c s t : reads_text s t -> reads_text (esc_char c ++ s) (c :: t).
Proof.
  intros H. unfold esc_char.
  destruct (c =? 38) eqn:E1; [apply Z.eqb_eq in E1; subst; apply text_ref; [constructor|exact H]|].
  destruct (c =? 60) eqn:E2; [apply Z.eqb_eq in E2; subst; apply text_ref; [constructor|exact H]|].
  destruct (c =? 62) eqn:E3; [apply Z.eqb_eq in E3; subst; apply text_ref; [constructor|exact H]|].
  destruct (c =? 13) eqn:E4; [apply Z.eqb_eq in E4; subst; apply text_ref; [apply ref_D|exact H]|].
  cbn. constructor; [lia|lia|lia|exact H].
Qed.

Lemma EscapeCharData_text src : reads_text (EscapeCharData src false) src.
Proof.
  unfold EscapeCharData. induction src as [|c src IH]; [constructor|].
  cbn [map concat]. apply esc_text, IH.
Qed.

(** No character of the text can be taken for the end of a CDATA section or a
    tag: there are no angle brackets in the output. *)
Lemma esc_no_angle src c : In c (EscapeCharData src false) -> c <> 60 /\ c <> 62 /\ c <> 13.
Proof.
  unfold EscapeCharData. rewrite in_concat. intros (x & Hx & Hc). apply in_map_iff in Hx as (y & <- & _).
  unfold esc_char in Hc.
  destruct (y =? 38) eqn:E1; [cbn in Hc; intuition (subst; discriminate)|].
  destruct (y =? 60) eqn:E2; [cbn in Hc; intuition (subst; discriminate)|].
  destruct (y =? 62) eqn:E3; [cbn in Hc; intuition (subst; discriminate)|].
  destruct (y =? 13) eqn:E4; [cbn in Hc; intuition (subst; discriminate)|].
  destruct Hc as [<-|[]]. lia.
Qed.

Lemma filter_length_0 c s : length (filter (Z.eqb c) s) = 0%nat -> ~ In c s.
Proof.
  intros H Hi. assert (In c (filter (Z.eqb c) s)) as G by (apply filter_In; split; [exact Hi|apply Z.eqb_refl]).
  destruct (filter (Z.eqb c) s); [destruct G|discriminate].
Qed.

Lemma esc_att_char q r c s t : reference r q -> q = 34 \/ q = 39 ->
  c <> 9 -> c <> 10 -> reads_att q s t ->
  reads_att q ((if str_eqb (esc_char c) [q] then r else esc_char c) ++ s) (c :: t).
Proof.
  intros Hr Hq H9 H10 H. unfold esc_char.
  destruct (c =? 38) eqn:E1; [apply Z.eqb_eq in E1; subst;
    change (str_eqb (lit "&amp;") [q]) with ((38 =? q) && false); rewrite andb_false_r; apply att_ref; [constructor|exact H]|].
  destruct (c =? 60) eqn:E2; [apply Z.eqb_eq in E2; subst;
    change (str_eqb (lit "&lt;") [q]) with ((38 =? q) && false); rewrite andb_false_r; apply att_ref; [constructor|exact H]|].
  destruct (c =? 62) eqn:E3; [apply Z.eqb_eq in E3; subst;
    change (str_eqb (lit "&gt;") [q]) with ((38 =? q) && false); rewrite andb_false_r; apply att_ref; [constructor|exact H]|].
  destruct (c =? 13) eqn:E4; [apply Z.eqb_eq in E4; subst;
    change (str_eqb (lit "&#xD;") [q]) with ((38 =? q) && false); rewrite andb_false_r; apply att_ref; [apply ref_D|exact H]|].
  cbn [str_eqb]. rewrite andb_true_r. destruct (c =? q) eqn:E5.
  - apply Z.eqb_eq in E5; subst. apply att_ref; assumption.
  - cbn. destruct (Z.eq_dec c 32) as [->|H32].
    + apply att_space; [now left|exact H].
    + apply att_char; try lia; [|exact H]. unfold xml_space. lia.
Qed.

Lemma esc_att_plain q c s t : q = 34 \/ q = 39 -> c <> q ->
  c <> 9 -> c <> 10 -> reads_att q s t -> reads_att q (esc_char c ++ s) (c :: t).
Proof.
  intros Hq Hc H9 H10 H.
  assert (Hr : exists r, reference r q) by (destruct Hq; subst; eexists; constructor).
  destruct Hr as (r & Hr).
  pose proof (esc_att_char q r c s t Hr Hq H9 H10 H) as G.
  destruct (str_eqb (esc_char c) [q]) eqn:E; [|exact G]. exfalso.
  apply str_eqb_eq in E. unfold esc_char in E.
  destruct (c =? 38); [discriminate|]. destruct (c =? 60); [discriminate|].
  destruct (c =? 62); [discriminate|]. destruct (c =? 13); [discriminate|]. injection E as E. congruence.
Qed.

Lemma esc_att q r src : reference r q -> q = 34 \/ q = 39 -> ~ In 9 src -> ~ In 10 src ->
  reads_att q (concat (if (0 <? count q src)%nat then esc_quote q r (map esc_char src) else map esc_char src)) src.
Proof.
  intros Hr Hq H9 H10. destruct (0 <? count q src)%nat eqn:Ec.
  - clear Ec. induction src as [|c src IH]; [constructor|].
    cbn [map esc_quote concat]. apply esc_att_char; try assumption.
    + intros ->. apply H9. now left.
    + intros ->. apply H10. now left.
    + apply IH; cbn in *; tauto.
  - assert (Hn : ~ In q src) by (apply filter_length_0; unfold count in Ec; lia). clear Ec.
    induction src as [|c src IH]; [constructor|]. cbn [map concat]. apply esc_att_plain; try assumption.
    + intros ->. apply Hn. now left.
    + intros ->. apply H9. now left.
    + intros ->. apply H10. now left.
    + apply IH; cbn in *; tauto.
Qed.

Lemma EscapeCharData_att src : ~ In 9 src -> ~ In 10 src -> reads_literal (EscapeCharData src true) src.
Proof.
  intros H9 H10. unfold EscapeCharData. destruct (count 39 src <? count 34 src)%nat.
  - exists 39. eexists. split; [now right|]. split; [reflexivity|].
    apply esc_att; [constructor|now right|exact H9|exact H10].
  - exists 34. eexists. split; [now left|]. split; [reflexivity|].
    apply esc_att; [constructor|now left|exact H9|exact H10].
Qed.

(** ** EscapeCharData7 *)
Lemma esc7_ref q qs c : c > 0x7F -> exists w, esc_char7 q qs c = lit "&#x" ++ fmt_X w c ++ lit ";".
Proof.
  intros H. unfold esc_char7. replace (c >? 0x7F) with true by (symmetry; lia).
  destruct (c >? 0xFF); [|now exists 2%nat]. destruct (c >? 0xFFFF); [|now exists 4%nat].
  destruct (c >? 0xFFFFFF); [now exists 8%nat|now exists 6%nat].
Qed.

Lemma EscapeCharData7_text src : Forall (fun c => 0 <= c) src -> reads_text (EscapeCharData7 src false) src.
Proof.
  unfold EscapeCharData7. induction 1 as [|c src Hc _ IH]; [constructor|]. cbn [flat_map].
  destruct (Z_gt_le_dec c 0x7F) as [H|H].
  - destruct (esc7_ref None [] c H) as (w & ->). apply text_ref; [apply ref_X, Hc|exact IH].
  - unfold esc_char7. replace (c >? 0x7F) with false by (symmetry; lia).
    destruct (c =? 60) eqn:E2; [apply Z.eqb_eq in E2; subst; apply text_ref; [constructor|exact IH]|].
    destruct (c =? 38) eqn:E1; [apply Z.eqb_eq in E1; subst; apply text_ref; [constructor|exact IH]|].
    destruct (c =? 62) eqn:E3; [apply Z.eqb_eq in E3; subst; apply text_ref; [constructor|exact IH]|].
    destruct (c =? 13) eqn:E4; [apply Z.eqb_eq in E4; subst; apply text_ref; [apply ref_D|exact IH]|].
    cbn. constructor; [lia|lia|lia|exact IH].
Qed.

Lemma esc7_att q qs src : reference qs q -> q = 34 \/ q = 39 ->
  Forall (fun c => 0 <= c) src -> ~ In 9 src -> ~ In 10 src ->
  reads_att q (flat_map (esc_char7 (Some q) qs) src) src.
Proof.
  intros Hr Hq. induction 1 as [|c src Hc _ IH]; intros H9 H10; [constructor|]. cbn [flat_map].
  assert (IH' : reads_att q (flat_map (esc_char7 (Some q) qs) src) src) by (apply IH; cbn in *; tauto).
  destruct (Z_gt_le_dec c 0x7F) as [H|H].
  - destruct (esc7_ref (Some q) qs c H) as (w & ->). apply att_ref; [apply ref_X, Hc|exact IH'].
  - unfold esc_char7. replace (c >? 0x7F) with false by (symmetry; lia).
    destruct (c =? 60) eqn:E2; [apply Z.eqb_eq in E2; subst; apply att_ref; [constructor|exact IH']|].
    destruct (c =? 38) eqn:E1; [apply Z.eqb_eq in E1; subst; apply att_ref; [constructor|exact IH']|].
    destruct (c =? 62) eqn:E3; [apply Z.eqb_eq in E3; subst; apply att_ref; [constructor|exact IH']|].
    destruct (c =? 13) eqn:E4; [apply Z.eqb_eq in E4; subst; apply att_ref; [apply ref_D|exact IH']|].
    destruct (c =? q) eqn:E5; [apply Z.eqb_eq in E5; subst; apply att_ref; assumption|].
    assert (c <> 9) by (intros ->; apply H9; now left).
    assert (c <> 10) by (intros ->; apply H10; now left).
    cbn. destruct (Z.eq_dec c 32) as [->|H32].
    + apply att_space; [now left|exact IH'].
    + apply att_char; try lia; [|exact IH']. unfold xml_space. lia.
Qed.

Lemma EscapeCharData7_att src : Forall (fun c => 0 <= c) src -> ~ In 9 src -> ~ In 10 src ->
  reads_literal (EscapeCharData7 src true) src.
Proof.
  intros HF H9 H10. unfold EscapeCharData7.
  destruct (mem 39 src); [|destruct (mem 34 src)].
  - exists 34. eexists. split; [now left|]. split; [reflexivity|].
    apply esc7_att; [apply ref_22|now left|exact HF|exact H9|exact H10].
  - exists 39. eexists. split; [now right|]. split; [reflexivity|].
    apply esc7_att; [apply ref_27|now right|exact HF|exact H9|exact H10].
  - exists 34. eexists. split; [now left|]. split; [reflexivity|].
    apply esc7_att; [apply ref_22|now left|exact HF|exact H9|exact H10].
Qed.

Lemma esc7_ascii q qs c x : (forall y, In y qs -> 0 <= y <= 0x7F) -> 0 <= c ->
  In x (esc_char7 q qs c) -> 0 <= x <= 0x7F.
Proof.
  intros Hqs Hc. destruct (Z_gt_le_dec c 0x7F) as [H|H].
  - destruct (esc7_ref q qs c H) as (w & ->). rewrite !in_app_iff.
    intros [Hx|[Hx|Hx]]; [cbn in Hx; lia| |cbn in Hx; lia].
    destruct (fmt_X_spec w c Hc) as (HF & _). rewrite Forall_forall in HF. apply HF in Hx.
    unfold hex_digit in Hx. lia.
  - unfold esc_char7. replace (c >? 0x7F) with false by (symmetry; lia).
    destruct (c =? 60); [cbn; lia|]. destruct (c =? 38); [cbn; lia|].
    destruct (c =? 62); [cbn; lia|]. destruct (c =? 13); [cbn; lia|].
    destruct (match q with Some x => c =? x | None => false end); [apply Hqs|].
    intros [<-|[]]. lia.
Qed.

Lemma EscapeCharData7_ascii src quote : Forall (fun c => 0 <= c) src ->
  Forall (fun c => 0 <= c <= 0x7F) (EscapeCharData7 src quote).
Proof.
  intros HF. rewrite Forall_forall in HF. apply Forall_forall. intros x. unfold EscapeCharData7.
  assert (G : forall q qs, (forall y, In y qs -> 0 <= y <= 0x7F) -> In x (flat_map (esc_char7 q qs) src) -> 0 <= x <= 0x7F).
  { intros q qs Hqs H. apply in_flat_map in H as (c & Hc & H). exact (esc7_ascii q qs c x Hqs (HF c Hc) H). }
  assert (G1 : forall y, In y (lit "&#x22;") -> 0 <= y <= 0x7F) by (intros y; cbn; lia).
  assert (G2 : forall y, In y (lit "&#x27;") -> 0 <= y <= 0x7F) by (intros y; cbn; lia).
  destruct quote; [|apply G; intros y []].
  destruct (mem 39 src); [|destruct (mem 34 src)]; rewrite !in_app_iff;
    (intros [[<-|[]]|[H|[<-|[]]]]; [lia| |lia]); revert H; apply G; assumption.
Qed.
