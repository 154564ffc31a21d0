(** Proofs about character classes, names, identifiers, CDATA and white space. *)
From Verif Require Import Py Uri CharClass CharClassSpec CharClassProofs XmlChars XmlCharsProofs.
From Verif Require XmlCharsSpec.
Import XmlCharsSpec.

(** ** Classes *)
Lemma covers_cons a z l c : covers ((a, z) :: l) c <-> a <= c <= z \/ covers l c.
Proof.
  unfold covers. cbn [In]. split.
  - intros (x & y & [E|H] & Hc); [injection E as <- <-; now left|right; now exists x, y].
  - intros [H|(x & y & H & Hc)]; [exists a, z; auto|exists x, y; auto].
Qed.
Lemma covers_nil c : covers [] c <-> False.
Proof. unfold covers. split; [intros (x & y & [] & _)|tauto]. Qed.

Lemma class_covers k rs c : k = Ok rs -> ranges_ok 0x10FFFF rs -> (in_class k c = true <-> covers rs c).
Proof.
  intros -> H. destruct (test_linear _ rs c H) as (b & E & Hb). unfold in_class. rewrite E. exact Hb.
Qed.

Ltac range_ok := apply srt_ranges_ok; cbn; unfold valid; cbn; intuition (subst; cbn; lia).

(** [A1 \/ A2 \/ ...] from hypotheses on ranges. *)
Ltac pick := lazymatch goal with
  | |- _ \/ _ => first [left; pick | right; pick]
  | |- _ => lia end.
Ltac byor H := decompose [or and] H; clear H.

Ltac both := split; [intros HH; split; pick|intros HH; byor HH; lia].

Lemma discouraged_iff c : IsDiscouraged c = true <->
  0x7F <= c <= 0x84 \/ 0x86 <= c <= 0x9F \/ 0xFDD0 <= c <= 0xFDEF.
Proof.
  unfold IsDiscouraged.
  rewrite (class_covers _ [(127, 132); (134, 159); (64976, 65007)] c);
    [|vm_compute; reflexivity|range_ok].
  rewrite !covers_cons, covers_nil. tauto.
Qed.

Lemma start_class_iff c : in_class NameStartCharClass c = true <-> name_start_char c /\ bmp c.
Proof.
  rewrite (class_covers _ [(58, 58); (65, 90); (95, 95); (97, 122); (192, 214); (216, 246); (248, 767);
    (880, 893); (895, 8191); (8204, 8205); (8304, 8591); (11264, 12271); (12289, 55295);
    (63744, 64975); (65008, 65533)] c); [|vm_compute; reflexivity|range_ok].
  rewrite !covers_cons, covers_nil. unfold name_start_char, bmp. split; intros H.
  - byor H; split; try pick.
  - byor H; pick.
Qed.

Lemma name_class_iff c : in_class NameCharClass c = true <-> name_char c /\ bmp c.
Proof.
  rewrite (class_covers _ [(45, 46); (48, 57); (58, 58); (65, 90); (95, 95); (97, 122); (183, 183);
    (192, 214); (216, 246); (248, 879); (880, 893); (895, 8191); (8204, 8205); (8255, 8256);
    (8304, 8591); (11264, 12271); (12289, 55295); (63744, 64975); (65008, 65533)] c);
    [|vm_compute; reflexivity|range_ok].
  rewrite !covers_cons, covers_nil. unfold name_char, name_start_char, bmp. split; intros H.
  - byor H; split; try pick.
    + destruct (Z.le_gt_cases c 45); pick.
    + destruct (Z.le_gt_cases c 767); pick.
  - byor H; pick.
Qed.

Lemma IsNameStartChar_iff c : IsNameStartChar c = true <-> name_start_char c /\ bmp c.
Proof.
  unfold IsNameStartChar. destruct (c <=? 122) eqn:E1; [|apply start_class_iff].
  unfold name_start_char, bmp. destruct (c >=? 97) eqn:E2; [both|].
  destruct (c <=? 90) eqn:E3; [destruct (c >=? 65) eqn:E4|]; both.
Qed.

Lemma IsNameChar_iff c : IsNameChar c = true <-> name_char c /\ bmp c.
Proof.
  unfold IsNameChar. destruct (c <=? 122) eqn:E1; [|apply name_class_iff].
  unfold name_char, name_start_char, bmp. destruct (c >=? 97) eqn:E2; [both|].
  destruct (c <=? 90) eqn:E3; [destruct (c >=? 65) eqn:E4; [|destruct (c <=? 57) eqn:E5; [destruct (c >=? 48) eqn:E6|]]|];
    try both.
  rewrite mem_In. change (In c (lit "-.")) with (45 = c \/ 46 = c \/ False). split; intros H.
  - byor H; split; pick.
  - byor H; pick.
Qed.

Lemma IsPubidChar_iff c : IsPubidChar c = true <-> pubid_char c.
Proof.
  unfold IsPubidChar.
  rewrite (class_covers _ [(10, 10); (13, 13); (32, 33); (35, 37); (39, 42); (43, 44); (45, 47); (48, 59);
    (61, 61); (63, 64); (65, 90); (95, 95); (97, 122)] c); [|vm_compute; reflexivity|range_ok].
  rewrite !covers_cons, covers_nil. unfold pubid_char.
  change (In c (lit "-'()+,./:=?;!*#@$_%")) with (In c [45; 39; 40; 41; 43; 44; 46; 47; 58; 61; 63; 59; 33; 42; 35; 64; 36; 95; 37]).
  cbn [In]. split; intros H; byor H; first [pick|lia].
Qed.

Lemma IsChar_iff c : IsChar c = true <-> char c.
Proof. unfold IsChar, char. lia. Qed.
Lemma IsS_iff c : IsS c = true <-> xml_space c.
Proof. unfold IsS, xml_space. destruct (c >? 32) eqn:E; lia. Qed.

Lemma IsValidName_iff s : IsValidName s = true <-> name s /\ Forall bmp s.
Proof.
  unfold name. destruct s as [|c s]; cbn.
  - split; [discriminate|intros [(c & r & E & _) _]; discriminate].
  - rewrite andb_true_iff, IsNameStartChar_iff, forallb_forall. split.
    + intros [[H1 H2] H3]. split.
      * exists c, s. split; [reflexivity|]. split; [exact H1|]. apply Forall_forall. intros x Hx.
        apply IsNameChar_iff, H3, Hx.
      * constructor; [exact H2|]. apply Forall_forall. intros x Hx. apply H3, IsNameChar_iff in Hx. apply Hx.
    + intros [(c0 & r & E & H1 & H2) H3]. injection E as <- <-. apply Forall_cons_iff in H3 as [H3 H4].
      split; [tauto|]. intros x Hx. rewrite Forall_forall in H2, H4. apply IsNameChar_iff. split; auto.
Qed.

Lemma IsValidNCName_iff s : IsValidNCName s = true <-> nc_name s /\ Forall bmp s.
Proof.
  assert (E : IsValidNCName s = IsValidName s && negb (mem 58 s)).
  { destruct s as [|c s]; [reflexivity|]. cbn [IsValidNCName IsValidName mem existsb].
    fold (mem 58 s). rewrite (Z.eqb_sym 58 c). destruct (IsNameStartChar c); [|reflexivity].
    destruct (c =? 58); [cbn; now rewrite andb_false_r|]. cbn.
    induction s as [|x s IH]; [reflexivity|]. cbn [forallb mem existsb]. rewrite IH.
    fold (mem 58 s). rewrite (Z.eqb_sym 58 x).
    destruct (IsNameChar x), (x =? 58), (forallb IsNameChar s), (mem 58 s); reflexivity. }
  rewrite E, andb_true_iff, IsValidName_iff, negb_true_iff. unfold nc_name. rewrite <- not_true_iff_false, mem_In. tauto.
Qed.

(** ** ValidateIdentifier *)
Lemma good_char_ok c x : In x (good_char c) -> name_char x /\ x <> 58.
Proof.
  unfold good_char. change (lit "-") with [45]. change (lit "_") with [95]. destruct (c =? 58) eqn:E1.
  - intros [<-|[]]. unfold name_char, name_start_char. lia.
  - destruct (IsNameChar c) eqn:E2.
    + intros [<-|[]]. apply IsNameChar_iff in E2. split; [tauto|lia].
    + intros [<-|[]]. unfold name_char, name_start_char. lia.
Qed.

Lemma ValidateIdentifier_valid value prefix : nc_name prefix -> nc_name (ValidateIdentifier value prefix).
Proof.
  intros Hp. destruct value as [|c v]; [exact Hp|]. unfold ValidateIdentifier.
  assert (HG : forall x, In x (flat_map good_char (c :: v)) -> name_char x /\ x <> 58).
  { intros x Hx. apply in_flat_map in Hx as (y & _ & Hx). exact (good_char_ok y x Hx). }
  assert (HP : nc_name (prefix ++ flat_map good_char (c :: v))).
  { destruct Hp as [(p0 & pr & -> & H1 & H2) H3]. split.
    - exists p0, (pr ++ flat_map good_char (c :: v)). split; [reflexivity|]. split; [exact H1|].
      apply Forall_app. split; [exact H2|]. apply Forall_forall. intros x Hx. apply HG, Hx.
    - rewrite in_app_iff. intros [H|H]; [exact (H3 H)|]. apply HG in H. tauto. }
  destruct (IsNameStartChar c) eqn:E; [|exact HP]. destruct (c =? 58) eqn:E1; [exact HP|].
  cbn [negb app]. apply IsNameStartChar_iff in E.
  assert (Eg : good_char c = [c]).
  { unfold good_char. rewrite E1. replace (IsNameChar c) with true; [reflexivity|].
    symmetry. apply IsNameChar_iff. unfold name_char. tauto. }
  split.
  - exists c, (flat_map good_char v). split; [cbn; now rewrite Eg|]. split; [tauto|].
    apply Forall_forall. intros x Hx. apply HG. cbn. apply in_app_iff. now right.
  - intros H. apply HG in H. tauto.
Qed.

Lemma ValidateIdentifier_id value prefix : nc_name value -> Forall bmp value ->
  ValidateIdentifier value prefix = value.
Proof.
  intros [(c & r & -> & H1 & H2) H3] HB. unfold ValidateIdentifier.
  apply Forall_cons_iff in HB as [HB HB'].
  replace (IsNameStartChar c) with true by (symmetry; apply IsNameStartChar_iff; tauto).
  cbn [negb]. assert (Hc : c <> 58) by (intros ->; apply H3; now left).
  replace (c =? 58) with false by (symmetry; lia). cbn [app].
  assert (G : forall l, Forall name_char l -> Forall bmp l -> ~ In 58 l -> flat_map good_char l = l).
  { induction l as [|x l IH]; intros G1 G2 G3; [reflexivity|].
    apply Forall_cons_iff in G1 as [G1 G1']. apply Forall_cons_iff in G2 as [G2 G2'].
    cbn [flat_map]. rewrite IH by (try assumption; cbn in G3; tauto).
    unfold good_char. replace (x =? 58) with false by (symmetry; apply Z.eqb_neq; intros ->; apply G3; now left).
    replace (IsNameChar x) with true by (symmetry; apply IsNameChar_iff; tauto). reflexivity. }
  apply G; [|now constructor|exact H3]. constructor; [now left|exact H2].
Qed.

(** ** CDATA sections *)
Lemma split_shape s : forall cur, exists d l, split_cdata s [] = d :: l /\ split_cdata s cur = (rev cur ++ d) :: l /\
  (exists y, s = d ++ y) /\ (forall x y, d <> x ++ lit "]]>" ++ y) /\
  s = d ++ flat_map (fun d => lit "]]>" ++ d) l /\
  Forall (fun d => forall x y, d <> x ++ lit "]]>" ++ y) l.
Proof.
  assert (GN : forall x y : str, [] <> x ++ lit "]]>" ++ y) by (intros [|] y; discriminate).
  assert (IHn : forall n s, (length s <= n)%nat -> forall cur, exists d l, split_cdata s [] = d :: l /\ split_cdata s cur = (rev cur ++ d) :: l /\
    (exists y, s = d ++ y) /\ (forall x y, d <> x ++ lit "]]>" ++ y) /\
    s = d ++ flat_map (fun d => lit "]]>" ++ d) l /\
    Forall (fun d => forall x y, d <> x ++ lit "]]>" ++ y) l).
  { clear s. induction n as [|n IH]; intros s Hn cur.
    - destruct s; [|cbn in Hn; lia]. exists [], []. cbn [split_cdata rev flat_map app]. rewrite app_nil_r.
      repeat split; [now exists []|exact GN|constructor].
    - destruct s as [|c s].
      { exists [], []. cbn [split_cdata rev flat_map app]. rewrite app_nil_r.
        repeat split; [now exists []|exact GN|constructor]. }
      assert (HD : (exists s2, c :: s = lit "]]>" ++ s2) \/
        (~ (exists s2, c :: s = lit "]]>" ++ s2) /\ forall cur, split_cdata (c :: s) cur = split_cdata s (c :: cur))).
      { destruct (Z.eq_dec c 93) as [->|Hc].
        2:{ right. split; [intros (s2 & E); injection E as E _; congruence|].
            intros cur0. cbn [split_cdata]. destruct c as [|p|p]; try reflexivity.
            repeat (destruct p; try reflexivity). congruence. }
        destruct s as [|c2 s]; [right; split; [intros (s2 & E); discriminate|reflexivity]|].
        destruct (Z.eq_dec c2 93) as [->|Hc].
        2:{ right. split; [intros (s2 & E); injection E as E _; congruence|].
            intros cur0. cbn [split_cdata]. destruct c2 as [|p|p]; try reflexivity.
            repeat (destruct p; try reflexivity). congruence. }
        destruct s as [|c3 s]; [right; split; [intros (s2 & E); discriminate|reflexivity]|].
        destruct (Z.eq_dec c3 62) as [->|Hc]; [left; now exists s|].
        right. split; [intros (s2 & E); injection E as E _; congruence|].
        intros cur0. cbn [split_cdata]. destruct c3 as [|p|p]; try reflexivity.
        repeat (destruct p; try reflexivity). congruence. }
      destruct HD as [(s2 & E)|[HN E]].
      + rewrite E in *. destruct (IH s2 ltac:(cbn in Hn; lia) []) as (d & l & E1 & E2 & _ & H4 & H5 & H6).
        exists [], (d :: l). change (lit "]]>" ++ s2) with (93 :: 93 :: 62 :: s2).
        cbn [split_cdata rev app]. rewrite E1, app_nil_r. repeat split.
        * now exists (93 :: 93 :: 62 :: s2).
        * exact GN.
        * cbn [flat_map]. rewrite H5 at 1. reflexivity.
        * now constructor.
      + destruct (IH s ltac:(cbn in Hn; lia) (c :: cur)) as (d & l & E1 & E2 & (y & H3) & H4 & H5 & H6).
        destruct (IH s ltac:(cbn in Hn; lia) [c]) as (d' & l' & E1' & E2' & _). rewrite E1 in E1'. injection E1' as <- <-.
        exists (c :: d), l. rewrite !E. repeat split.
        * exact E2'.
        * rewrite E2. cbn [rev]. rewrite <- app_assoc. reflexivity.
        * exists y. cbn. now rewrite <- H3.
        * intros x z Ex. destruct x as [|x0 x].
          -- apply HN. exists (z ++ y). rewrite H3. cbn in Ex |- *. injection Ex as -> ->. reflexivity.
          -- injection Ex as _ Ex. exact (H4 x z Ex).
        * cbn [app]. f_equal. exact H5.
        * exact H6. }
  intros cur. exact (IHn (length s) s (Nat.le_refl _) cur).
Qed.

Lemma EscapeCDSect_reads src : reads_cdata (lit "<!CDATA[[") (EscapeCDSect src) src.
Proof.
  destruct (split_shape src []) as (d & l & E & _ & _ & Hd & Hs & Hl).
  unfold EscapeCDSect. rewrite E. rewrite Hs. clear E Hs.
  revert d Hd. induction Hl as [|d1 l H1 _ IH]; intros d Hd.
  - cbn [flat_map app]. rewrite <- (app_nil_r (lit "]]>")). apply cdata_sect; [exact Hd|constructor].
  - cbn [flat_map]. rewrite <- !app_assoc.
    change (lit "]]>]]&gt;<!CDATA[[") with (lit "]]>" ++ lit "]]&gt;<!CDATA[["). rewrite <- app_assoc.
    apply cdata_sect; [exact Hd|].
    change (lit "]]&gt;<!CDATA[[") with (93 :: 93 :: lit "&gt;" ++ lit "<!CDATA[["). cbn [app].
    change (lit "]]>" ++ d1 ++ flat_map (fun d0 => lit "]]>" ++ d0) l)
      with (93 :: 93 :: 62 :: d1 ++ flat_map (fun d0 => lit "]]>" ++ d0) l).
    apply cdata_char; try lia. apply cdata_char; try lia.
    rewrite <- app_assoc. apply cdata_ref; [constructor|]. apply IH, H1.
Qed.

Lemma EscapeCDSect_head src : exists s, EscapeCDSect src = lit "<!CDATA[[" ++ s.
Proof.
  destruct (split_shape src []) as (d & l & E & _). unfold EscapeCDSect. rewrite E. eexists. reflexivity.
Qed.

Lemma not_cdata s t : ~ reads_cdata (lit "<![CDATA[") (lit "<!CDATA[[" ++ s) t.
Proof.
  intros H. inversion H as [|d s0 t0 _ _ E|c s0 t0 _ H60 _ _ E|r c s0 t0 Hr _ E].
  - congruence.
  - apply ref_shape in Hr as (b & -> & _). discriminate E.
Qed.

(** ** White space *)
Lemma StripLeadingS_spec d : exists ws, d = ws ++ StripLeadingS d /\ Forall xml_space ws /\
  match StripLeadingS d with [] => True | c :: _ => ~ xml_space c end.
Proof.
  induction d as [|c d (ws & E & HF & H)]; [exists []; repeat split; constructor|].
  cbn [StripLeadingS]. destruct (IsS c) eqn:Ec.
  - exists (c :: ws). split; [cbn; now f_equal|]. split; [|exact H]. constructor; [now apply IsS_iff|exact HF].
  - exists []. split; [reflexivity|]. split; [constructor|]. rewrite <- IsS_iff. congruence.
Qed.

Lemma words_cur sp s : forall cur, cur <> [] -> exists w l, words_loop sp cur s = w :: l.
Proof.
  induction s as [|c s IH]; intros cur Hc; cbn.
  - destruct cur; [congruence|]. now eexists _, _.
  - destruct (sp c); [|apply IH; discriminate]. destruct cur; [congruence|]. now eexists _, _.
Qed.

Lemma spaced_cons w l : l <> [] -> spaced (w :: l) = w ++ 32 :: spaced l.
Proof. destruct l; [congruence|reflexivity]. Qed.

Lemma normalize_words s :
  normalize_loop 2 s = spaced (words (fun c => c =? 32) s) /\
  normalize_loop 1 s = match words (fun c => c =? 32) s with [] => [] | l => 32 :: spaced l end /\
  forall cur, cur <> [] -> rev cur ++ normalize_loop 0 s = spaced (words_loop (fun c => c =? 32) cur s).
Proof.
  unfold words. induction s as [|c s (I2 & I1 & I0)].
  - repeat split. intros [|x cur] H; [congruence|]. cbn [normalize_loop words_loop spaced]. apply app_nil_r.
  - cbn [normalize_loop words_loop]. destruct (c =? 32) eqn:E.
    + cbn [Z.eqb]. repeat split; [exact I2|exact I1|]. intros [|x cur] H; [congruence|].
      rewrite I1. destruct (words_loop _ [] s) as [|w l]; cbn [spaced]; [apply app_nil_r|reflexivity].
    + cbn [Z.eqb app]. assert (Hc : [c] <> []) by discriminate.
      pose proof (I0 [c] Hc) as G. cbn [rev app] in G. repeat split.
      * exact G.
      * rewrite G. destruct (words_cur (fun c => c =? 32) s [c] Hc) as (w & l & ->). reflexivity.
      * intros cur H. rewrite <- (I0 (c :: cur)) by discriminate. cbn [rev]. now rewrite <- app_assoc.
Qed.

Lemma NormalizeSpace_words d : NormalizeSpace d = spaced (words (fun c => c =? 32) d).
Proof. apply normalize_words. Qed.

(** Whether a text starts and ends with white space. *)
Definition head_space (s : str) : bool := match s with c :: _ => IsS c | [] => false end.
Definition last_space (s : str) : bool := head_space (rev s).

Lemma last_space_cons c s : s <> [] -> last_space (c :: s) = last_space s.
Proof.
  intros H. unfold last_space. cbn [rev]. destruct (rev s) as [|x r] eqn:E; [|reflexivity].
  apply (f_equal (@rev Z)) in E. rewrite rev_involutive in E. cbn in E. congruence.
Qed.

Lemma collapse_words s :
  (forall l, words IsS s = l -> collapse_loop true s =
     match l with [] => [] | _ => spaced l ++ if last_space s then [32] else [] end) /\
  (forall cur, cur <> [] -> rev cur ++ collapse_loop false s =
     spaced (words_loop IsS cur s) ++ if last_space s then [32] else []).
Proof.
  unfold words. induction s as [|c s (I1 & I0)].
  - split; [intros l <-; reflexivity|]. intros [|x cur] H; [congruence|].
    cbn [collapse_loop words_loop spaced]. unfold last_space. cbn [rev head_space]. now rewrite !app_nil_r.
  - cbn [collapse_loop words_loop]. destruct (IsS c) eqn:E.
    + cbn [app]. split.
      * intros l Hl. rewrite (I1 l Hl). destruct l as [|w l]; [reflexivity|].
        rewrite last_space_cons; [reflexivity|]. intros ->. discriminate Hl.
      * intros [|x cur] H; [congruence|]. specialize (I1 _ eq_refl).
        destruct (words_loop IsS [] s) as [|w l] eqn:Ew.
        -- rewrite I1. cbn [spaced]. f_equal.
           assert (G : last_space (c :: s) = true).
           { clear -E Ew. revert c E Ew. induction s as [|y s IH]; intros c E Ew.
             - unfold last_space. cbn. exact E.
             - rewrite last_space_cons by discriminate. cbn [words_loop] in Ew.
               destruct (IsS y) eqn:Ey; [exact (IH y Ey Ew)|].
               destruct (words_cur IsS s [y]) as (w & l & E'); [discriminate|congruence]. }
           now rewrite G.
        -- rewrite spaced_cons by discriminate. rewrite <- app_assoc. f_equal. cbn [app]. f_equal.
           rewrite I1. rewrite last_space_cons; [reflexivity|]. intros ->. discriminate Ew.
    + assert (Hc : [c] <> []) by discriminate. pose proof (I0 [c] Hc) as G. cbn [rev app] in G.
      assert (HL : forall w : str, (w ++ if last_space s then [32] else []) = w ++ if last_space (c :: s) then [32] else []).
      { intros w. destruct s as [|y s]; [unfold last_space; cbn [rev head_space app]; now rewrite E|].
        now rewrite (last_space_cons c) by discriminate. }
      split.
      * intros l Hl. cbn [app]. rewrite G, Hl, HL. destruct (words_cur IsS s [c] Hc) as (w & l0 & E0).
        rewrite <- Hl, E0. reflexivity.
      * intros cur H. rewrite <- HL, <- (I0 (c :: cur)) by discriminate. cbn [rev]. now rewrite <- app_assoc.
Qed.

Lemma collapse_true s : collapse_loop true s =
     match words IsS s with [] => [] | l => spaced l ++ if last_space s then [32] else [] end.
Proof. rewrite (proj1 (collapse_words s) _ eq_refl). now destruct (words IsS s). Qed.

Lemma CollapseSpace_words d m : words IsS d <> [] ->
  CollapseSpace d m = (if head_space d && negb m then [32] else []) ++
    spaced (words IsS d) ++ (if last_space d then [32] else []).
Proof.
  intros Hw. unfold CollapseSpace.
  assert (G : collapse_loop m d = (if head_space d && negb m then [32] else []) ++
    spaced (words IsS d) ++ (if last_space d then [32] else [])).
  { destruct d as [|c d]; [destruct Hw; reflexivity|].
    destruct m.
    - rewrite andb_false_r. cbn [app]. rewrite collapse_true. destruct (words IsS (c :: d)); [congruence|reflexivity].
    - rewrite andb_true_r. cbn [head_space collapse_loop]. unfold words in *. cbn [words_loop] in *.
      destruct (IsS c) eqn:E.
      + f_equal. rewrite collapse_true. unfold words. destruct (words_loop IsS [] d) as [|w l] eqn:Ew; [congruence|].
        rewrite last_space_cons; [reflexivity|]. intros ->. discriminate Ew.
      + pose proof (proj2 (collapse_words d) [c] ltac:(discriminate)) as G. cbn [rev app] in G. cbn [app]. rewrite G.
        destruct d as [|y d]; [unfold last_space; cbn [rev head_space app]; now rewrite E|].
        now rewrite (last_space_cons c) by discriminate. }
  rewrite G. destruct (_ ++ _ ++ _) eqn:E; [|reflexivity]. exfalso.
  apply app_eq_nil in E as [_ E]. apply app_eq_nil in E as [E _].
  assert (HN : forall sp s cur, Forall (fun w : str => w <> []) (words_loop sp cur s)).
  { intros sp. induction s as [|c s IH]; intros cur; cbn.
    - destruct cur as [|x cur]; constructor; [|constructor]. cbn. destruct (rev cur); discriminate.
    - destruct (sp c); [|apply IH]. destruct cur as [|x cur]; [apply IH|]. constructor; [|apply IH].
      cbn. destruct (rev cur); discriminate. }
  specialize (HN IsS d []). fold (words IsS d) in HN. destruct (words IsS d) as [|w l]; [congruence|].
  apply Forall_cons_iff in HN as [HN _]. destruct l; cbn in E; [congruence|].
  apply app_eq_nil in E as [E _]. congruence.
Qed.

Lemma CollapseSpace_blank d m : words IsS d = [] -> CollapseSpace d m = [32].
Proof.
  intros Hw. unfold CollapseSpace. destruct m.
  - now rewrite collapse_true, Hw.
  - destruct d as [|c d]; [reflexivity|]. unfold words in Hw. cbn [words_loop] in Hw. cbn [collapse_loop].
    destruct (IsS c) eqn:E.
    + rewrite collapse_true. unfold words. now rewrite Hw.
    + destruct (words_cur IsS d [c]) as (w & l & E'); [discriminate|congruence].
Qed.

Lemma words_good sp s : forall cur, Forall (fun c => sp c = false) cur ->
  Forall (fun w => w <> [] /\ Forall (fun c => sp c = false) w) (words_loop sp cur s).
Proof.
  induction s as [|c s IH]; intros cur Hc; cbn [words_loop].
  - destruct cur as [|x cur]; constructor; [|constructor]. split; [|now apply Forall_rev].
    cbn. destruct (rev cur); discriminate.
  - destruct (sp c) eqn:E; [|apply IH; now constructor].
    destruct cur as [|x cur]; [now apply IH|]. constructor; [|now apply IH]. split; [|now apply Forall_rev].
    cbn. destruct (rev cur); discriminate.
Qed.

Lemma words_take (sp : Z -> bool) w s : Forall (fun c => sp c = false) w -> forall cur,
  words_loop sp cur (w ++ s) = words_loop sp (rev w ++ cur) s.
Proof.
  induction 1 as [|c w Hc _ IH]; intros cur; [reflexivity|]. cbn [app words_loop rev]. rewrite Hc, IH.
  now rewrite <- app_assoc.
Qed.

Lemma words_spaced (sp : Z -> bool) l (tl : str) : sp 32 = true -> tl = [] \/ tl = [32] ->
  Forall (fun w => w <> [] /\ Forall (fun c => sp c = false) w) l -> words sp (spaced l ++ tl) = l.
Proof.
  intros H32 Ht HF. unfold words. induction HF as [|w l [Hw Hs] _ IH].
  - destruct Ht as [->| ->]; cbn [spaced app words_loop]; [reflexivity|]. now rewrite H32.
  - assert (HR : exists y r, rev w = y :: r).
    { destruct (rev w) eqn:E; [|eauto]. apply (f_equal (@rev Z)) in E. rewrite rev_involutive in E. cbn in E. congruence. }
    destruct HR as (y & r & HR).
    destruct l as [|w' l].
    + cbn [spaced]. rewrite words_take by exact Hs. rewrite app_nil_r, HR.
      destruct Ht as [->| ->]; cbn [words_loop]; [|rewrite H32]; rewrite <- HR, rev_involutive; reflexivity.
    + rewrite spaced_cons by discriminate. rewrite <- app_assoc, words_take by exact Hs. rewrite app_nil_r, HR.
      cbn [app words_loop]. rewrite H32. rewrite <- HR, rev_involutive. f_equal. exact IH.
Qed.

Lemma NormalizeSpace_idem d : NormalizeSpace (NormalizeSpace d) = NormalizeSpace d.
Proof.
  rewrite !NormalizeSpace_words. f_equal. rewrite <- (app_nil_r (spaced _)).
  apply words_spaced; [reflexivity|now left|]. apply words_good. constructor.
Qed.

Lemma last_space_app_no w : w <> [] -> Forall (fun c => IsS c = false) w -> forall p, last_space (p ++ w) = false.
Proof.
  intros Hw HF p. unfold last_space. rewrite rev_app_distr. apply Forall_rev in HF.
  destruct (rev w) as [|y r] eqn:E.
  - apply (f_equal (@rev Z)) in E. rewrite rev_involutive in E. cbn in E. congruence.
  - cbn. now apply Forall_cons_iff in HF as [-> _].
Qed.

Lemma spaced_ends l : l <> [] -> Forall (fun w : str => w <> [] /\ Forall (fun c => IsS c = false) w) l ->
  (exists c r, spaced l = c :: r /\ IsS c = false) /\ forall p, last_space (p ++ spaced l) = false.
Proof.
  intros Hl HF. split.
  - destruct l as [|w l]; [congruence|]. apply Forall_cons_iff in HF as [[Hw HS] _].
    destruct w as [|c w]; [congruence|]. apply Forall_cons_iff in HS as [HS _]. destruct l; cbn; eauto.
  - induction HF as [|w l [Hw HS] HF IH]; [congruence|]. intros p. destruct l as [|w' l].
    + now apply last_space_app_no.
    + rewrite spaced_cons by discriminate. change (w ++ 32 :: spaced (w' :: l)) with (w ++ [32] ++ spaced (w' :: l)).
      rewrite !app_assoc. apply IH. discriminate.
Qed.

Lemma CollapseSpace_idem d m : CollapseSpace (CollapseSpace d m) m = CollapseSpace d m.
Proof.
  destruct (list_eq_dec (list_eq_dec Z.eq_dec) (words IsS d) []) as [E|E].
  - rewrite (CollapseSpace_blank d m E). destruct m; reflexivity.
  - assert (HG : Forall (fun w : str => w <> [] /\ Forall (fun c => IsS c = false) w) (words IsS d))
      by (apply words_good; constructor).
    rewrite (CollapseSpace_words d m E). destruct (spaced_ends _ E HG) as [(c & r & Ec & Hc) HL].
    set (h := if head_space d && negb m then [32] else []). set (t := if last_space d then [32] else []).
    assert (Ew : words IsS (h ++ spaced (words IsS d) ++ t) = words IsS d).
    { assert (Ht : t = [] \/ t = [32]) by (unfold t; destruct (last_space d); auto).
      assert (Hh : h = [] \/ h = [32]) by (unfold h; destruct (head_space d && negb m); auto).
      rewrite <- (words_spaced IsS (words IsS d) t eq_refl Ht HG) at 2.
      destruct Hh as [->| ->]; reflexivity. }
    rewrite CollapseSpace_words by (rewrite Ew; exact E). rewrite Ew. f_equal; [|f_equal].
    + unfold h. destruct m; [now rewrite !andb_false_r|]. rewrite !andb_true_r.
      destruct (head_space d); [reflexivity|]. cbn [app]. rewrite Ec. cbn [app head_space]. now rewrite Hc.
    + unfold t. destruct (last_space d).
      * replace (last_space (h ++ spaced (words IsS d) ++ [32])) with true; [reflexivity|].
        rewrite app_assoc. unfold last_space. now rewrite rev_app_distr.
      * rewrite app_nil_r. now rewrite HL.
Qed.
