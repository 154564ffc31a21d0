(** Reading XML: tags, comments, instructions, CDATA sections. *)
From Coq Require Import List ZArith Bool Lia.
From Verif Require Import Py XmlChars XmlCharsProofs XmlCharsProofs2 XmlDoc XmlDocSpec XmlDocProofs.
From Verif Require XmlUtils XmlCharsSpec.
Import XmlCharsSpec.
Open Scope Z_scope.
Open Scope list_scope.

Ltac fin := repeat match goal with |- _ /\ _ => split end; first [assumption | reflexivity | easy].

(** ** Tags *)
Definition closing (e : bool) : str := if e then lit "/>" else lit ">".

Lemma attribute_iff s n v r : ParseAttribute s = Ok (n, v, r) <->
  exists e q w, bmp_name n /\ eq_sign e /\ (q = 34 \/ q = 39) /\ att_value q w v /\ s = n ++ e ++ [q] ++ w ++ [q] ++ r.
Proof.
  unfold ParseAttribute. split.
  - destruct (ParseRequiredName s) as [[n' s1]|] eqn:E; [|discriminate]. apply RequiredName_iff in E as (-> & H1 & _). cbn [bind].
    destruct (ParseEq s1) as [s2|] eqn:E; [|discriminate]. apply Eq_spec in E as (e & H2 & -> & _). cbn [bind].
    destruct (ParseAttValue s2) as [[v' s3]|] eqn:E; [|discriminate]. apply AttValue_iff in E as (q & w & Hq & -> & H3). cbn [bind].
    intros [= <- <- <-]. exists e, q, w. fin.
  - intros (e & q & w & H1 & H2 & Hq & H3 & ->).
    rewrite (proj2 (RequiredName_iff _ n (e ++ [q] ++ w ++ [q] ++ r))) by (split; [reflexivity|]; split; [exact H1|now apply eq_sign_stops]).
    cbn [bind]. rewrite Eq_eq; [|exact H2|]. 2:{ cbn. destruct Hq as [-> | ->]; reflexivity. }
    cbn [bind]. rewrite (proj2 (AttValue_iff _ v r)) by (exists q, w; fin). reflexivity.
Qed.

Lemma NoDup_snoc {A} (l : list A) x : NoDup l -> ~ In x l -> NoDup (l ++ [x]).
Proof.
  induction 1 as [|y l H1 H2 IH]; intros H; cbn [app]; [constructor; [easy|constructor]|].
  constructor; [|apply IH; intros H'; apply H; now right]. rewrite in_app_iff. intros [H'|[->|[]]]; [contradiction|]. apply H. now left.
Qed.
Lemma NoDup_app_l {A} (l m : list A) : NoDup (l ++ m) -> NoDup l.
Proof. induction l as [|x l IH]; intros H; [constructor|]. inversion H as [|? ? H1 H2]; subst. constructor; [|auto]. rewrite in_app_iff in H1. tauto. Qed.

Lemma stag_sound f : forall attrs s a e r, stag_loop f attrs s = Ok (a, e, r) -> NoDup (map fst attrs) ->
  exists l m, a = attrs ++ l /\ attributes pyslet l m /\ NoDup (map fst a) /\ s = m ++ closing e ++ r.
Proof.
  induction f as [|f IH]; intros attrs s a e r; cbn [stag_loop]; [discriminate|].
  destruct (ParseS s) as [sp s1] eqn:E. apply ParseS_spec in E as (-> & Hsp & _). destruct s1 as [|c s1]; [discriminate|].
  destruct (Z.eqb_spec c 62) as [->|N1].
  { intros [= <- <- <-] HN. exists [], sp. rewrite app_nil_r. repeat split; [now constructor|exact HN]. }
  destruct (Z.eqb_spec c 47) as [->|N2].
  { destruct (ParseRequiredLiteral _ _) as [r'|] eqn:E; [|discriminate]. apply required_iff in E. cbn [bind]. intros [= <- <- <-] HN.
    exists [], sp. rewrite app_nil_r, E. repeat split; [now constructor|exact HN]. }
  destruct sp as [|x sp]; [discriminate|]. destruct (ParseAttribute _) as [[[n v] r']|] eqn:E; [|discriminate]. cbn [bind].
  apply attribute_iff in E as (eq & q & w & H1 & H2 & Hq & H3 & E). destruct (lookup n attrs) eqn:EL; [discriminate|]. apply lookup_none in EL.
  intros H HN. apply IH in H as (l & m & -> & H4 & H5 & ->).
  - exists ((n, v) :: l), ((x :: sp) ++ n ++ eq ++ [q] ++ w ++ [q] ++ m). rewrite <- app_assoc. split; [reflexivity|].
    split; [apply as_cons; try assumption; split; [discriminate|exact Hsp]|].
    rewrite <- app_assoc in H5. split; [exact H5|]. rewrite E, <- !app_assoc. reflexivity.
  - rewrite map_app. apply NoDup_snoc; assumption.
Qed.

Lemma name_not_space n : bmp_name n -> forall r, stops IsS (n ++ r).
Proof.
  intros H r. destruct (bmp_name_cons _ H) as (c & n' & -> & Hc). cbn [app stops].
  destruct (IsS c) eqn:E; [|reflexivity]. apply IsS_iff in E.
  apply IsNameStartChar_iff in Hc as [Hc Hb]. assert (IsNameChar c = true) as K by (apply IsNameChar_iff; split; [now left|exact Hb]).
  apply name_char_of in K as [K _]. contradiction.
Qed.
Lemma name_head n : bmp_name n -> exists c n', n = c :: n' /\ ~ In c (lit "<>/=;?""'&![").
Proof.
  intros H. destruct (bmp_name_cons _ H) as (c & n' & -> & Hc). exists c, n'. split; [reflexivity|].
  apply IsNameStartChar_iff in Hc as [Hc Hb]. assert (IsNameChar c = true) as K by (apply IsNameChar_iff; split; [now left|exact Hb]).
  now apply name_char_of in K as [_ K].
Qed.

Lemma closing_stops e r : stops IsS (closing e ++ r).
Proof. destruct e; reflexivity. Qed.

Lemma stag_complete l m : attributes pyslet l m -> forall f attrs e r, NoDup (map fst (attrs ++ l)) -> (length m < f)%nat ->
  stag_loop f attrs (m ++ closing e ++ r) = Ok (attrs ++ l, e, r).
Proof.
  induction 1 as [sp Hsp|sp k eq q w v l m [Hs1 Hs2] Hk He Hq Hw _ IH]; intros f attrs e r HN Hf; (destruct f as [|f]; [lia|]); cbn [stag_loop].
  - rewrite ParseS_eq by (exact Hsp || apply closing_stops). rewrite app_nil_r. destruct e; reflexivity.
  - rewrite <- !app_assoc. change (d_name pyslet k) with (bmp_name k) in Hk.
    rewrite ParseS_eq by (exact Hs2 || now apply name_not_space).
    pose proof (proj2 (attribute_iff (k ++ eq ++ [q] ++ w ++ [q] ++ m ++ closing e ++ r) k v (m ++ closing e ++ r))) as E.
    rewrite <- ?app_assoc in E. specialize (E ltac:(exists eq, q, w; fin)).
    destruct (name_head k Hk) as (c & k' & -> & Hc). cbn [app] in E |- *.
    assert (c <> 62 /\ c <> 47) as [N1 N2] by (split; intros ->; apply Hc; cbn; tauto).
    rewrite (proj2 (Z.eqb_neq _ _) N1), (proj2 (Z.eqb_neq _ _) N2). destruct sp as [|x sp]; [congruence|].
    rewrite E. cbn [bind].
    replace (lookup (c :: k') attrs) with (@None str).
    + rewrite IH.
      * now rewrite <- app_assoc.
      * now rewrite <- app_assoc.
      * rewrite ?app_length in Hf. cbn [app length] in Hf. rewrite ?app_length in Hf. cbn [app length] in Hf. rewrite ?app_length in Hf. cbn [length] in Hf. lia.
    + symmetry. apply lookup_none. rewrite map_app in HN. cbn [map fst] in HN. apply NoDup_remove_2 in HN. rewrite in_app_iff in HN. tauto.
Qed.

Lemma attributes_stops D l m e r : attributes D l m -> stops IsNameChar (m ++ closing e ++ r).
Proof.
  assert (K : forall sp, spaces sp -> forall s, sp <> [] -> stops IsNameChar (sp ++ s)).
  { intros sp H s. destruct H as [|c sp H _]; [easy|]. intros _. cbn [app stops]. destruct (IsNameChar c) eqn:E; [|reflexivity].
    apply name_char_of in E as [E _]. contradiction. }
  destruct 1 as [sp H|sp k eq q w v l m [H1 H2]].
  - destruct sp as [|c sp]; [destruct e; reflexivity|]. now apply K.
  - rewrite <- app_assoc. now apply K.
Qed.

Lemma STag_iff s n a e r : ParseSTag s = Ok (n, a, e, r) <->
  exists m, bmp_name n /\ attributes pyslet a m /\ NoDup (map fst a) /\ s = lit "<" ++ n ++ m ++ closing e ++ r.
Proof.
  unfold ParseSTag. split.
  - destruct (ParseRequiredLiteral _ s) as [s1|] eqn:E; [|discriminate]. apply required_iff in E as ->. cbn [bind].
    destruct (ParseRequiredName s1) as [[n' s2]|] eqn:E; [|discriminate]. apply RequiredName_iff in E as (-> & H1 & _). cbn [bind].
    destruct (stag_loop _ _ s2) as [[[a' e'] r']|] eqn:E; [|discriminate]. cbn [bind]. intros [= <- <- <- <-].
    apply stag_sound in E as (l & m & -> & H2 & H3 & ->); [|constructor]. exists m. fin.
  - intros (m & H1 & H2 & H3 & ->). rewrite required_app. cbn [bind].
    rewrite (proj2 (RequiredName_iff _ n (m ++ closing e ++ r))); [|split; [reflexivity|]; split; [exact H1|now apply attributes_stops with (1 := H2)]].
    cbn [bind]. rewrite (stag_complete a m H2 _ [] e r H3); [reflexivity|]. rewrite app_length. lia.
Qed.

Lemma ETag_iff s n r : ParseETag s = Ok (n, r) <->
  exists sp, bmp_name n /\ spaces sp /\ s = lit "</" ++ n ++ sp ++ lit ">" ++ r.
Proof.
  unfold ParseETag. split.
  - destruct (ParseRequiredLiteral _ s) as [s1|] eqn:E; [|discriminate]. apply required_iff in E as ->. cbn [bind].
    destruct (ParseRequiredName s1) as [[n' s2]|] eqn:E; [|discriminate]. apply RequiredName_iff in E as (-> & H1 & _). cbn [bind].
    destruct (ParseS s2) as [sp s3] eqn:E. apply ParseS_spec in E as (-> & H2 & _). cbn [snd].
    destruct (ParseRequiredLiteral _ s3) as [s4|] eqn:E; [|discriminate]. apply required_iff in E as ->. cbn [bind]. intros [= <- <-]. exists sp. fin.
  - intros (sp & H1 & H2 & ->). rewrite required_app. cbn [bind].
    rewrite (proj2 (RequiredName_iff _ n (sp ++ lit ">" ++ r))); [|split; [reflexivity|]; split; [exact H1|]].
    + cbn [bind]. rewrite ParseS_eq by (exact H2 || reflexivity). cbn [snd]. rewrite required_app. reflexivity.
    + apply (attributes_stops pyslet [] sp false r). now constructor.
Qed.

(** ** Comments *)
Definition comment_rest (s r : str) : Prop :=
  (exists d sp, comment_text d /\ spaces sp /\ s = d ++ lit "--" ++ sp ++ lit ">" ++ r) \/
  (r = [] /\ exists d, comment_text d /\ (s = d \/ s = d ++ lit "-" \/ exists sp, spaces sp /\ s = d ++ lit "--" ++ sp)).

Lemma comment_rest_app p s r : (forall d, comment_text d -> comment_text (p ++ d)) -> comment_rest s r -> comment_rest (p ++ s) r.
Proof.
  intros Hp [(d & sp & H1 & H2 & ->)|(-> & d & H1 & H2)].
  - left. exists (p ++ d), sp. split; [now apply Hp|]. split; [exact H2|]. now rewrite <- app_assoc.
  - right. split; [reflexivity|]. exists (p ++ d). split; [now apply Hp|]. destruct H2 as [->|[->|(sp & H2 & ->)]].
    + now left.
    + right; left. now rewrite <- app_assoc.
    + right; right. exists sp. split; [exact H2|]. now rewrite <- app_assoc.
Qed.

Lemma comment_sound s : forall r,
  (comment_loop 0 s = Ok r -> comment_rest s r) /\
  (comment_loop 1 s = Ok r -> comment_rest (45 :: s) r) /\
  (comment_loop 2 s = Ok r -> exists sp, spaces sp /\ (s = sp ++ lit ">" ++ r \/ s = sp /\ r = [])).
Proof.
  induction s as [|c s IH]; intros r; cbn [comment_loop].
  - split; [|split]; intros [= <-].
    + right. split; [reflexivity|]. exists []. split; [constructor|now left].
    + right. split; [reflexivity|]. exists []. split; [constructor|right; now left].
    + exists []. split; [constructor|now right].
  - destruct (IH r) as (I0 & I1 & I2). change (0 + 1 >? 2) with false. change (1 + 1 >? 2) with false. change (2 + 1 >? 2) with true.
    change (0 + 1) with 1. change (1 + 1) with 2. change (0 =? 2) with false. change (1 =? 2) with false. change (2 =? 2) with true.
    change (0 <? 2) with true. change (1 <? 2) with true. change (2 <? 2) with false. change (0 >=? 2) with false. change (1 >=? 2) with false.
    change (2 >=? 2) with true. cbv iota.
    destruct (Z.eqb_spec c 45) as [->|N].
    + split; [exact I1|]. split; [|discriminate]. intros H. apply I2 in H as (sp & H & [->|[-> ->]]).
      * left. exists [], sp. split; [constructor|]. now split.
      * right. split; [reflexivity|]. exists []. split; [constructor|]. right; right. now exists sp.
    + assert (K0 : comment_rest s r -> comment_rest (c :: s) r) by (apply (comment_rest_app [c]); intros d Hd; now constructor).
      assert (K1 : comment_rest s r -> comment_rest (45 :: c :: s) r) by (apply (comment_rest_app [45; c]); intros d Hd; now constructor).
      destruct (Z.eqb_spec c 62) as [->|N2].
      { split; [auto|]. split; [auto|]. intros [= ->]. exists []. split; [constructor|now left]. }
      destruct (IsS c) eqn:E.
      { split; [auto|]. split; [auto|]. intros H. apply I2 in H as (sp & H & H'). exists (c :: sp).
        split; [constructor; [now apply IsS_iff|exact H]|]. destruct H' as [->|[-> ->]]; [now left|now right]. }
      split; [auto|]. split; [auto|]. discriminate.
Qed.

Lemma comment_text_loop d : comment_text d -> forall s, comment_loop 0 (d ++ s) = comment_loop 0 s.
Proof.
  assert (K : forall h c s, h = 0 \/ h = 1 -> c <> 45 -> comment_loop h (c :: s) = comment_loop 0 s).
  { intros h c s Hh N. cbn [comment_loop]. rewrite (proj2 (Z.eqb_neq _ _) N). replace (h =? 2) with false by lia.
    replace (h <? 2) with true by lia. replace (h >=? 2) with false by lia. now destruct (c =? 62), (IsS c). }
  induction 1 as [|c d N _ IH|c d N _ IH]; intros s; cbn [app]; [reflexivity| |].
  - rewrite K by auto. apply IH.
  - change (comment_loop 0 (45 :: c :: d ++ s)) with (comment_loop 1 (c :: d ++ s)). rewrite K by auto. apply IH.
Qed.
Lemma comment_spaces sp : spaces sp -> forall r, comment_loop 2 (sp ++ r) = comment_loop 2 r.
Proof.
  induction 1 as [|c sp H _ IH]; intros r; [reflexivity|]. cbn [app comment_loop].
  replace (IsS c) with true by (symmetry; now apply IsS_iff). unfold xml_space in H.
  replace (c =? 45) with false by lia. replace (c =? 62) with false by lia. change (2 <? 2) with false. cbv iota. apply IH.
Qed.
Lemma comment_complete d sp r : comment_text d -> spaces sp -> ParseComment (d ++ lit "--" ++ sp ++ lit ">" ++ r) = Ok r.
Proof.
  intros H1 H2. unfold ParseComment. rewrite comment_text_loop by exact H1.
  change (comment_loop 0 (lit "--" ++ sp ++ lit ">" ++ r)) with (comment_loop 2 (sp ++ lit ">" ++ r)). now rewrite comment_spaces.
Qed.
Lemma Comment_iff s r : ParseComment s = Ok r <-> comment_rest s r.
Proof.
  split; [apply comment_sound|]. intros [(d & sp & H1 & H2 & ->)|(-> & d & H1 & H2)]; [now apply comment_complete|].
  unfold ParseComment. destruct H2 as [->|[->|(sp & H2 & ->)]].
  - rewrite <- (app_nil_r d), comment_text_loop by exact H1. reflexivity.
  - rewrite comment_text_loop by exact H1. reflexivity.
  - rewrite comment_text_loop by exact H1. change (comment_loop 2 sp = Ok []). rewrite <- (app_nil_r sp), comment_spaces by exact H2. reflexivity.
Qed.

(** ** Processing instructions *)
Lemma lower_xml n : str_eqb (map lower1 n) (lit "xml") = false <-> pi_target n.
Proof.
  rewrite str_eqb_neq. unfold pi_target.
  assert (L : forall c d, 97 <= d <= 122 -> (lower1 c = d <-> c = d \/ c = d - 32)).
  { intros c d Hd. unfold lower1. destruct ((c >=? 65) && (c <=? 90)) eqn:E; lia. }
  change (lit "xml") with [120; 109; 108]. split; intros H.
  - intros (x & m & l & -> & Hx & Hm & Hl). apply H. cbn [map]. cbn in Hx, Hm, Hl.
    assert (lower1 x = 120) as -> by (apply L; lia). assert (lower1 m = 109) as -> by (apply L; lia). assert (lower1 l = 108) as -> by (apply L; lia). reflexivity.
  - intros E. apply H. destruct n as [|x [|m [|l [|]]]]; try discriminate. cbn [map] in E. injection E as E1 E2 E3. exists x, m, l. split; [reflexivity|].
    apply L in E1; [|lia]. apply L in E2; [|lia]. apply L in E3; [|lia]. cbn. lia.
Qed.

Lemma pi_loop_iff s : forall r, pi_loop s = Ok r <-> (exists d, pairs d /\ s = d ++ lit "?>" ++ r) \/ (r = [] /\ pairs s).
Proof.
  intros r. split.
  - remember (length s) as n eqn:E. assert (H : (length s <= n)%nat) by lia. clear E. revert s H. induction n as [|n IH]; intros s H.
    + destruct s; [|cbn in H; lia]. intros [= <-]. right. split; [reflexivity|constructor].
    + destruct s as [|c s]; [intros [= <-]; right; split; [reflexivity|constructor]|]. cbn [length] in H. cbn [pi_loop].
      destruct (Z.eqb_spec c 63) as [->|N].
      * destruct s as [|d s]; [discriminate|]. cbn [length] in H. destruct (Z.eqb_spec d 62) as [->|N].
        -- intros [= <-]. left. exists []. split; [constructor|reflexivity].
        -- intros E. apply IH in E; [|lia]. destruct E as [(d' & H1 & ->)|[-> H1]].
           ++ left. exists (63 :: d :: d'). split; [now constructor|reflexivity].
           ++ right. split; [reflexivity|now constructor].
      * intros E. apply IH in E; [|lia]. destruct E as [(d' & H1 & ->)|[-> H1]].
        -- left. exists (c :: d'). split; [now constructor|reflexivity].
        -- right. split; [reflexivity|now constructor].
  - assert (K : forall d, pairs d -> forall t, pi_loop (d ++ t) = pi_loop t).
    { induction 1 as [|c d N _ IH|c d N _ IH]; intros t; cbn [app pi_loop]; [reflexivity| |].
      - rewrite (proj2 (Z.eqb_neq _ _) N). apply IH.
      - change (63 =? 63) with true. cbv iota. rewrite (proj2 (Z.eqb_neq _ _) N). apply IH. }
    intros [(d & H1 & ->)|[-> H]]; [rewrite K by exact H1; reflexivity|]. rewrite <- (app_nil_r s), K by exact H. reflexivity.
Qed.

Lemma q_stops r : stops IsNameChar (lit "?>" ++ r). Proof. reflexivity. Qed.
Lemma space_stops sp r : spaces1 sp -> stops IsNameChar (sp ++ r).
Proof.
  intros [H1 H2]. destruct sp as [|c sp]; [easy|]. apply Forall_inv in H2. cbn [app stops]. destruct (IsNameChar c) eqn:E; [|reflexivity].
  apply name_char_of in E as [E _]. contradiction.
Qed.

Definition pi_rest (s r : str) : Prop :=
  (exists w, instruction bmp_name pairs (lit "<?" ++ w) /\ s = w ++ r) \/
  (r = [] /\ exists n sp d, bmp_name n /\ pi_target n /\ spaces1 sp /\ pairs d /\ s = n ++ sp ++ d).

Lemma Target_iff s r : ParsePITarget s = Ok r <-> exists n, bmp_name n /\ pi_target n /\ s = n ++ r /\ stops IsNameChar r.
Proof.
  unfold ParsePITarget. split.
  - destruct (ParseName s) as [n r'] eqn:E. destruct n as [|c n]; [discriminate|]. destruct (str_eqb _ _) eqn:E'; [discriminate|].
    intros [= <-]. apply ParseName_spec in E as (-> & H1 & H2); [|discriminate]. exists (c :: n). apply lower_xml in E'. fin.
  - intros (n & H1 & H2 & -> & H3). rewrite ParseName_eq by assumption. apply lower_xml in H2. destruct (bmp_name_cons _ H1) as (c & n' & -> & _).
    now rewrite H2.
Qed.

Lemma PI_sound s r : ParsePI s = Ok r -> pi_rest s r.
Proof.
  unfold ParsePI. destruct (ParsePITarget s) as [s1|] eqn:E; [|discriminate]. cbn [bind]. apply Target_iff in E as (n & H1 & H2 & -> & _).
  destruct (ParseS s1) as [sp s2] eqn:E. apply ParseS_spec in E as (-> & H3 & H4). destruct sp as [|c sp].
  - intros H. apply required_iff in H as ->. left. exists (n ++ lit "?>"). split; [|now rewrite <- app_assoc]. exists n. split; [exact H1|]. split; [exact H2|]. now left.
  - intros H. apply pi_loop_iff in H as [(d & H5 & ->)|[-> H5]].
    + left. exists (n ++ (c :: sp) ++ d ++ lit "?>"). split; [|now rewrite <- !app_assoc]. exists n. split; [exact H1|]. split; [exact H2|]. right.
      exists (c :: sp), d. split; [split; [discriminate|exact H3]|]. split; [exact H5|]. split; [|reflexivity].
      intros x d' ->. cbn in H4. rewrite <- IsS_iff. congruence.
    + right. split; [reflexivity|]. exists n, (c :: sp), s2. split; [exact H1|]. split; [exact H2|]. split; [split; [discriminate|exact H3]|]. now split.
Qed.
Lemma app_length_nil {A} (a b : list A) : a ++ b = b -> a = [].
Proof. intros H. apply (f_equal (@length A)) in H. rewrite app_length in H. destruct a; [reflexivity|cbn in H; lia]. Qed.
Lemma PI_complete w r : instruction bmp_name pairs (lit "<?" ++ w) -> ParsePI (w ++ r) = Ok r.
Proof.
  intros (n & H1 & H2 & H). unfold ParsePI. destruct H as [E|(sp & d & H3 & H4 & H5 & E)]; apply app_inv_head in E as ->.
  - rewrite <- app_assoc, (proj2 (Target_iff _ (lit "?>" ++ r))) by (exists n; repeat split; assumption || apply H1). cbn [bind].
    replace (ParseS (lit "?>" ++ r)) with (@nil Z, lit "?>" ++ r) by (symmetry; apply (ParseS_eq []); [constructor|reflexivity]). apply required_app.
  - rewrite <- !app_assoc, (proj2 (Target_iff _ (sp ++ d ++ lit "?>" ++ r))) by (exists n; split; [exact H1|]; split; [exact H2|]; split; [reflexivity|now apply space_stops]).
    cbn [bind]. rewrite ParseS_eq; [|apply H3|].
    + destruct sp as [|c sp]; [now destruct H3|]. apply pi_loop_iff. left. now exists d.
    + destruct d as [|c d]; [reflexivity|]. cbn [app stops]. apply not_true_is_false. rewrite IsS_iff. now apply (H5 c d).
Qed.
Lemma PI_unfinished n sp d : bmp_name n -> pi_target n -> spaces1 sp -> pairs d -> ParsePI (n ++ sp ++ d) = Ok [].
Proof.
  intros H1 H2 H3 H4. unfold ParsePI. rewrite (proj2 (Target_iff _ (sp ++ d))) by (exists n; split; [exact H1|]; split; [exact H2|]; split; [reflexivity|now apply space_stops]).
  cbn [bind]. destruct (ParseS (sp ++ d)) as [a r'] eqn:E. pose proof E as E0. apply ParseS_spec in E as (E & Ha & Hr).
  assert (exists x, a = sp ++ x /\ d = x ++ r') as (x & -> & ->).
  { clear E0 H4. destruct H3 as [_ H3]. revert a d E Ha Hr. induction H3 as [|c sp Hc _ IH]; intros a d E Ha Hr; [now exists a|].
    destruct a as [|y a]; cbn [app] in E.
    - subst r'. cbn in Hr. apply IsS_iff in Hc. congruence.
    - injection E as -> E. destruct (IH a d E (Forall_inv_tail Ha) Hr) as (x & -> & ->). now exists x. }
  assert (pairs r') as H5.
  { clear - H4 Ha. apply Forall_app in Ha as [_ Ha]. induction Ha as [|c x Hc Ha IH]; [exact H4|]. cbn [app] in H4. inversion H4; subst; [auto|].
    unfold xml_space in Hc. lia. }
  destruct (sp ++ x) as [|y z] eqn:EZ; [destruct H3; destruct sp; [congruence|discriminate]|]. apply pi_loop_iff. now right.
Qed.

(** ** CDATA sections *)
Definition no_cdend (d : str) : Prop := forall x y, d <> x ++ lit "]]>" ++ y.
Lemma CDSect_iff s : forall d r, ParseCDSect s = Ok (d, r) <-> s = d ++ lit "]]>" ++ r /\ no_cdend d.
Proof.
  intros d r. split.
  - revert d r. induction s as [|c s IH]; intros d r.
    + cbn. discriminate.
    + cbn [ParseCDSect]. destruct (ParseLiteral (lit "]]>") (c :: s)) as [r'|] eqn:E.
      * apply literal_iff in E. intros [= <- <-]. split; [exact E|]. intros x y H. destruct x; discriminate.
      * destruct (ParseCDSect s) as [[d' r']|]; [|discriminate]. cbn [bind]. intros [= <- <-]. destruct (IH _ _ eq_refl) as [-> H].
        split; [reflexivity|]. intros x y E'. destruct x as [|z x].
        -- apply literal_none with (r := y ++ lit "]]>" ++ r') in E. apply E. cbn [app] in E'.
           change (c :: d' ++ lit "]]>" ++ r') with ((c :: d') ++ lit "]]>" ++ r'). rewrite E'. now rewrite <- !app_assoc.
        -- injection E' as -> E'. now apply (H x y).
  - intros [-> H]. induction d as [|c d IH].
    + cbn [app]. destruct r; reflexivity.
    + assert (E : ParseLiteral (lit "]]>") ((c :: d) ++ lit "]]>" ++ r) = None).
      { apply literal_none. intros x E. destruct d as [|c2 [|c3 d]]; cbn in E.
        - injection E as _ E. discriminate.
        - injection E as _ _ E. discriminate.
        - injection E as -> -> -> _. now apply (H [] d). }
      cbn [app] in E |- *. cbn [ParseCDSect]. rewrite E. rewrite IH; [reflexivity|]. intros x y ->. now apply (H (c :: x) y).
Qed.

(** ** Runs of characters *)
Lemma text_then_app a b l : text_then a (text_then b l) = text_then (a ++ b) l.
Proof.
  destruct a as [|x a]; [reflexivity|]. destruct b as [|y b]; [now rewrite app_nil_r|]. cbn [text_then app].
  destruct l as [|[u|e] l]; cbn [text_then app]; [reflexivity| |reflexivity]. now rewrite <- app_assoc.
Qed.
Lemma chardata_step c s : ParseCharData (c :: s) =
  if (c =? 60) || (c =? 38) then ([], c :: s)
  else match ParseLiteral (lit "]]>") (c :: s) with
       | Some _ => ([], c :: s)
       | None => let '(d, r) := ParseCharData s in (c :: d, r)
       end.
Proof.
  cbn [ParseCharData]. destruct ((c =? 60) || (c =? 38)); [reflexivity|]. destruct (Z.eqb_spec c 93) as [->|N]; [reflexivity|].
  replace (ParseLiteral (lit "]]>") (c :: s)) with (@None str); [reflexivity|]. symmetry. apply literal_none. intros r E. injection E as E _. contradiction.
Qed.
Lemma chardata_spec D s : forall d r, ParseCharData s = (d, r) ->
  s = d ++ r /\ forall m rest l, r = m ++ rest -> content D m l -> content D (d ++ m) (text_then d l).
Proof.
  induction s as [|c s IH]; intros d r; [intros [= <- <-]; split; [reflexivity|]; intros m rest l _ H; exact H|].
  rewrite chardata_step. destruct ((c =? 60) || (c =? 38)) eqn:E; [intros [= <- <-]; split; [reflexivity|]; intros m rest l _ H; exact H|].
  destruct (ParseLiteral (lit "]]>") (c :: s)) as [x|] eqn:E1; [intros [= <- <-]; split; [reflexivity|]; intros m rest l _ H; exact H|].
  destruct (ParseCharData s) as [d' r'] eqn:E2. intros [= <- <-]. destruct (IH _ _ eq_refl) as [-> H]. split; [reflexivity|].
  intros m rest l -> Hm. change (c :: d') with ([c] ++ d') at 2. rewrite <- text_then_app. cbn [app]. apply co_char; [lia|lia| |now apply H with (1 := eq_refl)].
  intros x E3. apply literal_none with (r := x ++ rest) in E1. apply E1.
  change (c :: d' ++ m ++ rest) with ((c :: d') ++ m ++ rest). rewrite app_assoc. change ((c :: d') ++ m) with (c :: d' ++ m). now rewrite E3, <- app_assoc.
Qed.
