(** Reading XML: literals, names, references, attribute values. *)
From Coq Require Import List ZArith Bool Lia.
From Verif Require Import Py XmlChars XmlCharsProofs XmlCharsProofs2 XmlDoc XmlDocSpec.
From Verif Require XmlUtils XmlCharsSpec.
Import XmlCharsSpec.
Open Scope Z_scope.
Open Scope list_scope.

(** ** take_while, literals *)
Definition stops (p : Z -> bool) (s : str) : Prop := match s with c :: _ => p c = false | [] => True end.

Lemma take_while_spec p s : forall a r, take_while p s = (a, r) ->
  s = a ++ r /\ Forall (fun c => p c = true) a /\ stops p r.
Proof.
  induction s as [|c s IH]; intros a r; cbn [take_while].
  - intros [= <- <-]. now repeat split.
  - destruct (p c) eqn:E.
    + destruct (take_while p s) as [a' r'] eqn:E'. intros [= <- <-]. destruct (IH _ _ eq_refl) as (-> & H1 & H2).
      repeat split; [constructor; assumption|exact H2].
    + intros [= <- <-]. repeat split; [constructor|exact E].
Qed.
Lemma take_while_eq p a r : Forall (fun c => p c = true) a -> stops p r -> take_while p (a ++ r) = (a, r).
Proof.
  induction 1 as [|c a H1 _ IH]; intros H; cbn [app take_while].
  - destruct r as [|c r]; cbn [take_while]; [reflexivity|]. cbn in H. now rewrite H.
  - rewrite H1, IH by exact H. reflexivity.
Qed.

Lemma literal_iff m : forall s r, ParseLiteral m s = Some r <-> s = m ++ r.
Proof.
  induction m as [|x m IH]; intros s r; cbn [ParseLiteral app].
  - split; [now intros [= ->]|now intros ->].
  - destruct s as [|c s]; [split; discriminate|]. destruct (Z.eqb_spec x c) as [->|H].
    + rewrite IH. split; [now intros ->|now intros [= ->]].
    + split; [discriminate|]. intros [= E _]. congruence.
Qed.
Lemma literal_app m r : ParseLiteral m (m ++ r) = Some r.
Proof. now apply literal_iff. Qed.
Lemma literal_none m s : ParseLiteral m s = None <-> forall r, s <> m ++ r.
Proof.
  split.
  - intros H r E. apply literal_iff in E. congruence.
  - intros H. destruct (ParseLiteral m s) as [r|] eqn:E; [|reflexivity]. apply literal_iff in E. now destruct (H r).
Qed.
Lemma required_iff m s r : ParseRequiredLiteral m s = Ok r <-> s = m ++ r.
Proof.
  unfold ParseRequiredLiteral. rewrite <- literal_iff. destruct (ParseLiteral m s); [|now split].
  split; [now intros [= ->]|now intros [= ->]].
Qed.
Lemma required_app m r : ParseRequiredLiteral m (m ++ r) = Ok r.
Proof. now apply required_iff. Qed.

(** ** White space and names *)
Lemma spaces_S s : spaces s <-> Forall (fun c => IsS c = true) s.
Proof. unfold spaces. rewrite !Forall_forall. now setoid_rewrite IsS_iff. Qed.
Lemma ParseS_spec s a r : ParseS s = (a, r) -> s = a ++ r /\ spaces a /\ stops IsS r.
Proof. intros H. apply take_while_spec in H as (H1 & H2 & H3). now rewrite spaces_S. Qed.
Lemma ParseS_eq a r : spaces a -> stops IsS r -> ParseS (a ++ r) = (a, r).
Proof. rewrite spaces_S. apply take_while_eq. Qed.

Lemma bmp_name_iff n : bmp_name n <-> IsValidName n = true.
Proof. unfold bmp_name. now rewrite IsValidName_iff. Qed.

Lemma ParseName_spec s n r : ParseName s = (n, r) -> n <> [] -> s = n ++ r /\ bmp_name n /\ stops IsNameChar r.
Proof.
  unfold ParseName. destruct s as [|c s]; [now intros [= <- <-]|]. destruct (IsNameStartChar c) eqn:E; [|now intros [= <- <-]].
  destruct (take_while IsNameChar s) as [a r'] eqn:E'. intros [= <- <-] _. apply take_while_spec in E' as (-> & H1 & H2).
  split; [reflexivity|]. split; [|exact H2]. rewrite bmp_name_iff. cbn [IsValidName]. rewrite E. cbn [andb].
  apply forallb_forall. now rewrite Forall_forall in H1.
Qed.
Lemma ParseName_eq n r : bmp_name n -> stops IsNameChar r -> ParseName (n ++ r) = (n, r).
Proof.
  rewrite bmp_name_iff. destruct n as [|c n]; [discriminate|]. cbn [IsValidName app ParseName]. intros H H'.
  apply andb_true_iff in H as [-> H]. rewrite forallb_forall, <- Forall_forall in H. now rewrite take_while_eq.
Qed.
Lemma bmp_name_cons n : bmp_name n -> exists c n', n = c :: n' /\ IsNameStartChar c = true.
Proof. rewrite bmp_name_iff. destruct n as [|c n]; [discriminate|]. cbn. intros H. apply andb_true_iff in H as [H _]. eauto. Qed.
Lemma RequiredName_iff s n r : ParseRequiredName s = Ok (n, r) <-> s = n ++ r /\ bmp_name n /\ stops IsNameChar r.
Proof.
  unfold ParseRequiredName. split.
  - destruct (ParseName s) as [n' r'] eqn:E. destruct n' as [|c n']; [discriminate|]. intros [= <- <-].
    apply ParseName_spec in E; [exact E|discriminate].
  - intros (-> & H1 & H2). rewrite ParseName_eq by assumption. destruct (bmp_name_cons _ H1) as (c & n' & -> & _). reflexivity.
Qed.
Lemma name_char_of c : IsNameChar c = true -> ~ xml_space c /\ ~ In c (lit "<>/=;?""'&![").
Proof.
  intros H.
  assert (A : forall l, forallb (fun x => negb (IsNameChar x)) l = true -> ~ In c l).
  { intros l Hl Hin. rewrite forallb_forall in Hl. specialize (Hl _ Hin). now rewrite H in Hl. }
  split; [|apply A; vm_compute; reflexivity]. intros H'. apply (A [32; 9; 10; 13]); [vm_compute; reflexivity|].
  unfold xml_space in H'. cbn [In]. intuition.
Qed.
Lemma stops_of c r : IsNameChar c = false -> stops IsNameChar (c :: r).
Proof. intros H. exact H. Qed.

(** ** Digits and references *)
Lemma dec_char_iff c : dec_char c = true <-> dec_digit c.
Proof. unfold dec_char, dec_digit. lia. Qed.
Lemma hex_char_iff c : hex_char c = true <-> hex_digit c.
Proof. unfold hex_char, dec_char, hex_digit. lia. Qed.
Lemma number_16 ds : number 16 ds = hex_number ds.
Proof. reflexivity. Qed.
Lemma number_10 ds : Forall dec_digit ds -> number 10 ds = dec_number ds.
Proof.
  unfold number, dec_number. generalize 0. intros v H. revert v. induction H as [|c ds H _ IH]; intros v; cbn [fold_left]; [reflexivity|].
  rewrite <- IH. f_equal. unfold digit, dec_digit in *. destruct (Z.leb_spec c 57); lia.
Qed.
Lemma unichr_char c : char c -> XmlUtils.unichr c = Ok c.
Proof.
  unfold char, XmlUtils.unichr. intros H. replace ((c <? -2147483648) || (c >? 2147483647)) with false by lia.
  replace ((c <? 0) || (c >? 1114111)) with false by lia. reflexivity.
Qed.
Lemma unichr_ok n c : XmlUtils.unichr n = Ok c -> c = n.
Proof.
  unfold XmlUtils.unichr. destruct ((n <? -2147483648) || (n >? 2147483647)); [discriminate|].
  destruct ((n <? 0) || (n >? 0x10FFFF)); [discriminate|]. now intros [= ->].
Qed.

Lemma Forall_iff {A} (P Q : A -> Prop) l : (forall x, P x <-> Q x) -> Forall P l <-> Forall Q l.
Proof. intros H. rewrite !Forall_forall. now setoid_rewrite H. Qed.

Lemma char_ref_iff base p s c r : char_ref base p s = Ok (c, r) <->
  exists ds, s = ds ++ lit ";" ++ r /\ ds <> [] /\ Forall (fun x => p x = true) ds /\ p 59 = p 59 /\ c = number base ds /\ char c /\
    take_while p (ds ++ lit ";" ++ r) = (ds, lit ";" ++ r).
Proof.
  unfold char_ref, ParseRequiredDigits. split.
  - destruct (take_while p s) as [ds r0] eqn:E. destruct ds as [|d ds]; [discriminate|]. cbn [bind].
    destruct (XmlUtils.unichr _) as [c'|] eqn:E1; [|discriminate]. cbn [bind].
    destruct (ParseRequiredLiteral _ r0) as [r'|] eqn:E2; [|discriminate]. cbn [bind].
    destruct (IsChar c') eqn:E3; [|discriminate]. intros [= <- <-].
    apply required_iff in E2. apply unichr_ok in E1. apply IsChar_iff in E3. pose proof E as E0. apply take_while_spec in E as (-> & H1 & H2).
    subst r0. exists (d :: ds). now repeat split.
  - intros (ds & -> & H1 & H2 & _ & -> & H4 & E). rewrite E. destruct ds as [|d ds]; [congruence|]. cbn [bind].
    rewrite unichr_char by exact H4. cbn [bind]. rewrite required_app. cbn [bind]. apply IsChar_iff in H4. now rewrite H4.
Qed.

Lemma lookup_In {A} k (m : list (str * A)) v : lookup k m = Some v -> In (k, v) m.
Proof.
  induction m as [|[k' v'] m IH]; cbn [lookup]; [discriminate|]. destruct (str_eqb k k') eqn:E.
  - apply str_eqb_eq in E as ->. intros [= ->]. now left.
  - intros H. right. auto.
Qed.
Lemma lookup_none {A} k (m : list (str * A)) : lookup k m = None <-> ~ In k (map fst m).
Proof.
  induction m as [|[k' v'] m IH]; cbn [lookup map fst In]; [tauto|]. destruct (str_eqb k k') eqn:E.
  - apply str_eqb_eq in E as ->. split; [discriminate|]. intros H. destruct H. now left.
  - apply str_eqb_neq in E. rewrite IH. intuition.
Qed.
Lemma lookup_predefined n c : lookup n PredefinedEntities = Some c <-> In (n, c) PredefinedEntities.
Proof.
  split; [apply lookup_In|]. unfold PredefinedEntities at 1. cbn [In]. intros H.
  repeat (destruct H as [[= <- <-]|H]; [vm_compute; reflexivity|]). destruct H.
Qed.

Lemma reference_iff s c r : ParseReference s = Ok (c, r) <-> exists m, s = m ++ r /\ legal_reference m c.
Proof.
  unfold ParseReference. split.
  - destruct (ParseRequiredLiteral (lit "&") s) as [s1|] eqn:E; [|discriminate]. apply required_iff in E. subst s. cbn [bind].
    assert (K : ParseCharRef s1 = Ok (c, r) -> exists m, lit "&" ++ s1 = m ++ r /\ legal_reference m c).
    { unfold ParseCharRef. destruct (ParseRequiredLiteral (lit "#") s1) as [s2|] eqn:E; [|discriminate]. apply required_iff in E. subst s1. cbn [bind].
      destruct (ParseLiteral (lit "x") s2) as [s3|] eqn:E.
      - apply literal_iff in E. subst s2. intros H. apply char_ref_iff in H as (ds & -> & H1 & H2 & _ & -> & H3 & _).
        exists (lit "&#x" ++ ds ++ lit ";"). split; [change (lit "&#x") with (lit "&" ++ lit "#" ++ lit "x"); now rewrite <- !app_assoc|].
        split; [|exact H3]. rewrite number_16. apply ref_hex; [exact H1|]. rewrite Forall_iff; [exact H2|]. intros x. now rewrite hex_char_iff.
      - intros H. apply char_ref_iff in H as (ds & -> & H1 & H2 & _ & -> & H3 & _).
        exists (lit "&#" ++ ds ++ lit ";"). split; [change (lit "&#") with (lit "&" ++ lit "#"); now rewrite <- !app_assoc|].
        split; [|exact H3]. assert (HD : Forall dec_digit ds) by (rewrite Forall_iff; [exact H2|]; intros x; now rewrite dec_char_iff).
        rewrite number_10 by exact HD. now apply ref_dec. }
    assert (K' : ParseEntityRef s1 = Ok (c, r) -> exists m, lit "&" ++ s1 = m ++ r /\ legal_reference m c).
    { unfold ParseEntityRef. destruct (ParseRequiredName s1) as [[n s2]|] eqn:E; [|discriminate]. apply RequiredName_iff in E as (-> & _). cbn [bind].
      destruct (ParseRequiredLiteral (lit ";") s2) as [s3|] eqn:E; [|discriminate]. apply required_iff in E. subst s2. cbn [bind].
      destruct (lookup n PredefinedEntities) as [c'|] eqn:E; [|discriminate]. intros [= <- <-]. apply lookup_predefined in E.
      cbn [In] in E. exists (lit "&" ++ n ++ lit ";"). split; [now rewrite <- !app_assoc|].
      repeat (destruct E as [[= <- <-]|E]; [split; [constructor|unfold char; lia]|]). destruct E. }
    destruct s1 as [|x s1]; [exact K'|]. destruct (x =? 35); assumption.
  - intros (m & -> & H1 & H2).
    assert (KH : forall ds, ds <> [] -> Forall hex_digit ds -> char (hex_number ds) ->
      char_ref 16 hex_char (ds ++ lit ";" ++ r) = Ok (hex_number ds, r)).
    { intros ds N F C. assert (F' : Forall (fun x => hex_char x = true) ds) by (rewrite Forall_iff; [exact F|]; intros x; apply hex_char_iff).
      apply char_ref_iff. exists ds. repeat split; try assumption. now apply take_while_eq. }
    assert (KD : forall ds, ds <> [] -> Forall dec_digit ds -> char (dec_number ds) ->
      char_ref 10 dec_char (ds ++ lit ";" ++ r) = Ok (dec_number ds, r)).
    { intros ds N F C. assert (F' : Forall (fun x => dec_char x = true) ds) by (rewrite Forall_iff; [exact F|]; intros x; apply dec_char_iff).
      apply char_ref_iff. exists ds. repeat split; try assumption; [now rewrite number_10|]. now apply take_while_eq. }
    assert (KE : forall n c, In (n, c) PredefinedEntities -> ParseEntityRef (n ++ lit ";" ++ r) = Ok (c, r)).
    { intros n c' H. unfold ParseEntityRef.
      assert (HN : bmp_name n).
      { cbn [PredefinedEntities In] in H. rewrite bmp_name_iff. repeat (destruct H as [[= <- <-]|H]; [vm_compute; reflexivity|]). destruct H. }
      replace (ParseRequiredName (n ++ lit ";" ++ r)) with (@Ok (str * str) (n, lit ";" ++ r)).
      - cbn [bind]. rewrite required_app. cbn [bind]. apply lookup_predefined in H. now rewrite H.
      - symmetry. apply RequiredName_iff. repeat split; [apply HN|apply HN]. }
    assert (KF : forall n c, In (n, c) PredefinedEntities ->
      (s1 <- ParseRequiredLiteral (lit "&") ((lit "&" ++ n ++ lit ";") ++ r) ;;
       match s1 with x :: _ => if x =? 35 then ParseCharRef s1 else ParseEntityRef s1 | [] => ParseEntityRef s1 end) = Ok (c, r)).
    { intros n c' H. rewrite <- !app_assoc, required_app. cbn [bind]. rewrite <- (KE n c' H).
      cbn [PredefinedEntities In] in H. repeat (destruct H as [[= <- <-]|H]; [reflexivity|]). destruct H. }
    destruct H1 as [ | | | | |ds N F|ds N F].
    + apply (KF (lit "amp")). cbn; tauto.
    + apply (KF (lit "lt")). cbn; tauto.
    + apply (KF (lit "gt")). cbn; tauto.
    + apply (KF (lit "apos")). cbn; tauto.
    + apply (KF (lit "quot")). cbn; tauto.
    + change (lit "&#x") with (lit "&" ++ lit "#" ++ lit "x"). rewrite <- !app_assoc, required_app. cbn [bind].
      change (match lit "#" ++ lit "x" ++ ds ++ lit ";" ++ r with c :: _ => if c =? 35 then ParseCharRef (lit "#" ++ lit "x" ++ ds ++ lit ";" ++ r) else ParseEntityRef (lit "#" ++ lit "x" ++ ds ++ lit ";" ++ r) | [] => ParseEntityRef (lit "#" ++ lit "x" ++ ds ++ lit ";" ++ r) end)
        with (ParseCharRef (lit "#" ++ lit "x" ++ ds ++ lit ";" ++ r)).
      unfold ParseCharRef. rewrite required_app. cbn [bind]. rewrite literal_app. now apply KH.
    + change (lit "&#") with (lit "&" ++ lit "#"). rewrite <- !app_assoc, required_app. cbn [bind].
      change (match lit "#" ++ ds ++ lit ";" ++ r with c :: _ => if c =? 35 then ParseCharRef (lit "#" ++ ds ++ lit ";" ++ r) else ParseEntityRef (lit "#" ++ ds ++ lit ";" ++ r) | [] => ParseEntityRef (lit "#" ++ ds ++ lit ";" ++ r) end)
        with (ParseCharRef (lit "#" ++ ds ++ lit ";" ++ r)).
      unfold ParseCharRef. rewrite required_app. cbn [bind].
      replace (ParseLiteral (lit "x") (ds ++ lit ";" ++ r)) with (@None str); [now apply KD|].
      symmetry. apply literal_none. intros x E. destruct F as [|d ds F1 F2]; [congruence|]. cbn in E. injection E as E _. unfold dec_digit in F1. lia.
Qed.

Lemma legal_cons m c : legal_reference m c -> exists m', m = 38 :: m'.
Proof. intros [H _]. destruct (ref_shape _ _ H) as (b & -> & _). eauto. Qed.
Lemma reference_shorter s c r : ParseReference s = Ok (c, r) -> (length r < length s)%nat.
Proof. intros H. apply reference_iff in H as (m & -> & H). destruct (legal_cons _ _ H) as (m' & ->). cbn [app length]. rewrite app_length. lia. Qed.

(** ** Attribute values *)
Lemma att_sound q : q = 34 \/ q = 39 -> forall f s v r, att_loop f q s = Ok (v, r) -> exists m, s = m ++ [q] ++ r /\ att_value q m v.
Proof.
  intros Hq. induction f as [|f IH]; intros s v r; cbn [att_loop]; [discriminate|]. destruct s as [|c s]; [discriminate|].
  destruct (Z.eqb_spec c q) as [->|Nq].
  { intros [= <- <-]. exists []. split; [reflexivity|constructor]. }
  destruct (Z.eqb_spec c 38) as [->|N1].
  { destruct (ParseReference _) as [[x r1]|] eqn:E; [|discriminate]. cbn [bind]. destruct (att_loop f q r1) as [[vs r2]|] eqn:E2; [|discriminate].
    cbn [bind]. intros [= <- <-]. apply reference_iff in E as (m & -> & H). apply IH in E2 as (m2 & -> & H2).
    exists (m ++ m2). split; [now rewrite <- app_assoc|]. now apply av_ref. }
  destruct (IsS c) eqn:E1.
  { destruct (att_loop f q s) as [[vs r2]|] eqn:E2; [|discriminate]. cbn [bind]. intros [= <- <-]. apply IH in E2 as (m2 & -> & H2).
    exists (c :: m2). split; [reflexivity|]. apply av_space; [now apply IsS_iff|exact H2]. }
  destruct (Z.eqb_spec c 60) as [->|N2]; [discriminate|].
  destruct (att_loop f q s) as [[vs r2]|] eqn:E2; [|discriminate]. cbn [bind]. intros [= <- <-]. apply IH in E2 as (m2 & -> & H2).
  exists (c :: m2). split; [reflexivity|]. apply av_char; try assumption. rewrite <- IsS_iff. congruence.
Qed.
Lemma att_complete q m v : q = 34 \/ q = 39 -> att_value q m v -> forall f r, (length m < f)%nat -> att_loop f q (m ++ [q] ++ r) = Ok (v, r).
Proof.
  intros Hq. induction 1 as [|c m v N1 N2 N3 N4 _ IH|c m v HS _ IH|w c m v HR _ IH]; intros f r Hf; (destruct f as [|f]; [cbn in Hf; lia|]); try cbn [app] in IH.
  - cbn [app att_loop]. now rewrite Z.eqb_refl.
  - cbn [app att_loop]. rewrite (proj2 (Z.eqb_neq _ _) N3), (proj2 (Z.eqb_neq _ _) N1), (proj2 (Z.eqb_neq _ _) N2).
    replace (IsS c) with false by (symmetry; apply not_true_is_false; rewrite IsS_iff; exact N4).
    rewrite IH by (cbn [length] in Hf; lia). reflexivity.
  - cbn [app att_loop]. replace (c =? q) with false by (unfold xml_space in HS; lia). replace (c =? 38) with false by (unfold xml_space in HS; lia).
    replace (IsS c) with true by (symmetry; apply IsS_iff; exact HS). rewrite IH by (cbn [length] in Hf; lia). reflexivity.
  - destruct (legal_cons _ _ HR) as (w' & ->). cbn [app att_loop]. replace (38 =? q) with false by lia. change (38 =? 38) with true. cbv iota.
    change (38 :: (w' ++ m) ++ q :: r) with (((38 :: w') ++ m) ++ [q] ++ r). rewrite <- app_assoc.
    rewrite (proj2 (reference_iff _ c (m ++ [q] ++ r))) by (exists (38 :: w'); split; [reflexivity|exact HR]). cbn [bind app].
    rewrite IH by (rewrite app_length in Hf; cbn [length] in Hf; lia). reflexivity.
Qed.
Lemma AttValue_iff s v r : ParseAttValue s = Ok (v, r) <->
  exists q m, (q = 34 \/ q = 39) /\ s = [q] ++ m ++ [q] ++ r /\ att_value q m v.
Proof.
  unfold ParseAttValue, ParseQuote. split.
  - destruct s as [|q s]; [discriminate|]. destruct ((q =? 34) || (q =? 39)) eqn:E; [|discriminate]. cbn [bind].
    intros H. assert (Hq : q = 34 \/ q = 39) by lia. apply (att_sound q Hq) in H as (m & -> & H). exists q, m. now repeat split.
  - intros (q & m & Hq & -> & H). cbn [app]. replace ((q =? 34) || (q =? 39)) with true by lia. cbn [bind].
    change (m ++ q :: r) with (m ++ [q] ++ r). apply att_complete; [exact Hq|exact H|]. rewrite app_length. lia.
Qed.

(** ** Equals signs *)
Lemma Eq_spec s r : ParseEq s = Ok r -> exists e, eq_sign e /\ s = e ++ r /\ stops IsS r.
Proof.
  unfold ParseEq. destruct (ParseS s) as [a s1] eqn:E. cbn [snd]. apply ParseS_spec in E as (-> & H1 & _).
  destruct (ParseRequiredLiteral _ s1) as [s2|] eqn:E; [|discriminate]. apply required_iff in E. subst s1. cbn [bind].
  destruct (ParseS s2) as [b s3] eqn:E. cbn [snd]. intros [= <-]. apply ParseS_spec in E as (-> & H2 & H3).
  exists (a ++ lit "=" ++ b). split; [now exists a, b|]. split; [now rewrite <- !app_assoc|exact H3].
Qed.
Lemma Eq_eq e r : eq_sign e -> stops IsS r -> ParseEq (e ++ r) = Ok r.
Proof.
  intros (a & b & H1 & H2 & ->) H3. unfold ParseEq. rewrite <- !app_assoc, ParseS_eq by (assumption || reflexivity). cbn [snd].
  rewrite required_app. cbn [bind]. now rewrite ParseS_eq.
Qed.
Lemma eq_sign_stops e r : eq_sign e -> stops IsNameChar (e ++ r).
Proof.
  intros (a & b & H1 & _ & ->). destruct a as [|c a]; [reflexivity|]. cbn [app stops]. apply Forall_inv in H1.
  destruct (IsNameChar c) eqn:E; [|reflexivity]. apply name_char_of in E as (E & _). contradiction.
Qed.
