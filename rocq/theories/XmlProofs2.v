(** Proofs about XmlUtils.v: round trips. *)
From Verif Require Import Py Iso Dec XmlUtils XmlSpec XmlProofs.
Ltac Zify.zify_convert_to_euclidean_division_equations_flag ::= constr:(true).

Ltac fl := vm_compute lit; repeat (apply Forall_cons; [cbv beta; lia|]); apply Forall_nil.

(** *** References *)
Lemma ParseName_step c r : IsS c = false -> mem c (lit "<>/;=") = false ->
  nmtoken_char c || (c >? 128) = true ->
  ParseName true (c :: r) = let '(n, t) := ParseName true r in (c :: n, t).
Proof. intros H1 H2 H3. cbn [ParseName]. rewrite H1, H2, H3. reflexivity. Qed.

Lemma nm_plain c : nmtoken_char c || (c >? 128) = true ->
  IsS c = false /\ mem c (lit "<>/;=") = false.
Proof.
  unfold nmtoken_char, IsS, is_letter, is_digit.
  let v := eval vm_compute in (lit "<>/;=") in change (lit "<>/;=") with v.
  let v := eval vm_compute in (lit "_-.:") in change (lit "_-.:") with v.
  cbn [mem existsb]. intros H. split; lia.
Qed.

Lemma nmstart_nmtoken c : nmstart_char c || (c >? 128) = true -> nmtoken_char c || (c >? 128) = true.
Proof.
  unfold nmtoken_char, nmstart_char.
  let v := eval vm_compute in (lit "_-.:") in change (lit "_-.:") with v.
  cbn [mem existsb]. lia.
Qed.

Lemma dec_nm c : is_dec c -> nmtoken_char c || (c >? 128) = true.
Proof. unfold is_dec, nmtoken_char, is_digit. intros H. replace ((c >=? 48) && (c <=? 57)) with true by lia. rewrite orb_true_r. reflexivity. Qed.

(** A name followed by a character that ends names *)
Definition ends_name (r : str) : Prop :=
  match r with [] => True | c :: _ => IsS c || mem c (lit "<>/;=") = true end.

Lemma ParseName_true_all n r : Forall (fun c => nmtoken_char c || (c >? 128) = true) n -> ends_name r ->
  ParseName true (n ++ r) = (n, r).
Proof.
  intros Hn Hr. induction Hn as [|c n Hc Hn IH]; cbn [app].
  - destruct r as [|c r]; [reflexivity|]. cbn [ParseName ends_name] in *.
    destruct (IsS c); [reflexivity|]. cbn [orb] in Hr. rewrite Hr. reflexivity.
  - destruct (nm_plain c Hc). rewrite ParseName_step, IH by assumption. reflexivity.
Qed.

Lemma digits_value_dec : forall ds v, Forall is_dec ds ->
  digits_value 10 v ds = Ok (fold_left (fun v c => v * 10 + (c - 48)) ds v).
Proof.
  induction ds as [|c ds IH]; intros v H; [reflexivity|]. inversion_clear H as [|? ? Hc Hds].
  cbn [digits_value fold_left]. unfold is_dec in Hc. change (10 =? 16) with false.
  replace (c >? 128) with false by lia. unfold is_digit, hex_value.
  replace ((c >=? 48) && (c <=? 57)) with true by lia. cbv iota.
  replace (is_digit c) with true by (unfold is_digit; lia). apply IH, Hds.
Qed.

Lemma py_int_fmt n : 0 <= n -> py_int 10 (fmt n) = Ok n.
Proof.
  intros Hn. pose proof (fmt_digits n Hn) as D. pose proof (dval_fmt n Hn) as V.
  destruct (fmt_cons n) as (a & s & E). rewrite E in *. unfold py_int.
  assert (is_dec a) as Ha by (inversion D; assumption). unfold is_dec in Ha.
  replace (a =? 45) with false by lia.
  assert (int_digits 10 (a :: s) = digits_value 10 0 (a :: s)) as ->.
  { unfold int_digits. destruct s as [|b s]; [reflexivity|]. change (10 =? 16) with false.
    reflexivity. }
  rewrite digits_value_dec by exact D. f_equal. exact V.
Qed.

Lemma ref_decimal c r : 0 <= c <= 0x10FFFF ->
  ParseReference (35 :: fmt c ++ 59 :: r) = Ok (c, r).
Proof.
  intros Hc. unfold ParseReference. cbn [ParseChar]. rewrite Z.eqb_refl.
  pose proof (fmt_digits c ltac:(lia)) as D.
  replace (ParseChar 120 (fmt c ++ 59 :: r)) with (@None str).
  2:{ destruct (fmt_cons c) as (a & s & E). rewrite E in *. cbn [app ParseChar].
      assert (is_dec a) as Ha by (inversion D; assumption). unfold is_dec in Ha.
      replace (a =? 120) with false by lia. reflexivity. }
  rewrite ParseName_true_all.
  - rewrite py_int_fmt by lia. cbn [bind]. unfold unichr.
    replace ((c <? -2147483648) || (c >? 2147483647)) with false by lia.
    replace ((c <? 0) || (c >? 0x10FFFF)) with false by lia. reflexivity.
  - eapply Forall_impl; [|exact D]. intros a; apply dec_nm.
  - reflexivity.
Qed.

(** Each escaped character is either itself or a reference that reads back. *)
Lemma xml_char_cases c : 0 <= c <= 0x10FFFF ->
  (xml_char c = [c] /\ c <> 38 /\ c <> 60 /\ c <> 62 /\ c <= 128) \/
  exists w, xml_char c = 38 :: w /\ (forall r, ParseReference (w ++ r) = Ok (c, r)) /\
    Forall (fun x => x <= 128 /\ x <> 60 /\ x <> 62 /\ x <> 34) w /\
    (forall s t, reads s t -> reads (xml_char c ++ s) (c :: t)).
Proof.
  intros Hc. unfold xml_char.
  destruct (c =? 38) eqn:E1.
  { right. exists (lit "amp;"). replace c with 38 by lia. split; [reflexivity|]. split; [reflexivity|]. split.
    - fl.
    - intros s t H. apply (rd_entity (lit "amp")); [left; reflexivity|exact H]. }
  destruct (c =? 60) eqn:E2.
  { right. exists (lit "lt;"). replace c with 60 by lia. split; [reflexivity|]. split; [reflexivity|]. split.
    - fl.
    - intros s t H. apply (rd_entity (lit "lt")); [right; left; reflexivity|exact H]. }
  destruct (c =? 62) eqn:E3.
  { right. exists (lit "gt;"). replace c with 62 by lia. split; [reflexivity|]. split; [reflexivity|]. split.
    - fl.
    - intros s t H. apply (rd_entity (lit "gt")); [right; right; left; reflexivity|exact H]. }
  destruct (c >? 128) eqn:E4.
  { right. exists (35 :: fmt c ++ [59]). pose proof (fmt_digits c ltac:(lia)) as D.
    split; [reflexivity|]. split; [|split].
    - intros r. cbn [app]. rewrite <- app_assoc. cbn [app]. apply ref_decimal, Hc.
    - constructor; [lia|]. apply Forall_app. split; [|fl].
      eapply Forall_impl; [|exact D]. unfold is_dec. intros a Ha. lia.
    - intros s t H. change (lit "&#") with [38; 35]. change (lit ";") with [59]. cbn [app].
      rewrite <- app_assoc. cbn [app]. rewrite <- (dval_fmt c) at 2 by lia.
      apply rd_decimal; [apply fmt_not_nil|exact D|exact H]. }
  left. split; [reflexivity|lia].
Qed.

Lemma XMLString_clean s : is_text s ->
  Forall (fun x => x <= 128 /\ x <> 60 /\ x <> 62) (XMLString s).
Proof.
  induction 1 as [|c s Hc Hs IH]; cbn [XMLString]; [constructor|]. apply Forall_app. split; [|exact IH].
  destruct (xml_char_cases c Hc) as [(-> & H)|(w & -> & _ & H & _)].
  - constructor; [lia|constructor].
  - constructor; [lia|]. eapply Forall_impl; [|exact H]. cbv beta. intros; tauto.
Qed.

Lemma XMLString_reads s : is_text s -> reads (XMLString s) s.
Proof.
  induction 1 as [|c s Hc Hs IH]; cbn [XMLString]; [constructor|].
  destruct (xml_char_cases c Hc) as [(-> & H)|(w & E & _ & _ & H)].
  - cbn [app]. apply rd_char; [lia|lia|exact IH].
  - apply H, IH.
Qed.

(** Whatever references are used, the tokenizer reads the text. *)
Lemma ref_entity name v r : In (name, v) predefined -> ParseReference (name ++ 59 :: r) = Ok (v, r).
Proof.
  unfold predefined. cbn [In]. intros H.
  repeat (destruct H as [H|H]; [injection H as <- <-; reflexivity|]). destruct H.
Qed.

Lemma int_digits_dec ds : ds <> [] -> Forall is_dec ds -> py_int 10 ds = Ok (dval ds).
Proof.
  intros Hn D. destruct ds as [|a s]; [congruence|]. unfold py_int.
  assert (is_dec a) as Ha by (inversion D; assumption). unfold is_dec in Ha.
  replace (a =? 45) with false by lia.
  assert (int_digits 10 (a :: s) = digits_value 10 0 (a :: s)) as ->.
  { unfold int_digits. destruct s as [|b s]; [reflexivity|]. change (10 =? 16) with false.
    reflexivity. }
  apply digits_value_dec, D.
Qed.

Lemma ref_decimal_all ds r : ds <> [] -> Forall is_dec ds -> 0 <= dval ds <= 0x10FFFF ->
  ParseReference (35 :: ds ++ 59 :: r) = Ok (dval ds, r).
Proof.
  intros Hn D Hc. unfold ParseReference. cbn [ParseChar]. rewrite Z.eqb_refl.
  replace (ParseChar 120 (ds ++ 59 :: r)) with (@None str).
  2:{ destruct ds as [|a s]; [congruence|]. cbn [app ParseChar].
      assert (is_dec a) as Ha by (inversion D; assumption). unfold is_dec in Ha.
      replace (a =? 120) with false by lia. reflexivity. }
  rewrite ParseName_true_all.
  - rewrite int_digits_dec by assumption. cbn [bind]. unfold unichr.
    replace ((dval ds <? -2147483648) || (dval ds >? 2147483647)) with false by lia.
    replace ((dval ds <? 0) || (dval ds >? 0x10FFFF)) with false by lia. reflexivity.
  - eapply Forall_impl; [|exact D]. intros a; apply dec_nm.
  - reflexivity.
Qed.

Lemma tok_reads m s : reads m s -> is_text s -> forall chars r, tok chars (m ++ r) = tok (chars ++ s) r.
Proof.
  intros H. induction H as [|c m s H1 H2 H IH|name v m s Hv H IH|ds m s H1 H2 H IH];
    intros Hs chars r; cbn [app].
  - rewrite app_nil_r. reflexivity.
  - inversion_clear Hs. rewrite tok_eq. replace (c =? 60) with false by lia. replace (c =? 38) with false by lia.
    rewrite IH by assumption. rewrite <- app_assoc. reflexivity.
  - inversion_clear Hs. rewrite tok_eq. change (38 =? 60) with false. rewrite Z.eqb_refl, <- app_assoc. cbn [app].
    rewrite ref_entity with (v := v) by assumption. cbn [bind]. rewrite IH by assumption. rewrite <- app_assoc. reflexivity.
  - inversion_clear Hs. rewrite tok_eq. change (38 =? 60) with false. rewrite Z.eqb_refl, <- app_assoc. cbn [app].
    rewrite ref_decimal_all by assumption. cbn [bind]. rewrite IH by assumption. rewrite <- app_assoc. reflexivity.
Qed.

Lemma tokenize_xml s : is_text s ->
  TokenizeString (XMLString s) = Ok (match s with [] => [] | _ => [Text s] end).
Proof.
  intros H. change (tok [] (XMLString s) = Ok (flush s)).
  rewrite <- (app_nil_r (XMLString s)), (tok_reads _ s) by (exact H || apply XMLString_reads, H). reflexivity.
Qed.

Lemma att_reads d m s : reads m s -> is_text s -> d = 34 \/ d = 39 -> ~ In d m -> forall r,
  att d (m ++ d :: r) = Ok (s, r).
Proof.
  intros H Hs Hd. revert Hs. induction H as [|c m s H1 H2 H IH|name v m s Hv H IH|ds m s H1 H2 H IH];
    intros Hs Hi r; cbn [app].
  - rewrite att_eq, Z.eqb_refl. reflexivity.
  - inversion_clear Hs. rewrite att_eq.
    assert (c <> d /\ ~ In d m) as [Hcd Hi'] by (split; intros E; apply Hi; [left; exact E|right; exact E]).
    replace (c =? d) with false by lia. replace (c =? 38) with false by lia.
    rewrite IH by assumption. reflexivity.
  - inversion_clear Hs. rewrite att_eq.
    assert (~ In d m) as Hi' by (intros E; apply Hi; right; apply in_or_app; right; right; exact E).
    replace (38 =? d) with false by (destruct Hd; subst; reflexivity). rewrite Z.eqb_refl, <- app_assoc. cbn [app].
    rewrite ref_entity with (v := v) by assumption. cbn [bind]. rewrite IH by assumption. reflexivity.
  - inversion_clear Hs. rewrite att_eq.
    assert (~ In d m) as Hi' by (intros E; apply Hi; right; right; apply in_or_app; right; right; exact E).
    replace (38 =? d) with false by (destruct Hd; subst; reflexivity). rewrite Z.eqb_refl, <- app_assoc. cbn [app].
    rewrite ref_decimal_all by assumption. cbn [bind]. rewrite IH by assumption. reflexivity.
Qed.

Lemma ParseAttValue_reads q m s r : reads m s -> is_text s -> q = 34 \/ q = 39 -> ~ In q m ->
  ParseAttValue (q :: m ++ q :: r) = Ok (s, r).
Proof.
  intros H Hs Hq Hi. unfold ParseAttValue. replace ((q =? 34) || (q =? 39)) with true by (destruct Hq; subst; reflexivity).
  apply (att_reads q m s H Hs Hq Hi).
Qed.

Lemma XMLString_no_quote s : is_text s -> ~ In 34 s -> ~ In 34 (XMLString s).
Proof.
  induction 1 as [|c s Hc Hs IH]; cbn [XMLString]; [tauto|]. intros Hi Hx. apply in_app_or in Hx as [Hx|Hx].
  - destruct (xml_char_cases c Hc) as [(E & _)|(w & E & _ & H & _)]; rewrite E in Hx.
    + apply Hi. left. destruct Hx as [->|[]]. reflexivity.
    + destruct Hx as [Hx|Hx]; [discriminate Hx|]. rewrite Forall_forall in H. specialize (H _ Hx). lia.
  - apply IH; [|exact Hx]. intros Q. apply Hi. right. exact Q.
Qed.

Lemma ParseAttValue_xml s r : is_text s -> ~ In 34 s ->
  ParseAttValue (34 :: XMLString s ++ 34 :: r) = Ok (s, r).
Proof.
  intros H Hi. apply ParseAttValue_reads; [apply XMLString_reads, H|exact H|left; reflexivity|].
  apply XMLString_no_quote; assumption.
Qed.

(** *** Comments *)
Lemma ec_eq c d s : EncodeComment (c :: d :: s) =
  if (c =? 45) && (d =? 45) then 45 :: 32 :: 45 :: 32 :: EncodeComment s else c :: EncodeComment (d :: s).
Proof. reflexivity. Qed.

Lemma two_ind (P : str -> Prop) : P [] -> (forall c, P [c]) ->
  (forall c d s, P s -> P (d :: s) -> P (c :: d :: s)) -> forall s, P s.
Proof.
  intros H0 H1 H2 s. assert (P s /\ forall c, P (c :: s)) as [H _]; [|exact H].
  induction s as [|d s [IH1 IH2]]; [split; auto|]. split; [apply IH2|].
  intros c. apply H2; auto.
Qed.

Lemma EncodeComment_filter : forall s,
  filter (fun c => negb (c =? 32)) (EncodeComment s) = filter (fun c => negb (c =? 32)) s.
Proof.
  apply two_ind; [reflexivity|intros c; reflexivity|]. intros c d s IH1 IH2. rewrite ec_eq.
  destruct ((c =? 45) && (d =? 45)) eqn:E.
  - replace c with 45 by lia. replace d with 45 by lia. cbn [filter].
    change (negb (45 =? 32)) with true. change (negb (32 =? 32)) with false. cbv iota. rewrite IH1. reflexivity.
  - cbn [filter] in *. rewrite IH2. reflexivity.
Qed.

(** The encoded text followed by a character other than a hyphen *)
Lemma EncodeComment_body x tail : xml_Char x -> x <> 45 -> comment_body tail ->
  forall s, Forall xml_Char s -> comment_body (EncodeComment s ++ x :: tail) /\
    (forall c, c <> 45 -> xml_Char c -> comment_body (45 :: c :: EncodeComment s ++ x :: tail)) /\
    (match EncodeComment s with [] => True | a :: _ => hd 0 s = a end).
Proof.
  intros Hx1 Hx2 Ht.
  assert (xml_Char 32) as H32 by (unfold xml_Char; lia).
  intros s; induction s as [|c|c d s IH1 IH2] using two_ind; intros H.
  - cbn [EncodeComment app]. split; [constructor; assumption|]. split; [|exact I].
    intros c Hc1 Hc2. apply cb_hyphen; [assumption..|]. constructor; assumption.
  - inversion_clear H as [|? ? Hc _]. cbn [EncodeComment app]. split.
    + destruct (Z.eq_dec c 45) as [->|N]; [apply cb_hyphen; assumption|]. repeat (apply cb_char; [assumption..|]). exact Ht.
    + split; [|reflexivity]. intros e He1 He2. apply cb_hyphen; [assumption..|].
      destruct (Z.eq_dec c 45) as [->|N]; [apply cb_hyphen; assumption|]. repeat (apply cb_char; [assumption..|]). exact Ht.
  - inversion_clear H as [|? ? Hc Hs]. inversion_clear Hs as [|? ? Hd Hs'].
    destruct (IH1 Hs') as (A1 & A2 & A3). destruct (IH2 (Forall_cons _ Hd Hs')) as (B1 & B2 & B3).
    rewrite ec_eq. destruct ((c =? 45) && (d =? 45)) eqn:E; cbn [app hd].
    + assert (comment_body (45 :: 32 :: 45 :: 32 :: EncodeComment s ++ x :: tail)) as G.
      { apply cb_hyphen; [assumption|lia|]. apply A2; [lia|assumption]. }
      split; [exact G|]. split; [|lia]. intros e He1 He2. apply cb_hyphen; assumption.
    + assert (comment_body (c :: EncodeComment (d :: s) ++ x :: tail)) as G.
      { destruct (Z.eq_dec c 45) as [->|N]; [|apply cb_char; assumption].
        assert (d <> 45) as Nd by lia.
        (* EncodeComment (d :: s) starts with d *)
        destruct s as [|e s].
        - cbn [EncodeComment app]. apply cb_hyphen; [assumption..|]. apply cb_char; assumption.
        - rewrite ec_eq in *. replace ((d =? 45) && (e =? 45)) with false in * by lia. cbn [app] in *.
          inversion B1 as [|c' s' W1 W2 W3|]; subst; [|congruence]. apply cb_hyphen; assumption. }
      split; [exact G|]. split; [|reflexivity]. intros e He1 He2. apply cb_hyphen; assumption.
Qed.

Lemma body_no_double b : comment_body b -> forall p q, b <> p ++ 45 :: 45 :: q.
Proof.
  induction 1 as [|c s H1 H2 H3 IH|c s H1 H2 H3 IH]; intros p q E.
  - destruct p; discriminate.
  - destruct p as [|a p]; cbn [app] in E; injection E as E1 E2; [congruence|]. exact (IH _ _ E2).
  - destruct p as [|a [|a' p]]; cbn [app] in E; injection E; intros; try congruence.
Qed.

(** Without the hypothesis on the characters *)
Lemma EncodeComment_no_double : forall s p q, EncodeComment s <> p ++ 45 :: 45 :: q.
Proof.
  assert (forall s, (forall p q, EncodeComment s <> p ++ 45 :: 45 :: q) /\
     (hd 0 s <> 45 -> hd 0 (EncodeComment s) <> 45)) as G.
  { apply two_ind.
    - cbn. split; [intros [|? ?] ?; discriminate|lia].
    - intros c. cbn [EncodeComment hd]. split; [|auto]. intros [|? [|? ?]] q; discriminate.
    - intros c d s [A1 A2] [B1 B2]. rewrite ec_eq. destruct ((c =? 45) && (d =? 45)) eqn:E.
      + split; [|cbn [hd]; lia]. intros p q Eq.
        do 4 (destruct p as [|? p]; cbn [app] in Eq; [discriminate Eq|injection Eq as _ Eq]). exact (A1 _ _ Eq).
      + split; [|intros Hc; cbn [hd] in *; exact Hc]. intros [|a p] q Eq; cbn [app] in Eq; injection Eq as E1 E2.
        * subst c. cbn [hd] in B2. assert (d <> 45) as Nd by lia. specialize (B2 Nd). change (EncodeComment (d :: s) = 45 :: q) in E2. rewrite E2 in B2.
          cbn [hd] in B2. congruence.
        * exact (B1 _ _ E2). }
  intros s. apply G.
Qed.

Lemma EncodeComment_comment s : Forall xml_Char s ->
  well_formed_comment (lit "<!--" ++ [10] ++ EncodeComment s ++ [9] ++ lit "-->").
Proof.
  intros H. exists (10 :: EncodeComment s ++ [9]). split.
  - apply cb_char; [unfold xml_Char; lia|lia|].
    apply EncodeComment_body; [unfold xml_Char; lia|lia|constructor|exact H].
  - cbn [app]. rewrite <- app_assoc. reflexivity.
Qed.

Lemma wf_comment_end s : ~ well_formed_comment (lit "<!--" ++ s ++ [45] ++ lit "-->").
Proof.
  intros (b & Hb & E). apply app_inv_head in E. rewrite app_assoc in E. apply app_inv_tail in E. subst b.
  revert Hb. apply (two_ind (fun s => ~ comment_body (s ++ [45]))).
  - intros H. inversion H; congruence.
  - intros c H. cbn [app] in H. inversion H as [|? ? ? ? Q|]; subst; [inversion Q; congruence|congruence].
  - intros c d s1 A B H. cbn [app] in *. inversion H as [|? ? ? ? Q|? ? ? ? Q]; subst; [exact (B Q)|exact (A Q)].
Qed.

(** *** Relative URLs *)
Lemma is_letter_iff c : is_letter c = true <-> letter c.
Proof. unfold is_letter, letter. lia. Qed.
Lemma is_digit_iff c : is_digit c = true <-> is_dec c.
Proof. unfold is_digit, is_dec. lia. Qed.
Lemma scheme_char_iff c : scheme_char c = true <-> letter c \/ is_dec c \/ c = 43 \/ c = 45 \/ c = 46.
Proof.
  unfold scheme_char. let v := eval vm_compute in (lit "+-.") in change (lit "+-.") with v.
  rewrite !orb_true_iff, is_letter_iff, is_digit_iff. unfold letter, is_dec. cbn [mem existsb]. lia.
Qed.

Lemma before_colon_spec : forall u a b, before_colon u = (a, b) ->
  ~ In 58 a /\ (if b then exists r, u = a ++ 58 :: r else u = a).
Proof.
  induction u as [|c u IH]; intros a b; cbn [before_colon].
  - intros [= <- <-]. split; [tauto|reflexivity].
  - destruct (c =? 58) eqn:E.
    + intros [= <- <-]. split; [tauto|]. exists u. cbn [app]. f_equal. lia.
    + destruct (before_colon u) as [a' b'] eqn:E2. intros [= <- <-]. destruct (IH _ _ eq_refl) as [H1 H2].
      split; [intros [->|H]; [lia|tauto]|]. destruct b'; [destruct H2 as [r ->]; exists r; reflexivity|subst; reflexivity].
Qed.

Lemma before_colon_app a r : ~ In 58 a -> before_colon (a ++ 58 :: r) = (a, true).
Proof.
  induction a as [|c a IH]; intros H; cbn [app before_colon]; [reflexivity|].
  replace (c =? 58) with false by (symmetry; apply Z.eqb_neq; intros ->; apply H; left; reflexivity).
  rewrite IH by (intros Q; apply H; right; exact Q). reflexivity.
Qed.

Lemma RelativeURL_spec u : (forall r, u <> 58 :: r) ->
  exists b, RelativeURL u = Ok b /\ (b = false <-> has_scheme u).
Proof.
  intros Hu. unfold RelativeURL. destruct (before_colon u) as [a b] eqn:E.
  destruct (before_colon_spec _ _ _ E) as [Ha Hb]. destruct b.
  - destruct Hb as [r ->]. destruct a as [|c a]; [exfalso; exact (Hu r eq_refl)|].
    destruct (is_letter c) eqn:Ec; cbn [negb].
    + eexists. split; [reflexivity|]. rewrite negb_false_iff. cbn [forallb]. split.
      * intros H. apply andb_true_iff in H as [_ H]. exists c, a, r. split; [reflexivity|].
        split; [apply is_letter_iff, Ec|]. apply Forall_forall. intros x Hx.
        apply scheme_char_iff. eapply forallb_forall in H; [exact H|exact Hx].
      * intros (x & s & rest & Eq & Hx & Hs). apply andb_true_iff. split.
        { unfold scheme_char. rewrite Ec. reflexivity. }
        assert (~ In 58 (x :: s)) as Ns.
        { intros [->|H]; [unfold letter in Hx; lia|]. rewrite Forall_forall in Hs. specialize (Hs _ H).
          unfold letter, is_dec in Hs. lia. }
        assert (before_colon ((x :: s) ++ 58 :: rest) = (x :: s, true)) as Q by (apply before_colon_app, Ns).
        cbn [app] in Q, E, Eq. rewrite <- Eq in Q. rewrite E in Q. injection Q as -> ->.
        apply forallb_forall. intros y Hy. apply scheme_char_iff. rewrite Forall_forall in Hs. apply Hs, Hy.
    + exists true. split; [reflexivity|]. split; [discriminate|]. intros (x & s & rest & Eq & Hx & Hs).
      cbn [app] in Eq. injection Eq as -> _. apply is_letter_iff in Hx. congruence.
  - subst. exists true. split; [reflexivity|]. split; [discriminate|].
    intros (x & s & rest & Eq & Hx & Hs). exfalso. apply Ha. rewrite Eq. right. apply in_or_app. right. left. reflexivity.
Qed.

(** *** Path segments *)
Lemma hexlow_hex n : 0 <= n <= 15 -> hex_of (hexlow n) n.
Proof. unfold hexlow, hex_of. intros H. destruct (n <? 10) eqn:E; lia. Qed.
Lemma hex_of_value c v : hex_of c v -> is_hex c = true /\ hex_value c = v /\ c <> 37.
Proof.
  unfold hex_of, is_hex, hex_value, is_digit. intros H.
  destruct ((c >=? 48) && (c <=? 57)) eqn:E1; [lia|]. destruct (c <=? 70) eqn:E2; lia.
Qed.

Lemma decode_reads s t : pct_reads s t -> DecodePathSegment s = t.
Proof.
  unfold DecodePathSegment. induction 1 as [|c s t Hc H IH|a b x y s t Ha Hb H IH]; [reflexivity| |].
  - cbn [decode_loop]. replace (c =? 37) with false by lia. rewrite IH. reflexivity.
  - destruct (hex_of_value _ _ Ha) as (A1 & A2 & A3). destruct (hex_of_value _ _ Hb) as (B1 & B2 & B3).
    cbn [decode_loop]. rewrite Z.eqb_refl. replace (a =? 37) with false by lia. rewrite A1.
    replace (b =? 37) with false by lia. rewrite B1, A2, B2, IH. reflexivity.
Qed.

Lemma pchar_iff c : pchar c = true -> segment_char c /\ c <> 37.
Proof.
  unfold pchar, segment_char.
  let v := eval vm_compute in (lit "-_.!~*':@&=+$,") in change (lit "-_.!~*':@&=+$,") with v.
  let v := eval vm_compute in (lit "-_.!~*'():@&=+$,") in change (lit "-_.!~*'():@&=+$,") with v.
  rewrite !orb_true_iff, is_letter_iff, is_digit_iff. unfold letter, is_dec. cbn [mem existsb In].
  intros H. split; lia.
Qed.

Lemma encode_reads s : octets s -> pct_reads (EncodePathSegment s) s.
Proof.
  induction 1 as [|c s Hc Hs IH]; cbn [EncodePathSegment]; [constructor|]. unfold encode_char.
  destruct (pchar c) eqn:E; [apply pchar_iff in E as [_ E]; apply pr_char; assumption|].
  replace (c >? 255) with false by lia. cbn [app].
  rewrite (Z.div_mod c 16) at 3 by lia. rewrite (Z.mul_comm 16).
  apply pr_escape; [apply hexlow_hex; lia|apply hexlow_hex; lia|exact IH].
Qed.

Lemma encode_chars s : octets s ->
  Forall (fun c => c = 37 \/ segment_char c) (EncodePathSegment s).
Proof.
  induction 1 as [|c s Hc Hs IH]; cbn [EncodePathSegment]; [constructor|]. apply Forall_app.
  split; [|exact IH]. unfold encode_char. destruct (pchar c) eqn:E.
  - constructor; [right; apply pchar_iff, E|constructor].
  - replace (c >? 255) with false by lia.
    assert (forall n, 0 <= n <= 15 -> segment_char (hexlow n)) as G.
    { intros n Hn. unfold segment_char, letter, is_dec, hexlow. destruct (n <? 10) eqn:E2; lia. }
    constructor; [left; reflexivity|]. constructor; [right; apply G; lia|].
    constructor; [right; apply G; lia|constructor].
Qed.

(** *** Reading back markup *)
Lemma name_start_iff c : name_start c <-> nmstart_char c || (c >? 128) = true.
Proof. unfold name_start, nmstart_char. rewrite !orb_true_iff, is_letter_iff. unfold letter. lia. Qed.
Lemma name_char_iff c : name_char c <-> nmtoken_char c || (c >? 128) = true.
Proof.
  unfold name_char, nmtoken_char.
  let v := eval vm_compute in (lit "_-.:") in change (lit "_-.:") with v.
  rewrite !orb_true_iff, is_letter_iff, is_digit_iff. unfold letter, is_dec. cbn [mem existsb In]. lia.
Qed.

Lemma ParseName_name n r : is_name n -> ends_name r -> ParseName false (n ++ r) = (n, r).
Proof.
  destruct n as [|a n]; [intros []|]. intros [Ha Hn] Hr. apply name_start_iff in Ha.
  destruct (nm_plain a (nmstart_nmtoken a Ha)) as [H1 H2]. cbn [app ParseName]. rewrite H1, H2, Ha.
  rewrite ParseName_true_all; [reflexivity| |exact Hr].
  eapply Forall_impl; [|exact Hn]. intros c. apply name_char_iff.
Qed.

Lemma space_iff c : space c <-> IsS c = true.
Proof. unfold space, IsS. cbn [mem existsb]. lia. Qed.

Lemma SkipSpace_app sp r : Forall space sp -> SkipSpace (sp ++ r) = SkipSpace r.
Proof.
  induction 1 as [|c sp Hc Hs IH]; cbn [app SkipSpace]; [reflexivity|].
  apply space_iff in Hc. rewrite Hc. exact IH.
Qed.

Lemma SkipSpace_stop c r : IsS c = false -> SkipSpace (c :: r) = c :: r.
Proof. intros H. cbn [SkipSpace]. rewrite H. reflexivity. Qed.

Lemma set_attr_new k v a : ~ In k (map fst a) -> set_attr k v a = a ++ [(k, v)].
Proof.
  induction a as [|[k' v'] a IH]; intros H; cbn [set_attr app]; [reflexivity|].
  cbn [map fst In] in H. replace (str_eqb k k') with false by (symmetry; apply str_eqb_neq; intros ->; tauto).
  rewrite IH by tauto. reflexivity.
Qed.

Lemma ends_spaces sp c r : Forall space sp -> IsS c || mem c (lit "<>/;=") = true -> ends_name (sp ++ c :: r).
Proof.
  intros [|x sp' Hx H] Hc; cbn [app ends_name]; [exact Hc|].
  apply space_iff in Hx. rewrite Hx. reflexivity.
Qed.

Definition tagp n a s := tag_loop (S (length s)) n a s.
Definition tag_end (r : str) (t : tag_type) (rest : str) : Prop :=
  (t = STag /\ r = 62 :: rest) \/ (t = EmptyElemTag /\ r = 47 :: 62 :: rest).

Lemma tagp_step n a k v s sp sp1 sp2 q w :
  Forall space sp -> is_name k -> Forall space sp1 -> Forall space sp2 ->
  q = 34 \/ q = 39 -> reads w v -> is_text v -> ~ In q w ->
  tagp n a (sp ++ k ++ sp1 ++ 61 :: sp2 ++ q :: w ++ q :: s) = tagp n (set_attr k v a) s.
Proof.
  intros Hsp Hk Hsp1 Hsp2 Hq Hw Hv Hi. unfold tagp.
  destruct k as [|x k]; [destruct Hk|].
  assert (nmstart_char x || (x >? 128) = true) as Hx by (apply name_start_iff, Hk).
  destruct (nm_plain x (nmstart_nmtoken x Hx)) as [N1 N2].
  assert ((x =? 62) = false /\ (x =? 47) = false) as [X1 X2].
  { revert N2. let v := eval vm_compute in (lit "<>/;=") in change (lit "<>/;=") with v.
    cbn [mem existsb]. lia. }
  remember (length (sp ++ (x :: k) ++ sp1 ++ 61 :: sp2 ++ q :: w ++ q :: s)) as f eqn:Ef.
  transitivity (tag_loop f n (set_attr (x :: k) v a) s).
  2:{ apply tag_loop_fuel; [|lia]. subst f. repeat (rewrite app_length; cbn [length]). lia. }
  cbn [tag_loop]. rewrite SkipSpace_app by exact Hsp.
  cbn [app]. rewrite SkipSpace_stop by exact N1. cbv beta iota zeta. rewrite X1, X2.
  change (x :: k ++ sp1 ++ 61 :: sp2 ++ q :: w ++ q :: s) with ((x :: k) ++ (sp1 ++ 61 :: sp2 ++ q :: w ++ q :: s)).
  rewrite ParseName_name; [|exact Hk|apply ends_spaces; [exact Hsp1|reflexivity]].
  rewrite SkipSpace_app, SkipSpace_stop by (exact Hsp1 || reflexivity). cbn [ParseChar]. rewrite Z.eqb_refl.
  rewrite SkipSpace_app by exact Hsp2.
  rewrite SkipSpace_stop by (destruct Hq; subst; reflexivity).
  rewrite ParseAttValue_reads with (s := v) by assumption. reflexivity.
Qed.

Lemma tagp_end n a sp r t rest : Forall space sp -> tag_end r t rest ->
  tagp n a (sp ++ r) = Ok (mkTag n t a, rest).
Proof.
  intros Hsp He. unfold tagp. cbn [tag_loop]. rewrite SkipSpace_app by exact Hsp.
  destruct He as [[-> ->]|[-> ->]]; reflexivity.
Qed.

Lemma tagp_atts n l m : attributes l m -> forall a r t rest, NoDup (map fst a ++ map fst l) ->
  tag_end r t rest -> tagp n a (m ++ r) = Ok (mkTag n t (a ++ l), rest).
Proof.
  induction 1 as [sp Hsp|k v l sp sp1 sp2 q w m H1 H2 H3 H4 H5 H6 H7 H8 H9 H IH]; intros a r t rest Hd He.
  - rewrite app_nil_r. apply tagp_end; assumption.
  - replace ((sp ++ k ++ sp1 ++ 61 :: sp2 ++ q :: w ++ q :: m) ++ r)
      with (sp ++ k ++ sp1 ++ 61 :: sp2 ++ q :: w ++ q :: (m ++ r))
      by (repeat (rewrite <- app_assoc; cbn [app]); reflexivity).
    rewrite tagp_step with (v := v) by assumption.
    cbn [map fst] in Hd. rewrite set_attr_new.
    + rewrite IH with (t := t) (rest := rest); [rewrite <- app_assoc; reflexivity| |exact He].
      rewrite map_app. cbn [map fst]. rewrite <- app_assoc. exact Hd.
    + apply NoDup_remove_2 in Hd. intros Hi. apply Hd, in_or_app. left; exact Hi.
Qed.

Lemma ends_atts l m r t rest : attributes l m -> tag_end r t rest -> ends_name (m ++ r).
Proof.
  intros H He. destruct H as [sp Hsp|k v l sp sp1 sp2 q w m Hsp Hn].
  - destruct He as [[-> ->]|[-> ->]]; apply ends_spaces; (exact Hsp || reflexivity).
  - destruct Hsp as [|x sp' Hx Hsp]; [congruence|]. cbn [app ends_name]. apply space_iff in Hx. rewrite Hx. reflexivity.
Qed.

Lemma name_not_slash n : is_name n -> forall r, ParseChar 47 (n ++ r) = None.
Proof.
  destruct n as [|x n]; [intros []|]. intros [Hx _] r. apply name_start_iff in Hx.
  destruct (nm_plain x (nmstart_nmtoken x Hx)) as [_ N2]. cbn [app ParseChar].
  replace (x =? 47) with false; [reflexivity|].
  revert N2. let v := eval vm_compute in (lit "<>/;=") in change (lit "<>/;=") with v.
  cbn [mem existsb]. lia.
Qed.

Lemma ParseTag_atts n a m r t rest : is_name n -> NoDup (map fst a) -> attributes a m ->
  tag_end r t rest -> ParseTag (n ++ m ++ r) = Ok (Tag (mkTag n t a), rest).
Proof.
  intros Hn Hd Ha He. unfold ParseTag.
  rewrite ParseName_name by (exact Hn || (eapply ends_atts; eassumption)).
  destruct n as [|x n]; [destruct Hn|].
  change (tag_loop (S (length (m ++ r))) (x :: n) [] (m ++ r)) with (tagp (x :: n) [] (m ++ r)).
  rewrite (tagp_atts _ _ _ Ha [] _ _ _ Hd He). reflexivity.
Qed.

Lemma parse_lt_tag t m : tag_markup t m -> exists m', m = 60 :: m' /\
  forall rest, parse_lt (m' ++ rest) = Ok (Tag t, rest).
Proof.
  destruct 1 as [n a m Hn Hd Ha|n a m Hn Hd Ha|n sp Hn Hsp]; eexists; (split; [reflexivity|]); intros rest.
  - rewrite <- !app_assoc. unfold parse_lt. rewrite name_not_slash by exact Hn.
    apply ParseTag_atts; [assumption..|]. left. split; reflexivity.
  - rewrite <- !app_assoc. unfold parse_lt. rewrite name_not_slash by exact Hn.
    apply ParseTag_atts; [assumption..|]. right. split; reflexivity.
  - unfold parse_lt. cbn [app ParseChar]. rewrite Z.eqb_refl. unfold ParseETag. rewrite <- !app_assoc.
    rewrite ParseName_name by (exact Hn || (apply ends_spaces; [exact Hsp|reflexivity])).
    rewrite SkipSpace_app by exact Hsp. reflexivity.
Qed.

Lemma tok_content l m : content l m ->
  tok [] m = Ok l /\
  (forall chars, match l with Text _ :: _ => False | _ => True end -> tok chars m = Ok (flush chars ++ l)).
Proof.
  induction 1 as [|t l m w Ht H [IH1 IH2]|s l m w Hs Hx Hm Hl H [IH1 IH2]].
  - split; [reflexivity|]. intros chars _. rewrite app_nil_r. reflexivity.
  - destruct (parse_lt_tag _ _ Ht) as (m' & -> & Ep).
    assert (forall chars, tok chars ((60 :: m') ++ w) = Ok (flush chars ++ Tag t :: l)) as G.
    { intros chars. cbn [app]. rewrite tok_eq, Z.eqb_refl, Ep. cbn [bind]. rewrite IH1. reflexivity. }
    split; [apply (G [])|intros chars _; apply G].
  - split; [|intros chars []]. rewrite (tok_reads _ _ Hm Hx). cbn [app].
    rewrite IH2 by exact Hl. destruct s; [congruence|reflexivity].
Qed.

Lemma tokenize_content l m : content l m -> TokenizeString m = Ok l.
Proof. intros H. exact (proj1 (tok_content l m H)). Qed.
