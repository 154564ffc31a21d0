(** Reading XML: the declaration, the prolog and documents. *)
From Coq Require Import List ZArith Bool Lia.
From Verif Require Import Py XmlChars XmlCharsProofs XmlCharsProofs2 XmlDoc XmlDocSpec XmlDocProofs XmlDocProofs2 XmlDocProofs3.
From Verif Require XmlUtils XmlCharsSpec.
Import XmlCharsSpec.
Open Scope Z_scope.
Open Scope list_scope.

(** ** The XML declaration *)
Lemma Quote_iff s q r : ParseQuote s = Ok (q, r) <-> (q = 34 \/ q = 39) /\ s = [q] ++ r.
Proof.
  unfold ParseQuote. destruct s as [|c s]; [split; [discriminate|now intros []]|]. destruct ((c =? 34) || (c =? 39)) eqn:E; split.
  - intros [= <- <-]. split; [lia|reflexivity].
  - intros [_ [= -> ->]]. reflexivity.
  - discriminate.
  - intros [H [= -> ->]]. lia.
Qed.
Lemma ThisQuote_iff q s r : ParseThisQuote q s = Ok r <-> s = [q] ++ r.
Proof.
  unfold ParseThisQuote. destruct s as [|c s]; [split; discriminate|]. destruct (Z.eqb_spec c q) as [->|N]; split.
  - now intros [= ->].
  - now intros [= ->].
  - discriminate.
  - intros [= -> _]. contradiction.
Qed.
Lemma RequiredS_sound s r : ParseRequiredS s = Ok r -> exists sp, spaces1 sp /\ s = sp ++ r.
Proof.
  unfold ParseRequiredS. destruct (ParseS s) as [sp r'] eqn:E. apply ParseS_spec in E as (-> & H & _). destruct sp as [|c sp]; [discriminate|].
  intros [= <-]. exists (c :: sp). split; [split; [discriminate|exact H]|reflexivity].
Qed.
Lemma RequiredS_eq sp r : spaces1 sp -> stops IsS r -> ParseRequiredS (sp ++ r) = Ok r.
Proof. intros [H1 H2] H. unfold ParseRequiredS. rewrite ParseS_eq by assumption. now destruct sp. Qed.
Lemma quote_stops q r (p : Z -> bool) : q = 34 \/ q = 39 -> p 34 = false -> p 39 = false -> stops p ([q] ++ r).
Proof. intros [-> | ->]; auto. Qed.

Lemma version_iff s r : ParseVersionInfo s = Ok r <-> exists v, pseudo (lit "version") version_num v /\ s = v ++ r.
Proof.
  unfold ParseVersionInfo. split.
  - destruct (ParseRequiredS s) as [s1|] eqn:E; [|discriminate]. apply RequiredS_sound in E as (sp & H1 & ->). cbn [bind].
    destruct (ParseRequiredLiteral _ s1) as [s2|] eqn:E; [|discriminate]. apply required_iff in E as ->. cbn [bind].
    destruct (ParseEq s2) as [s3|] eqn:E; [|discriminate]. apply Eq_spec in E as (e & H2 & -> & _). cbn [bind].
    destruct (ParseQuote s3) as [[q s4]|] eqn:E; [|discriminate]. apply Quote_iff in E as (Hq & ->). cbn [bind].
    destruct (ParseRequiredLiteral _ s4) as [s5|] eqn:E; [|discriminate]. apply required_iff in E as ->. cbn [bind].
    unfold ParseRequiredDigits. destruct (take_while dec_char s5) as [ds s6] eqn:E. apply take_while_spec in E as (-> & H3 & _).
    destruct ds as [|d ds]; [discriminate|]. cbn [bind]. intros H. apply ThisQuote_iff in H as ->.
    exists (sp ++ lit "version" ++ e ++ [q] ++ (lit "1." ++ d :: ds) ++ [q]). split; [|now rewrite <- !app_assoc].
    exists sp, e, ([q] ++ (lit "1." ++ d :: ds) ++ [q]). split; [exact H1|]. split; [exact H2|]. split; [|reflexivity].
    exists q, (lit "1." ++ d :: ds). split; [exact Hq|]. split; [|reflexivity]. exists (d :: ds). split; [discriminate|]. split; [|reflexivity].
    revert H3. apply Forall_impl. intros c. apply dec_char_iff.
  - intros (v & (sp & e & w & H1 & H2 & (q & x & Hq & (ds & H3 & H4 & ->) & ->) & ->) & ->). rewrite <- !app_assoc.
    rewrite RequiredS_eq by (exact H1 || reflexivity). cbn [bind]. rewrite required_app. cbn [bind].
    rewrite Eq_eq; [|exact H2|now apply quote_stops]. cbn [bind]. rewrite (proj2 (Quote_iff _ q _)) by (split; [exact Hq|reflexivity]). cbn [bind].
    rewrite required_app. cbn [bind]. unfold ParseRequiredDigits. rewrite take_while_eq; [|revert H4; apply Forall_impl; intros c; apply dec_char_iff|now apply quote_stops].
    destruct ds as [|d ds]; [easy|]. cbn [bind]. now apply ThisQuote_iff.
Qed.

Lemma enc_start_iff c : enc_start c = true <-> latin c.
Proof. unfold enc_start, latin. lia. Qed.
Lemma enc_char_iff c : enc_char c = true <-> latin c \/ dec_digit c \/ c = 46 \/ c = 95 \/ c = 45.
Proof. unfold enc_char, dec_char, latin, dec_digit. lia. Qed.

Lemma encoding_iff s r : ParseEncodingDecl s = Ok r <-> exists e v, eq_sign e /\ quoted enc_name v /\ s = e ++ v ++ r.
Proof.
  unfold ParseEncodingDecl. split.
  - destruct (ParseEq s) as [s1|] eqn:E; [|discriminate]. apply Eq_spec in E as (e & H1 & -> & _). cbn [bind].
    destruct (ParseQuote s1) as [[q s2]|] eqn:E; [|discriminate]. apply Quote_iff in E as (Hq & ->). cbn [bind].
    destruct s2 as [|c s2]; [discriminate|]. destruct (enc_start c) eqn:E; [|discriminate]. apply enc_start_iff in E.
    destruct (take_while enc_char s2) as [x s3] eqn:E1. apply take_while_spec in E1 as (-> & H2 & _). cbn [snd]. intros H. apply ThisQuote_iff in H as ->.
    exists e, ([q] ++ (c :: x) ++ [q]). split; [exact H1|]. split; [|cbn [app]; now rewrite <- !app_assoc].
    exists q, (c :: x). split; [exact Hq|]. split; [|reflexivity]. exists c, x. split; [reflexivity|]. split; [exact E|].
    revert H2. apply Forall_impl. intros y. apply enc_char_iff.
  - intros (e & v & H1 & (q & y & Hq & (c & x & -> & H2 & H3) & ->) & ->). rewrite <- !app_assoc.
    rewrite Eq_eq; [|exact H1|now apply quote_stops]. cbn [bind]. rewrite (proj2 (Quote_iff _ q _)) by (split; [exact Hq|reflexivity]). cbn [bind app].
    rewrite (proj2 (enc_start_iff c) H2). change (q :: r) with ([q] ++ r).
    rewrite take_while_eq; [|revert H3; apply Forall_impl; intros z; apply enc_char_iff|now apply quote_stops]. cbn [snd]. now apply ThisQuote_iff.
Qed.

Lemma standalone_iff s r : ParseSDDecl s = Ok r <-> exists e v, eq_sign e /\ quoted (fun x => x = lit "yes" \/ x = lit "no") v /\ s = e ++ v ++ r.
Proof.
  unfold ParseSDDecl. split.
  - destruct (ParseEq s) as [s1|] eqn:E; [|discriminate]. apply Eq_spec in E as (e & H1 & -> & _). cbn [bind].
    destruct (ParseQuote s1) as [[q s2]|] eqn:E; [|discriminate]. apply Quote_iff in E as (Hq & ->). cbn [bind].
    set (x := if match s2 with c :: _ => c =? 121 | [] => false end then lit "yes" else lit "no").
    assert (Hx : x = lit "yes" \/ x = lit "no") by (unfold x; destruct (match s2 with [] => _ | _ => _ end); auto). clearbody x.
    destruct (ParseRequiredLiteral x s2) as [s3|] eqn:E; [|discriminate]. apply required_iff in E as ->. cbn [bind]. intros H. apply ThisQuote_iff in H as ->.
    exists e, ([q] ++ x ++ [q]). split; [exact H1|]. split; [|now rewrite <- !app_assoc]. now exists q, x.
  - intros (e & v & H1 & (q & x & Hq & Hx & ->) & ->). rewrite <- !app_assoc.
    rewrite Eq_eq; [|exact H1|now apply quote_stops]. cbn [bind]. rewrite (proj2 (Quote_iff _ q _)) by (split; [exact Hq|reflexivity]). cbn [bind].
    destruct Hx as [-> | ->].
    + change (r' <- ParseRequiredLiteral (lit "yes") (lit "yes" ++ [q] ++ r) ;; ParseThisQuote q r' = Ok r). rewrite required_app. cbn [bind]. now apply ThisQuote_iff.
    + change (r' <- ParseRequiredLiteral (lit "no") (lit "no" ++ [q] ++ r) ;; ParseThisQuote q r' = Ok r). rewrite required_app. cbn [bind]. now apply ThisQuote_iff.
Qed.

Definition sa : str -> Prop := fun x => x = lit "yes" \/ x = lit "no".

Lemma XMLDecl_sound s r : ParseXMLDecl s = Ok r -> exists m, xml_decl (lit "<?xml" ++ m) /\ s = m ++ r.
Proof.
  unfold ParseXMLDecl. destruct (ParseVersionInfo s) as [s1|] eqn:E; [|discriminate]. apply version_iff in E as (v & Hv & ->). cbn [bind].
  destruct (ParseS s1) as [sp s2] eqn:E. apply ParseS_spec in E as (-> & Hsp & _).
  intros H.
  assert (exists e sd sp' y, optional (pseudo (lit "encoding") enc_name) e /\ optional (pseudo (lit "standalone") sa) sd /\ spaces sp' /\
     sp ++ s2 = e ++ sd ++ sp' ++ y /\ ParseRequiredLiteral (lit "?>") (snd (ParseS y)) = Ok r) as (e & sd & sp' & y & H1 & H2 & H3 & E & H4).
  { destruct sp as [|c sp].
    - exists [], [], [], s2. cbn [bind] in H. split; [now left|]. split; [now left|]. split; [constructor|]. now split.
    - assert (Hs1 : spaces1 (c :: sp)) by (split; [discriminate|exact Hsp]).
      assert (KS : forall e sq y, match ParseLiteral (lit "standalone") y with Some r => ParseSDDecl r | None => Ok y end = Ok e ->
         spaces1 sq -> exists sd sp', optional (pseudo (lit "standalone") sa) sd /\ spaces sp' /\ sq ++ y = sd ++ sp' ++ e).
      { intros e sq y H' Hq. destruct (ParseLiteral (lit "standalone") y) as [y1|] eqn:E.
        - apply literal_iff in E as ->. apply standalone_iff in H' as (eq & w & K1 & K2 & ->). exists (sq ++ lit "standalone" ++ eq ++ w), [].
          split; [|split; [constructor|now rewrite <- !app_assoc]]. right. exists sq, eq, w. fin.
        - injection H' as ->. exists [], sq. split; [now left|]. split; [apply Hq|reflexivity]. }
      destruct (ParseLiteral (lit "encoding") s2) as [s3|] eqn:E.
      + apply literal_iff in E as ->. destruct (ParseEncodingDecl s3) as [s4|] eqn:E; [|discriminate]. apply encoding_iff in E as (eq & w & K1 & K2 & ->). cbn [bind] in H.
        destruct (ParseS s4) as [sq s5] eqn:E. apply ParseS_spec in E as (-> & Hsq & _).
        assert (He : optional (pseudo (lit "encoding") enc_name) ((c :: sp) ++ lit "encoding" ++ eq ++ w)) by (right; exists (c :: sp), eq, w; fin).
        destruct sq as [|d sq].
        * cbn [bind] in H. exists ((c :: sp) ++ lit "encoding" ++ eq ++ w), [], [], s5. split; [exact He|]. split; [now left|]. split; [constructor|].
          split; [now rewrite <- !app_assoc|exact H].
        * assert (exists y, match ParseLiteral (lit "standalone") s5 with Some r => ParseSDDecl r | None => Ok s5 end = Ok y /\
            ParseRequiredLiteral (lit "?>") (snd (ParseS y)) = Ok r) as (y & H1 & H2).
          { destruct (match ParseLiteral (lit "standalone") s5 with Some r => ParseSDDecl r | None => Ok s5 end) as [y|] eqn:E; [now exists y|discriminate]. }
          apply KS with (sq := d :: sq) in H1 as (sd & sp' & K3 & K4 & K5); [|split; [discriminate|exact Hsq]].
          exists ((c :: sp) ++ lit "encoding" ++ eq ++ w), sd, sp', y. rewrite K5. split; [exact He|]. split; [exact K3|]. split; [exact K4|].
          split; [|exact H2]. rewrite <- !app_assoc. reflexivity.
      + assert (exists y, match ParseLiteral (lit "standalone") s2 with Some r => ParseSDDecl r | None => Ok s2 end = Ok y /\
            ParseRequiredLiteral (lit "?>") (snd (ParseS y)) = Ok r) as (y & H1 & H2).
        { destruct (match ParseLiteral (lit "standalone") s2 with Some r => ParseSDDecl r | None => Ok s2 end) as [y|] eqn:E'; [now exists y|discriminate]. }
        apply KS with (sq := c :: sp) in H1 as (sd & sp' & K3 & K4 & K5); [|exact Hs1].
        exists [], sd, sp', y. rewrite K5. split; [now left|]. split; [exact K3|]. split; [exact K4|]. now split. }
  destruct (ParseS y) as [sq y1] eqn:E1. apply ParseS_spec in E1 as (-> & Hsq & _). cbn [snd] in H4. apply required_iff in H4 as ->.
  exists (v ++ e ++ sd ++ (sp' ++ sq) ++ lit "?>"). split.
  - exists v, e, sd, (sp' ++ sq). split; [exact Hv|]. split; [exact H1|]. split; [exact H2|]. split; [|reflexivity]. apply Forall_app. now split.
  - rewrite E. now rewrite <- !app_assoc.
Qed.

Lemma XMLDecl_complete x r : xml_decl x -> exists m, x = lit "<?xml" ++ m /\ ParseXMLDecl (m ++ r) = Ok r.
Proof.
  intros (v & e & sd & sp & Hv & He & Hs & Hsp & ->). exists (v ++ e ++ sd ++ sp ++ lit "?>"). split; [reflexivity|].
  unfold ParseXMLDecl. rewrite (proj2 (version_iff _ (e ++ sd ++ sp ++ lit "?>" ++ r))) by (exists v; split; [exact Hv|now rewrite <- !app_assoc]).
  cbn [bind].
  assert (KE : snd (ParseS (sp ++ lit "?>" ++ r)) = lit "?>" ++ r) by (rewrite ParseS_eq by (exact Hsp || reflexivity); reflexivity).
  assert (KE' : snd (ParseS (lit "?>" ++ r)) = lit "?>" ++ r) by reflexivity.
  (* what comes after the version or the encoding *)
  assert (KS : exists sq y, ParseS (sd ++ sp ++ lit "?>" ++ r) = (sq, y) /\ ParseLiteral (lit "encoding") y = None /\
    exists z, (match sq with [] => Ok y | _ => match ParseLiteral (lit "standalone") y with Some r => ParseSDDecl r | None => Ok y end end) = Ok z /\
      snd (ParseS z) = lit "?>" ++ r).
  { destruct Hs as [->|(sq & eq & w & K1 & K2 & K3 & ->)].
    - exists sp, (lit "?>" ++ r). cbn [app]. split; [apply ParseS_eq; [exact Hsp|reflexivity]|]. split; [reflexivity|]. exists (lit "?>" ++ r).
      split; [now destruct sp|exact KE'].
    - exists sq, (lit "standalone" ++ eq ++ w ++ sp ++ lit "?>" ++ r). rewrite <- !app_assoc. split; [apply ParseS_eq; [apply K1|reflexivity]|].
      split; [reflexivity|]. exists (sp ++ lit "?>" ++ r). split; [|exact KE]. destruct sq as [|c sq]; [now destruct K1|]. rewrite literal_app.
      apply standalone_iff. now exists eq, w. }
  destruct KS as (sq & y & E1 & E2 & z & E3 & E4).
  destruct He as [->|(sq' & eq & w & K1 & K2 & K3 & ->)].
  - cbn [app]. rewrite E1. destruct sq as [|c sq].
    + injection E3 as <-. cbn [bind]. rewrite E4. apply required_app.
    + rewrite E2, E3. cbn [bind]. rewrite E4. apply required_app.
  - rewrite <- !app_assoc. rewrite ParseS_eq by (apply K1 || reflexivity). destruct sq' as [|c sq']; [now destruct K1|].
    rewrite literal_app. rewrite (proj2 (encoding_iff _ (sd ++ sp ++ lit "?>" ++ r))) by (now exists eq, w). cbn [bind]. rewrite E1.
    destruct sq as [|d sq].
    + injection E3 as <-. cbn [bind]. rewrite E4. apply required_app.
    + rewrite E3. cbn [bind]. rewrite E4. apply required_app.
Qed.

(** ** Comments, instructions and white space outside the root *)
Definition misc_stop (r : str) : Prop := stops IsS r /\ (forall y, r <> lit "<!--" ++ y) /\ (forall y, r <> lit "<?" ++ y).

Lemma misc_nil f r : ParseMisc f [] = Ok r -> r = [].
Proof. destruct f; [discriminate|]. now intros [= <-]. Qed.
Lemma misc_sound f : forall s r, ParseMisc f s = Ok r ->
  (exists m, misc pyslet m /\ s = m ++ r) \/ (r = [] /\ exists m z, misc pyslet m /\ unfinished z /\ s = m ++ z).
Proof.
  induction f as [|f IH]; intros s r; cbn [ParseMisc]; [discriminate|].
  destruct (match s with c :: _ => IsS c | [] => false end) eqn:E.
  { destruct s as [|c s]; [discriminate|]. apply IsS_iff in E. cbn [tl]. intros H. apply IH in H as [(m & H & ->)|(-> & m & z & H & H1 & ->)].
    - left. exists (c :: m). split; [now constructor|reflexivity].
    - right. split; [reflexivity|]. exists (c :: m), z. split; [now constructor|]. now split. }
  destruct (ParseLiteral (lit "<!--") s) as [s1|] eqn:E1.
  { apply literal_iff in E1 as ->. destruct (ParseComment s1) as [s2|] eqn:E1; [|discriminate]. cbn [bind]. apply Comment_iff in E1 as [(d & sp & H1 & H2 & ->)|(-> & d & H1 & H2)].
    - intros H. replace (lit "<!--" ++ d ++ lit "--" ++ sp ++ lit ">" ++ s2) with ((lit "<!--" ++ d ++ lit "--" ++ sp ++ lit ">") ++ s2) by now rewrite <- !app_assoc.
      assert (Hc : open_comment (lit "<!--" ++ d ++ lit "--" ++ sp ++ lit ">")) by now exists d, sp.
      apply IH in H as [(m & H & ->)|(-> & m & z & H & H3 & ->)].
      + left. exists ((lit "<!--" ++ d ++ lit "--" ++ sp ++ lit ">") ++ m). split; [now constructor|now rewrite app_assoc].
      + right. split; [reflexivity|]. exists ((lit "<!--" ++ d ++ lit "--" ++ sp ++ lit ">") ++ m), z. split; [now constructor|]. split; [exact H3|now rewrite app_assoc].
    - intros H. apply misc_nil in H as ->. right. split; [reflexivity|]. exists [], (lit "<!--" ++ s1). split; [constructor|]. split; [|reflexivity].
      right; left. exists d. split; [exact H1|]. destruct H2 as [->|[->|(sp & H2 & ->)]]; eauto. }
  destruct (ParseLiteral (lit "<?") s) as [s1|] eqn:E2.
  { apply literal_iff in E2 as ->. destruct (ParsePI s1) as [s2|] eqn:E2; [|discriminate]. cbn [bind]. apply PI_sound in E2 as [(w & H1 & ->)|(-> & n & sp & d & H1 & H2 & H3 & H4 & ->)].
    - intros H. apply IH in H as [(m & H & ->)|(-> & m & z & H & H3 & ->)].
      + left. exists ((lit "<?" ++ w) ++ m). split; [now apply mi_pi|now rewrite <- app_assoc].
      + right. split; [reflexivity|]. exists ((lit "<?" ++ w) ++ m), z. split; [now apply mi_pi|]. split; [exact H3|now rewrite <- !app_assoc].
    - intros H. apply misc_nil in H as ->. right. split; [reflexivity|]. exists [], (lit "<?" ++ n ++ sp ++ d). split; [constructor|]. split; [|reflexivity].
      right; right. exists n, sp, d. fin. }
  intros [= <-]. left. exists []. split; [constructor|reflexivity].
Qed.

Lemma misc_finer f : forall s, ParseMisc f s <> Err OutOfFuel -> ParseMisc (S f) s = ParseMisc f s.
Proof.
  assert (U : forall k s, ParseMisc (S k) s =
    if match s with c :: _ => IsS c | [] => false end then ParseMisc k (tl s)
    else match ParseLiteral (lit "<!--") s with
      | Some r => r' <- ParseComment r ;; ParseMisc k r'
      | None => match ParseLiteral (lit "<?") s with Some r => r' <- ParsePI r ;; ParseMisc k r' | None => Ok s end
      end) by reflexivity.
  induction f as [|f IH]; intros s; [now intros []|]. rewrite (U f s), (U (S f) s). clear U.
  destruct (match s with c :: _ => IsS c | [] => false end); [apply IH|]. destruct (ParseLiteral (lit "<!--") s).
  - apply bind_finer; [reflexivity|apply IH].
  - destruct (ParseLiteral (lit "<?") s); [apply bind_finer; [reflexivity|apply IH]|reflexivity].
Qed.
Lemma misc_more f g s x : (f <= g)%nat -> ParseMisc f s = x -> x <> Err OutOfFuel -> ParseMisc g s = x.
Proof. intros H <- N. induction H as [|g _ IH]; [reflexivity|]. rewrite misc_finer; rewrite IH; auto. Qed.

Lemma misc_stopped r : misc_stop r -> ParseMisc 1 r = Ok r.
Proof.
  intros (H1 & H2 & H3). cbn [ParseMisc]. replace (match r with c :: _ => IsS c | [] => false end) with false by (destruct r; [reflexivity|now cbn in H1]).
  now rewrite (proj2 (literal_none _ _) H2), (proj2 (literal_none _ _) H3).
Qed.
Lemma misc_unfinished z : unfinished z -> ParseMisc 2 z = Ok [].
Proof.
  intros [->|[(d & H1 & H2)|(n & sp & d & H1 & H2 & H3 & H4 & ->)]]; [reflexivity| |].
  - assert (exists w, z = lit "<!--" ++ w /\ ParseComment w = Ok []) as (w & -> & Hw).
    { destruct H2 as [->|[->|(sp & H2 & ->)]]; eexists; (split; [reflexivity|]); apply Comment_iff; right; (split; [reflexivity|]); exists d; (split; [exact H1|]); eauto. }
    change (ParseMisc 2 (lit "<!--" ++ w)) with (r' <- ParseComment w ;; ParseMisc 1 r'). now rewrite Hw.
  - change (ParseMisc 2 (lit "<?" ++ n ++ sp ++ d)) with (r' <- ParsePI (n ++ sp ++ d) ;; ParseMisc 1 r'). rewrite PI_unfinished by assumption. reflexivity.
Qed.
Lemma misc_complete m : misc pyslet m -> forall f s x, ParseMisc f s = Ok x -> ParseMisc (length m + f) (m ++ s) = Ok x.
Proof.
  induction 1 as [|c m H _ IH|w m H _ IH|w m H _ IH]; intros f s x Hx.
  - exact Hx.
  - cbn [length app Nat.add ParseMisc]. apply IsS_iff in H. rewrite H. cbn [tl]. now apply IH.
  - apply open_comment_shape in H as (d & -> & Hd). rewrite <- !app_assoc.
    apply misc_more with (f := S (length m + f)); [rewrite !app_length; cbn [lit length]; lia| |discriminate].
    change (ParseMisc (S (length m + f)) (lit "<!--" ++ d ++ m ++ s)) with (r' <- ParseComment (d ++ m ++ s) ;; ParseMisc (length m + f) r').
    rewrite Hd. now apply IH.
  - assert (exists d, w = lit "<?" ++ d) as (d & ->) by (destruct H as (n & _ & _ & [->|(sp & d & _ & _ & _ & ->)]); eauto).
    rewrite <- !app_assoc. apply misc_more with (f := S (length m + f)); [rewrite !app_length; cbn [lit length]; lia| |discriminate].
    change (ParseMisc (S (length m + f)) (lit "<?" ++ d ++ m ++ s)) with (r' <- ParsePI (d ++ m ++ s) ;; ParseMisc (length m + f) r').
    rewrite (PI_complete d _ H). now apply IH.
Qed.

(** ** Documents *)
Lemma document_sound f s t : ParseDocument f s = Ok t -> readable s t.
Proof.
  unfold ParseDocument, ParseProlog.
  destruct (match ParseLiteral (lit "<?xml") s with Some r => ParseXMLDecl r | None => Ok s end) as [s1|] eqn:E; [|discriminate]. cbn [bind].
  assert (exists x, s = x ++ s1 /\ (x = [] /\ not_declared s \/ xml_decl x)) as (x & -> & Hx).
  { destruct (ParseLiteral (lit "<?xml") s) as [y|] eqn:E1.
    - apply literal_iff in E1 as ->. apply XMLDecl_sound in E as (m & H & ->). exists (lit "<?xml" ++ m). split; [now rewrite <- app_assoc|now right].
    - injection E as <-. exists []. split; [reflexivity|]. left. split; [reflexivity|]. exact (proj1 (literal_none _ _) E1). }
  destruct (ParseMisc f s1) as [s2|] eqn:E1; [|discriminate]. cbn [bind].
  destruct (ParseLiteral (lit "<!DOCTYPE") s2) as [y|] eqn:E2; [discriminate|]. cbn [bind].
  destruct (ParseElement _ s2) as [[e s3]|] eqn:E3; [|discriminate]. cbn [bind].
  destruct (ParseMisc f s3) as [s4|] eqn:E4; [|discriminate]. cbn [bind]. destruct s4; [|discriminate]. intros [= <-].
  apply misc_sound in E1 as [(m1 & H1 & ->)|(-> & _)]; [|discriminate].
  apply element_sound in E3 as (w & -> & Hw); [|apply content_sound].
  assert (exists m2 z, misc pyslet m2 /\ unfinished z /\ s3 = m2 ++ z) as (m2 & z & H2 & Hz & ->).
  { apply misc_sound in E4 as [(m2 & H2 & E4)|(_ & H)]; [|exact H]. exists m2, []. split; [exact H2|]. split; [now left|exact E4]. }
  exists x, m1, w, m2, z. fin.
Qed.

Lemma element_stop w t r : element pyslet w t -> misc_stop (w ++ r) /\ ParseLiteral (lit "<!DOCTYPE") (w ++ r) = None.
Proof.
  intros H. destruct (element_head pyslet w t ltac:(auto) H) as (c & w' & -> & N1 & N2 & _). split; [split; [reflexivity|split]|].
  - intros y [= E _]. contradiction.
  - intros y [= E _]. contradiction.
  - apply literal_none. intros y [= E _]. contradiction.
Qed.
Lemma misc_length f m s r : misc pyslet m -> (exists k, ParseMisc k s = Ok r /\ (length m + k <= f)%nat) -> ParseMisc f (m ++ s) = Ok r.
Proof. intros H (k & H1 & H2). apply misc_more with (f := (length m + k)%nat); [exact H2| |discriminate]. now apply misc_complete. Qed.
Lemma unfinished_fuel z : unfinished z -> exists k, ParseMisc k z = Ok [] /\ (k <= S (length z))%nat.
Proof.
  intros H. destruct z as [|c z]; [now exists 1%nat|]. exists 2%nat. split; [now apply misc_unfinished|]. cbn. lia.
Qed.

Lemma document_complete s t f : readable s t -> (length s < f)%nat -> ParseDocument f s = Ok t.
Proof.
  intros (x & m1 & w & m2 & z & -> & Hx & H1 & Hw & H2 & Hz) Hf. unfold ParseDocument, ParseProlog.
  assert (match ParseLiteral (lit "<?xml") (x ++ m1 ++ w ++ m2 ++ z) with Some r => ParseXMLDecl r | None => Ok (x ++ m1 ++ w ++ m2 ++ z) end = Ok (m1 ++ w ++ m2 ++ z)) as ->.
  { destruct Hx as [[-> Hx]|Hx].
    - now rewrite (proj2 (literal_none _ _) Hx).
    - destruct (XMLDecl_complete x (m1 ++ w ++ m2 ++ z) Hx) as (m & -> & E). rewrite <- app_assoc, literal_app. exact E. }
  cbn [bind]. rewrite !app_length in Hf. destruct (element_stop w t (m2 ++ z) Hw) as [K1 K2].
  rewrite (misc_length f m1 _ (w ++ m2 ++ z) H1) by (exists 1%nat; split; [now apply misc_stopped|lia]). cbn [bind]. rewrite K2. cbn [bind].
  rewrite (element_complete w t f (m2 ++ z) Hw) by lia. cbn [bind].
  destruct (unfinished_fuel z Hz) as (k & E & Hk). rewrite (misc_length f m2 z [] H2) by (exists k; split; [exact E|lia]). reflexivity.
Qed.

(** ** Line ends and byte order mark *)
Lemma entity_le s : forall t, entity_chars false s = t <-> line_ends s t.
Proof.
  assert (F : forall s t, line_ends s t -> entity_chars false s = t).
  { assert (T : forall s, (forall s', s <> 10 :: s') -> entity_chars true s = entity_chars false s).
    { intros [|c s'] H; [reflexivity|]. cbn [entity_chars]. destruct (Z.eqb_spec c 10) as [->|N]; [now destruct (H s')|reflexivity]. }
    induction 1 as [|c s0 t N _ IH|s0 t _ IH|s0 t N _ IH]; cbn [entity_chars].
    - reflexivity.
    - rewrite (proj2 (Z.eqb_neq _ _) N), IH. now destruct (Z.eqb_spec c 10) as [->|].
    - cbn. now rewrite IH.
    - cbn. now rewrite T, IH. }
  assert (G : forall n s, (length s <= n)%nat -> exists t, line_ends s t).
  { induction n as [|n IH]; intros [|c s0] H; try (exists []; constructor); [cbn in H; lia|]. cbn [length] in H.
    destruct (Z.eq_dec c 13) as [->|N].
    - destruct s0 as [|d s1]; [exists [10]; repeat constructor; discriminate|]. cbn [length] in H. destruct (Z.eq_dec d 10) as [->|N].
      + destruct (IH s1) as (t & Ht); [lia|]. exists (10 :: t). now constructor.
      + destruct (IH (d :: s1)) as (t & Ht); [cbn; lia|]. exists (10 :: t). apply le_cr; [congruence|exact Ht].
    - destruct (IH s0) as (t & Ht); [lia|]. exists (c :: t). now constructor. }
  intros t. split; [|apply F]. intros <-. destruct (G (length s) s (le_n _)) as (t & Ht). now rewrite (F _ _ Ht).
Qed.
Lemma opened_iff s u : OpenUnicode s = u <-> opened s u.
Proof.
  unfold OpenUnicode, opened. split.
  - intros H. exists (entity_chars false s). split; [now apply entity_le|]. destruct (entity_chars false s) as [|c t]; [right; now split|].
    destruct (Z.eqb_spec c 0xFEFF) as [->|N]; [left; now subst|]. right. split; [congruence|]. intros y [= E _]. contradiction.
  - intros (t & H & H'). apply entity_le in H. rewrite H. destruct H' as [->|[-> N]]; [reflexivity|]. destruct u as [|c u]; [reflexivity|].
    destruct (Z.eqb_spec c 0xFEFF) as [->|]; [now destruct (N u)|reflexivity].
Qed.
Lemma entity_length s : forall b, (length (entity_chars b s) <= length s)%nat.
Proof.
  induction s as [|c s IH]; intros b; [reflexivity|]. cbn [entity_chars]. pose proof (IH true). pose proof (IH false).
  destruct (c =? 13); [cbn [length]; lia|]. destruct (c =? 10); [destruct b; cbn [length]; lia|cbn [length]; lia].
Qed.
Lemma open_length s : (length (OpenUnicode s) <= length s)%nat.
Proof. unfold OpenUnicode. pose proof (entity_length s false). destruct (entity_chars false s) as [|c t]; [lia|]. destruct (c =? 0xFEFF); cbn [length] in *; lia. Qed.

(** ** The reader and its text *)
Lemma view_char r : rd_char r = match rd_view r with c :: _ => Some c | [] => None end.
Proof. destruct r as [[|c b] e]; reflexivity. Qed.
Lemma view_next r : rd_view (rd_next r) = tl (rd_view r).
Proof. destruct r as [[|c [|d b]] e]; reflexivity. Qed.
Lemma view_push u r : rd_view (rd_push u r) = u ++ rd_view r.
Proof.
  destruct r as [b e]. destruct u as [|x u]; [reflexivity|]. destruct b as [|c b].
  - destruct e as [|y e]; cbn; [now rewrite !app_nil_r|]. now rewrite <- app_assoc.
  - cbn. now rewrite <- app_assoc.
Qed.
