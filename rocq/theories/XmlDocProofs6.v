(** Reading XML: the exceptions raised. *)
From Coq Require Import List ZArith Bool Lia.
From Verif Require Import Py XmlChars XmlCharsProofs XmlCharsProofs2 XmlDoc XmlDocSpec XmlDocProofs XmlDocProofs2 XmlDocProofs3 XmlDocProofs4 XmlDocProofs5.
From Verif Require XmlUtils XmlCharsSpec.
Import XmlCharsSpec.
Open Scope Z_scope.
Open Scope list_scope.

(** What the reading of [s] may raise *)
Definition err (s : str) (e : exn) : Prop :=
  e = XMLFatalError \/ e = OutOfFuel \/ (e = Unmodelled /\ has (lit "<!DOCTYPE") s) \/
  ((e = ValueError \/ e = OverflowError) /\ has (lit "&#") s) \/
  ((e = AttributeError \/ e = TypeError) /\ has (lit "<?") s).
Definition fails {A} (s : str) (x : result A) : Prop := forall e, x = Err e -> err s e.

Lemma has_app m p s : has m s -> has m (p ++ s).
Proof. intros (x & y & ->). exists (p ++ x), y. now rewrite <- app_assoc. Qed.
Lemma err_app p s e : err s e -> err (p ++ s) e.
Proof. intros [H|[H|[[H K]|[[H K]|[H K]]]]]; unfold err; auto 9 using has_app. Qed.
Lemma fails_app {A} p s (x : result A) : fails s x -> fails (p ++ s) x.
Proof. intros H e E. apply err_app. now apply H. Qed.
Lemma fails_ok {A} s (a : A) : fails s (Ok a). Proof. discriminate. Qed.
Lemma fails_fatal {A} s : fails s (@Err A XMLFatalError). Proof. intros e [= <-]. now left. Qed.
Lemma fails_fuel {A} s : fails s (@Err A OutOfFuel). Proof. intros e [= <-]. right. now left. Qed.
Lemma fails_bind {A B} s (x : result A) (k : A -> result B) : fails s x -> (forall a, x = Ok a -> fails s (k a)) -> fails s (bind x k).
Proof. intros H1 H2 e. destruct x as [a|e']; cbn [bind]; [now apply (H2 a)|]. intros [= ->]. now apply H1. Qed.
Create HintDb fl.
#[local] Hint Resolve fails_ok fails_fatal fails_fuel : fl.
Lemma fails_required s m r : fails s (ParseRequiredLiteral m r).
Proof. unfold ParseRequiredLiteral. destruct (ParseLiteral m r); auto with fl. Qed.
Lemma fails_name s r : fails s (ParseRequiredName r).
Proof. unfold ParseRequiredName. destruct (ParseName r) as [[|c n] r']; auto with fl. Qed.
Lemma fails_eq s r : fails s (ParseEq r).
Proof. apply fails_bind; [apply fails_required|auto with fl]. Qed.
Lemma fails_quote s r : fails s (ParseQuote r).
Proof. unfold ParseQuote. destruct r as [|c r]; auto with fl. destruct ((c =? 34) || (c =? 39)); auto with fl. Qed.
Lemma fails_this s q r : fails s (ParseThisQuote q r).
Proof. unfold ParseThisQuote. destruct r as [|c r]; auto with fl. destruct (c =? q); auto with fl. Qed.
Lemma fails_digits s p r : fails s (ParseRequiredDigits p r).
Proof. unfold ParseRequiredDigits. destruct (take_while p r) as [[|c n] r']; auto with fl. Qed.
#[local] Hint Resolve fails_required fails_name fails_eq fails_quote fails_this fails_digits : fl.

Lemma fails_charref s b p r : has (lit "&#") s -> fails s (char_ref b p r).
Proof.
  intros Hs. apply fails_bind; auto with fl. intros [ds r1] _. apply fails_bind.
  { intros e. unfold XmlUtils.unichr. destruct ((_ <? _) || _); [intros [= <-]; unfold err; auto 7|]. destruct ((_ <? _) || _); [intros [= <-]; unfold err; auto 7|discriminate]. }
  intros c _. apply fails_bind; auto with fl. intros r' _. destruct (IsChar c); auto with fl.
Qed.
Lemma fails_reference s : fails s (ParseReference s).
Proof.
  apply fails_bind; auto with fl. intros s1 E. apply required_iff in E.
  assert (fails s (ParseEntityRef s1)).
  { apply fails_bind; auto with fl. intros [n r] _. apply fails_bind; auto with fl. intros r' _. destruct (lookup n _); auto with fl. }
  destruct s1 as [|c s1]; [assumption|]. destruct (Z.eqb_spec c 35) as [->|]; [|assumption].
  assert (Hs : has (lit "&#") s) by (rewrite E; exists [], s1; reflexivity).
  apply fails_bind; auto with fl. intros s2 _. destruct (ParseLiteral _ s2); now apply fails_charref.
Qed.
Lemma fails_att q f : forall s, fails s (att_loop f q s).
Proof.
  induction f as [|f IH]; intros s; cbn [att_loop]; auto with fl. destruct s as [|c s]; auto with fl.
  destruct (c =? q); auto with fl. destruct (c =? 38).
  { apply fails_bind; [apply fails_reference|]. intros [v r] E. apply reference_iff in E as (m & -> & _). apply fails_app.
    apply fails_bind; [apply IH|]. intros [vs r'] _. auto with fl. }
  assert (K : forall x, fails (c :: s) ('(vs, r') <- att_loop f q s ;; Ok (x :: vs, r'))).
  { intros x. apply fails_bind; [apply (fails_app [c]), IH|]. intros [vs r'] _. auto with fl. }
  destruct (IsS c); [apply K|]. destruct (c =? 60); [auto with fl|apply K].
Qed.
Lemma fails_attribute s : fails s (ParseAttribute s).
Proof.
  apply fails_bind; auto with fl. intros [n r] E. apply RequiredName_iff in E as (-> & _ & _). apply fails_app.
  apply fails_bind; auto with fl. intros r1 E. apply Eq_spec in E as (e & _ & -> & _). apply fails_app.
  apply fails_bind; [|intros [v r2] _; auto with fl]. apply fails_bind; auto with fl. intros [q r2] E. apply Quote_iff in E as (_ & ->). apply fails_app, fails_att.
Qed.
Lemma fails_stag f : forall attrs s, fails s (stag_loop f attrs s).
Proof.
  induction f as [|f IH]; intros attrs s; cbn [stag_loop]; auto with fl. destruct (ParseS s) as [sp s1] eqn:E. apply ParseS_spec in E as (-> & _ & _).
  destruct s1 as [|c r]; auto with fl. destruct (c =? 62); auto with fl. destruct (c =? 47); [apply fails_bind; auto with fl|].
  destruct sp as [|x sp]; auto with fl. apply fails_app. apply fails_bind; [apply fails_attribute|]. intros [[n v] r'] E.
  apply attribute_iff in E as (e & q & w & _ & _ & _ & _ & ->). destruct (lookup n attrs); auto with fl. repeat apply fails_app. apply IH.
Qed.
Lemma fails_STag s : fails s (ParseSTag s).
Proof.
  apply fails_bind; auto with fl. intros s1 E. apply required_iff in E as ->. apply fails_app. apply fails_bind; auto with fl. intros [n r] E.
  apply RequiredName_iff in E as (-> & _ & _). apply fails_app. apply fails_bind; [apply fails_stag|]. intros [[a e] r'] _. auto with fl.
Qed.
Lemma fails_ETag s r : fails s (ParseETag r).
Proof. apply fails_bind; auto with fl. intros s1 _. apply fails_bind; auto with fl. intros [n r'] _. apply fails_bind; auto with fl. Qed.
Lemma fails_comment s r : forall h, fails s (comment_loop h r).
Proof.
  induction r as [|c r IH]; intros h; cbn [comment_loop]; auto with fl. destruct (c =? 45); [destruct (_ >? _); auto with fl|].
  destruct (c =? 62); [destruct (_ =? _); auto with fl|]. destruct (IsS c); [apply IH|]. destruct (_ >=? _); auto with fl.
Qed.
Lemma fails_PI s : fails (lit "<?" ++ s) (ParsePI s).
Proof.
  assert (Hs : has (lit "<?") (lit "<?" ++ s)) by (exists [], s; reflexivity). generalize dependent (lit "<?" ++ s). intros u Hs.
  assert (L : forall n r, (length r <= n)%nat -> fails u (pi_loop r)).
  { induction n as [|n IH]; intros [|c s0] H; try discriminate; [cbn in H; lia|]. cbn [pi_loop length] in *. destruct (c =? 63); [|apply IH; lia].
    destruct s0 as [|d s1]; [intros e [= <-]; unfold err; auto 7|]. cbn [length] in H. destruct (d =? 62); [discriminate|apply IH; lia]. }
  apply fails_bind.
  - unfold ParsePITarget. destruct (ParseName s) as [[|c n] r]; [intros e [= <-]; unfold err; auto 7|]. destruct (str_eqb _ _); auto with fl.
  - intros r _. destruct (ParseS r) as [[|c sp] r1]; auto with fl. apply (L (length r1)). lia.
Qed.
Lemma fails_CDSect s r : fails s (ParseCDSect r).
Proof.
  induction r as [|c r IH]; [apply fails_fatal|]. cbn [ParseCDSect]. destruct (ParseLiteral _ _); auto with fl. apply fails_bind; [exact IH|]. intros [d r'] _. auto with fl.
Qed.
Lemma fails_element f s : (forall ch r, fails r (ParseContent f ch r)) -> fails s (ParseElement (ParseContent f) s).
Proof.
  intros IH. apply fails_bind; [apply fails_STag|]. intros [[[n a] e] r] E. apply STag_iff in E as (m & _ & _ & _ & ->). destruct e; auto with fl.
  repeat apply fails_app. apply fails_bind; [apply IH|]. intros [ch r1] _. apply fails_bind; [apply fails_ETag|]. intros [n' r2] _. destruct (str_eqb n' n); auto with fl.
Qed.
Lemma fails_nil {A} s (x : result A) : fails [] x -> fails s x.
Proof. intros H. rewrite <- (app_nil_r s). now apply fails_app. Qed.
Lemma fails_content f : forall ch s, fails s (ParseContent f ch s).
Proof.
  induction f as [|f IH]; intros ch s; cbn [ParseContent]; auto with fl. destruct s as [|c s1]; auto with fl.
  assert (KE : fails (c :: s1) ('(e, r) <- ParseElement (ParseContent f) (c :: s1) ;; ParseContent f (ch ++ [inr e]) r)).
  { apply fails_bind; [now apply fails_element|]. intros [e r] E. apply element_sound in E as (w & -> & _); [|apply content_sound]. apply fails_app, IH. }
  destruct (Z.eqb_spec c 60) as [->|N].
  { destruct s1 as [|d s2]; [exact KE|]. destruct (Z.eqb_spec d 33) as [->|N1].
    { destruct s2 as [|x s3]; auto with fl. destruct (Z.eqb_spec x 45) as [->|N2].
      { apply fails_bind; auto with fl. intros r E. apply required_iff in E. rewrite E. apply fails_bind; [apply fails_comment|]. intros r' E'.
        apply Comment_iff in E' as [(d & sp & _ & _ & ->)|(-> & _)]; [|apply fails_nil, IH].
        change (60 :: 33 :: lit "--" ++ d ++ lit "--" ++ sp ++ lit ">" ++ r') with (lit "<!--" ++ d ++ lit "--" ++ sp ++ lit ">" ++ r'). repeat apply fails_app. apply IH. }
      destruct (x =? 91); auto with fl. apply fails_bind; auto with fl. intros r E. apply required_iff in E. rewrite E.
      apply fails_bind; [apply fails_CDSect|]. intros [d r'] E'. apply CDSect_iff in E' as [-> _].
      change (60 :: 33 :: lit "[CDATA[" ++ d ++ lit "]]>" ++ r') with (lit "<![CDATA[" ++ d ++ lit "]]>" ++ r'). repeat apply fails_app. apply IH. }
    destruct (Z.eqb_spec d 63) as [->|N2].
    { apply fails_bind; [apply (fails_PI s2)|]. intros r E. apply PI_sound in E as [(w & _ & ->)|(-> & _)]; [|apply fails_nil, IH].
      change (60 :: 63 :: w ++ r) with (lit "<?" ++ w ++ r). repeat apply fails_app. apply IH. }
    destruct (negb (d =? 47)); [exact KE|auto with fl]. }
  destruct (c =? 38).
  { apply fails_bind; [apply fails_reference|]. intros [v r] E. apply reference_iff in E as (m & -> & _). apply fails_app, IH. }
  destruct (ParseCharData _) as [d r] eqn:E. apply (chardata_spec pyslet) in E as (-> & _). apply fails_app, IH.
Qed.
Lemma fails_misc f : forall s, fails s (ParseMisc f s).
Proof.
  induction f as [|f IH]; intros s; cbn [ParseMisc]; auto with fl. destruct (match s with c :: _ => IsS c | [] => false end) eqn:E.
  { destruct s as [|c s]; [discriminate|]. cbn [tl]. apply (fails_app [c]), IH. }
  destruct (ParseLiteral (lit "<!--") s) as [r|] eqn:E1.
  { apply literal_iff in E1 as ->. apply fails_bind; [apply fails_comment|]. intros r' E1. apply Comment_iff in E1 as [(d & sp & _ & _ & ->)|(-> & _)]; [|apply fails_nil, IH].
    repeat apply fails_app. apply IH. }
  destruct (ParseLiteral (lit "<?") s) as [r|] eqn:E2; auto with fl.
  apply literal_iff in E2 as ->. apply fails_bind; [apply fails_PI|]. intros r' E2. apply PI_sound in E2 as [(w & _ & ->)|(-> & _)]; [|apply fails_nil, IH].
  repeat apply fails_app. apply IH.
Qed.
Lemma fails_decl u s : fails u (ParseXMLDecl s).
Proof.
  assert (SD : forall s, fails u (ParseSDDecl s)).
  { intros s0. apply fails_bind; auto with fl. intros r _. apply fails_bind; auto with fl. intros [q r'] _. apply fails_bind; auto with fl. }
  assert (EN : forall s, fails u (ParseEncodingDecl s)).
  { intros s0. apply fails_bind; auto with fl. intros r _. apply fails_bind; auto with fl. intros [q [|c r']] _; auto with fl. destruct (enc_start c); auto with fl. }
  apply fails_bind.
  - apply fails_bind; [unfold ParseRequiredS; destruct (ParseS s) as [[|c sp] r]; auto with fl|]. intros r1 _. apply fails_bind; auto with fl. intros r2 _.
    apply fails_bind; auto with fl. intros r3 _. apply fails_bind; auto with fl. intros [q r4] _. apply fails_bind; auto with fl. intros r5 _.
    apply fails_bind; auto with fl. intros [ds r6] _. auto with fl.
  - intros r _. destruct (ParseS r) as [sp r1]. apply fails_bind; [|auto with fl]. destruct sp as [|c sp]; auto with fl.
    destruct (ParseLiteral (lit "encoding") r1) as [r2|].
    + apply fails_bind; [apply EN|]. intros r3 _. destruct (ParseS r3) as [[|d sq] r4]; auto with fl. destruct (ParseLiteral _ r4); auto with fl.
    + destruct (ParseLiteral _ r1); auto with fl.
Qed.
Lemma fails_document f s : fails s (ParseDocument f s).
Proof.
  apply fails_bind.
  - apply fails_bind; [destruct (ParseLiteral (lit "<?xml") s); [apply fails_decl|auto with fl]|]. intros s1 E.
    assert (exists x, s = x ++ s1) as (x & ->).
    { destruct (ParseLiteral (lit "<?xml") s) as [y|] eqn:E1.
      - apply literal_iff in E1 as ->. apply XMLDecl_sound in E as (m & H & ->). exists (lit "<?xml" ++ m). now rewrite <- app_assoc.
      - injection E as <-. now exists []. }
    apply fails_app. apply fails_bind; [apply fails_misc|]. intros s2 E2. apply misc_sound in E2 as [(m & _ & ->)|(-> & _)]; [|apply fails_ok]. apply fails_app.
    destruct (ParseLiteral (lit "<!DOCTYPE") s2) as [y|] eqn:E3; auto with fl. apply literal_iff in E3 as ->. intros e [= <-]. right; right; left.
    split; [reflexivity|]. now exists [], y.
  - intros r E. apply prolog_shorter in E as (p & ->). apply fails_app. apply fails_bind; [apply fails_element, fails_content|]. intros [e r1] E.
    apply element_sound in E as (w & -> & _); [|apply content_sound]. apply fails_app. apply fails_bind; [apply fails_misc|]. intros r2 _. destruct r2; auto with fl.
Qed.
