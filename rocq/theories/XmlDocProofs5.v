(** Reading XML: the documents of XML 1.0 and those that are read; when reading ends. *)
From Coq Require Import List ZArith Bool Lia.
From Verif Require Import Py XmlChars XmlCharsProofs XmlCharsProofs2 XmlDoc XmlDocSpec XmlDocProofs XmlDocProofs2 XmlDocProofs3 XmlDocProofs4.
From Verif Require XmlUtils XmlCharsSpec.
Import XmlCharsSpec.
Open Scope Z_scope.
Open Scope list_scope.

(** ** Dialects, for texts whose parts are all in [P] *)
Section Dialects.
Variables D E : dialect.
Variable P : str -> Prop.
Hypothesis P_app : forall a b, P (a ++ b) -> P a /\ P b.
Hypothesis H_name : forall n, d_name D n -> d_name E n.
Hypothesis H_comment : forall w, P w -> d_comment D w -> d_comment E w.
Hypothesis H_pi : forall w, P w -> d_pi D w -> d_pi E w.

Lemma attributes_sub l m : attributes D l m -> attributes E l m.
Proof. induction 1; constructor; auto. Qed.
Lemma element_content_sub :
  (forall w e, element D w e -> P w -> element E w e) /\ (forall m l, content D m l -> P m -> content E m l).
Proof.
  assert (PC : forall c s, P (c :: s) -> P s) by (intros c s H; now apply (P_app [c] s) in H).
  apply xml_mind; intros; try (constructor; auto; fail).
  - apply el_empty; auto using attributes_sub.
  - apply el_full; auto using attributes_sub. apply H3. repeat match goal with H : P (_ ++ _) |- _ => apply P_app in H; destruct H end. assumption.
  - apply co_char; eauto.
  - apply P_app in H2 as [_ ?]. apply co_ref; auto.
  - repeat match goal with H : P (_ ++ _) |- _ => apply P_app in H; destruct H end. apply co_cdata; auto.
  - apply P_app in H2 as [? ?]. apply co_comment; auto.
  - apply P_app in H2 as [? ?]. apply co_pi; auto.
  - apply P_app in H3 as [? ?]. apply co_element; auto.
Qed.
Lemma misc_sub m : misc D m -> P m -> misc E m.
Proof.
  assert (PC : forall c s, P (c :: s) -> P s) by (intros c s H; now apply (P_app [c] s) in H).
  induction 1; intros HP; [constructor|constructor; eauto| |].
  - apply P_app in HP as [? ?]. apply mi_comment; auto.
  - apply P_app in HP as [? ?]. apply mi_pi; auto.
Qed.
End Dialects.

(** ** Plain documents *)
Lemma marks_pairs d : no_end d -> single_marks d -> pairs d.
Proof.
  remember (length d) as n eqn:En. assert (Hn : (length d <= n)%nat) by lia. clear En. revert d Hn. induction n as [|n IH]; intros d Hn H1 H2.
  - destruct d; [constructor|cbn in Hn; lia].
  - assert (T1 : forall c d', d = c :: d' -> no_end d') by (intros c d' -> x y ->; now apply (H1 (c :: x) y)).
    assert (T2 : forall c d', d = c :: d' -> single_marks d').
    { intros c d' -> x y E. apply (H2 (c :: x) y). cbn [app]. now rewrite E. }
    destruct d as [|c d]; [constructor|]. cbn [length] in Hn. destruct (Z.eq_dec c 63) as [->|N].
    + destruct d as [|c d]; [now destruct (H2 [] [])|]. cbn [length] in Hn. destruct (Z.eq_dec c 62) as [->|N]; [now destruct (H1 [] d)|].
      destruct (Z.eq_dec c 63) as [->|N']; [now destruct (H2 [] (d ++ [63]))|]. apply pr_pair; [exact N|]. apply IH; [lia| |].
      * intros x y ->. now apply (H1 (63 :: c :: x) y).
      * intros x y E. apply (H2 (63 :: c :: x) y). cbn [app]. now rewrite E.
    + apply pr_char; [exact N|]. apply IH; [lia|now apply (T1 c)|now apply (T2 c)].
Qed.
Lemma plain_pyslet_comment w : xml_comment w -> open_comment w.
Proof. intros (d & H & ->). exists d, []. split; [exact H|]. split; [constructor|reflexivity]. Qed.
Lemma instruction_sub (n n' : str -> Prop) (p p' : str -> Prop) w : (forall x, n x -> n' x) -> (forall d, p d -> p' d) -> instruction n p w -> instruction n' p' w.
Proof.
  intros Hn Hp (x & H1 & H2 & H). exists x. split; [auto|]. split; [exact H2|]. destruct H as [H|(sp & d & K1 & K2 & K3 & K4)]; [now left|]. right. exists sp, d. auto.
Qed.
Definition anything (_ : str) : Prop := True.
Lemma document_sub D E (start start' after after' : str -> Prop) s t :
  (forall n, d_name D n -> d_name E n) -> (forall w, d_comment D w -> d_comment E w) -> (forall w, d_pi D w -> d_pi E w) ->
  (forall s, start s -> start' s) -> (forall z, after z -> after' z) -> document D start after s t -> document E start' after' s t.
Proof.
  intros H1 H2 H3 H4 H5 (x & m1 & w & m2 & z & -> & Hx & K1 & K2 & K3 & K4). exists x, m1, w, m2, z.
  split; [reflexivity|]. split; [destruct Hx as [[? ?]|?]; auto|].
  split; [apply (misc_sub D E anything); unfold anything; auto|].
  split; [apply (proj1 (element_content_sub D E anything ltac:(unfold anything; auto) H1 ltac:(auto) ltac:(auto))); unfold anything; auto|].
  split; [apply (misc_sub D E anything); unfold anything; auto|]. auto.
Qed.
Lemma plain_readable s t : document plain not_declared (fun z => z = []) s t -> readable s t.
Proof.
  apply document_sub; [auto|apply plain_pyslet_comment| |auto|intros z ->; now left].
  intros w. apply instruction_sub; [auto|]. intros d [H1 H2]. now apply marks_pairs.
Qed.
Lemma plain_xml10 s t start : document plain start (fun z => z = []) s t -> document xml10 (fun _ => True) (fun z => z = []) s t.
Proof.
  apply document_sub; [intros n [H _]; exact H|auto| |auto|auto].
  intros w. apply instruction_sub; [intros n [H _]; exact H|]. now intros d [H1 H2].
Qed.

(** ** Documents that are read and clean *)
Lemma clean_app a b : clean (a ++ b) -> clean a /\ clean b.
Proof.
  intros [H1 H2]. split; split.
  - intros x sp y ->. apply (H1 x sp (y ++ b)). now rewrite <- !app_assoc.
  - intros x y ->. apply (H2 x (y ++ b)). now rewrite <- !app_assoc.
  - intros x sp y ->. apply (H1 (a ++ x) sp y). now rewrite <- !app_assoc.
  - intros x y ->. apply (H2 (a ++ x) y). now rewrite <- !app_assoc.
Qed.
Lemma clean_comment w : clean w -> open_comment w -> xml_comment w.
Proof.
  intros [H _] (d & sp & H1 & H2 & ->). rewrite (H (lit "<!--" ++ d) sp []); [now exists d| |exact H2]. now rewrite <- !app_assoc.
Qed.
Lemma pairs_no_end d : pairs d -> clean d -> no_end d.
Proof.
  intros Hp [_ Hc] x y E. revert x Hc E. induction Hp as [|c d N Hp IH|c d N Hp IH]; intros x Hc E.
  - destruct x; discriminate.
  - destruct x as [|z x]; [injection E as E _; contradiction|]. injection E as -> E. apply (IH x); [|exact E].
    intros x' y' ->. now apply (Hc (z :: x') y').
  - destruct x as [|z [|z' x]]; cbn in E.
    + injection E as E _. contradiction.
    + injection E as _ -> _. now apply (Hc [] d).
    + injection E as <- <- E. apply (IH x); [|exact E]. intros x' y' ->. now apply (Hc (63 :: c :: x') y').
Qed.
Lemma clean_pi w : clean w -> instruction bmp_name pairs w -> instruction name no_end w.
Proof.
  intros Hc (n & [H1 _] & H2 & H). exists n. split; [exact H1|]. split; [exact H2|]. destruct H as [H|(sp & d & K1 & K2 & K3 & ->)]; [now left|]. right.
  exists sp, d. split; [exact K1|]. split; [|now split]. apply pairs_no_end; [exact K2|].
  apply clean_app in Hc as [_ Hc]. apply clean_app in Hc as [_ Hc]. apply clean_app in Hc as [_ Hc]. now apply clean_app in Hc as [Hc _].
Qed.
Lemma clean_xml10 s t : readable s t -> exists d z, s = d ++ z /\ unfinished z /\
  (Forall char d -> clean d -> well_formed d t).
Proof.
  intros (x & m1 & w & m2 & z & -> & Hx & K1 & K2 & K3 & K4). exists (x ++ m1 ++ w ++ m2), z. split; [now rewrite <- !app_assoc|]. split; [exact K4|].
  intros HC Hc. split; [exact HC|]. exists x, m1, w, m2, []. split; [now rewrite app_nil_r|].
  split; [destruct Hx as [[-> _]|Hx]; [left; now split|now right]|].
  apply clean_app in Hc as [_ Hc]. apply clean_app in Hc as [C1 Hc]. apply clean_app in Hc as [C2 C3].
  assert (Hn : forall n, d_name pyslet n -> d_name xml10 n) by (intros n [H _]; exact H).
  split; [apply (misc_sub pyslet xml10 clean clean_app clean_comment clean_pi _ K1 C1)|].
  split; [apply (proj1 (element_content_sub pyslet xml10 clean clean_app Hn clean_comment clean_pi) _ _ K2 C2)|].
  split; [apply (misc_sub pyslet xml10 clean clean_app clean_comment clean_pi _ K3 C3)|reflexivity].
Qed.

(** ** Parsing steps end *)
Definition ends {A} (x : result A) : Prop := x <> Err OutOfFuel.
Lemma ends_bind {A B} (x : result A) (k : A -> result B) : ends x -> (forall a, x = Ok a -> ends (k a)) -> ends (bind x k).
Proof. unfold ends. destruct x as [a|e]; cbn [bind]; [auto|]. intros H _. congruence. Qed.
Lemma ends_required m s : ends (ParseRequiredLiteral m s).
Proof. unfold ParseRequiredLiteral. destruct (ParseLiteral m s); discriminate. Qed.
Lemma ends_name s : ends (ParseRequiredName s).
Proof. unfold ParseRequiredName. destruct (ParseName s) as [[|c n] r]; discriminate. Qed.
Lemma ends_eq s : ends (ParseEq s).
Proof. apply ends_bind; [apply ends_required|discriminate]. Qed.
Lemma ends_quote s : ends (ParseQuote s).
Proof. unfold ParseQuote. destruct s as [|c s]; [discriminate|]. destruct ((c =? 34) || (c =? 39)); discriminate. Qed.
Lemma ends_charref b p s : ends (char_ref b p s).
Proof.
  apply ends_bind; [unfold ParseRequiredDigits; destruct (take_while p s) as [[|c ds] r]; discriminate|]. intros [ds r] _.
  apply ends_bind. { unfold XmlUtils.unichr. destruct ((_ <? _) || _); [discriminate|]. destruct ((_ <? _) || _); discriminate. }
  intros c _. apply ends_bind; [apply ends_required|]. intros r' _. destruct (IsChar c); discriminate.
Qed.
Lemma ends_reference s : ends (ParseReference s).
Proof.
  apply ends_bind; [apply ends_required|]. intros s1 _.
  assert (ends (ParseEntityRef s1)).
  { apply ends_bind; [apply ends_name|]. intros [n r] _. apply ends_bind; [apply ends_required|]. intros r' _. destruct (lookup n _); discriminate. }
  destruct s1 as [|c s1]; [assumption|]. destruct (c =? 35); [|assumption].
  apply ends_bind; [apply ends_required|]. intros s2 _. destruct (ParseLiteral _ s2); apply ends_charref.
Qed.
Lemma ends_att q f : forall s, (length s < f)%nat -> ends (att_loop f q s).
Proof.
  induction f as [|f IH]; intros s Hf; [lia|]. cbn [att_loop]. destruct s as [|c s]; [discriminate|]. cbn [length] in Hf.
  destruct (c =? q); [discriminate|]. destruct (c =? 38).
  { apply ends_bind; [apply ends_reference|]. intros [v r] E. apply reference_shorter in E. cbn [length] in E. apply ends_bind; [apply IH; lia|]. intros [vs r'] _. discriminate. }
  destruct (IsS c); [apply ends_bind; [apply IH; lia|]; intros [vs r'] _; discriminate|].
  destruct (c =? 60); [discriminate|]. apply ends_bind; [apply IH; lia|]; intros [vs r'] _; discriminate.
Qed.
Lemma ends_attribute s : ends (ParseAttribute s).
Proof.
  apply ends_bind; [apply ends_name|]. intros [n r] _. apply ends_bind; [apply ends_eq|]. intros r1 _.
  apply ends_bind; [|intros [v r2] _; discriminate]. apply ends_bind; [apply ends_quote|]. intros [q r2] _. apply ends_att. lia.
Qed.
Lemma attribute_shorter s n v r : ParseAttribute s = Ok (n, v, r) -> (length r < length s)%nat.
Proof. intros H. apply attribute_iff in H as (e & q & w & _ & _ & _ & _ & ->). rewrite !app_length. cbn [length]. lia. Qed.
Lemma ends_stag_loop f : forall attrs s, (length s < f)%nat -> ends (stag_loop f attrs s).
Proof.
  induction f as [|f IH]; intros attrs s Hf; [lia|]. cbn [stag_loop]. destruct (ParseS s) as [sp s1] eqn:E. apply ParseS_spec in E as (-> & _ & _).
  rewrite app_length in Hf. destruct s1 as [|c r]; [discriminate|]. destruct (c =? 62); [discriminate|]. destruct (c =? 47).
  { apply ends_bind; [apply ends_required|discriminate]. }
  destruct sp as [|x sp]; [discriminate|]. apply ends_bind; [apply ends_attribute|]. intros [[n v] r'] E. apply attribute_shorter in E.
  destruct (lookup n attrs); [discriminate|]. apply IH. cbn [length] in *. lia.
Qed.
Lemma ends_STag s : ends (ParseSTag s).
Proof.
  apply ends_bind; [apply ends_required|]. intros s1 _. apply ends_bind; [apply ends_name|]. intros [n r] _.
  apply ends_bind; [apply ends_stag_loop; lia|]. intros [[a e] r'] _. discriminate.
Qed.
Lemma ends_ETag s : ends (ParseETag s).
Proof. apply ends_bind; [apply ends_required|]. intros s1 _. apply ends_bind; [apply ends_name|]. intros [n r] _. apply ends_bind; [apply ends_required|discriminate]. Qed.
Lemma ends_comment s : forall h, ends (comment_loop h s).
Proof.
  induction s as [|c s IH]; intros h; cbn [comment_loop]; [discriminate|]. destruct (c =? 45); [destruct (_ >? _); [discriminate|apply IH]|].
  destruct (c =? 62); [destruct (_ =? _); [discriminate|apply IH]|]. destruct (IsS c); [apply IH|]. destruct (_ >=? _); [discriminate|apply IH].
Qed.
Lemma ends_PI s : ends (ParsePI s).
Proof.
  assert (L : forall n s, (length s <= n)%nat -> ends (pi_loop s)).
  { induction n as [|n IH]; intros [|c s0] H; try discriminate; [cbn in H; lia|]. cbn [pi_loop length] in *. destruct (c =? 63); [|apply IH; lia].
    destruct s0 as [|d s1]; [discriminate|]. cbn [length] in H. destruct (d =? 62); [discriminate|apply IH; lia]. }
  apply ends_bind.
  - unfold ParsePITarget. destruct (ParseName s) as [[|c n] r]; [discriminate|]. destruct (str_eqb _ _); discriminate.
  - intros r _. destruct (ParseS r) as [[|c sp] r1]; [apply ends_required|]. apply (L (length r1)). lia.
Qed.
Lemma ends_CDSect s : ends (ParseCDSect s).
Proof.
  induction s as [|c s IH]; [discriminate|]. cbn [ParseCDSect]. destruct (ParseLiteral _ _); [discriminate|]. apply ends_bind; [exact IH|]. intros [d r] _. discriminate.
Qed.

(** ** Progress *)
Lemma STag_shorter s n a e r : ParseSTag s = Ok (n, a, e, r) -> (length r < length s)%nat.
Proof. intros H. apply STag_iff in H as (m & _ & _ & _ & ->). rewrite !app_length. cbn [lit length]. lia. Qed.
Lemma PI_shorter s r : ParsePI s = Ok r -> (length r <= length s)%nat.
Proof. intros H. apply PI_sound in H as [(w & _ & ->)|(-> & _)]; [rewrite app_length; lia|cbn; lia]. Qed.
Lemma Comment_shorter s r : ParseComment s = Ok r -> (length r <= length s)%nat.
Proof. intros H. apply Comment_iff in H as [(d & sp & _ & _ & ->)|(-> & _)]; [rewrite !app_length; lia|cbn; lia]. Qed.
Lemma element_shorter f s e r : ParseElement (ParseContent f) s = Ok (e, r) -> (length r < length s)%nat.
Proof.
  intros H. apply element_sound in H as (w & -> & Hw); [|apply content_sound]. destruct (element_head pyslet w e ltac:(auto) Hw) as (c & w' & -> & _).
  cbn [app length]. rewrite app_length. lia.
Qed.

(** ** When content does not end *)
Lemma stuck_forever y : forall g ch, ParseContent g ch (lit "]]>" ++ y) = Err OutOfFuel.
Proof. induction g as [|g IH]; intros ch; [reflexivity|]. exact (IH ch). Qed.

Lemma content_prefix f : forall ch s ch' r, ParseContent f ch s = Ok (ch', r) -> (length r <= length s)%nat.
Proof. intros ch s ch' r H. apply content_sound in H as [->|(m & l & -> & _)]; [cbn; lia|rewrite app_length; lia]. Qed.

Definition stuck (g : nat -> list node -> str -> result (list node * str)) (ch : list node) (s : str) : Prop :=
  (forall k, g k ch s = Err OutOfFuel) /\ exists x y, s = x ++ lit "]]>" ++ y.

Lemma bind_stuck {A B} (x : result A) (k : A -> result B) : bind x k = Err OutOfFuel -> x = Err OutOfFuel \/ exists a, x = Ok a /\ k a = Err OutOfFuel.
Proof. destruct x as [a|e]; cbn [bind]; [eauto|]. intros [= ->]. now left. Qed.

Lemma finer_ok g k s e r : ParseElement (ParseContent g) s = Ok (e, r) -> ParseElement (ParseContent k) s = Ok (e, r) \/ ParseElement (ParseContent k) s = Err OutOfFuel.
Proof.
  intros H. destruct (Nat.le_ge_cases g k) as [L|L].
  - left. rewrite (element_finer _ _ _ (content_more _ _ L)); [exact H|]. rewrite H. discriminate.
  - destruct (ParseElement (ParseContent k) s) as [x|e'] eqn:E.
    + left. rewrite <- H, (element_finer _ _ _ (content_more _ _ L)), E; [reflexivity|]. rewrite E. discriminate.
    + right. assert (~ ends (ParseElement (ParseContent k) s)) as K.
      { intros K. rewrite (element_finer _ _ _ (content_more _ _ L) K), E in H. discriminate. }
      rewrite E in K. destruct e'; try (exfalso; apply K; discriminate). reflexivity.
Qed.

Lemma element_stuck f s : (forall ch r, (length r < length s)%nat -> ParseContent f ch r = Err OutOfFuel -> stuck ParseContent ch r) ->
  ParseElement (ParseContent f) s = Err OutOfFuel ->
  (forall k, ParseElement (ParseContent k) s = Err OutOfFuel) /\ exists x y, s = x ++ lit "]]>" ++ y.
Proof.
  intros Hc H. unfold ParseElement in *. destruct (ParseSTag s) as [[[[n a] e] r]|x] eqn:E.
  2:{ exfalso. cbn [bind] in H. injection H as ->. now apply (ends_STag s). }
  cbn [bind] in *. destruct e; [discriminate|]. pose proof (STag_shorter _ _ _ _ _ E) as L. apply STag_iff in E as (m & _ & _ & _ & ->).
  apply bind_stuck in H as [H|([ch r1] & E & H)].
  - apply Hc in H as [H1 (x & y & ->)]; [|exact L]. split; [intros k; now rewrite H1|]. exists (lit "<" ++ n ++ m ++ closing false ++ x), y.
    now rewrite <- !app_assoc.
  - exfalso. revert H. apply ends_bind; [apply ends_ETag|]. intros [n' r2] _. destruct (str_eqb n' n); discriminate.
Qed.

Lemma content_stuck f : forall ch s, (length s < f)%nat -> ParseContent f ch s = Err OutOfFuel -> stuck ParseContent ch s.
Proof.
  induction f as [|f IH]; intros ch s Hf; [lia|]. cbn [ParseContent]. destruct s as [|c s1]; [discriminate|].
  assert (S0 : forall ch2 s2 p, c :: s1 = p ++ s2 -> p <> [] -> (forall k, ParseContent (S k) ch (c :: s1) = ParseContent k ch2 s2) ->
    ParseContent f ch2 s2 = Err OutOfFuel -> stuck ParseContent ch (c :: s1)).
  { intros ch2 s2 p E Hp H K. apply IH in K as [K1 (x & y & K2)].
    - split; [intros [|k]; [reflexivity|now rewrite H]|]. exists (p ++ x), y. now rewrite E, K2, <- app_assoc.
    - rewrite E, app_length in Hf. destruct p; [easy|]. cbn [length] in Hf. lia. }
  assert (KE : (forall k, ParseContent (S k) ch (c :: s1) = '(e, r) <- ParseElement (ParseContent k) (c :: s1) ;; ParseContent k (ch ++ [inr e]) r) ->
    '(e, r) <- ParseElement (ParseContent f) (c :: s1) ;; ParseContent f (ch ++ [inr e]) r = Err OutOfFuel -> stuck ParseContent ch (c :: s1)).
  { intros U H. apply bind_stuck in H as [H|([e r] & E & H)].
    - apply element_stuck in H as [H1 H2]; [|intros ch2 r L; apply IH; cbn [length] in *; lia]. split; [|exact H2]. intros [|k]; [reflexivity|]. now rewrite U, H1.
    - pose proof (element_shorter _ _ _ _ E) as L. apply IH in H as [H1 (x & y & ->)]; [|cbn [length] in *; lia].
      split.
      + intros [|k]; [reflexivity|]. rewrite U. destruct (finer_ok _ k _ _ _ E) as [-> | ->]; [apply H1|reflexivity].
      + apply element_sound in E as (w & E & _); [|apply content_sound]. exists (w ++ x), y. now rewrite E, <- app_assoc. }
  destruct (Z.eqb_spec c 60) as [->|N].
  { destruct s1 as [|d s2]; [now apply KE|]. destruct (Z.eqb_spec d 33) as [->|N1].
    { destruct s2 as [|x s3]; [discriminate|]. destruct (Z.eqb_spec x 45) as [->|N2].
      { intros H. apply bind_stuck in H as [H|(r & E & H)]; [now apply ends_required in H|].
        apply bind_stuck in H as [H|(r' & E' & H)]; [now apply ends_comment in H|].
        assert (exists p, 60 :: 33 :: 45 :: s3 = p ++ r' /\ p <> []) as (p & Ep & Hp).
        { pose proof E as E0. pose proof E' as E1. apply required_iff in E0. rewrite E0. apply Comment_iff in E1 as [(d & sp & _ & _ & ->)|(-> & _)].
          - exists (lit "<!--" ++ d ++ lit "--" ++ sp ++ lit ">"). split; [now rewrite <- !app_assoc|discriminate].
          - exists (60 :: 33 :: lit "--" ++ r). split; [now rewrite app_nil_r|discriminate]. }
        refine (S0 ch r' p Ep Hp _ H). intros k.
        change (ParseContent (S k) ch (60 :: 33 :: 45 :: s3)) with (r <- ParseRequiredLiteral (lit "--") (45 :: s3) ;; r' <- ParseComment r ;; ParseContent k ch r').
        rewrite E. cbn [bind]. rewrite E'. reflexivity. }
      destruct (Z.eqb_spec x 91) as [->|N3]; [|discriminate].
      intros H. apply bind_stuck in H as [H|(r & E & H)]; [now apply ends_required in H|].
      apply bind_stuck in H as [H|([d r'] & E' & H)]; [now apply ends_CDSect in H|].
      assert (60 :: 33 :: 91 :: s3 = (lit "<![CDATA[" ++ d ++ lit "]]>") ++ r') as Ep.
      { pose proof E as E0. pose proof E' as E1. apply required_iff in E0. rewrite E0. apply CDSect_iff in E1 as [-> _]. now rewrite <- !app_assoc. }
      refine (S0 _ r' _ Ep _ _ H); [discriminate|]. intros k.
      change (ParseContent (S k) ch (60 :: 33 :: 91 :: s3)) with
        (r <- ParseRequiredLiteral (lit "[CDATA[") (91 :: s3) ;; '(data, r') <- ParseCDSect r ;; ParseContent k (HandleData ch data) r').
      rewrite E. cbn [bind]. rewrite E'. reflexivity. }
    destruct (Z.eqb_spec d 63) as [->|N2].
    { intros H. apply bind_stuck in H as [H|(r & E & H)]; [now apply ends_PI in H|].
      assert (exists p, 60 :: 63 :: s2 = p ++ r /\ p <> []) as (p & Ep & Hp).
      { pose proof E as E1. apply PI_sound in E1 as [(w & _ & ->)|(-> & _)].
        - now exists (60 :: 63 :: w).
        - exists (60 :: 63 :: s2). split; [now rewrite app_nil_r|discriminate]. }
      refine (S0 _ r p Ep Hp _ H). intros k. change (ParseContent (S k) ch (60 :: 63 :: s2)) with (r <- ParsePI s2 ;; ParseContent k ch r). now rewrite E. }
    destruct (Z.eqb_spec d 47) as [->|N3]; cbn [negb]; [discriminate|]. apply KE. intros k. cbn [ParseContent]. change (60 =? 60) with true. cbv iota.
    now rewrite (proj2 (Z.eqb_neq _ _) N1), (proj2 (Z.eqb_neq _ _) N2), (proj2 (Z.eqb_neq _ _) N3). }
  destruct (Z.eqb_spec c 38) as [->|N1].
  { intros H. apply bind_stuck in H as [H|([v r] & E & H)]; [now apply ends_reference in H|].
    assert (exists p, 38 :: s1 = p ++ r /\ p <> []) as (p & Ep & Hp).
    { pose proof E as E1. apply reference_iff in E1 as (m & E1 & Hm). exists m. split; [exact E1|]. destruct (legal_cons _ _ Hm) as (m' & ->). discriminate. }
    refine (S0 _ r p Ep Hp _ H). intros k. change (ParseContent (S k) ch (38 :: s1)) with ('(v, r) <- ParseReference (38 :: s1) ;; ParseContent k (HandleData ch [v]) r).
    now rewrite E. }
  destruct (ParseLiteral (lit "]]>") (c :: s1)) as [y|] eqn:EL.
  { apply literal_iff in EL. intros _. rewrite EL. split; [intros k; apply stuck_forever|]. now exists [], y. }
  destruct (ParseCharData (c :: s1)) as [d r] eqn:E. intros H.
  refine (S0 _ r d _ _ _ H).
  - now apply (chardata_spec pyslet) in E.
  - rewrite chardata_step, (proj2 (Z.eqb_neq _ _) N), (proj2 (Z.eqb_neq _ _) N1), EL in E. cbn [orb] in E. destruct (ParseCharData s1). injection E as <- _. discriminate.
  - intros k. cbn [ParseContent]. now rewrite (proj2 (Z.eqb_neq _ _) N), (proj2 (Z.eqb_neq _ _) N1), E.
Qed.

(** ** Documents *)
Lemma ends_misc f : forall s, (length s < f)%nat -> ends (ParseMisc f s).
Proof.
  induction f as [|f IH]; intros s Hf; [lia|]. cbn [ParseMisc]. destruct (match s with c :: _ => IsS c | [] => false end) eqn:E.
  { destruct s as [|c s]; [discriminate|]. apply IH. cbn [tl length] in *. lia. }
  destruct (ParseLiteral (lit "<!--") s) as [r|] eqn:E1.
  { apply literal_iff in E1 as ->. rewrite app_length in Hf. cbn [lit length] in Hf. apply ends_bind; [apply ends_comment|]. intros r' E1. apply Comment_shorter in E1. apply IH. lia. }
  destruct (ParseLiteral (lit "<?") s) as [r|] eqn:E2; [|discriminate].
  apply literal_iff in E2 as ->. rewrite app_length in Hf. cbn [lit length] in Hf. apply ends_bind; [apply ends_PI|]. intros r' E2. apply PI_shorter in E2. apply IH. lia.
Qed.
Lemma ends_decl s : ends (ParseXMLDecl s).
Proof.
  assert (EQ : forall q s, ends (ParseThisQuote q s)) by (intros q [|c r]; [discriminate|]; unfold ParseThisQuote; destruct (c =? q); discriminate).
  assert (SD : forall s, ends (ParseSDDecl s)).
  { intros s0. apply ends_bind; [apply ends_eq|]. intros r _. apply ends_bind; [apply ends_quote|]. intros [q r'] _. apply ends_bind; [apply ends_required|]. intros; apply EQ. }
  assert (EN : forall s, ends (ParseEncodingDecl s)).
  { intros s0. apply ends_bind; [apply ends_eq|]. intros r _. apply ends_bind; [apply ends_quote|]. intros [q [|c r']] _; [discriminate|]. destruct (enc_start c); [apply EQ|discriminate]. }
  apply ends_bind.
  - apply ends_bind; [unfold ParseRequiredS; destruct (ParseS s) as [[|c sp] r]; discriminate|]. intros r1 _. apply ends_bind; [apply ends_required|]. intros r2 _.
    apply ends_bind; [apply ends_eq|]. intros r3 _. apply ends_bind; [apply ends_quote|]. intros [q r4] _. apply ends_bind; [apply ends_required|]. intros r5 _.
    apply ends_bind; [unfold ParseRequiredDigits; destruct (take_while _ r5) as [[|c sp] r]; discriminate|]. intros [ds r6] _. apply EQ.
  - intros r _. destruct (ParseS r) as [sp r1]. apply ends_bind; [|intros; apply ends_required]. destruct sp as [|c sp]; [discriminate|].
    destruct (ParseLiteral (lit "encoding") r1) as [r2|].
    + apply ends_bind; [apply EN|]. intros r3 _. destruct (ParseS r3) as [[|d sq] r4]; [discriminate|]. destruct (ParseLiteral _ r4); [apply SD|discriminate].
    + destruct (ParseLiteral _ r1); [apply SD|discriminate].
Qed.

Lemma prolog_shorter f s r : ParseProlog f s = Ok r -> exists p, s = p ++ r.
Proof.
  unfold ParseProlog. destruct (match ParseLiteral (lit "<?xml") s with Some r => ParseXMLDecl r | None => Ok s end) as [s1|] eqn:E; [|discriminate]. cbn [bind].
  assert (exists x, s = x ++ s1) as (x & ->).
  { destruct (ParseLiteral (lit "<?xml") s) as [y|] eqn:E1.
    - apply literal_iff in E1 as ->. apply XMLDecl_sound in E as (m & H & ->). exists (lit "<?xml" ++ m). now rewrite <- app_assoc.
    - injection E as <-. now exists []. }
  destruct (ParseMisc f s1) as [s2|] eqn:E1; [|discriminate]. cbn [bind]. destruct (ParseLiteral (lit "<!DOCTYPE") s2); [discriminate|]. intros [= <-].
  apply misc_sound in E1 as [(m & _ & ->)|(-> & m & z & _ & _ & ->)].
  - exists (x ++ m). now rewrite <- app_assoc.
  - exists (x ++ m ++ z). now rewrite app_nil_r.
Qed.
Lemma ends_prolog f s : (length s < f)%nat -> ends (ParseProlog f s).
Proof.
  intros Hf. apply ends_bind; [destruct (ParseLiteral (lit "<?xml") s); [apply ends_decl|discriminate]|]. intros r E. apply ends_bind.
  - apply ends_misc. destruct (ParseLiteral (lit "<?xml") s) as [y|] eqn:E1; [|injection E as <-; exact Hf].
    apply literal_iff in E1 as ->. apply XMLDecl_sound in E as (m & _ & ->). rewrite !app_length in Hf. lia.
  - intros r' _. destruct (ParseLiteral _ r'); discriminate.
Qed.
Lemma prolog_finer f g s : (f <= g)%nat -> ends (ParseProlog f s) -> ParseProlog g s = ParseProlog f s.
Proof.
  intros L. unfold ParseProlog. apply bind_finer; [reflexivity|]. intros r. apply bind_finer; [|reflexivity]. intros H. now apply misc_more with (f := f).
Qed.
Lemma document_finer f g s : (f <= g)%nat -> ends (ParseDocument f s) -> ParseDocument g s = ParseDocument f s.
Proof.
  intros L. unfold ParseDocument. apply bind_finer; [now apply prolog_finer|]. intros r. apply bind_finer; [apply element_finer; now apply content_more|].
  intros [e r']. apply bind_finer; [|reflexivity]. intros H. now apply misc_more with (f := f).
Qed.

Lemma document_stuck f s : (length s < f)%nat -> ParseDocument f s = Err OutOfFuel ->
  (forall k, ParseDocument k s = Err OutOfFuel) /\ exists x y, s = x ++ lit "]]>" ++ y.
Proof.
  intros Hf H.
  assert (exists r, ParseProlog f s = Ok r /\ ParseElement (ParseContent f) r = Err OutOfFuel) as (r & E & H1).
  { unfold ParseDocument in H. apply bind_stuck in H as [H|(r & E & H)]; [now apply ends_prolog in H|]. exists r. split; [exact E|].
    apply bind_stuck in H as [H|([e r1] & E1 & H)]; [exact H|]. exfalso. apply element_shorter in E1. apply prolog_shorter in E as (p & ->). rewrite app_length in Hf.
    revert H. apply ends_bind; [apply ends_misc; lia|]. intros r2 _. destruct r2; discriminate. }
  pose proof (prolog_shorter _ _ _ E) as (p & Ep). assert (Hr : (length r < f)%nat) by (rewrite Ep, app_length in Hf; lia).
  apply element_stuck in H1 as [H1 (x & y & Ex)]; [|intros ch r' L; apply content_stuck; lia]. split; [|exists (p ++ x), y; now rewrite Ep, Ex, <- app_assoc].
  intros k. unfold ParseDocument. destruct (ParseProlog k s) as [r'|e] eqn:Ek.
  - assert (r' = r) as ->.
    { destruct (Nat.le_ge_cases f k) as [L|L].
      - rewrite (prolog_finer f k s L) in Ek by (rewrite E; discriminate). congruence.
      - rewrite (prolog_finer k f s L) in E by (rewrite Ek; discriminate). congruence. }
    cbn [bind]. now rewrite H1.
  - destruct (Nat.le_ge_cases f k) as [L|L].
    + rewrite (prolog_finer f k s L) in Ek by (rewrite E; discriminate). congruence.
    + assert (~ ends (ParseProlog k s)) as K.
      { intros K. rewrite (prolog_finer k f s L K) in E. congruence. }
      rewrite Ek in K. destruct e; try (exfalso; apply K; discriminate). reflexivity.
Qed.
