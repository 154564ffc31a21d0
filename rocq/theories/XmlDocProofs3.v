(** Reading XML: elements and their content. *)
From Coq Require Import List ZArith Bool Lia.
From Verif Require Import Py XmlChars XmlCharsProofs XmlCharsProofs2 XmlDoc XmlDocSpec XmlDocProofs XmlDocProofs2.
From Verif Require XmlUtils XmlCharsSpec.
Import XmlCharsSpec.
Open Scope Z_scope.
Open Scope list_scope.

(** ** Children so far and further nodes *)
Definition glue (ch l : list node) : list node :=
  match l with inl t :: l' => AddData ch t ++ l' | _ => ch ++ l end.

Lemma AddData_app ch : forall a b, AddData (AddData ch a) b = AddData ch (a ++ b).
Proof.
  induction ch as [|x ch IH]; intros a b; [reflexivity|]. destruct x as [s|e], ch as [|y ch].
  - cbn. now rewrite <- app_assoc.
  - change (AddData (inl s :: y :: ch) a) with (inl s :: AddData (y :: ch) a). change (AddData (inl s :: y :: ch) (a ++ b)) with (@inl str tree s :: AddData (y :: ch) (a ++ b)).
    rewrite <- IH. destruct (AddData (y :: ch) a) as [|z l] eqn:E; [|reflexivity]. destruct y as [?|?], ch; discriminate.
  - reflexivity.
  - change (AddData (inr e :: y :: ch) a) with (@inr str tree e :: AddData (y :: ch) a). change (AddData (inr e :: y :: ch) (a ++ b)) with (@inr str tree e :: AddData (y :: ch) (a ++ b)).
    rewrite <- IH. reflexivity.
Qed.
Lemma AddData_elem ch : forall e t, AddData (ch ++ [inr e]) t = ch ++ [inr e; inl t].
Proof.
  induction ch as [|x ch IH]; intros e t; [reflexivity|]. cbn [app]. rewrite <- IH.
  destruct x as [s|e'], (ch ++ [inr e]) as [|y l] eqn:E; try reflexivity. destruct ch; discriminate.
Qed.
Lemma HandleData_app ch a b : HandleData (HandleData ch a) b = HandleData ch (a ++ b).
Proof.
  destruct b as [|y b]; [now rewrite app_nil_r|]. destruct a as [|x a]; [reflexivity|]. cbn [HandleData app]. rewrite AddData_app. reflexivity.
Qed.
Lemma glue_text ch t l : glue (HandleData ch t) l = glue ch (text_then t l).
Proof.
  destruct t as [|c t]; [reflexivity|]. cbn [HandleData text_then]. destruct l as [|[u|e] l]; cbn [glue]; [reflexivity| |reflexivity].
  now rewrite AddData_app.
Qed.
Lemma glue_elem ch e l : glue (ch ++ [inr e]) l = glue ch (inr e :: l).
Proof. destruct l as [|[u|e'] l]; cbn [glue]; [now rewrite <- app_assoc| |now rewrite <- app_assoc]. rewrite AddData_elem. now rewrite <- app_assoc. Qed.
Lemma glue_nil l : glue [] l = l.
Proof. destruct l as [|[u|e] l]; reflexivity. Qed.

(** No two texts are side by side. *)
Inductive apart : list node -> Prop :=
| ap_nil : apart []
| ap_text t : apart [inl t]
| ap_elem e l : apart l -> apart (inr e :: l)
| ap_both t e l : apart l -> apart (inl t :: inr e :: l).
Lemma apart_text t l : apart l -> apart (text_then t l).
Proof. destruct t as [|c t]; [easy|]. cbn [text_then]. destruct 1; now constructor. Qed.
Lemma content_apart D m l : content D m l -> apart l.
Proof. induction 1; try constructor; try assumption; now apply apart_text. Qed.
Lemma changed_apart l : apart l -> ContentChanged l = l.
Proof.
  unfold ContentChanged. induction 1 as [|t|e l _ IH|t e l _ IH]; cbn [changed_loop app]; [reflexivity| | |].
  - cbn. now rewrite app_nil_r.
  - now rewrite IH.
  - rewrite IH. cbn [concat]. now rewrite app_nil_r.
Qed.

(** ** Soundness *)
Definition sound_content (g : list node -> str -> result (list node * str)) : Prop := forall ch s ch' rest, g ch s = Ok (ch', rest) ->
  rest = [] \/ exists m l, s = m ++ rest /\ content pyslet m l /\ ch' = glue ch l /\ exists y, rest = lit "</" ++ y.

Lemma element_sound g s e r : sound_content g -> ParseElement g s = Ok (e, r) -> exists w, s = w ++ r /\ element pyslet w e.
Proof.
  intros Hg. unfold ParseElement. destruct (ParseSTag s) as [[[[n a] b] r1]|] eqn:E; [|discriminate]. cbn [bind].
  apply STag_iff in E as (m & H1 & H2 & H3 & ->). destruct b; cbn [closing].
  - intros [= <- <-]. exists (lit "<" ++ n ++ m ++ lit "/>"). split; [now rewrite <- !app_assoc|]. now constructor.
  - destruct (g [] r1) as [[ch r2]|] eqn:E; [|discriminate]. cbn [bind]. destruct (ParseETag r2) as [[n' r3]|] eqn:E1; [|discriminate]. cbn [bind].
    apply ETag_iff in E1 as (sp & H4 & H5 & ->). destruct (str_eqb n' n) eqn:E2; [|discriminate]. apply str_eqb_eq in E2 as ->. intros [= <- <-].
    apply Hg in E as [E|(w & l & -> & H6 & -> & _)]; [discriminate|]. rewrite glue_nil, changed_apart by now apply content_apart in H6.
    exists (lit "<" ++ n ++ m ++ lit ">" ++ w ++ lit "</" ++ n ++ sp ++ lit ">"). split; [now rewrite <- !app_assoc|]. now constructor.
Qed.

Lemma content_nil f ch ch' rest : ParseContent f ch [] = Ok (ch', rest) -> rest = [].
Proof. destruct f; [discriminate|]. now intros [= <- <-]. Qed.

Lemma content_sound f : sound_content (ParseContent f).
Proof.
  induction f as [|f IH]; intros ch s ch' rest; cbn [ParseContent]; [discriminate|].
  destruct s as [|c s1]; [intros [= <- <-]; now left|].
  assert (KE : '(e, r) <- ParseElement (ParseContent f) (c :: s1) ;; ParseContent f (ch ++ [inr e]) r = Ok (ch', rest) ->
    rest = [] \/ exists m l, c :: s1 = m ++ rest /\ content pyslet m l /\ ch' = glue ch l /\ exists y, rest = lit "</" ++ y).
  { destruct (ParseElement _ _) as [[e r]|] eqn:E; [|discriminate]. cbn [bind]. apply element_sound in E as (w & E & Hw); [|exact IH]. rewrite E. intros H.
    apply IH in H as [H|(m & l & -> & H1 & -> & H2)]; [now left|]. right. exists (w ++ m), (inr e :: l).
    split; [now rewrite <- app_assoc|]. split; [now constructor|]. split; [apply glue_elem|exact H2]. }
  destruct (Z.eqb_spec c 60) as [->|N].
  { destruct s1 as [|d s2]; [exact KE|]. destruct (Z.eqb_spec d 33) as [->|N1].
    { destruct s2 as [|x s3]; [discriminate|]. destruct (Z.eqb_spec x 45) as [->|N2].
      { destruct (ParseRequiredLiteral _ _) as [r|] eqn:E; [|discriminate]. apply required_iff in E. rewrite E. cbn [bind].
        destruct (ParseComment r) as [r'|] eqn:E1; [|discriminate]. cbn [bind]. apply Comment_iff in E1 as [(d & sp & H1 & H2 & ->)|(-> & _)].
        - intros H. apply IH in H as [H|(m & l & -> & H3 & H4)]; [now left|]. right.
          exists ((lit "<!--" ++ d ++ lit "--" ++ sp ++ lit ">") ++ m), l. split; [now rewrite <- !app_assoc|]. split; [|exact H4].
          apply co_comment; [|exact H3]. now exists d, sp.
        - intros H. left. now apply content_nil in H. }
      destruct (Z.eqb_spec x 91) as [->|N3]; [|discriminate].
      destruct (ParseRequiredLiteral _ _) as [r|] eqn:E; [|discriminate]. apply required_iff in E. rewrite E. cbn [bind].
      destruct (ParseCDSect r) as [[d r']|] eqn:E1; [|discriminate]. cbn [bind]. apply CDSect_iff in E1 as (-> & H1). intros H.
      apply IH in H as [H|(m & l & -> & H3 & -> & H4)]; [now left|]. right. exists (lit "<![CDATA[" ++ d ++ lit "]]>" ++ m), (text_then d l).
      split; [now rewrite <- !app_assoc|]. split; [now constructor|]. split; [apply glue_text|exact H4]. }
    destruct (Z.eqb_spec d 63) as [->|N2].
    { destruct (ParsePI s2) as [r|] eqn:E; [|discriminate]. cbn [bind]. apply PI_sound in E as [(w & H1 & ->)|(-> & _)].
      - intros H. apply IH in H as [H|(m & l & -> & H3 & H4)]; [now left|]. right. exists ((lit "<?" ++ w) ++ m), l.
        split; [now rewrite <- !app_assoc|]. split; [now apply co_pi|exact H4].
      - intros H. left. now apply content_nil in H. }
    destruct (Z.eqb_spec d 47) as [->|N3]; cbn [negb]; [|exact KE].
    intros [= <- <-]. right. exists [], []. split; [reflexivity|]. split; [constructor|]. split; [cbn; now rewrite app_nil_r|]. now exists s2. }
  destruct (Z.eqb_spec c 38) as [->|N1].
  { destruct (ParseReference _) as [[v r]|] eqn:E; [|discriminate]. cbn [bind]. apply reference_iff in E as (m0 & -> & H1). intros H.
    apply IH in H as [H|(m & l & -> & H3 & -> & H4)]; [now left|]. right. exists (m0 ++ m), (text_then [v] l).
    split; [now rewrite <- app_assoc|]. split; [now constructor|]. split; [apply glue_text|exact H4]. }
  destruct (ParseCharData _) as [d r] eqn:E. apply (chardata_spec pyslet) in E as (-> & H1). intros H.
  apply IH in H as [H|(m & l & -> & H3 & -> & H4)]; [now left|]. right. exists (d ++ m), (text_then d l).
  split; [now rewrite <- app_assoc|]. split; [now apply H1 with (1 := eq_refl)|]. split; [apply glue_text|exact H4].
Qed.

(** ** More fuel changes nothing *)
Definition finer (g h : list node -> str -> result (list node * str)) : Prop := forall ch s, g ch s <> Err OutOfFuel -> h ch s = g ch s.
Lemma bind_finer {A B} (x y : result A) (f g : A -> result B) :
  (x <> Err OutOfFuel -> y = x) -> (forall a, f a <> Err OutOfFuel -> g a = f a) -> bind x f <> Err OutOfFuel -> bind y g = bind x f.
Proof.
  intros H1 H2 H. destruct x as [a|e]; cbn [bind] in H |- *.
  - rewrite H1 by discriminate. cbn [bind]. auto.
  - rewrite H1 by congruence. reflexivity.
Qed.
Lemma element_finer g h s : finer g h -> ParseElement g s <> Err OutOfFuel -> ParseElement h s = ParseElement g s.
Proof.
  intros H. unfold ParseElement. apply bind_finer; [reflexivity|]. intros [[[n a] b] r]. destruct b; [reflexivity|].
  apply bind_finer; [apply H|]. reflexivity.
Qed.
Lemma content_finer f : finer (ParseContent f) (ParseContent (S f)).
Proof.
  induction f as [|f IH]; intros ch s; [now intros []|].
  change (ParseContent (S (S f)) ch s) with
    (match s with
      | [] => Ok (ch, [])
      | c :: s1 =>
          if c =? 60 then
            match s1 with
            | d :: s2 =>
                if d =? 33 then
                  match s2 with
                  | x :: _ =>
                      if x =? 45 then
                        r <- ParseRequiredLiteral (lit "--") s2 ;;
                        r' <- ParseComment r ;;
                        ParseContent (S f) ch r'
                      else if x =? 91 then
                        r <- ParseRequiredLiteral (lit "[CDATA[") s2 ;;
                        '(data, r') <- ParseCDSect r ;;
                        ParseContent (S f) (HandleData ch data) r'
                      else Err XMLFatalError
                  | [] => Err XMLFatalError
                  end
                else if d =? 63 then r <- ParsePI s2 ;; ParseContent (S f) ch r
                else if negb (d =? 47) then
                  '(e, r) <- ParseElement (ParseContent (S f)) s ;;
                  ParseContent (S f) (ch ++ [inr e]) r
                else Ok (ch, s)
            | [] => '(e, r) <- ParseElement (ParseContent (S f)) s ;; ParseContent (S f) (ch ++ [inr e]) r
            end
          else if c =? 38 then
            '(v, r) <- ParseReference s ;;
            ParseContent (S f) (HandleData ch [v]) r
          else
            let '(data, r) := ParseCharData s in
            ParseContent (S f) (HandleData ch data) r
      end).
  change (ParseContent (S f) ch s) with
    (match s with
      | [] => Ok (ch, [])
      | c :: s1 =>
          if c =? 60 then
            match s1 with
            | d :: s2 =>
                if d =? 33 then
                  match s2 with
                  | x :: _ =>
                      if x =? 45 then
                        r <- ParseRequiredLiteral (lit "--") s2 ;;
                        r' <- ParseComment r ;;
                        ParseContent f ch r'
                      else if x =? 91 then
                        r <- ParseRequiredLiteral (lit "[CDATA[") s2 ;;
                        '(data, r') <- ParseCDSect r ;;
                        ParseContent f (HandleData ch data) r'
                      else Err XMLFatalError
                  | [] => Err XMLFatalError
                  end
                else if d =? 63 then r <- ParsePI s2 ;; ParseContent f ch r
                else if negb (d =? 47) then
                  '(e, r) <- ParseElement (ParseContent f) s ;;
                  ParseContent f (ch ++ [inr e]) r
                else Ok (ch, s)
            | [] => '(e, r) <- ParseElement (ParseContent f) s ;; ParseContent f (ch ++ [inr e]) r
            end
          else if c =? 38 then
            '(v, r) <- ParseReference s ;;
            ParseContent f (HandleData ch [v]) r
          else
            let '(data, r) := ParseCharData s in
            ParseContent f (HandleData ch data) r
      end).
  assert (KE : '(e, r) <- ParseElement (ParseContent f) s ;; ParseContent f (ch ++ [inr e]) r <> Err OutOfFuel ->
    '(e, r) <- ParseElement (ParseContent (S f)) s ;; ParseContent (S f) (ch ++ [inr e]) r = '(e, r) <- ParseElement (ParseContent f) s ;; ParseContent f (ch ++ [inr e]) r).
  { apply bind_finer; [now apply element_finer|]. intros [e r]. apply IH. }
  destruct s as [|c s1]; [reflexivity|]. destruct (c =? 60).
  - destruct s1 as [|d s2]; [exact KE|]. destruct (d =? 33).
    + destruct s2 as [|x s3]; [reflexivity|]. destruct (x =? 45); [|destruct (x =? 91)].
      * apply bind_finer; [reflexivity|]. intros r. apply bind_finer; [reflexivity|]. intros r'. apply IH.
      * apply bind_finer; [reflexivity|]. intros r. apply bind_finer; [reflexivity|]. intros [data r']. apply IH.
      * reflexivity.
    + destruct (d =? 63); [apply bind_finer; [reflexivity|]; intros r; apply IH|]. destruct (negb (d =? 47)); [exact KE|reflexivity].
  - destruct (c =? 38); [apply bind_finer; [reflexivity|]; intros [v r]; apply IH|]. destruct (ParseCharData _) as [data r]. apply IH.
Qed.
Lemma content_more f g : (f <= g)%nat -> finer (ParseContent f) (ParseContent g).
Proof.
  induction 1 as [|g _ IH]; intros ch s H; [reflexivity|]. rewrite content_finer; rewrite IH; auto.
Qed.

(** ** Completeness *)
Lemma content_char_step f ch c s x : c <> 60 -> c <> 38 -> (forall y, c :: s <> lit "]]>" ++ y) ->
  ParseContent f (HandleData ch [c]) s = Ok x -> ParseContent (S f) ch (c :: s) = Ok x.
Proof.
  intros N1 N2 N3 H. cbn [ParseContent]. rewrite (proj2 (Z.eqb_neq _ _) N1), (proj2 (Z.eqb_neq _ _) N2). rewrite chardata_step.
  rewrite (proj2 (Z.eqb_neq _ _) N1), (proj2 (Z.eqb_neq _ _) N2). apply literal_none in N3. rewrite N3. cbn [orb].
  destruct s as [|d s1]; [exact H|]. destruct (ParseCharData (d :: s1)) as [u r] eqn:E.
  assert (K : r = d :: s1 /\ u = [] -> ParseContent f (HandleData ch (c :: u)) r = Ok x) by (intros [-> ->]; exact H).
  rewrite chardata_step in E. destruct (Z.eqb_spec d 60) as [->|M1]; [injection E as <- <-; now apply K|].
  destruct (Z.eqb_spec d 38) as [->|M2]; [injection E as <- <-; now apply K|]. cbn [orb] in E.
  destruct (ParseLiteral (lit "]]>") (d :: s1)) eqn:E1; [injection E as <- <-; now apply K|].
  destruct f as [|f]; [discriminate|]. assert (ParseContent f (HandleData ch (c :: u)) r = Ok x) as H'.
  { rewrite <- H. cbn [ParseContent]. rewrite (proj2 (Z.eqb_neq _ _) M1), (proj2 (Z.eqb_neq _ _) M2). rewrite chardata_step.
    rewrite (proj2 (Z.eqb_neq _ _) M1), (proj2 (Z.eqb_neq _ _) M2), E1. cbn [orb]. destruct (ParseCharData s1) as [u' r']. injection E as <- <-.
    rewrite HandleData_app. reflexivity. }
  rewrite (content_finer f); [exact H'|]. rewrite H'. discriminate.
Qed.

Scheme element_mind := Minimality for element Sort Prop
  with content_mind := Minimality for content Sort Prop.
Combined Scheme xml_mind from element_mind, content_mind.

Lemma open_comment_shape w : open_comment w -> exists d, w = lit "<!--" ++ d /\ forall r, ParseComment (d ++ r) = Ok r.
Proof.
  intros (d & sp & H1 & H2 & ->). exists (d ++ lit "--" ++ sp ++ lit ">"). split; [reflexivity|]. intros r. rewrite <- !app_assoc. now apply comment_complete.
Qed.

Lemma element_head D w e : (forall n, d_name D n -> bmp_name n) -> element D w e -> exists c w', w = 60 :: c :: w' /\ c <> 33 /\ c <> 63 /\ c <> 47.
Proof.
  intros HD H.
  assert (K : forall n m, d_name D n -> exists c w', lit "<" ++ n ++ m = 60 :: c :: w' /\ c <> 33 /\ c <> 63 /\ c <> 47).
  { intros n m Hn. destruct (name_head n (HD _ Hn)) as (c & n' & -> & Hc). exists c, (n' ++ m). split; [reflexivity|].
    repeat split; intros ->; apply Hc; cbn; tauto. }
  destruct H; now apply K.
Qed.

Lemma complete_both :
  (forall w e, element pyslet w e -> forall f r, (length w <= f)%nat -> ParseElement (ParseContent f) (w ++ r) = Ok (e, r)) /\
  (forall m l, content pyslet m l -> forall f ch y, (length m < f)%nat ->
     ParseContent f ch (m ++ lit "</" ++ y) = Ok (glue ch l, lit "</" ++ y)).
Proof.
  apply xml_mind.
  - intros n a m H1 H2 H3 f r Hf. unfold ParseElement.
    rewrite (proj2 (STag_iff _ n a true r)); [reflexivity|]. exists m. rewrite <- !app_assoc. fin.
  - intros n a m w l sp H1 H2 H3 Hc IH H4 f r Hf. unfold ParseElement.
    rewrite (proj2 (STag_iff _ n a false (w ++ lit "</" ++ n ++ sp ++ lit ">" ++ r))); [|exists m; rewrite <- !app_assoc; fin].
    cbn [bind]. rewrite IH.
    + cbn [bind]. rewrite (proj2 (ETag_iff _ n r)) by (exists sp; fin). cbn [bind]. rewrite str_eqb_refl, glue_nil, changed_apart; [reflexivity|].
      now apply content_apart in Hc.
    + rewrite !app_length in Hf. cbn [lit length app] in Hf. lia.
  - intros f ch y Hf. destruct f as [|f]; [cbn in Hf; lia|]. cbn. now rewrite app_nil_r.
  - intros c m l N1 N2 N3 _ IH f ch y Hf. destruct f as [|f]; [lia|]. cbn [app]. apply content_char_step; [exact N1|exact N2| |].
    + intros x E. destruct m as [|c1 [|c2 m]]; cbn in E; try discriminate. injection E as -> -> -> _. now apply (N3 m).
    + rewrite IH by (cbn in Hf; lia). now rewrite glue_text.
  - intros r c m l Hr _ IH f ch y Hf. destruct f as [|f]; [lia|]. pose proof Hr as Hr'. destruct (legal_cons _ _ Hr) as (r' & ->).
    rewrite <- app_assoc. set (z := m ++ lit "</" ++ y). cbn [app ParseContent]. change (38 =? 60) with false. change (38 =? 38) with true. cbv iota.
    rewrite (proj2 (reference_iff _ c z)) by (exists (38 :: r'); now split). cbn [bind]. subst z. rewrite IH; [now rewrite glue_text|].
    rewrite app_length in Hf. cbn [length] in Hf. lia.
  - intros d m l Hd _ IH f ch y Hf. destruct f as [|f]; [lia|]. rewrite <- !app_assoc. set (z := m ++ lit "</" ++ y).
    change (ParseContent (S f) ch (lit "<![CDATA[" ++ d ++ lit "]]>" ++ z)) with
      ('(data, r') <- ParseCDSect (d ++ lit "]]>" ++ z) ;; ParseContent f (HandleData ch data) r').
    rewrite (proj2 (CDSect_iff _ d z)) by (split; [reflexivity|exact Hd]). cbn [bind]. subst z. rewrite IH; [now rewrite glue_text|].
    rewrite !app_length in Hf. cbn [lit length] in Hf. lia.
  - intros w m l Hw _ IH f ch y Hf. destruct f as [|f]; [lia|]. apply open_comment_shape in Hw as (d & -> & Hd). rewrite <- !app_assoc. set (z := m ++ lit "</" ++ y).
    change (ParseContent (S f) ch (lit "<!--" ++ d ++ z)) with (r' <- ParseComment (d ++ z) ;; ParseContent f ch r'). rewrite Hd. cbn [bind]. subst z. apply IH.
    rewrite !app_length in Hf. cbn [lit length] in Hf. lia.
  - intros w m l Hw _ IH f ch y Hf. destruct f as [|f]; [lia|].
    assert (exists d, w = lit "<?" ++ d) as (d & ->) by (destruct Hw as (n & _ & _ & [->|(sp & d & _ & _ & _ & ->)]); eauto).
    rewrite <- !app_assoc. set (z := m ++ lit "</" ++ y).
    change (ParseContent (S f) ch (lit "<?" ++ d ++ z)) with (r' <- ParsePI (d ++ z) ;; ParseContent f ch r'). rewrite (PI_complete d z Hw). cbn [bind]. subst z. apply IH.
    rewrite !app_length in Hf. cbn [lit length] in Hf. lia.
  - intros w e m l Hw IHw _ IH f ch y Hf. destruct f as [|f]; [lia|]. rewrite <- app_assoc. set (z := m ++ lit "</" ++ y).
    destruct (element_head pyslet w e ltac:(auto) Hw) as (c & w' & Ew & N1 & N2 & N3).
    assert (ParseContent (S f) ch (w ++ z) = '(e, r) <- ParseElement (ParseContent f) (w ++ z) ;; ParseContent f (ch ++ [inr e]) r) as ->.
    { rewrite Ew. cbn [app ParseContent]. change (60 =? 60) with true. cbv iota.
      now rewrite (proj2 (Z.eqb_neq _ _) N1), (proj2 (Z.eqb_neq _ _) N2), (proj2 (Z.eqb_neq _ _) N3). }
    rewrite app_length in Hf. rewrite IHw by lia. cbn [bind]. subst z. rewrite IH; [now rewrite glue_elem|]. rewrite Ew in Hf. cbn [length] in Hf. lia.
Qed.

Lemma element_complete w e f r : element pyslet w e -> (length w <= f)%nat -> ParseElement (ParseContent f) (w ++ r) = Ok (e, r).
Proof. intros H. now apply (proj1 complete_both). Qed.
