(** Properties of QTIMigration/lib/xmlutils.py: C26 to C28, C70 to C74. *)
From Verif Require Import Py Dec XmlUtils XmlSpec XmlProofs XmlProofs2.

Ltac fl := vm_compute lit; repeat (apply Forall_cons; [cbv beta; lia|]); apply Forall_nil.

(** C26: escaped text has no markup characters, is ASCII (or 128), stands for the original
    text by the rules of XML, and the tokenizer of this library reads it back. *)
Theorem C26_xml_string s : is_text s ->
  Forall (fun c => c <= 128 /\ c <> 60 /\ c <> 62) (XMLString s) /\
  reads (XMLString s) s /\
  TokenizeString (XMLString s) = Ok (match s with [] => [] | _ => [Text s] end).
Proof. intros H. exact (conj (XMLString_clean s H) (conj (XMLString_reads s H) (tokenize_xml s H))). Qed.
Print Assumptions C26_xml_string.
Example C26_ex : is_text (lit "a<b>&c" ++ [233; 0x20AC]) /\
  XMLString (lit "a<b>&c" ++ [233; 0x20AC]) = lit "a&lt;b&gt;&amp;c&#233;&#8364;".
Proof. split; [unfold is_text; fl|reflexivity]. Qed.

(** C27: encoded comments contain no double hyphen, add nothing but spaces, and make a
    well-formed comment in the way the migration tool writes them. *)
Theorem C27_comment s :
  (forall p q, EncodeComment s <> p ++ lit "--" ++ q) /\
  filter (fun c => negb (c =? 32)) (EncodeComment s) = filter (fun c => negb (c =? 32)) s /\
  (Forall xml_Char s -> well_formed_comment (lit "<!--" ++ [10] ++ EncodeComment s ++ [9] ++ lit "-->")).
Proof.
  exact (conj (EncodeComment_no_double s) (conj (EncodeComment_filter s) (EncodeComment_comment s))).
Qed.
Print Assumptions C27_comment.
Example C27_ex : Forall xml_Char (lit "a--->b") /\ EncodeComment (lit "a--->b") = lit "a- - ->b".
Proof. split; [unfold xml_Char; fl|reflexivity]. Qed.
(** Without white space after it an encoded comment need not be well formed *)
Theorem C27_bare_comment_refuted : exists s, Forall xml_Char s /\
  ~ well_formed_comment (lit "<!--" ++ EncodeComment s ++ lit "-->").
Proof. exists (lit "-"). split; [unfold xml_Char; fl|exact (wf_comment_end [])]. Qed.
Print Assumptions C27_bare_comment_refuted.

(** C28: path segments round-trip; the encoded form is made of escapes and characters
    allowed in a segment. *)
Theorem C28_path_segment s : octets s ->
  DecodePathSegment (EncodePathSegment s) = s /\
  pct_reads (EncodePathSegment s) s /\
  Forall (fun c => c = 37 \/ segment_char c) (EncodePathSegment s).
Proof.
  intros H. exact (conj (decode_reads _ _ (encode_reads s H)) (conj (encode_reads s H) (encode_chars s H))).
Qed.
Print Assumptions C28_path_segment.
Example C28_ex : octets (lit "a/b c%" ++ [233]) /\ EncodePathSegment (lit "a/b c%" ++ [233]) = lit "a%2fb%20c%25%e9".
Proof. split; [unfold octets; fl|reflexivity]. Qed.

(** C70: an escaped string between double quotes is read back as an attribute value;
    _partial: only if it has no double quote itself. *)
Theorem C70_attribute_value_partial s r : is_text s -> ~ In 34 s ->
  ParseAttValue (34 :: XMLString s ++ 34 :: r) = Ok (s, r).
Proof. exact (ParseAttValue_xml s r). Qed.
Print Assumptions C70_attribute_value_partial.
Example C70_ex : is_text (lit "R&D <x>") /\ ~ In 34 (lit "R&D <x>") /\
  ParseAttValue (34 :: XMLString (lit "R&D <x>") ++ 34 :: lit " b") = Ok (lit "R&D <x>", lit " b").
Proof. split; [unfold is_text; fl|]. split; [vm_compute; intuition congruence|reflexivity]. Qed.
Theorem C70_attribute_value_refuted : exists s, is_text s /\
  ParseAttValue (34 :: XMLString s ++ 34 :: lit ">") = Ok (lit "a", lit "b"">").
Proof. exists (lit "a""b"). split; [unfold is_text; fl|reflexivity]. Qed.
Print Assumptions C70_attribute_value_refuted.

(** C71: RelativeURL is false exactly for the references that have a scheme; _partial: it
    raises IndexError if the reference begins with a colon. *)
Theorem C71_relative_url_partial u : (forall r, u <> 58 :: r) ->
  exists b, RelativeURL u = Ok b /\ (b = false <-> has_scheme u).
Proof. exact (RelativeURL_spec u). Qed.
Print Assumptions C71_relative_url_partial.
Example C71_ex : RelativeURL (lit "http://a/") = Ok false /\ RelativeURL (lit "a/b:c") = Ok true /\
  RelativeURL (lit "1a:b") = Ok true.
Proof. repeat split. Qed.
Theorem C71_relative_url_refuted : exists u, ~ has_scheme u /\ RelativeURL u = Err IndexError.
Proof.
  exists (lit ":a"). split; [|reflexivity]. intros (a & s & r & E & L & _).
  injection E as <- _. unfold letter in L. lia.
Qed.
Print Assumptions C71_relative_url_refuted.

(** C72: decoding percent escapes replaces each escape by its octet and keeps every other
    character; _partial: only if every '%' begins an escape. *)
Theorem C72_decode_partial s t : pct_reads s t -> DecodePathSegment s = t.
Proof. exact (decode_reads s t). Qed.
Print Assumptions C72_decode_partial.
Example C72_ex : pct_reads (lit "a%2Fb") (lit "a/b").
Proof.
  change (pct_reads [97; 37; 50; 70; 98] [97; 2 * 16 + 15; 98]).
  apply pr_char; [lia|]. apply pr_escape; [unfold hex_of; lia..|]. apply pr_char; [lia|]. constructor.
Qed.
(** Otherwise characters that are no part of any escape disappear *)
Theorem C72_decode_refuted : exists s, ~ (exists p a b x y q, hex_of a x /\ hex_of b y /\ s = p ++ 37 :: a :: b :: q) /\
  DecodePathSegment s <> s.
Proof.
  exists (lit "%zz"). split; [|discriminate]. intros (p & a & b & x & y & q & Ha & Hb & E).
  change (lit "%zz") with [37; 122; 122] in E. unfold hex_of in Ha.
  destruct p as [|? [|? [|? [|? p]]]]; cbn [app] in E; injection E; intros; subst; try lia; discriminate.
Qed.
Print Assumptions C72_decode_refuted.

(** C73: on any string the tokenizer ends, either with tokens or with XMLException;
    _partial: strings with a numeric character reference may also make it raise ValueError
    or OverflowError (or take the branch for references above 0x10FFFF, which is outside the
    model). *)
Theorem C73_tokenizer_errors_partial s :
  (exists l, TokenizeString s = Ok l) \/ TokenizeString s = Err XMLException \/
  ((exists e, TokenizeString s = Err e /\ (e = ValueError \/ e = OverflowError \/ e = Unmodelled)) /\
   exists p q, s = p ++ lit "&#" ++ q).
Proof.
  destruct (TokenizeString s) as [l|e] eqn:E; [left; exists l; reflexivity|right].
  destruct (tokenize_errors s e E) as [->|[H1 H2]]; [left; reflexivity|right].
  split; [exists e; split; [reflexivity|exact H1]|exact H2].
Qed.
Print Assumptions C73_tokenizer_errors_partial.
Example C73_ex : TokenizeString (lit "<a") = Err XMLException.
Proof. reflexivity. Qed.
Theorem C73_tokenizer_errors_refuted : exists s, TokenizeString s = Err ValueError.
Proof. exists (lit "&#;"). reflexivity. Qed.
Print Assumptions C73_tokenizer_errors_refuted.

(** C74: the tokenizer reads back any sequence of tags and text from any markup for it. *)
Theorem C74_tokenizer_content l m : content l m -> TokenizeString m = Ok l.
Proof. exact (tokenize_content l m). Qed.
Print Assumptions C74_tokenizer_content.
Example C74_ex :
  content [Tag (mkTag (lit "a") STag [(lit "k", lit "<"); (lit "b", lit "")]); Text (lit "x&y"); Tag (mkTag (lit "a") ETag [])]
    (lit "<a k = '&lt;' b=''>" ++ lit "x&amp;y" ++ lit "</a >" ++ []).
Proof.
  apply ct_tag.
  - change (lit "<a k = '&lt;' b=''>") with
      (60 :: [97] ++ ([32] ++ [107] ++ [32] ++ 61 :: [32] ++ 39 :: (38 :: lit "lt" ++ 59 :: []) ++ 39 ::
         ([32] ++ [98] ++ [] ++ 61 :: [] ++ 39 :: [] ++ 39 :: [])) ++ [62]).
    apply tm_start.
    + split; [left; unfold letter; lia|constructor].
    + cbn [map fst]. constructor; [intros [Q|[]]; discriminate Q|]. constructor; [intros []|constructor].
    + apply (at_cons (lit "k") (lit "<")); try (constructor; [unfold space; lia|constructor]); try discriminate; try (right; reflexivity).
      * split; [left; unfold letter; vm_compute; intuition congruence|constructor].
      * change (lit "<") with [60]. apply rd_entity; [right; left; reflexivity|constructor].
      * unfold is_text; fl.
      * vm_compute; intuition congruence.
      * apply (at_cons (lit "b") (lit "")); try (constructor; [unfold space; lia|constructor]); try discriminate; try (right; reflexivity); try constructor.
        -- left; unfold letter; vm_compute; intuition congruence.
        -- constructor.
        -- intros [].
        -- constructor.
  - apply ct_text; [discriminate|unfold is_text; fl| |exact I|].
    + change (reads (120 :: 38 :: lit "amp" ++ 59 :: [121]) [120; 38; 121]).
      apply rd_char; [lia|lia|]. apply rd_entity; [left; reflexivity|]. apply rd_char; [lia|lia|constructor].
    + apply ct_tag; [|constructor].
      change (lit "</a >") with (60 :: 47 :: [97] ++ [32] ++ [62]). apply tm_end.
      * split; [left; unfold letter; lia|constructor].
      * constructor; [unfold space; lia|constructor].
Qed.

Lemma entity_lower n : map ascii_lower n = lower n.
Proof.
  unfold lower. apply map_ext. intros c. unfold ascii_lower. rewrite Z.geb_leb. reflexivity.
Qed.
Theorem C74_entities n v : is_name n -> entity_reads n v ->
  TokenizeString (38 :: n ++ [59]) = Ok [Text [v]].
Proof.
  intros Hn Hv. unfold TokenizeString. cbn [tok_loop]. change (38 =? 60) with false. change (38 =? 38) with true.
  cbv iota. unfold ParseReference.
  replace (ParseChar 35 (n ++ [59])) with (@None str).
  - rewrite ParseName_name by (exact Hn || reflexivity). cbn [bind].
    replace (match assoc (lower n) entityMap with Some v => v | None => 63 end) with v.
    + cbn [skip_semicolon ParseChar]. change (skip_semicolon [59]) with (@nil Z).
      destruct (length (38 :: n ++ [59])) eqn:E; [discriminate|]. reflexivity.
    + unfold entity_reads in Hv. rewrite entity_lower in Hv. unfold predefined in Hv. cbn [app In map fst] in Hv.
      unfold entityMap. cbn [assoc].
      destruct Hv as [Hv|[Hv ->]].
      * repeat (destruct Hv as [Hv|Hv]; [injection Hv as <- <-; reflexivity|]). destruct Hv.
      * repeat match goal with |- context [str_eqb (lower n) ?x] =>
          let E := fresh in destruct (str_eqb (lower n) x) eqn:E;
          [apply str_eqb_eq in E; exfalso; apply Hv; rewrite E; auto 10|] end.
        reflexivity.
  - destruct n as [|a n]; [destruct Hn|]. destruct Hn as [Ha _]. cbn [app ParseChar].
    assert (a =? 35 = false) as ->; [|reflexivity]. apply Z.eqb_neq. intros ->.
    unfold name_start, letter in Ha. lia.
Qed.
Print Assumptions C74_entities.
Example C74_entities_ex : is_name (lit "NbSp") /\ entity_reads (lit "NbSp") 160 /\ entity_reads (lit "eacute") 63.
Proof.
  split; [repeat constructor; cbn; unfold name_start, name_char, letter; lia|].
  split; [left; cbn; tauto|right; split; [|reflexivity]].
  cbn. intros H. repeat (destruct H as [H|H]; [discriminate|]). destruct H.
Qed.

Lemma tagp_all n l m : attributes l m -> forall a r t rest,
  tag_end r t rest ->
  tagp n a (m ++ r) = Ok (mkTag n t (fold_left (fun a kv => set_attr (fst kv) (snd kv) a) l a), rest).
Proof.
  induction 1 as [sp Hsp|k v l sp sp1 sp2 q w m H1 H2 H3 H4 H5 H6 H7 H8 H9 H IH]; intros a r t rest He.
  - apply tagp_end; assumption.
  - replace ((sp ++ k ++ sp1 ++ 61 :: sp2 ++ q :: w ++ q :: m) ++ r)
      with (sp ++ k ++ sp1 ++ 61 :: sp2 ++ q :: w ++ q :: (m ++ r))
      by (repeat (rewrite <- app_assoc; cbn [app]); reflexivity).
    rewrite tagp_step with (v := v) by assumption. apply IH, He.
Qed.
Lemma set_attr_assoc k v a k' : assoc k' (set_attr k v a) = if str_eqb k' k then Some v else assoc k' a.
Proof.
  induction a as [|[x y] a IH]; cbn [set_attr assoc]; [reflexivity|].
  destruct (str_eqb k x) eqn:E.
  - apply str_eqb_eq in E. subst. cbn [assoc]. destruct (str_eqb k' x); reflexivity.
  - cbn [assoc]. rewrite IH. destruct (str_eqb k' x) eqn:E1; [|reflexivity].
    apply str_eqb_eq in E1. subst. destruct (str_eqb x k) eqn:E2; [|reflexivity].
    apply str_eqb_eq in E2. subst. rewrite str_eqb_refl in E. discriminate.
Qed.
Lemma set_attr_keys k v a x : In x (map fst (set_attr k v a)) <-> x = k \/ In x (map fst a).
Proof.
  induction a as [|[y z] a IH]; cbn [set_attr map fst In]; [intuition|].
  destruct (str_eqb k y) eqn:E; cbn [map fst In].
  - apply str_eqb_eq in E. subst. intuition.
  - rewrite IH. intuition.
Qed.
Lemma set_attr_nodup k v a : NoDup (map fst a) -> NoDup (map fst (set_attr k v a)).
Proof.
  induction a as [|[y z] a IH]; intros H; cbn [set_attr map fst]; [repeat constructor; intros []|].
  inversion H; subst. destruct (str_eqb k y) eqn:E; cbn [map fst].
  - apply str_eqb_eq in E. subst. exact H.
  - constructor; [|auto]. rewrite set_attr_keys. intros [->|Hi]; [|tauto].
    rewrite str_eqb_refl in E. discriminate.
Qed.
Lemma assoc_In {A} k (v : A) m : assoc k m = Some v -> In (k, v) m.
Proof.
  induction m as [|[x y] m IH]; cbn [assoc]; [discriminate|]. destruct (str_eqb k x) eqn:E.
  - apply str_eqb_eq in E. intros H. injection H as <-. left. congruence.
  - intros H. right. auto.
Qed.
(** Repeated attributes: the tag has each name once, with the value that was given last. *)
Theorem C74_repeated_attributes n l m : is_name n -> attributes l m ->
  exists a, TokenizeString (60 :: n ++ m ++ [62]) = Ok [Tag (mkTag n STag a)] /\
    NoDup (map fst a) /\
    (forall k v, last_value l k v -> In (k, v) a) /\
    (forall k, In k (map fst a) -> In k (map fst l)).
Proof.
  intros Hn Ha. pose (set := fun (a : list (str * str)) (kv : str * str) => set_attr (fst kv) (snd kv) a).
  exists (fold_left set l []). split; [|split; [|split]].
  - unfold TokenizeString. cbn [tok_loop]. change (60 =? 60) with true. cbv iota.
    rewrite name_not_slash by exact Hn. unfold ParseTag.
    assert (He : tag_end [62] STag []) by (left; split; reflexivity).
    rewrite ParseName_name by (exact Hn || (eapply ends_atts; eassumption)).
    destruct n as [|x n]; [destruct Hn|].
    change (tag_loop (S (length (m ++ [62]))) (x :: n) [] (m ++ [62])) with (tagp (x :: n) [] (m ++ [62])).
    rewrite (tagp_all _ _ _ Ha [] _ _ _ He). cbn [bind].
    destruct (length _) eqn:E; [cbn in E; discriminate|]. reflexivity.
  - assert (G : forall a, NoDup (map fst a) -> NoDup (map fst (fold_left set l a))).
    { clear Ha. induction l as [|kv l IH]; intros a H; [exact H|]. cbn. apply IH, set_attr_nodup, H. }
    apply G. constructor.
  - intros k v (l1 & l2 & -> & Hk). apply assoc_In. rewrite fold_left_app. cbn [fold_left].
    assert (G : forall a, assoc k a = Some v -> assoc k (fold_left set l2 a) = Some v).
    { clear Ha. induction l2 as [|[k' v'] l2 IH]; intros a H; [exact H|]. cbn in Hk |- *. apply IH; [tauto|].
      unfold set. cbn [fst snd]. rewrite set_attr_assoc. destruct (str_eqb k k') eqn:E; [|exact H].
      apply str_eqb_eq in E. subst. tauto. }
    apply G. unfold set. cbn [fst snd]. rewrite set_attr_assoc, str_eqb_refl. reflexivity.
  - assert (G : forall a k, In k (map fst (fold_left set l a)) -> In k (map fst a) \/ In k (map fst l)).
    { clear Ha. induction l as [|[k' v'] l IH]; intros a k H; [left; exact H|]. cbn in H |- *.
      apply IH in H as [H|H]; [|tauto]. unfold set in H. cbn in H. apply set_attr_keys in H as [->|H]; tauto. }
    intros k H. apply G in H as [[]|H]. exact H.
Qed.
Print Assumptions C74_repeated_attributes.
Example C74_repeated_ex : last_value [(lit "a", lit "1"); (lit "a", lit "2")] (lit "a") (lit "2") /\
  TokenizeString (lit "<x a='1' a='2'>") = Ok [Tag (mkTag (lit "x") STag [(lit "a", lit "2")])].
Proof. split; [exists [(lit "a", lit "1")], []; split; [reflexivity|intros []]|reflexivity]. Qed.
