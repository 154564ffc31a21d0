(** Properties C58 and C94-C98. *)
From Verif Require Import Py CharClass XmlChars XmlCharsProofs XmlCharsProofs2.
From Verif Require XmlCharsSpec.
Import XmlCharsSpec.

(** ** C58: identifiers *)

(** Whatever the value, the identifier made from it is an NCName, provided the prefix is one (the
    default prefix "_" is). *)
Theorem C58_identifier_valid value prefix : nc_name prefix -> nc_name (ValidateIdentifier value prefix).
Proof. apply ValidateIdentifier_valid. Qed.

Theorem C58_identifier_default value : nc_name (ValidateIdentifier value (lit "_")).
Proof.
  apply ValidateIdentifier_valid. split.
  - exists 95, []. split; [reflexivity|]. split; [unfold name_start_char; auto 10|constructor].
  - intros [H|[]]. discriminate.
Qed.

(** NCNames of the basic plane are left alone; so validation is idempotent for them. *)
Theorem C58_identifier_unchanged_partial value prefix :
  nc_name value -> Forall bmp value -> ValidateIdentifier value prefix = value.
Proof. apply ValidateIdentifier_id. Qed.

(** Other NCNames are not: a name starting with U+10000 is changed. *)
Theorem C58_identifier_unchanged_refuted : exists value,
  nc_name value /\ ValidateIdentifier value (lit "_") <> value.
Proof.
  exists [0x10000]. split; [|intros E; vm_compute in E; discriminate E]. split.
  - exists 0x10000, []. split; [reflexivity|]. split; [unfold name_start_char; lia|constructor].
  - intros [H|[]]. discriminate.
Qed.

Example C58_ex : ValidateIdentifier (lit "1:a b") (lit "_") = lit "_1-a_b" /\
  ValidateIdentifier [] (lit "_") = lit "_" /\ ValidateIdentifier (lit "A.1") (lit "_") = lit "A.1".
Proof. repeat split; vm_compute; reflexivity. Qed.

(** ** C94: character data *)

(** The escaped form of a text is character data that reads back as the text, and as no other. *)
Theorem C94_text_round_trip src :
  reads_text (EscapeCharData src false) src /\
  forall t, reads_text (EscapeCharData src false) t -> t = src.
Proof.
  split; [apply EscapeCharData_text|]. intros t H. exact (reads_text_fun _ _ H _ (EscapeCharData_text src)).
Qed.

Theorem C94_text_safe src c : In c (EscapeCharData src false) -> c <> 60 /\ c <> 62 /\ c <> 13.
Proof. apply esc_no_angle. Qed.

Theorem C94_text7_round_trip src : Forall (fun c => 0 <= c) src ->
  reads_text (EscapeCharData7 src false) src /\
  (forall t, reads_text (EscapeCharData7 src false) t -> t = src).
Proof.
  intros HF. split; [now apply EscapeCharData7_text|].
  intros t H. exact (reads_text_fun _ _ H _ (EscapeCharData7_text src HF)).
Qed.

Theorem C94_text7_ascii src quote : Forall (fun c => 0 <= c) src ->
  Forall (fun c => 0 <= c <= 0x7F) (EscapeCharData7 src quote).
Proof. apply EscapeCharData7_ascii. Qed.

(** So different texts have different escaped forms. *)
Theorem C94_injective a b : EscapeCharData a false = EscapeCharData b false -> a = b.
Proof.
  intros E. apply (proj2 (C94_text_round_trip b)). rewrite <- E. apply C94_text_round_trip.
Qed.

Example C94_ex : EscapeCharData (lit "a<b&c]]>" ++ [13]) false = lit "a&lt;b&amp;c]]&gt;&#xD;" /\
  EscapeCharData7 (lit "a<" ++ [0xE9; 0x20AC; 0x1F600]) false = lit "a&lt;&#xE9;&#x20AC;&#x01F600;".
Proof. split; vm_compute; reflexivity. Qed.

(** ** C95: attribute values *)
Theorem C95_attribute_round_trip_partial src : ~ In 9 src -> ~ In 10 src ->
  reads_literal (EscapeCharData src true) src /\
  (forall t, reads_literal (EscapeCharData src true) t -> t = src) /\
  (Forall (fun c => 0 <= c) src ->
     reads_literal (EscapeCharData7 src true) src /\
     forall t, reads_literal (EscapeCharData7 src true) t -> t = src).
Proof.
  intros H9 H10. pose proof (EscapeCharData_att src H9 H10) as H1. split; [exact H1|]. split.
  - intros t H. exact (reads_literal_fun _ _ _ H H1).
  - intros HF. pose proof (EscapeCharData7_att src HF H9 H10) as H2. split; [exact H2|].
    intros t H. exact (reads_literal_fun _ _ _ H H2).
Qed.

(** A new line in the value comes back as a space. *)
Theorem C95_attribute_round_trip_refuted : exists src t, t <> src /\
  reads_literal (EscapeCharData src true) t /\ ~ reads_literal (EscapeCharData src true) src /\
  reads_literal (EscapeCharData7 src true) t /\ ~ reads_literal (EscapeCharData7 src true) src.
Proof.
  exists [97; 10; 98], [97; 32; 98].
  assert (H : reads_literal (34 :: [97; 10; 98] ++ [34]) [97; 32; 98]).
  { exists 34, [97; 10; 98]. split; [now left|]. split; [reflexivity|].
    apply att_char; try lia; [unfold xml_space; lia|]. apply att_space; [right; right; now left|].
    apply att_char; try lia; [unfold xml_space; lia|]. constructor. }
  change (EscapeCharData [97; 10; 98] true) with (34 :: [97; 10; 98] ++ [34]).
  change (EscapeCharData7 [97; 10; 98] true) with (34 :: [97; 10; 98] ++ [34]).
  assert (HN : ~ reads_literal (34 :: [97; 10; 98] ++ [34]) [97; 10; 98]).
  { intros H'. pose proof (reads_literal_fun _ _ _ H H') as E. discriminate E. }
  split; [discriminate|]. split; [exact H|]. split; [exact HN|]. split; [exact H|exact HN].
Qed.

Example C95_ex : ~ In 9 (lit "it's ""so""") /\ ~ In 10 (lit "it's ""so""") /\
  EscapeCharData (lit "it's ""so""") true = lit "'it&apos;s ""so""'" /\
  EscapeCharData7 (lit "it's ""so""") true = lit """it's &#x22;so&#x22;""".
Proof. cbn. repeat split; try reflexivity; lia. Qed.

(** ** C96: CDATA sections *)

(** If the opening delimiter were "<!CDATA[[", as the code has it, the output would read back. *)
Theorem C96_cdata_partial src : reads_cdata (lit "<!CDATA[[") (EscapeCDSect src) src.
Proof. apply EscapeCDSect_reads. Qed.

(** It is not: no output of the function is XML character data at all. *)
Theorem C96_cdata_refuted src t : ~ reads_cdata (lit "<![CDATA[") (EscapeCDSect src) t.
Proof. destruct (EscapeCDSect_head src) as (s & ->). apply not_cdata. Qed.

Example C96_ex : EscapeCDSect (lit "a]]>b") = lit "<!CDATA[[a]]>]]&gt;<!CDATA[[b]]>" /\
  reads_cdata (lit "<![CDATA[") (lit "<![CDATA[a<b]]>") (lit "a<b").
Proof.
  split; [reflexivity|].
  change (lit "<![CDATA[a<b]]>") with (lit "<![CDATA[" ++ lit "a<b" ++ lit "]]>" ++ []).
  rewrite <- (app_nil_r (lit "a<b")) at 2. apply cdata_sect; [|constructor].
  intros x y E. assert (H : In 93 (lit "a<b")).
  { rewrite E. apply in_app_iff. right. now left. }
  cbn in H. intuition discriminate.
Qed.

(** ** C97: character classes *)
Theorem C97_char_class c : (IsChar c = true <-> char c) /\ (IsS c = true <-> xml_space c) /\
  (IsPubidChar c = true <-> pubid_char c).
Proof. split; [apply IsChar_iff|]. split; [apply IsS_iff|apply IsPubidChar_iff]. Qed.

Theorem C97_discouraged c : IsDiscouraged c = true <->
  0x7F <= c <= 0x84 \/ 0x86 <= c <= 0x9F \/ 0xFDD0 <= c <= 0xFDEF.
Proof. apply discouraged_iff. Qed.

Theorem C97_name_class_partial c : bmp c ->
  (IsNameStartChar c = true <-> name_start_char c) /\ (IsNameChar c = true <-> name_char c).
Proof. intros H. rewrite IsNameStartChar_iff, IsNameChar_iff. tauto. Qed.

Theorem C97_name_partial s : (IsValidName s = true <-> name s /\ Forall bmp s) /\
  (IsValidNCName s = true <-> nc_name s /\ Forall bmp s).
Proof. split; [apply IsValidName_iff|apply IsValidNCName_iff]. Qed.

(** No name with a character outside the basic plane is recognised. *)
Theorem C97_name_refuted : exists s, name s /\ nc_name s /\ IsValidName s = false /\ IsValidNCName s = false.
Proof.
  exists (lit "a" ++ [0x10000]).
  assert (H : name (lit "a" ++ [0x10000])).
  { exists 97, [0x10000]. split; [reflexivity|]. split; [unfold name_start_char; lia|].
    constructor; [|constructor]. left. unfold name_start_char. lia. }
  split; [exact H|]. split; [split; [exact H|cbn; lia]|]. split; vm_compute; reflexivity.
Qed.

Example C97_ex : IsValidName (lit "qti:item-1") = true /\ IsValidNCName (lit "qti:item-1") = false /\
  IsValidNCName (lit "item-1") = true /\ IsValidName (lit "1a") = false.
Proof. repeat split; vm_compute; reflexivity. Qed.

(** ** C98: white space *)

(** Normalising: the words with single spaces between them; doing it twice changes nothing. *)
Theorem C98_normalize d :
  NormalizeSpace d = spaced (words (fun c => c =? 32) d) /\
  NormalizeSpace (NormalizeSpace d) = NormalizeSpace d.
Proof. split; [apply NormalizeSpace_words|apply NormalizeSpace_idem]. Qed.

(** Collapsing: the words with single spaces between them, a space at either end if the text had white
    space there (not at the start in "space mode"); a text without words gives a single space. *)
Theorem C98_collapse d m :
  (words IsS d = [] -> CollapseSpace d m = [32]) /\
  (words IsS d <> [] -> CollapseSpace d m =
     (if match d with c :: _ => IsS c | [] => false end && negb m then [32] else []) ++
     spaced (words IsS d) ++
     (if match rev d with c :: _ => IsS c | [] => false end then [32] else [])) /\
  CollapseSpace (CollapseSpace d m) m = CollapseSpace d m.
Proof.
  split; [apply CollapseSpace_blank|]. split; [|apply CollapseSpace_idem].
  intros H. rewrite (CollapseSpace_words d m H). reflexivity.
Qed.

Theorem C98_strip d : exists ws, d = ws ++ StripLeadingS d /\ Forall xml_space ws /\
  match StripLeadingS d with [] => True | c :: _ => ~ xml_space c end.
Proof. apply StripLeadingS_spec. Qed.

(** What the words of a text are. *)
Theorem C98_words sp s :
  Forall (fun w => w <> [] /\ Forall (fun c => sp c = false) w) (words sp s) /\
  concat (words sp s) = filter (fun c => negb (sp c)) s.
Proof.
  split; [apply words_good; constructor|]. unfold words.
  assert (G : forall cur, concat (words_loop sp cur s) = rev cur ++ filter (fun c => negb (sp c)) s).
  { induction s as [|c s IH]; intros cur; cbn [words_loop filter].
    - destruct cur; [reflexivity|]. cbn [concat]. reflexivity.
    - destruct (sp c); cbn [negb].
      + destruct cur; [apply IH|]. cbn [concat]. now rewrite IH.
      + rewrite IH. cbn [rev]. now rewrite <- app_assoc. }
  apply (G []).
Qed.

Example C98_ex : NormalizeSpace (lit "  a  b ") = lit "a b" /\
  CollapseSpace (lit "  a  b ") false = lit " a b " /\ CollapseSpace (lit "  a  b ") true = lit "a b " /\
  words IsS (lit "  a  b ") = [lit "a"; lit "b"] /\ StripLeadingS (lit "  a ") = lit "a ".
Proof. repeat split; vm_compute; reflexivity. Qed.

Print Assumptions C58_identifier_valid.
Print Assumptions C58_identifier_default.
Print Assumptions C58_identifier_unchanged_partial.
Print Assumptions C58_identifier_unchanged_refuted.
Print Assumptions C94_text_round_trip.
Print Assumptions C94_text_safe.
Print Assumptions C94_text7_round_trip.
Print Assumptions C94_text7_ascii.
Print Assumptions C94_injective.
Print Assumptions C95_attribute_round_trip_partial.
Print Assumptions C95_attribute_round_trip_refuted.
Print Assumptions C96_cdata_partial.
Print Assumptions C96_cdata_refuted.
Print Assumptions C97_char_class.
Print Assumptions C97_discouraged.
Print Assumptions C97_name_class_partial.
Print Assumptions C97_name_partial.
Print Assumptions C97_name_refuted.
Print Assumptions C98_normalize.
Print Assumptions C98_collapse.
Print Assumptions C98_strip.
Print Assumptions C98_words.
