(** The properties of taking the body of a request *)
From Coq Require Import Lia ZArith.
From Verif Require Import Py Uri OdUri OdBody OdBodySpec.
Ltac Zify.zify_convert_to_euclidean_division_equations_flag ::= constr:(true).
Open Scope Z_scope.
Open Scope list_scope.

Definition plain (b : Z) : Prop := b <> 0 /\ b <> 0xfe /\ b <> 0xff.
Lemma plain_keeper b : plain b -> keeper b = false.
Proof. unfold plain, keeper. intros (A & B & C). apply Z.eqb_neq in A, B, C. now rewrite A, B, C. Qed.
Lemma key_plain s i : Forall plain s -> key_at s i = 0x2a.
Proof.
  intros F. unfold key_at. destruct (nth_error s i) as [b|] eqn:E; [|reflexivity]. apply nth_error_In in E. rewrite Forall_forall in F. now rewrite (plain_keeper b) by auto.
Qed.
Lemma utf8_plain c : 0 < c < 0x110000 -> Forall plain (utf8_1 c).
Proof.
  intros H. unfold utf8_1. destruct (c <? 0x80) eqn:A; [|destruct (c <? 0x800) eqn:B; [|destruct (c <? 0x10000) eqn:C]].
  all: repeat constructor; unfold plain; lia.
Qed.
Lemma utf8_all s : Forall (fun c => 0 < c < 0x110000) s -> Forall plain (utf8 s).
Proof. induction 1 as [|c s H F IH]; [constructor|]. unfold utf8. cbn [flat_map]. apply Forall_app. split; [now apply utf8_plain|exact IH]. Qed.
Lemma Forall_firstn {A} (P : A -> Prop) n : forall l, Forall P l -> Forall P (firstn n l).
Proof. induction n as [|n IH]; intros [|x l] F; cbn; try constructor; inversion F; auto. Qed.
Lemma utf8_bom s l : Forall (fun c => 0 < c < 0x110000) s -> utf8 s = 0xef :: 0xbb :: 0xbf :: l -> exists r, s = bom :: r.
Proof.
  intros F E. destruct F as [|c s H F]; [discriminate|]. exists s. f_equal. unfold utf8 in E. cbn [flat_map] in E. unfold utf8_1 at 1 in E. unfold bom.
  assert (forall i, nth i ((if c <? 128 then [c] else if c <? 2048 then [192 + c / 64; 128 + c mod 64] else if c <? 65536 then [224 + c / 4096; 128 + (c / 64) mod 64; 128 + c mod 64] else [240 + c / 262144; 128 + (c / 4096) mod 64; 128 + (c / 64) mod 64; 128 + c mod 64]) ++ flat_map utf8_1 s) 0 = nth i (239 :: 187 :: 191 :: l) 0) as N by (intros i; now rewrite <- E). clear E.
  pose proof (N 0%nat) as N0. pose proof (N 1%nat) as N1. pose proof (N 2%nat) as N2. clear N.
  destruct (c <? 128) eqn:A; [cbn [app nth] in N0; lia|]. destruct (c <? 2048) eqn:B; [cbn [app nth] in N0; lia|].
  destruct (c <? 65536) eqn:C; cbn [app nth] in N0, N1, N2; lia.
Qed.

(** ** C262: the encoding of a text is found from its first octets *)
(** Of UTF-8, for every text and however few octets are seen *)
Theorem C262_utf8 : forall s n, Forall (fun c => 0 < c < 0x110000) s -> (forall r, s <> bom :: r) ->
  DetectEncoding (firstn n (utf8 s)) = Some Utf8.
Proof.
  intros s n F B. unfold DetectEncoding. destruct (str_eqb (firstn 3 (firstn n (utf8 s))) [0xef; 0xbb; 0xbf]) eqn:E.
  - exfalso. apply str_eqb_eq in E. assert (exists l, utf8 s = 0xef :: 0xbb :: 0xbf :: l) as [l X].
    { destruct n as [|[|[|n]]]; destruct (utf8 s) as [|x1 [|x2 [|x3 l]]]; try discriminate. cbn in E. injection E as -> -> ->. eauto. }
    apply utf8_bom in X; [|assumption]. destruct X as [r X]. exact (B r X).
  - unfold key_of. cbn [seq map]. rewrite !key_plain by (apply Forall_firstn, utf8_all, F). reflexivity.
Qed.
Lemma key4 a b c d l : key_of (a :: b :: c :: d :: l) = map (fun b => if keeper b then b else 0x2a) [a; b; c; d].
Proof. reflexivity. Qed.
Lemma ascii_keeper c : ascii c -> keeper c = false /\ c / 256 = 0 /\ c mod 256 = c /\ (c <? 0x10000) = true /\ (c =? 0xef) = false.
Proof. unfold ascii. intros H. split; [apply plain_keeper; unfold plain; lia|]. lia. Qed.
(** Of the others without a mark, if the text begins with two characters of ASCII *)
Theorem C262_wide : forall c d r, ascii c -> ascii d ->
  DetectEncoding (utf16 true (c :: d :: r)) = Some Utf16Be /\ DetectEncoding (utf16 false (c :: d :: r)) = Some Utf16Le /\
  DetectEncoding (utf32 true (c :: d :: r)) = Some Utf32Be /\ DetectEncoding (utf32 false (c :: d :: r)) = Some Utf32Le.
Proof.
  intros c d r C D. assert (c / 0x1000000 = 0 /\ (c / 0x10000) mod 256 = 0 /\ (c / 256) mod 256 = 0) as (X1 & X2 & X3) by (unfold ascii in C; lia).
  destruct (ascii_keeper c C) as (C1 & C2 & C3 & C4 & C5), (ascii_keeper d D) as (D1 & D2 & D3 & D4 & D5).
  unfold utf16, utf32. cbn [flat_map]. unfold utf16_1, utf32_1. rewrite C4, D4. unfold unit16. rewrite X1, X2, X3, C2, C3, D2, D3. cbn [app rev].
  unfold DetectEncoding. cbn [firstn str_eqb]. rewrite C5. change (0 =? 239) with false. cbn [andb]. rewrite !key4. cbn [map]. rewrite C1, ?D1. repeat split; reflexivity.
Qed.
(** Of UTF-8 and UTF-32 with a mark, for every text that goes on with a character *)
Theorem C262_marks_partial : forall c r, 0 < c < 0x110000 ->
  DetectEncoding (utf8 (bom :: c :: r)) = Some Utf8Sig /\
  DetectEncoding (utf32 true (bom :: c :: r)) = Some Utf32Be /\ DetectEncoding (utf32 false (bom :: c :: r)) = Some Utf32Le.
Proof. intros c r H. repeat split; reflexivity. Qed.
(** Every text with a mark in UTF-16 is found, too *)
Definition C262_marks : Prop := forall s, Forall (fun c => 0 < c < 0x110000) s ->
  DetectEncoding (utf16 true (bom :: s)) = Some Utf16Be /\ DetectEncoding (utf16 false (bom :: s)) = Some Utf16Le.
(** No: none that goes on with a character of ASCII is found, in either order *)
Theorem C262_refuted : ~ C262_marks /\
  (forall c r, ascii c -> DetectEncoding (utf16 true (bom :: c :: r)) = None /\ DetectEncoding (utf16 false (bom :: c :: r)) = None).
Proof.
  assert (forall c r, ascii c -> DetectEncoding (utf16 true (bom :: c :: r)) = None /\ DetectEncoding (utf16 false (bom :: c :: r)) = None) as H.
  { intros c r C. destruct (ascii_keeper c C) as (C1 & C2 & C3 & C4 & C5). unfold utf16. cbn [flat_map]. unfold utf16_1. rewrite C4. unfold unit16. rewrite C2, C3.
    change (bom <? 65536) with true. change (bom / 256) with 0xfe. change (bom mod 256) with 0xff. cbn [app].
    unfold DetectEncoding. cbn [firstn str_eqb]. change (254 =? 239) with false. change (255 =? 239) with false. cbn [andb]. rewrite !key4. cbn [map]. rewrite C1. split; reflexivity. }
  split; [|exact H]. intros X. destruct (X [60]) as [Y _]; [repeat constructor; lia|]. destruct (H 60 []) as [Z _]; [unfold ascii; lia|]. congruence.
Qed.

(** ** C263: a body is parsed as what it is *)
Definition control (c : Z) : Prop := 0 <= c < 32.
Lemma line_firstn : forall n s, exists m, line n s = firstn m s.
Proof.
  induction n as [|n IH]; intros [|c r]; cbn [line]; try (exists 0%nat; reflexivity). destruct (c =? 10); [exists 1%nat; reflexivity|].
  destruct (IH r) as [m E]. exists (S m). cbn. now rewrite E.
Qed.
Lemma sniff_controls p s : Forall control p -> sniff (p ++ s) = sniff s.
Proof. induction 1 as [|c p H F IH]; [reflexivity|]. cbn [app sniff]. unfold control in H. replace (c <? 0x20) with true by lia. exact IH. Qed.
Lemma utf8_ctrl p s : Forall (fun c => 0 < c < 32) p -> utf8 (p ++ s) = p ++ utf8 s.
Proof. induction 1 as [|c p H F IH]; [reflexivity|]. cbn [app]. unfold utf8 in *. cbn [flat_map]. rewrite IH. unfold utf8_1 at 1. replace (c <? 0x80) with true by lia. reflexivity. Qed.
(** A text in UTF-8 without Content-Type: XML from "<" and JSON from "{" or "[" on, after any controls *)
Theorem C263_partial : forall p c r, Forall (fun c => 0 < c < 32) p -> 32 < c < 0x110000 -> c <> bom -> Forall (fun c => 0 < c < 0x110000) r ->
  ReadXMLOrJSON None None (utf8 (p ++ c :: r)) =
  if c =? 60 then Parsed Xml Utf8 else if (c =? 123) || (c =? 91) then Parsed Json Utf8 else Refused.
Proof.
  intros p c r Fp Hc Nb Fr. unfold ReadXMLOrJSON.
  assert (DetectEncoding (line 4 (utf8 (p ++ c :: r))) = Some Utf8) as ->.
  { destruct (line_firstn 4 (utf8 (p ++ c :: r))) as [m ->]. apply C262_utf8.
    - apply Forall_app. split; [revert Fp; apply Forall_impl; intros; lia|]. constructor; [lia|exact Fr].
    - intros q E. destruct p as [|a p]; injection E as E _; [congruence|]. inversion Fp. subst a. unfold bom in *. lia. }
  cbn [is_utf8]. rewrite utf8_ctrl by exact Fp. rewrite sniff_controls by (revert Fp; apply Forall_impl; unfold control; intros; lia).
  unfold utf8. cbn [flat_map]. unfold utf8_1 at 1. destruct (c <? 0x80) eqn:A.
  - cbn [app sniff]. replace (c <? 0x20) with false by lia. destruct (c =? 60); [reflexivity|]. destruct ((c =? 123) || (c =? 91)); reflexivity.
  - replace (c =? 60) with false by lia. replace (c =? 123) with false by lia. replace (c =? 91) with false by lia. cbn [orb].
    assert (forall b t, 128 <= b -> sniff (b :: t) = None) as S.
    { intros b t Hb. cbn [sniff]. replace (b <? 32) with false by lia. replace (b =? 60) with false by lia. replace (b =? 123) with false by lia. replace (b =? 91) with false by lia. reflexivity. }
    destruct (c <? 0x800); [|destruct (c <? 0x10000)]; cbn [app]; rewrite S by lia; reflexivity.
Qed.
(** What the Content-Type says is kept to, and with it the charset *)
Theorem C263_said : forall k charset body k' e, ReadXMLOrJSON (Some k) charset body = Parsed k' e ->
  k' = k /\ (forall n, charset = Some n -> e = Named n).
Proof.
  intros k charset body k' e H. unfold ReadXMLOrJSON in H. destruct k.
  - injection H as <- <-. split; [reflexivity|]. intros n ->. reflexivity.
  - destruct (is_utf8 _); [|discriminate]. injection H as <- <-. split; [reflexivity|]. intros n ->. reflexivity.
Qed.
(** Every text in UTF-8 of which the Content-Type says what it is, is taken so, with or without charset *)
Theorem C263_utf8 : forall k s, Forall (fun c => 0 < c < 0x110000) s -> (forall r, s <> bom :: r) ->
  ReadXMLOrJSON (Some k) None (utf8 s) = Parsed k Utf8 /\
  (forall n, lower n = lit "utf-8" -> ReadXMLOrJSON (Some k) (Some n) (utf8 s) = Parsed k (Named n)).
Proof.
  intros k s F B. unfold ReadXMLOrJSON. destruct (line_firstn 4 (utf8 s)) as [m ->]. rewrite C262_utf8 by assumption. split; [destruct k; reflexivity|].
  intros n L. destruct k; [reflexivity|]. cbn [is_utf8]. rewrite L. reflexivity.
Qed.
(** JSON of which the Content-Type says so is taken in every charset, and any body with white space
    in front as without *)
Definition C263_all : Prop :=
  (forall charset body, ReadXMLOrJSON (Some Json) charset body <> Refused) /\
  (forall body, ReadXMLOrJSON None (Some (lit "utf-8")) (32 :: body) = ReadXMLOrJSON None (Some (lit "utf-8")) body).
(** No: JSON is taken in UTF-8 only, and nothing that begins with a space *)
Theorem C263_refuted : ~ C263_all /\
  (forall n body, lower n <> lit "utf-8" -> lower n <> lit "utf_8" -> ReadXMLOrJSON (Some Json) (Some n) body = Refused) /\
  (forall charset body, ReadXMLOrJSON None charset (32 :: body) = Refused) /\
  (forall body, ReadXMLOrJSON (Some Json) None ([0xef; 0xbb; 0xbf] ++ body) = Refused).
Proof.
  split; [|split; [|split]].
  - intros [H _]. now apply (H (Some (lit "utf-16")) []).
  - intros n body A B. unfold ReadXMLOrJSON. cbn [is_utf8]. destruct (str_eqb (lower n) (lit "utf_8")) eqn:E; [apply str_eqb_eq in E; contradiction|].
    destruct (str_eqb (lower n) (lit "utf-8")) eqn:E2; [apply str_eqb_eq in E2; contradiction|]. reflexivity.
  - intros charset body. unfold ReadXMLOrJSON. destruct (is_utf8 _); reflexivity.
  - intros body. reflexivity.
Qed.
Example C263_case :
  ReadXMLOrJSON None None (utf8 [10; 123; 34; 0xE9]) = Parsed Json Utf8 /\ ReadXMLOrJSON None None (lit "<a/>") = Parsed Xml Utf8 /\
  ReadXMLOrJSON (Some Xml) None (utf16 true [60; 97]) = Parsed Xml Utf16Be /\ ReadXMLOrJSON None None (lit "x") = Refused /\
  DetectEncoding (utf8 [0x20AC; 60]) = Some Utf8.
Proof. vm_compute. auto 10. Qed.
Print Assumptions C262_utf8.
Print Assumptions C262_wide.
Print Assumptions C262_marks_partial.
Print Assumptions C262_refuted.
Print Assumptions C263_partial.
Print Assumptions C263_said.
Print Assumptions C263_utf8.
Print Assumptions C263_refuted.
