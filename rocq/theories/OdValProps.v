(** The properties of reading and writing a property by /$value *)
From Verif Require Import Py Iso Dec Shapes XmlChars Xsd Imscp Uri OdExpr OdExprSpec OdExprProofs OdUri OdUriSpec OdUriProofs OdVal.
Open Scope Z_scope.
Open Scope list_scope.

(** ** C260: what is got is put back unchanged *)
(** Every page that is got for a value, put with its own type, is accepted and leaves the value *)
Definition C260_all : Prop := forall (V : Type) (text : V -> str) literal select codec mType (v : value V) m data,
  (forall x, Forall (fun c => 0 <= c < 0x110000) (text x) /\ literal (text x) = Some x) ->
  Get V text select mType v = Page m data -> Put V literal codec mType (Some m) data v = (NoContent204, v).
(** It is so for a value that is not binary, of a property without MimeType, got as text *)
Theorem C260_partial : forall (V : Type) (text : V -> str) literal select codec x m data,
  Forall (fun c => 0 <= c < 0x110000) (text x) -> literal (text x) = Some x ->
  (forall l t, select l = Some t -> In t l) ->
  Get V text select None (Simple x) = Page m data -> m_type m = lit "text" ->
  forall old, Put V literal codec None (Some m) data (Simple old) = (NoContent204, Simple x).
Proof.
  intros V text literal select codec x m data T L S G Tm old. cbn [Get] in G.
  destruct (select DereferenceTypes) as [t|] eqn:E; [|discriminate]. injection G as -> <-.
  apply S in E. destruct E as [<-|[<-|[<-|[]]]]; [|discriminate|discriminate].
  cbn [Put m_type m_charset]. change (text_plain _) with true. cbv iota. change (str_eqb (lit "text") (lit "text")) with true. cbv iota.
  unfold decode. change (str_eqb (lower (lit "utf-8")) (lit "utf-8")) with true. cbv iota. rewrite utf8_round by assumption. cbv zeta. now rewrite L.
Qed.
(** Text without a charset is read as one character for each octet *)
Theorem C260_latin : forall (V : Type) literal codec data (old x : V),
  Put V literal codec None (Some (mkMedia (lit "text") (lit "plain") None)) data (Simple old) = (NoContent204, Simple x) <->
  literal data = Some x.
Proof.
  intros V literal codec data old x. cbn [Put m_type m_charset]. change (text_plain _) with true. cbv iota. change (str_eqb (lit "text") (lit "text")) with true. cbv iota.
  unfold decode. change (str_eqb (lower (lit "iso-8859-1")) (lit "utf-8")) with false. change (str_eqb (lower (lit "iso-8859-1")) (lit "iso-8859-1")) with true. cbv iota zeta.
  destruct (literal data) as [y|]; split; intros H; try discriminate; congruence.
Qed.
(** A request that is not answered by 204 changes nothing *)
Theorem C260_kept : forall (V : Type) literal codec mType contentType data (v w : value V) st,
  Put V literal codec mType contentType data v = (st, w) -> st <> NoContent204 -> w = v.
Proof.
  intros V literal codec mType contentType data v w st H N. unfold Put in H. cbv zeta in H.
  repeat match type of H with context [match ?x with _ => _ end] => destruct x end; injection H as <- <-; try reflexivity; now elim N.
Qed.
(** A property that is Null is not found; octets that are not UTF-8 although announced so, and text
    that is no literal of the type, are bad requests *)
Theorem C260_answers : forall (V : Type) literal codec mType contentType data (x : V),
  fst (Put V literal codec mType contentType data Null) = NotFound404 /\
  (forall charset, let m := mkMedia (lit "text") (lit "plain") charset in
     charset = None \/ charset = Some (lit "iso-8859-1") \/ charset = Some (lit "utf-8") ->
     (fst (Put V literal codec None (Some m) data (Simple x)) = BadRequest400 <->
      forall s, literal s <> None -> ~ (if match charset with Some c => str_eqb c (lit "utf-8") | None => false end then of_utf8 data = Ok s else data = s))).
Proof.
  intros V literal codec mType contentType data x. split; [reflexivity|]. intros charset m C.
  assert (Put V literal codec None (Some m) data (Simple x) =
    match (if match charset with Some c => str_eqb c (lit "utf-8") | None => false end then of_utf8 data else Ok data) with
    | Err _ => (BadRequest400, Simple x)
    | Ok s => match literal s with None => (BadRequest400, Simple x) | Some y => (NoContent204, Simple y) end
    end) as ->.
  { destruct C as [-> |[-> | ->]]; cbn [Put m m_type m_charset]; change (text_plain _) with true; cbv iota; change (str_eqb (lit "text") (lit "text")) with true; cbv iota; unfold decode.
    - change (str_eqb (lower (lit "iso-8859-1")) (lit "utf-8")) with false. change (str_eqb (lower (lit "iso-8859-1")) (lit "iso-8859-1")) with true. reflexivity.
    - change (str_eqb (lower (lit "iso-8859-1")) (lit "utf-8")) with false. change (str_eqb (lower (lit "iso-8859-1")) (lit "iso-8859-1")) with true. change (str_eqb (lit "iso-8859-1") (lit "utf-8")) with false. reflexivity.
    - change (str_eqb (lower (lit "utf-8")) (lit "utf-8")) with true. change (str_eqb (lit "utf-8") (lit "utf-8")) with true. reflexivity. }
  clear C. destruct (match charset with Some c => str_eqb c (lit "utf-8") | None => false end).
  - destruct (of_utf8 data) as [s|e]; [|split; [intros _ s _; discriminate|reflexivity]]. destruct (literal s) as [y|] eqn:L; cbn [fst]; split; try reflexivity.
    + discriminate.
    + intros H. exfalso. apply (H s); [congruence|reflexivity].
    + intros _ s' N [= ->]. contradiction.
  - destruct (literal data) as [y|] eqn:L; cbn [fst]; split; try reflexivity.
    + discriminate.
    + intros H. exfalso. apply (H data); [congruence|reflexivity].
    + intros _ s' N ->. contradiction.
Qed.
(** A binary value, a value of a property with a MimeType, and one that is put without Content-Type or
    with a type that is not text/plain, is never changed: the answer is 500 *)
Theorem C260_fails : forall (V : Type) literal codec mType contentType data (v : value V), v <> Null ->
  ((exists b, v = Binary b) \/ mType <> None \/ contentType = None \/
   (exists m, contentType = Some m /\ (lower (m_type m) <> lit "text" \/ lower (m_subtype m) <> lit "plain"))) ->
  Put V literal codec mType contentType data v = (Failure500, v).
Proof.
  intros V literal codec mType contentType data v N H. destruct v as [|b|x]; [now elim N| |].
  - cbn [Put]. destruct contentType, mType; reflexivity.
  - cbn [Put]. destruct contentType as [m|]; [|reflexivity]. destruct mType as [t|]; [reflexivity|].
    assert (text_plain m = false) as ->; [|reflexivity]. destruct H as [[b X]|[X|[X|(m' & [= <-] & X)]]]; [discriminate|now elim X|discriminate|].
    unfold text_plain. apply andb_false_iff. destruct X as [X|X]; [left|right]; apply not_true_is_false; intros Y; apply str_eqb_eq in Y; contradiction.
Qed.
(** Not for all: a binary value; a value got as octets; a value of a property with a MimeType *)
Theorem C260_refuted : ~ C260_all /\
  (forall V text literal codec b, let select := fun l : list media => hd_error l in
     exists m data, Get V text select None (Binary b) = Page m data /\ Put V literal codec None (Some m) data (Binary b) = (Failure500, Binary b)) /\
  (forall V text literal codec (x : V), let select := fun l : list media => hd_error (tl l) in
     exists m data, Get V text select None (Simple x) = Page m data /\ Put V literal codec None (Some m) data (Simple x) = (Failure500, Simple x)) /\
  (forall V text literal codec t (x : V), let select := fun l : list media => hd_error l in
     exists m data, Get V text select (Some t) (Simple x) = Page m data /\ Put V literal codec (Some t) (Some m) data (Simple x) = (Failure500, Simple x)).
Proof.
  split; [|repeat split; intros; eexists; eexists; split; reflexivity].
  intros H. specialize (H unit (fun _ => []) (fun _ => Some tt) (fun l => hd_error l) (fun _ => None) None (Binary []) octets []).
  assert (forall x : unit, Forall (fun c => 0 <= c < 0x110000) [] /\ Some tt = Some x) as X by (intros []; split; [constructor|reflexivity]).
  specialize (H X eq_refl). discriminate.
Qed.
(** ** C261: what is got: the text in UTF-8, or the octets of a binary value, in a type on offer *)
Theorem C261_partial : forall (V : Type) (text : V -> str) select mType (v : value V) m data,
  (forall l t, select l = Some t -> In t l) -> Get V text select mType v = Page m data ->
  match v with
  | Null => False
  | Simple x =>
      (Forall (fun c => 0 <= c < 0x110000) (text x) -> of_utf8 data = Ok (text x)) /\
      match mType with
      | Some t => m = t
      | None => m = mkMedia (lit "text") (lit "plain") (Some (lit "utf-8")) \/ m = mkMedia (lit "application") (lit "octet-stream") None \/ m = mkMedia (lit "octet") (lit "stream") None
      end
  | Binary b =>
      match mType with
      | Some t => m = t
      | None => data = b /\ (m = mkMedia (lit "application") (lit "octet-stream") None \/ m = mkMedia (lit "octet") (lit "stream") None)
      end
  end.
Proof.
  intros V text select mType v m data S G. destruct v as [|b|x]; cbn [Get] in G; [destruct mType; discriminate| |].
  - destruct mType as [t|].
    + destruct (select [t]) as [u|] eqn:E; [|discriminate]. injection G as -> <-. apply S in E. now destruct E as [<-|[]].
    + destruct (select StreamTypes) as [u|] eqn:E; [|discriminate]. injection G as -> <-. apply S in E. split; [reflexivity|]. now destruct E as [<-|[<-|[]]]; [left|right].
  - destruct mType as [t|].
    + destruct (select [t]) as [u|] eqn:E; [|discriminate]. injection G as -> <-. apply S in E. split; [apply utf8_round|]. now destruct E as [<-|[]].
    + destruct (select DereferenceTypes) as [u|] eqn:E; [|discriminate]. injection G as -> <-. apply S in E. split; [apply utf8_round|]. destruct E as [<-|[<-|[<-|[]]]]; auto.
Qed.
(** Also the octets of a binary value of a property with a MimeType, as of a picture *)
Definition C261_binary : Prop := forall (V : Type) (text : V -> str) select mType b m data,
  Get V text select mType (Binary b) = Page m data -> data = b.
(** No: the page is its hexadecimal digits, two for each octet *)
Theorem C261_refuted : ~ C261_binary /\
  (forall V text select t b m data, Forall (fun c => 0 <= c < 256) b ->
     Get V text select (Some t) (Binary b) = Page m data -> length data = (2 * length b)%nat).
Proof.
  split.
  - intros H. specialize (H unit (fun _ => []) (fun l => hd_error l) (Some octets) [0xAB] octets (lit "AB") eq_refl). discriminate.
  - intros V text select t b m data F G. cbn [Get] in G. destruct (select [t]); [|discriminate]. injection G as _ <-.
    assert (Forall (fun c => 0 <= c < 128) (hex_literal b)) as A.
    { induction F as [|c b Hc F IH]; cbn; [constructor|]. assert (forall d, 0 <= d < 16 -> 0 <= hex1 d < 128) as X by (intros d Hd; unfold hex1; destruct (d <? 10); lia).
      constructor; [apply X; lia|]. constructor; [apply X; lia|exact IH]. }
    rewrite (proj1 (utf8_ascii _ A)). clear. induction b as [|c b IH]; cbn [hex_literal flat_map app length]; [reflexivity|].
    unfold hex_literal in IH. rewrite IH. lia.
Qed.
(** It is refused just if no type on offer is acceptable, and missing just if the value is Null *)
Theorem C261_refused : forall (V : Type) (text : V -> str) select mType (v : value V),
  (Get V text select mType v = Missing <-> v = Null) /\
  (v <> Null -> (forall l, l <> [] -> select l <> None) -> Get V text select mType v <> NotAcceptable).
Proof.
  intros V text select mType v. split.
  - destruct v as [|b|x]; cbn [Get]; (split; [|try discriminate; try reflexivity]); try reflexivity; destruct mType; destruct (select _); discriminate.
  - intros N S. destruct v as [|b|x]; [now elim N| |]; cbn [Get]; destruct mType as [t|].
    + assert (select [t] <> None) by (now apply S). now destruct (select [t]).
    + assert (select StreamTypes <> None) by (now apply S). now destruct (select StreamTypes).
    + assert (select [t] <> None) by (now apply S). now destruct (select [t]).
    + assert (select DereferenceTypes <> None) by (now apply S). now destruct (select DereferenceTypes).
Qed.
Example C260_case :
  let select := fun l : list media => hd_error l in let text := fun s : str => s in
  Get str text select None (Simple [0x41; 0xE9; 0x20AC]) = Page (mkMedia (lit "text") (lit "plain") (Some (lit "utf-8"))) [0x41; 0xC3; 0xA9; 0xE2; 0x82; 0xAC] /\
  Put str (fun s => Some s) (fun _ => None) None (Some (mkMedia (lit "text") (lit "plain") (Some (lit "utf-8")))) [0x41; 0xC3; 0xA9; 0xE2; 0x82; 0xAC] (Simple []) = (NoContent204, Simple [0x41; 0xE9; 0x20AC]) /\
  Put str (fun s => Some s) (fun _ => None) None (Some (mkMedia (lit "text") (lit "plain") (Some (lit "utf-8")))) [0xC3] (Simple []) = (BadRequest400, Simple []) /\
  Get str text select (Some octets) (Binary [0xAB]) = Page octets (lit "AB").
Proof. vm_compute. auto. Qed.
Print Assumptions C260_partial.
Print Assumptions C260_latin.
Print Assumptions C260_kept.
Print Assumptions C260_answers.
Print Assumptions C260_fails.
Print Assumptions C260_refuted.
Print Assumptions C261_partial.
Print Assumptions C261_refuted.
Print Assumptions C261_refused.
