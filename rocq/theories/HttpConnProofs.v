(** Reading a response from pieces: the loop of the connection against the whole text. *)
From Coq Require Import Lia Zify.
From Verif Require Import Py Iso Dec XmlUtils Xsd Imscp Shapes HttpCore HttpParams HttpSpec OdPage HttpConn HttpConnSpec.
Open Scope Z_scope.

(** ** Lists *)
Lemma upd_length {A} (l : list A) : forall i x, length (upd l i x) = length l.
Proof. induction l as [|a l IH]; intros [|i] x; cbn [upd length]; congruence. Qed.
Lemma upd_upd {A} (l : list A) : forall i x y, upd (upd l i x) i y = upd l i y.
Proof. induction l as [|a l IH]; intros [|i] x y; cbn [upd]; congruence. Qed.
Lemma upd_same {A} (l : list A) : forall i x, nth_error l i = Some x -> upd l i x = l.
Proof.
  induction l as [|a l IH]; intros [|i] x H; cbn [upd nth_error] in *; try discriminate; [congruence|].
  now rewrite IH.
Qed.
Lemma nth_upd {A} (l : list A) : forall i x, (i < length l)%nat -> nth_error (upd l i x) i = Some x.
Proof.
  induction l as [|a l IH]; intros [|i] x H; cbn [upd nth_error length] in *; try lia; [reflexivity|].
  apply IH. lia.
Qed.
Lemma nth_upd_other {A} (l : list A) : forall i k x, i <> k -> nth_error (upd l i x) k = nth_error l k.
Proof.
  induction l as [|a l IH]; intros [|i] [|k] x H; cbn [upd nth_error]; try reflexivity; try congruence.
  apply IH. congruence.
Qed.
Lemma app_eq_parts {A} (a : list A) : forall b c d, a ++ b = c ++ d -> length a = length c -> a = c /\ b = d.
Proof.
  induction a as [|x a IH]; intros b [|y c] d H L; cbn in *; try discriminate; [auto|].
  injection H as -> H. destruct (IH _ _ _ H) as [-> ->]; [congruence|]. auto.
Qed.
Lemma len_app a b : len (a ++ b) = len a + len b.
Proof. unfold len. rewrite app_length. lia. Qed.
Lemma len_nonneg a : 0 <= len a. Proof. unfold len. lia. Qed.

(** ** Taking bytes from the buffer *)
Lemma take_bytes_ok n buf : forall got pre, got < n -> n <= got + len (concat buf) ->
  exists rest, take_bytes n got pre buf = Ok (concat pre ++ firstn (Z.to_nat (n - got)) (concat buf), rest) /\
    concat rest = skipn (Z.to_nat (n - got)) (concat buf).
Proof.
  induction buf as [|d buf IH]; intros got pre H1 H2.
  - cbn in H2. unfold len in H2. cbn in H2. lia.
  - cbn [take_bytes concat]. cbn [concat] in H2. rewrite len_app in H2.
    destruct (got + len d <? n) eqn:X.
    + destruct (IH (got + len d) (pre ++ [d])) as (rest & T & R); [lia|lia|]. exists rest. split.
      * rewrite T. rewrite concat_app. cbn [concat]. rewrite app_nil_r, <- app_assoc. do 3 f_equal.
        rewrite firstn_app. f_equal; [|f_equal; unfold len; lia].
        symmetry. apply firstn_all2. unfold len in *. lia.
      * rewrite R. rewrite skipn_app. rewrite (skipn_all2 d) by (unfold len in *; lia). cbn [app]. f_equal. unfold len. lia.
    + destruct (got + len d =? n) eqn:Y.
      * exists buf. split.
        -- rewrite concat_app. cbn [concat]. rewrite app_nil_r. do 3 f_equal. rewrite firstn_app.
           rewrite firstn_all2 by (unfold len in *; lia).
           replace (Z.to_nat (n - got) - length d)%nat with 0%nat by (unfold len in *; lia).
           cbn [firstn]. now rewrite app_nil_r.
        -- rewrite skipn_app. rewrite skipn_all2 by (unfold len in *; lia).
           replace (Z.to_nat (n - got) - length d)%nat with 0%nat by (unfold len in *; lia). reflexivity.
      * eexists. split; [|cbn [concat]; rewrite skipn_app].
        -- rewrite concat_app. cbn [concat]. rewrite app_nil_r. do 3 f_equal. rewrite firstn_app.
           replace (Z.to_nat (n - got) - length d)%nat with 0%nat by (unfold len in *; lia).
           cbn [firstn]. now rewrite app_nil_r.
        -- replace (Z.to_nat (n - got) - length d)%nat with 0%nat by (unfold len in *; lia). reflexivity.
Qed.

(** ** Lines *)
Lemma find_line_nil : find_line [] = None. Proof. reflexivity. Qed.
Lemma find_line_cons c s : find_line (c :: s) =
  match s with
  | d :: r => if (c =? CR) && (d =? LF) then Some (CRLF, r)
              else match find_line s with Some (a, b) => Some (c :: a, b) | None => None end
  | [] => None
  end.
Proof. destruct s; reflexivity. Qed.
(** A line found in the beginning is the line found in the whole. *)
Lemma find_line_app s : forall t a b, find_line s = Some (a, b) -> find_line (s ++ t) = Some (a, b ++ t) /\ s = a ++ b.
Proof.
  induction s as [|c s IH]; intros t a b H; [discriminate|].
  rewrite find_line_cons in H. cbn [app]. rewrite find_line_cons.
  destruct s as [|d s]; [discriminate|]. cbn [app].
  destruct ((c =? CR) && (d =? LF)) eqn:X.
  - injection H as <- <-. split; [reflexivity|]. cbn. f_equal; [|f_equal]; lia.
  - destruct (find_line (d :: s)) as [[a' b']|] eqn:F; [|discriminate]. injection H as <- <-.
    destruct (IH t a' b' eq_refl) as [IH1 IH2]. cbn [app] in IH1. rewrite IH1. split; [reflexivity|].
    rewrite IH2. reflexivity.
Qed.
Lemma find_line_none_app s : forall t, find_line (s ++ t) = None -> find_line s = None.
Proof.
  intros t H. destruct (find_line s) as [[a b]|] eqn:F; [|reflexivity].
  destruct (find_line_app s t a b F). congruence.
Qed.
Lemma one_line_tail c l : one_line (c :: l) -> one_line l.
Proof. intros H a b E. apply (H (c :: a) b). now rewrite E. Qed.
Lemma find_line_one l : forall r, one_line l -> find_line (l ++ CRLF ++ r) = Some (l ++ CRLF, r).
Proof.
  induction l as [|c l IH]; intros r H; [reflexivity|].
  cbn [app]. rewrite find_line_cons. rewrite IH by (eapply one_line_tail; exact H).
  destruct l as [|d l].
  - cbn [app CRLF]. destruct ((c =? CR) && (CR =? LF)) eqn:X; [unfold CR, LF in X; lia|]. reflexivity.
  - cbn [app]. destruct ((c =? CR) && (d =? LF)) eqn:X; [|reflexivity]. exfalso.
    apply (H [] l). unfold CR, LF in X. cbn. f_equal; [lia|]. f_equal. lia.
Qed.
Lemma find_line_crlf r : find_line (CRLF ++ r) = Some (CRLF, r). Proof. reflexivity. Qed.
(** The line that is found is the shortest. *)
Lemma find_line_split s : forall t line rest, s ++ t = line ++ rest -> find_line (s ++ t) = Some (line, rest) ->
  find_line s = None \/ exists rest', find_line s = Some (line, rest') /\ rest = rest' ++ t.
Proof.
  intros t line rest _ F. destruct (find_line s) as [[a b]|] eqn:X; [right|now left].
  destruct (find_line_app s t a b X) as [H _]. rewrite F in H. injection H as -> ->. now exists b.
Qed.
Lemma find_line_short s : forall a b, find_line s = Some (a, b) -> (2 <= length a)%nat /\ s = a ++ b.
Proof.
  induction s as [|c s IH]; intros a b H; [discriminate|]. rewrite find_line_cons in H.
  destruct s as [|d s]; [discriminate|]. destruct ((c =? CR) && (d =? LF)) eqn:X.
  - injection H as <- <-. split; [cbn; lia|]. cbn. f_equal; [|f_equal]; lia.
  - destruct (find_line (d :: s)) as [[a' b']|]; [|discriminate]. injection H as <- <-.
    destruct (IH a' b' eq_refl) as [H1 H2]. split; [cbn [length]; lia|]. rewrite H2. reflexivity.
Qed.

(** ** The response on a whole text *)
Definition final (r : resp) : Prop := exists s, r_status r = Some s /\ ~ (100 <= s <= 199).
(** Reading until the connection is closed *)
Definition forever (r : resp) : Prop := r_mode r = RESP_DATA /\ r_len r = Some 0.
(** [ia]: interim responses may come first. *)
Inductive runs_with (ia : Prop) (m : str) : resp -> str -> str -> resp -> str -> Prop :=
| runs_stop r s : RecvNeeds r = NNone \/ forever r -> runs_with ia m r s [] r s
| runs_line r line rest r' w rf left :
    RecvNeeds r = NLine -> find_line (line ++ rest) = Some (line, rest) -> RecvLine m r line = Ok r' ->
    (is_done r' = true -> final r') -> runs_with ia m r' rest w rf left -> runs_with ia m r (line ++ rest) w rf left
| runs_interim r line rest r' s w rf left :
    ia -> r_mode r = RESP_HEADER -> find_line (line ++ rest) = Some (line, rest) -> RecvLine m r line = Ok r' ->
    is_done r' = true -> r_status r' = Some s -> 100 <= s <= 199 ->
    runs_with ia m (new_resp (r_request r)) rest w rf left -> runs_with ia m r (line ++ rest) w rf left
| runs_bytes r n data rest r' out w rf left :
    RecvNeeds r = NBytes n -> 0 < n <= maxint -> len data = n -> RecvBytes r data = (r', out) ->
    (is_done r' = true -> final r') -> runs_with ia m r' rest w rf left -> runs_with ia m r (data ++ rest) (out ++ w) rf left.

(** What does not change in a response *)
Lemma RecvLine_request m r l r' : RecvLine m r l = Ok r' -> r_request r' = r_request r.
Proof.
  unfold RecvLine, status_line, ReadHeader, headers_end, chunk_size, with_mode, with_headers, with_length, bind.
  repeat match goal with
  | |- context [match ?x with _ => _ end] => destruct x eqn:?
  | |- Ok _ = Ok _ -> _ => intros H; injection H as <-; try reflexivity
  | |- Err _ = _ -> _ => discriminate
  end; subst; try reflexivity.
  all: repeat match goal with
  | H : context [match ?x with _ => _ end] |- _ => destruct x eqn:?
  | H : Ok _ = Ok _ |- _ => injection H as <-
  | H : Err _ = Ok _ |- _ => discriminate
  end; subst; try reflexivity; try congruence.
Qed.
