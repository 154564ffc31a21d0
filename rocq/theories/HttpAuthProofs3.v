(** Proofs about base64 and credentials. *)
From Coq Require Import Lia Zify.
From Verif Require Import Py Iso Dec XmlUtils Imscp ImscpProofs HttpCore HttpParams HttpHeaders HttpConn HttpSpec HttpProofs HttpProofs2 HttpProofs4 HttpAuth HttpAuthSpec HttpAuthProofs HttpAuthProofs2.
From Verif Require Uri UriSpec UriProofs UriProofs3.
Open Scope Z_scope.
Ltac Zify.zify_post_hook ::= Z.to_euclidean_division_equations.

(** ** base64 *)
Definition char_ok (k : Z) : bool :=
  (match b64_value (b64_char k) with Some v => v =? k | None => false end) && negb (b64_char k =? 61) &&
  (negb (IsCTL (b64_char k) || IsSEPARATOR (b64_char k)) || (b64_char k =? 47)).
Lemma chars_ok : forallb char_ok (map Z.of_nat (seq 0 64)) = true. Proof. vm_compute. reflexivity. Qed.
Lemma char_spec k : 0 <= k < 64 -> b64_value (b64_char k) = Some k /\ (b64_char k =? PAD) = false /\ (token_char (b64_char k) \/ b64_char k = 47).
Proof.
  intros H. pose proof chars_ok as C. rewrite forallb_forall in C. specialize (C k). assert (I : In k (map Z.of_nat (seq 0 64))).
  { apply in_map_iff. exists (Z.to_nat k). split; [lia|]. apply in_seq. lia. }
  apply C in I. unfold char_ok in I. rewrite !andb_true_iff, orb_true_iff in I. destruct I as [[I1 I2] I3].
  destruct (b64_value (b64_char k)) as [v|]; [|discriminate]. split; [f_equal; lia|]. split; [now apply negb_true_iff in I2|].
  destruct I3 as [I3|I3]; [left; apply token_char_model; now apply negb_true_iff in I3|right; lia].
Qed.

Lemma step_quad k1 k2 k3 k4 r : 0 <= k1 < 64 -> 0 <= k2 < 64 -> 0 <= k3 < 64 -> 0 <= k4 < 64 ->
  a2b (b64_char k1 :: b64_char k2 :: b64_char k3 :: b64_char k4 :: r) 0 0 0 =
  x <- a2b r 0 0 0 ;;
  Ok (((k1 * 64 + k2) / 16) mod 256 :: ((((k1 * 64 + k2) mod 16) * 64 + k3) / 4) mod 256
      :: ((((k1 * 64 + k2) mod 16) * 64 + k3) mod 4 * 64 + k4) mod 256 :: x).
Proof.
  intros H1 H2 H3 H4. destruct (char_spec k1 H1) as (A1 & A2 & _), (char_spec k2 H2) as (B1 & B2 & _), (char_spec k3 H3) as (C1 & C2 & _), (char_spec k4 H4) as (D1 & D2 & _).
  cbn [a2b]. rewrite A2, A1. change (0 + 6 >=? 8) with false. cbv iota zeta.
  rewrite B2, B1. change (0 + 6 + 6 >=? 8) with true. cbv iota zeta.
  rewrite C2, C1. change (0 + 6 + 6 - 8 + 6 >=? 8) with true. cbv iota zeta.
  rewrite D2, D1. change (0 + 6 + 6 - 8 + 6 - 8 + 6 >=? 8) with true. cbv iota zeta.
  change (0 + 6 + 6 - 8 + 6 - 8 + 6 - 8) with 0. change (0 + 6 + 6 - 8 + 6 - 8) with 2. change (0 + 6 + 6 - 8) with 4.
  change (2 ^ 0) with 1. change (2 ^ 2) with 4. change (2 ^ 4) with 16. change ((((0 + 1) mod 4 + 1) mod 4 + 1) mod 4) with 3. change ((3 + 1) mod 4) with 0.
  rewrite Z.mod_1_r, Z.div_1_r. replace (0 * 64 + k1) with k1 by lia. destruct (a2b r 0 0 0); reflexivity.
Qed.
Lemma triple s : forall P : str -> Prop, P [] -> (forall a, P [a]) -> (forall a b, P [a; b]) -> (forall a b c s, P s -> P (a :: b :: c :: s)) -> P s.
Proof.
  intros P H0 H1 H2 H3. assert (G : forall n s, (length s < n)%nat -> P s).
  { induction n as [|n IH]; intros [|a [|b [|c s']]] L; auto; cbn [length] in L; try lia. apply H3, IH. lia. }
  apply (G (S (length s))). lia.
Qed.
Lemma b64_round s : octets s -> b64decode (b64encode s) = Ok s.
Proof.
  unfold b64decode. apply (triple s); clear s.
  - reflexivity.
  - intros a H. apply Forall_inv in H. unfold octet in H. cbn [b64encode a2b].
    destruct (char_spec (a / 4)) as (A1 & A2 & _); [lia|]. destruct (char_spec (a mod 4 * 16)) as (B1 & B2 & _); [lia|].
    rewrite A2, A1. change (0 + 6 >=? 8) with false. cbv iota zeta. rewrite B2, B1. change (0 + 6 + 6 >=? 8) with true. cbv iota zeta.
    change (PAD =? PAD) with true. cbv iota. change ((((0 + 1) mod 4 + 1) mod 4 <? 2) || (((0 + 1) mod 4 + 1) mod 4 =? 2) && negb (pad_next [PAD])) with false. cbv iota.
    cbn [bind]. change (2 ^ (0 + 6 + 6 - 8)) with 16. f_equal. f_equal. lia.
  - intros a b H. assert (Ha : octet a) by now apply Forall_inv in H. assert (Hb : octet b) by now apply Forall_inv_tail, Forall_inv in H. unfold octet in *. clear H.
    cbn [b64encode a2b].
    destruct (char_spec (a / 4)) as (A1 & A2 & _); [lia|]. destruct (char_spec (a mod 4 * 16 + b / 16)) as (B1 & B2 & _); [lia|].
    destruct (char_spec (b mod 16 * 4)) as (C1 & C2 & _); [lia|].
    rewrite A2, A1. change (0 + 6 >=? 8) with false. cbv iota zeta. rewrite B2, B1. change (0 + 6 + 6 >=? 8) with true. cbv iota zeta.
    rewrite C2, C1. change (0 + 6 + 6 - 8 + 6 >=? 8) with true. cbv iota zeta.
    change (PAD =? PAD) with true. cbv iota. change ((((0 + 1) mod 4 + 1) mod 4 + 1) mod 4) with 3.
    change ((3 <? 2) || (3 =? 2) && negb (pad_next [])) with false. cbv iota. cbn [bind].
    change (2 ^ (0 + 6 + 6 - 8 + 6 - 8)) with 4. change (2 ^ (0 + 6 + 6 - 8)) with 16. f_equal. f_equal; [lia|]. f_equal. lia.
  - intros a b c s IH H. assert (Ha : octet a) by now apply Forall_inv in H. assert (Hb : octet b) by now apply Forall_inv_tail, Forall_inv in H.
    assert (Hc : octet c) by now apply Forall_inv_tail, Forall_inv_tail, Forall_inv in H.
    assert (Hs : octets s) by now apply Forall_inv_tail, Forall_inv_tail, Forall_inv_tail in H. unfold octet in Ha, Hb, Hc. clear H.
    cbn [b64encode]. rewrite step_quad by lia. rewrite (IH Hs). cbn [bind]. f_equal. f_equal; [lia|]. f_equal; [lia|]. f_equal. lia.
Qed.

(** ** The text of base64 is read as words that make the same text *)
Definition word_char (c : Z) : Prop := token_char c \/ single c.
Lemma b64_chars s : octets s -> Forall word_char (b64encode s).
Proof.
  assert (W : forall k, 0 <= k < 64 -> word_char (b64_char k)).
  { intros k K. destruct (char_spec k K) as (_ & _ & [H| ->]); [now left|right; apply single47]. }
  assert (P : word_char PAD) by (right; apply single61).
  apply (triple s); clear s.
  - constructor.
  - intros a H. apply Forall_inv in H. unfold octet in H. cbn [b64encode]. repeat (apply Forall_cons || apply Forall_nil); auto; apply W; lia.
  - intros a b H. assert (Ha : octet a) by now apply Forall_inv in H. assert (Hb : octet b) by now apply Forall_inv_tail, Forall_inv in H. unfold octet in *. clear H.
    cbn [b64encode]. repeat (apply Forall_cons || apply Forall_nil); auto; apply W; lia.
  - intros a b c s IH H. assert (Ha : octet a) by now apply Forall_inv in H. assert (Hb : octet b) by now apply Forall_inv_tail, Forall_inv in H.
    assert (Hc : octet c) by now apply Forall_inv_tail, Forall_inv_tail, Forall_inv in H.
    assert (Hs : octets s) by now apply Forall_inv_tail, Forall_inv_tail, Forall_inv_tail in H. unfold octet in Ha, Hb, Hc. clear H.
    cbn [b64encode]. repeat apply Forall_cons; try (apply W; lia). now apply IH.
Qed.
Definition plain_lex (x : lex) : Prop := match x with LTok _ | LSep _ => True | _ => False end.
Lemma words_text s : Forall word_char s -> exists l, lex_ok l /\ render l = s /\ Forall plain_lex l.
Proof.
  induction 1 as [|c s H _ (l & L & R & P)]; [exists []; repeat split; constructor|]. destruct H as [H|H].
  - assert (T : is_token [c]) by (split; [discriminate|]; apply Forall_cons; [exact H|apply Forall_nil]).
    destruct l as [|x l]; [exists [LTok [c]]; cbn in R; subst s; split; [cbn [lex_ok]; split; [exact T|now split]|split; [reflexivity|apply Forall_cons; [exact I|apply Forall_nil]]]|].
    destruct x as [t|d|q|k].
    + exists (LTok (c :: t) :: l). destruct L as (Lt & Lr & L). split; [|split].
      * cbn [lex_ok]. split; [|now split]. destruct Lt as [_ Lt]. split; [discriminate|]. now apply Forall_cons.
      * rewrite render_cons in *. cbn [render1 app] in *. now f_equal.
      * apply Forall_cons; [exact I|]. now apply Forall_inv_tail in P.
    + exists (LTok [c] :: LSep d :: l). split; [|split].
      * cbn [lex_ok] in *. tauto.
      * rewrite render_cons, R. reflexivity.
      * apply Forall_cons; [exact I|exact P].
    + apply Forall_inv in P. contradiction.
    + apply Forall_inv in P. contradiction.
  - exists (LSep c :: l). split; [now split|]. split; [rewrite render_cons, R; reflexivity|]. apply Forall_cons; [exact I|exact P].
Qed.
Lemma join_words_plain l : Forall plain_lex l -> join_words (wordsof true l) = Ok (render l).
Proof.
  induction 1 as [|x l H _ IH]; [reflexivity|]. rewrite wordsof_cons, render_cons. destruct x; try contradiction; cbn [word1 app join_words]; rewrite IH; reflexivity.
Qed.
Lemma remainder_plain l : lex_ok l -> Forall plain_lex l -> ParseRemainder (wordsof true l) = Ok (render l).
Proof.
  intros L P. unfold ParseRemainder. destruct (more (wordsof true l)) eqn:M; [now apply join_words_plain|].
  destruct P as [|x l H P]; [reflexivity|]. rewrite wordsof_cons in M. destruct x; try contradiction; [|discriminate].
  destruct L as ([N _] & _). cbn in M. now destruct t.
Qed.
Lemma read_basic sch s : is_token sch -> lower sch = lit "basic" -> Forall word_char s -> s <> [] ->
  FromHTTPString (sch ++ lit " " ++ s) = SetBasicCredentials new_cred s.
Proof.
  intros T B W N. destruct (words_text s W) as (l & L & R & P). unfold FromHTTPString.
  assert (E : sch ++ lit " " ++ s = render (LTok sch :: LSp :: l)) by (rewrite !render_cons, R; reflexivity).
  rewrite E, WordParser_render.
  2:{ cbn [lex_ok]. split; [exact T|]. split; [exact I|]. split; [|exact L]. destruct P as [|x l H _]; [now rewrite <- R in N|]. now destruct x. }
  cbn [bind]. rewrite !wordsof_cons. cbn [word1 render1 app]. rewrite RequireToken_tok by exact T. cbn [bind]. rewrite B.
  change (str_eqb (lit "basic") (lit "basic")) with true. cbv iota. rewrite remainder_plain by assumption. cbn [bind]. rewrite R.
  destruct (SetBasicCredentials new_cred s); reflexivity.
Qed.
Lemma b64_some s : s <> [] -> b64encode s <> [].
Proof. destruct s as [|a [|b [|c s]]]; easy. Qed.
Lemma split_pair u p : ~ In 58 u -> split_on 58 (u ++ lit ":" ++ p) = u :: split_on 58 p.
Proof. intros H. change (u ++ lit ":" ++ p) with (u ++ 58 :: p). now apply split_app_no. Qed.
Lemma set_basic u p : octets u -> octets p -> ~ In 58 u ->
  SetBasicCredentials new_cred (b64encode (u ++ lit ":" ++ p)) = match split_on 58 p with [x] => Ok (with_user new_cred u x) | _ => Err NameError end.
Proof.
  intros U P N. unfold SetBasicCredentials. rewrite b64_round.
  2:{ apply Forall_app. split; [exact U|]. apply Forall_cons; [split; [discriminate|reflexivity]|exact P]. }
  cbn [bind]. rewrite split_pair by exact N. destruct (split_on 58 p) as [|x [|y l]]; reflexivity.
Qed.
Lemma read_written c u p : cr_user c = Some u -> cr_pass c = Some p -> octets u -> octets p -> ~ In 58 u ->
  FromHTTPString (cred_str c) = match split_on 58 p with [x] => Ok (with_user new_cred u x) | _ => Err NameError end.
Proof.
  intros Eu Ep U P N. unfold cred_str. rewrite Eu, Ep. rewrite read_basic; [now apply set_basic|apply basic_token|reflexivity| |].
  - apply b64_chars. apply Forall_app. split; [exact U|]. apply Forall_cons; [split; [discriminate|reflexivity]|exact P].
  - apply b64_some. now destruct u.
Qed.
Lemma split_two p : In 58 p -> exists x y l, split_on 58 p = x :: y :: l.
Proof.
  induction p as [|c p IH]; [easy|]. cbn [split_on In]. destruct (Z.eqb_spec c 58) as [->|N]; intros H.
  - destruct (split_on_cons 58 p) as (x & l & ->). eauto.
  - destruct H as [H|H]; [congruence|]. destruct (IH H) as (x & y & l & ->). eauto.
Qed.

(** ** Paths *)
Lemma prefix_loop_covers a : forall p, prefix_loop a p = true <-> covers a p.
Proof.
  induction a as [|s a IH]; intros p; [split; [constructor|reflexivity]|]. destruct p as [|t p]; [split; [discriminate|intros H; inversion H]|].
  cbn [prefix_loop]. destruct s as [|c s]; cbn [andb].
  - rewrite IH. split; [now constructor|]. intros H. inversion H; assumption.
  - destruct (str_eqb (c :: s) t) eqn:E; cbn [negb].
    + apply str_eqb_eq in E as <-. rewrite IH. split; [now constructor|]. intros H. inversion H; assumption.
    + split; [discriminate|]. intros H. inversion H; subst. now rewrite str_eqb_refl in E.
Qed.
Lemma covers_length a p : covers a p -> (length a <= length p)%nat.
Proof. induction 1; cbn; lia. Qed.
Lemma IsPrefix_covers a p : IsPrefix a p = true <-> covers a p.
Proof.
  unfold IsPrefix. destruct (length p <? length a)%nat eqn:E; [|apply prefix_loop_covers].
  split; [discriminate|]. intros H. apply covers_length in H. apply Nat.ltb_lt in E. lia.
Qed.
Lemma covers_trans a b c : covers a b -> covers b c -> covers a c.
Proof.
  intros H. revert c. induction H; intros c K; [constructor| |]; inversion K; subst; constructor; auto.
Qed.
Lemma covers_refl a : covers a a.
Proof. induction a; now constructor. Qed.

Definition good_for (l : list (list str)) (p : list str) : Prop := exists a, In a l /\ covers a p.
Lemma TestPath_iff c p : TestPath c p = true <-> good_for (cr_prefixes c) (segments_of p).
Proof.
  unfold TestPath, good_for. rewrite existsb_exists. split; intros (a & A & B); exists a; (split; [exact A|]); now apply IsPrefix_covers.
Qed.
Lemma success_loop_spec new l : forall keep l', success_loop new l = (keep, l') ->
  (forall a, In a l' -> In a l) /\ (forall a, In a l -> In a l' \/ covers new a) /\
  (keep = false -> exists a, In a l' /\ covers a new) /\
  (keep = true -> forall a, In a l' -> ~ covers a new /\ ~ covers new a).
Proof.
  induction l as [|p l IH]; intros keep l' E; cbn [success_loop] in E.
  - injection E as <- <-. repeat split; try easy; intros; contradiction.
  - destruct (IsPrefix p new) eqn:E1.
    + injection E as <- <-. apply IsPrefix_covers in E1. split; [auto|]. split; [auto|]. split; [|discriminate]. intros _. exists p. split; [now left|exact E1].
    + assert (N1 : ~ covers p new) by (rewrite <- IsPrefix_covers, E1; discriminate). destruct (IsPrefix new p) eqn:E2.
      * destruct (IH _ _ E) as (A & B & C & D). apply IsPrefix_covers in E2. split; [intros a Ha; right; auto|]. split; [|now split].
        intros a [<-|Ha]; [now right|auto].
      * assert (N2 : ~ covers new p) by (rewrite <- IsPrefix_covers, E2; discriminate).
        destruct (success_loop new l) as [k r]. injection E as <- <-. destruct (IH _ _ eq_refl) as (A & B & C & D). split; [|split; [|split]].
        -- intros a [<-|Ha]; [now left|right; auto].
        -- intros a [<-|Ha]; [left; now left|]. destruct (B a Ha); [left; now right|now right].
        -- intros K. destruct (C K) as (a & Ha & Hc). exists a. split; [now right|exact Hc].
        -- intros K a [<-|Ha]; [now split|]. now apply D.
Qed.
Lemma add_good c p q : good_for (cr_prefixes (AddSuccessPath c p)) q <-> good_for (cr_prefixes c) q \/ covers (segments_of p) q.
Proof.
  unfold AddSuccessPath. destruct (success_loop (segments_of p) (cr_prefixes c)) as [k l] eqn:E. cbn [with_prefixes cr_prefixes].
  apply success_loop_spec in E as (A & B & C & D). set (new := segments_of p) in *. unfold good_for. split.
  - intros (a & Ha & Hc). assert (H : In a l \/ a = new) by (destruct k; [apply in_app_iff in Ha as [Ha|[<-|[]]]|]; auto).
    destruct H as [H| ->]; [left; exists a; auto|now right].
  - assert (G : forall a, In a l -> In a (if k then l ++ [new] else l)) by (intros a Ha; destruct k; [apply in_app_iff; now left|exact Ha]).
    assert (K : covers new q -> exists a, In a (if k then l ++ [new] else l) /\ covers a q).
    { intros H. destruct k; [exists new; split; [rewrite in_app_iff; cbn; tauto|exact H]|]. destruct (C eq_refl) as (a & Ha & Hc). exists a. split; [exact Ha|]. now apply covers_trans with new. }
    intros [(a & Ha & Hc)|H]; [|auto]. destruct (B a Ha) as [H|H]; [exists a; auto|]. apply K. now apply covers_trans with a.
Qed.
Definition antichain (l : list (list str)) : Prop := forall x a y b z, l = x ++ a :: y ++ b :: z -> ~ covers a b /\ ~ covers b a.
Lemma loop_sub new l : forall keep l', success_loop new l = (keep, l') ->
  forall x a y b z, l' = x ++ a :: y ++ b :: z -> exists x' y' z', l = x' ++ a :: y' ++ b :: z'.
Proof.
  assert (S1 : forall l keep l', success_loop new l = (keep, l') -> forall x a y, l' = x ++ a :: y -> exists x' y', l = x' ++ a :: y').
  { intros l0 k l' E x a y H. apply success_loop_spec in E as (A & _). assert (I : In a l0) by (apply A; rewrite H, in_app_iff; cbn; tauto). now apply in_split. }
  induction l as [|p l IH]; intros keep l' E x a y b z H; cbn [success_loop] in E.
  - injection E as <- <-. now destruct x.
  - destruct (IsPrefix p new).
    + injection E as <- <-. eauto.
    + destruct (IsPrefix new p).
      * destruct (IH _ _ E _ _ _ _ _ H) as (x' & y' & z' & ->). exists (p :: x'), y', z'. reflexivity.
      * destruct (success_loop new l) as [k r] eqn:E'. injection E as <- <-. destruct x as [|p' x].
        -- injection H as -> H. destruct (S1 l _ _ E' _ _ _ H) as (y' & z' & ->). exists [], y', z'. reflexivity.
        -- injection H as -> H. destruct (IH _ _ eq_refl _ _ _ _ _ H) as (x' & y' & z' & ->). exists (p' :: x'), y', z'. reflexivity.
Qed.
Lemma add_antichain c p : antichain (cr_prefixes c) -> antichain (cr_prefixes (AddSuccessPath c p)).
Proof.
  intros H x a y b z. unfold AddSuccessPath. destruct (success_loop (segments_of p) (cr_prefixes c)) as [k l] eqn:E. cbn [with_prefixes cr_prefixes].
  assert (S : forall x a y b z, l = x ++ a :: y ++ b :: z -> ~ covers a b /\ ~ covers b a).
  { intros x' a' y' b' z' K. destruct (loop_sub _ _ _ _ E _ _ _ _ _ K) as (x1 & y1 & z1 & K'). now apply (H x1 a' y1 b' z1). }
  apply success_loop_spec in E as (_ & _ & _ & D). destruct k; [|apply S]. intros K. destruct z as [|z0 z] using rev_ind; [|clear IHz].
  - replace (x ++ a :: y ++ [b]) with ((x ++ a :: y) ++ [b]) in K by now rewrite <- app_assoc.
    apply app_inj_tail in K as [-> <-]. assert (I : In a (x ++ a :: y)) by (rewrite in_app_iff; cbn; tauto). destruct (D eq_refl a I). now split.
  - replace (x ++ a :: y ++ b :: z ++ [z0]) with ((x ++ a :: y ++ b :: z) ++ [z0]) in K by (rewrite <- !app_assoc; cbn; now rewrite <- app_assoc).
    apply app_inj_tail in K as [-> _]. now apply (S x a y b z).
Qed.

(** ** Segments *)
Lemma segments_abs l : l <> [] -> Forall plain_segment l -> segments_of (abs_path l) = l.
Proof.
  intros N H. unfold segments_of. assert (E : abs_path l = 47 :: UriSpec.join l) by (destruct l; [easy|reflexivity]).
  rewrite E, UriProofs.abs_join_split; [|exact N|]. 
  - apply UriProofs3.normalize_ordinary; [exact N|]. eapply Forall_impl; [|exact H]. intros s (_ & S). exact S.
  - eapply Forall_impl; [|exact H]. intros s (S & _). exact S.
Qed.
Lemma covers_below a p : no_gap a -> covers a p -> at_or_below a p.
Proof.
  intros N H. induction H as [p|s a p H IH|s a p H IH].
  - left. now exists p.
  - destruct a as [|s' a]; [left; exists p; reflexivity|]. assert (N' : no_gap (s' :: a)) by (unfold no_gap in *; cbn [removelast] in N; now apply Forall_inv_tail in N).
    destruct (IH N') as [(r & ->)|(d & t & r & -> & ->)]; [left; now exists r|right]. exists (s :: d), t, r. now split.
  - destruct a as [|s' a].
    + right. exists [], s, p. now split.
    + unfold no_gap in N. cbn [removelast] in N. apply Forall_inv in N. contradiction.
Qed.
Lemma below_covers a p : at_or_below a p -> covers a p.
Proof.
  intros [(r & ->)|(d & s & r & -> & ->)].
  - induction a; [constructor|]. now constructor.
  - induction d as [|x d IH]; cbn [app]; [repeat constructor|]. now constructor.
Qed.
