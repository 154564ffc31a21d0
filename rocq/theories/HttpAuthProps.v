(** Theorems about HTTP authentication. *)
From Coq Require Import Lia.
From Verif Require Import Py Iso Dec XmlUtils Imscp HttpCore HttpParams HttpHeaders HttpConn HttpSpec HttpProofs HttpProofs2 HttpProofs4 HttpAuth HttpAuthSpec HttpAuthProofs HttpAuthProofs2 HttpAuthProofs3.
Open Scope Z_scope.

(** ** C213: a Basic challenge in the header comes back *)
Lemma Forall2_read l : Forall good_aparam l -> Forall2 read_as l (map rd l).
Proof. induction 1; cbn [map]; constructor; [now apply rd_read_as|assumption]. Qed.
Lemma names_rd l : names_realm l -> names_realm (map rd l).
Proof. intros (p & P & E). exists (rd p). split; [now apply in_map|]. now rewrite rd_name. Qed.
Lemma full_again s l : names_realm l -> ch_params (Challenge s l) = l.
Proof. intros H. destruct (Challenge_params s l) as [[_ E]|[N _]]; [exact E|contradiction]. Qed.
Lemma dict_ext l l' : Forall2 (fun p p' => name_of p = name_of p' /\ value_of p = value_of p') l l' ->
  forall d, fold_left add_param l d = fold_left add_param l' d.
Proof.
  induction 1 as [|p p' l l' H _ IH]; intros d; [reflexivity|]. cbn [fold_left]. rewrite <- IH. f_equal.
  destruct p as [[n v] q], p' as [[n' v'] q']. destruct H as [H1 H2]. unfold name_of, value_of in *. cbn [fst snd] in *. subst. reflexivity.
Qed.
Theorem C213_read params : Forall good_aparam params -> exists full l t,
  all_params params full /\ challenge_str (BasicChallenge params) = Ok t /\ ListFromString t = Ok [BasicChallenge l] /\
  ch_params (BasicChallenge l) = l /\ Forall2 read_as full l /\
  forall k, getitem (BasicChallenge l) k = getitem (BasicChallenge params) k.
Proof.
  intros H. set (full := ch_params (BasicChallenge params)). exists full, (map rd full).
  destruct (list_read _ _ basic_token H) as (t & E1 & E2). exists t. split; [apply Challenge_params|]. split; [exact E1|]. split; [exact E2|].
  assert (R : names_realm (map rd full)) by (apply names_rd, Challenge_full). split; [now apply full_again|].
  split; [apply Forall2_read; now apply full_good|].
  assert (D : forall k, sget k (ch_dict (BasicChallenge (map rd full))) = sget k (ch_dict (BasicChallenge params))).
  { intros k. unfold BasicChallenge. rewrite !Challenge_dict, full_again by exact R. f_equal. symmetry. apply dict_ext.
    subst full. unfold BasicChallenge. clear. induction (ch_params (Challenge (Some (lit "Basic")) params)) as [|p l IH]; cbn [map]; constructor; [|exact IH].
    destruct p as [[n v] q]. now split. }
  intros k. unfold getitem. now rewrite !D.
Qed.
Definition demo_params : list aparam := [(lit "Realm", lit "the ""realm""", true); (lit "charset", lit "UTF-8", false); (lit "x", lit "a b", false)].
Lemma demo_good : Forall good_aparam demo_params.
Proof.
  unfold demo_params. repeat (apply Forall_cons || apply Forall_nil); (split; [now apply token_test|]; split; [now apply octets_test|]; (now right) || (left; discriminate)).
Qed.
Example C213_nonvacuous : Forall good_aparam demo_params /\
  challenge_str (BasicChallenge demo_params) = Ok (lit "Basic Realm=""the \""realm\"""", charset=UTF-8, x=""a b""").
Proof. split; [apply demo_good|vm_compute; reflexivity]. Qed.

(** ** C214: a challenge alone comes back *)
(** Missing: more than one parameter, and schemes other than Basic. *)
Theorem C214_partial n v q : good_aparam (n, v, q) -> lower n = lit "realm" -> exists t v',
  challenge_str (BasicChallenge [(n, v, q)]) = Ok t /\ FromString t = Ok (BasicChallenge [v']) /\ read_as (n, v, q) v'.
Proof.
  intros G L. assert (F : Forall good_aparam [(n, v, q)]) by (apply Forall_cons; [exact G|apply Forall_nil]).
  destruct (from_string _ _ basic_token F) as (t & E1 & E2). exists t, (rd (n, v, q)).
  rewrite full_again in E2. 2:{ exists (n, v, q). split; [now left|exact L]. }
  split; [exact E1|]. split; [exact E2|]. now apply rd_read_as.
Qed.
Theorem C214_refused params full t : Forall good_aparam params -> all_params params full -> (2 <= length full)%nat ->
  challenge_str (BasicChallenge params) = Ok t -> FromString t = Err BadSyntax.
Proof.
  intros G A L E. destruct (from_string _ _ basic_token G) as (t' & E1 & E2). unfold BasicChallenge in E. rewrite E1 in E. injection E as ->.
  assert (full = ch_params (Challenge (Some (lit "Basic")) params)) as ->.
  { pose proof (Challenge_params (Some (lit "Basic")) params) as B. destruct A as [[A1 ->]|[A1 ->]], B as [[B1 ->]|[B1 ->]]; tauto || reflexivity. }
  destruct (ch_params (Challenge (Some (lit "Basic")) params)) as [|p [|p' l]]; cbn [length] in L; try lia. exact E2.
Qed.
Theorem C214_refuted : exists t, challenge_str (BasicChallenge demo_params) = Ok t /\ FromString t = Err BadSyntax.
Proof.
  eexists. split; [vm_compute; reflexivity|]. eapply (C214_refused demo_params demo_params); [apply demo_good| | |vm_compute; reflexivity].
  - left. split; [|reflexivity]. eexists. split; [left; reflexivity|reflexivity].
  - cbn. lia.
Qed.
Example C214_nonvacuous : good_aparam (lit "Realm", lit "a b", false) /\ lower (lit "Realm") = lit "realm".
Proof. split; [|reflexivity]. split; [now apply token_test|]. split; [now apply octets_test|left; discriminate]. Qed.

(** ** C215: the challenges of a response come back *)
(** Missing: two challenges and more, and schemes other than Basic. *)
Theorem C215_partial ls : Forall (Forall good_aparam) ls -> (length ls <= 1)%nat -> exists t rs,
  SetWWWAuthenticate (map BasicChallenge ls) = Ok t /\ GetWWWAuthenticate (Some t) = Ok (Some (map BasicChallenge rs)) /\
  Forall2 (fun l r => exists full, all_params l full /\ Forall2 read_as full r) ls rs.
Proof.
  intros H L. destruct H as [|l ls Hl H]; [exists [], []; repeat split; constructor|]. destruct ls as [|l' ls]; [|cbn in L; lia].
  destruct (C213_read l Hl) as (full & r & t & A & B & C & _ & D & _). exists t, [r].
  unfold SetWWWAuthenticate. cbn [map map_str]. rewrite B. cbn [bind join_comma GetWWWAuthenticate]. rewrite C. cbn [bind]. repeat split.
  constructor; [|constructor]. eauto.
Qed.
Theorem C215_refused l l' ls : Forall (Forall good_aparam) (l :: l' :: ls) -> exists t,
  SetWWWAuthenticate (map BasicChallenge (l :: l' :: ls)) = Ok t /\ GetWWWAuthenticate (Some t) = Err BadSyntax.
Proof.
  intros H. destruct (two_refused l l' ls H) as (t & A & B). exists t. split; [exact A|]. cbn [GetWWWAuthenticate]. now rewrite B.
Qed.
Theorem C215_other_scheme scheme params : is_token scheme -> lower scheme <> lit "basic" -> Forall good_aparam params ->
  exists full t c, all_params params full /\ SetWWWAuthenticate [Challenge (Some scheme) params] = Ok t /\
  GetWWWAuthenticate (Some t) = Ok (Some [c]) /\ ch_scheme c = None /\ challenge_str c = Err TypeError /\
  exists r, Forall2 read_as (tl full) r /\ all_params r (ch_params c).
Proof.
  intros T N H. destruct (list_read _ _ T H) as (t & A & B). exists (ch_params (Challenge (Some scheme) params)), t.
  assert (F : str_eqb (lower scheme) (lit "basic") = false) by now apply neq_eqb. rewrite F in B. cbv zeta in B.
  pose proof (full_some (Some scheme) params) as S. pose proof (full_good (Some scheme) params H) as G.
  destruct (ch_params (Challenge (Some scheme) params)) as [|p full] eqn:E; [easy|]. cbn [map] in B.
  exists (Challenge None (map rd full)). split; [rewrite <- E; apply Challenge_params|].
  unfold SetWWWAuthenticate. cbn [map_str]. rewrite A. cbn [bind join_comma GetWWWAuthenticate]. rewrite B. cbn [bind].
  split; [reflexivity|]. split; [reflexivity|]. split; [apply Challenge_scheme|]. split; [unfold challenge_str; now rewrite Challenge_scheme|].
  exists (map rd full). split; [|apply Challenge_params]. apply Forall2_read. now apply Forall_inv_tail in G.
Qed.
Theorem C215_refuted : GetWWWAuthenticate (Some (lit "Basic realm=""a"", Basic realm=""b""")) = Err BadSyntax /\
  GetWWWAuthenticate (Some (lit "Digest realm=""a"", nonce=""b""")) = Ok (Some [Challenge None [(lit "nonce", lit "b", true)]]) /\
  GetWWWAuthenticate (Some (lit "Negotiate")) = Err TypeError.
Proof. repeat split; vm_compute; reflexivity. Qed.
Example C215_nonvacuous : is_token (lit "Digest") /\ lower (lit "Digest") <> lit "basic".
Proof. split; [now apply token_test|discriminate]. Qed.

(** ** C216: looking up the parameters of a challenge *)
Theorem C216_lookup scheme params full k v : all_params params full ->
  (getitem (Challenge scheme params) k = Ok v <-> value_for full k v).
Proof.
  intros A. assert (full = ch_params (Challenge scheme params)) as ->.
  { pose proof (Challenge_params scheme params) as B. destruct A as [[A1 ->]|[A1 ->]], B as [[B1 ->]|[B1 ->]]; tauto || reflexivity. }
  pose proof (getitem_spec scheme params k) as G. cbv zeta in G. destruct G as (G1 & G2 & _). split; [apply G1|].
  intros H. destruct (getitem (Challenge scheme params) k) as [w|e] eqn:E.
  - f_equal. eapply value_for_one; [now apply G1|exact H].
  - exfalso. destruct (G2 e eq_refl) as [_ N]. destruct H as [H|[[_ H]|(_ & _ & H)]].
    + apply last_named_In in H as (p & P & Q & _). apply (N p P). now rewrite Q.
    + apply last_named_In in H as (p & P & Q & _). apply (N p P). rewrite Q. apply XsdProofs2.lower_lower.
    + destruct H as (a & b & n & q & F & F1 & _). apply (N (n, v, q)); [rewrite F, in_app_iff; cbn; tauto|exact F1].
Qed.
Theorem C216_missing scheme params full k : all_params params full ->
  (getitem (Challenge scheme params) k = Err KeyError <-> forall p, In p full -> lower (name_of p) <> lower k) /\
  (contains (Challenge scheme params) k = true <-> exists p, In p full /\ lower (name_of p) = lower k).
Proof.
  intros A. assert (full = ch_params (Challenge scheme params)) as ->.
  { pose proof (Challenge_params scheme params) as B. destruct A as [[A1 ->]|[A1 ->]], B as [[B1 ->]|[B1 ->]]; tauto || reflexivity. }
  pose proof (getitem_spec scheme params k) as G. cbv zeta in G. destruct G as (G1 & G2 & G3). split; [|exact G3]. split.
  - intros E. now apply G2 in E.
  - intros N. destruct (getitem (Challenge scheme params) k) as [w|e] eqn:E; [|f_equal; now apply G2].
    exfalso. specialize (G1 w eq_refl). destruct G1 as [H|[[_ H]|(_ & _ & H)]].
    + apply last_named_In in H as (p & P & Q & _). apply (N p P). now rewrite Q.
    + apply last_named_In in H as (p & P & Q & _). apply (N p P). rewrite Q. apply XsdProofs2.lower_lower.
    + destruct H as (a & b & n & q & F & F1 & _). apply (N (n, w, q)); [rewrite F, in_app_iff; cbn; tauto|exact F1].
Qed.
(** There is always a realm. *)
Theorem C216_realm scheme params k : lower k = lit "realm" ->
  (exists v, getitem (Challenge scheme params) k = Ok v) /\ (~ names_realm params -> getitem (Challenge scheme params) k = Ok (lit "Default")).
Proof.
  intros L. pose proof (Challenge_params scheme params) as A. split.
  - destruct (getitem (Challenge scheme params) k) as [v|e] eqn:E; [eauto|]. exfalso.
    pose proof (getitem_spec scheme params k) as G. cbv zeta in G. destruct G as (_ & G2 & _). apply G2 in E as [_ E].
    destruct (Challenge_full scheme params) as (p & P & Q). apply (E p P). congruence.
  - intros N. destruct A as [[A _]|[_ A]]; [contradiction|]. apply (C216_lookup scheme params (params ++ [default_realm])); [right; now split|].
    assert (K : ~ is_named params k) by (intros (p & P & Q); apply N; exists p; split; [exact P|]; now rewrite Q).
    assert (X : last_named (params ++ [default_realm]) (lit "realm") (lit "Default")) by (exists params, [], true; split; [reflexivity|easy]).
    destruct (str_eqb k (lit "realm")) eqn:E; [apply str_eqb_eq in E as ->; now left|]. apply neq_eqb in E.
    right. left. rewrite L. split; [|exact X]. intros (p & P & Q). apply in_app_iff in P as [P|[<-|[]]]; [apply K; now exists p|]. now apply E.
Qed.
Example C216_nonvacuous : getitem (BasicChallenge demo_params) (lit "REALM") = Ok (lit "the ""realm""") /\
  getitem (BasicChallenge demo_params) (lit "nonce") = Err KeyError /\ all_params demo_params demo_params.
Proof. repeat split; try (vm_compute; reflexivity). left. split; [|reflexivity]. eexists. split; [left; reflexivity|reflexivity]. Qed.

(** ** C217: credentials come back *)
(** Missing: passwords with a colon. *)
Theorem C217_partial c u p : cr_user c = Some u -> cr_pass c = Some p -> octets u -> octets p -> ~ In 58 u -> ~ In 58 p ->
  exists c', FromHTTPString (cred_str c) = Ok c' /\ cr_user c' = Some u /\ cr_pass c' = Some p /\ cr_prefixes c' = [].
Proof.
  intros A B C D E F. rewrite (read_written c u p) by assumption. rewrite ImscpProofs.split_no by exact F.
  eexists. split; [reflexivity|]. repeat split.
Qed.
Theorem C217_any_case scheme u p : is_token scheme -> lower scheme = lit "basic" -> octets u -> octets p -> ~ In 58 u -> ~ In 58 p ->
  exists c', FromHTTPString (scheme ++ lit " " ++ b64encode (u ++ lit ":" ++ p)) = Ok c' /\ cr_user c' = Some u /\ cr_pass c' = Some p.
Proof.
  intros T L C D E F. rewrite read_basic; [|exact T|exact L| |].
  - rewrite set_basic by assumption. rewrite ImscpProofs.split_no by exact F. eexists. split; [reflexivity|]. now split.
  - apply b64_chars. apply Forall_app. split; [exact C|]. apply Forall_cons; [split; [discriminate|reflexivity]|exact D].
  - apply b64_some. now destruct u.
Qed.
(** Every password with a colon is refused, and not with an error of the library. *)
Theorem C217_refused c u p : cr_user c = Some u -> cr_pass c = Some p -> octets u -> octets p -> ~ In 58 u -> In 58 p ->
  FromHTTPString (cred_str c) = Err NameError.
Proof.
  intros A B C D E F. rewrite (read_written c u p) by assumption. destruct (split_two p F) as (x & y & l & ->). reflexivity.
Qed.
Theorem C217_base64 s : octets s -> b64decode (b64encode s) = Ok s /\ length (b64encode s) = (4 * ((length s + 2) / 3))%nat /\
  Forall (fun c => In c (lit "ABCDEFGHIJKLMNOPQRSTUVWXYZabcdefghijklmnopqrstuvwxyz0123456789+/=")) (b64encode s).
Proof.
  intros H. split; [now apply b64_round|]. split.
  - clear H. apply (triple s); clear s; [reflexivity|reflexivity|reflexivity|]. intros a b c s IH. cbn [b64encode length]. rewrite IH.
    replace (S (S (S (length s))) + 2)%nat with (length s + 2 + 1 * 3)%nat by lia. rewrite Nat.div_add by lia. lia.
  - assert (W : forall k, 0 <= k < 64 -> In (b64_char k) (lit "ABCDEFGHIJKLMNOPQRSTUVWXYZabcdefghijklmnopqrstuvwxyz0123456789+/=")).
    { intros k K. change (lit "ABCDEFGHIJKLMNOPQRSTUVWXYZabcdefghijklmnopqrstuvwxyz0123456789+/=") with (b64_alphabet ++ [61]).
      apply in_app_iff. left. unfold b64_char. apply nth_In. change (length b64_alphabet) with 64%nat. lia. }
    assert (P : In PAD (lit "ABCDEFGHIJKLMNOPQRSTUVWXYZabcdefghijklmnopqrstuvwxyz0123456789+/=")).
    { change (lit "ABCDEFGHIJKLMNOPQRSTUVWXYZabcdefghijklmnopqrstuvwxyz0123456789+/=") with (b64_alphabet ++ [61]). apply in_app_iff. right. now left. }
    revert H. apply (triple s); clear s.
    + constructor.
    + intros a H. apply Forall_inv in H. unfold octet in H. cbn [b64encode]. repeat (apply Forall_cons || apply Forall_nil); try exact P; apply W; Z.to_euclidean_division_equations; lia.
    + intros a b H. assert (Ha : octet a) by now apply Forall_inv in H. assert (Hb : octet b) by now apply Forall_inv_tail, Forall_inv in H. unfold octet in *. clear H.
      cbn [b64encode]. repeat (apply Forall_cons || apply Forall_nil); try exact P; apply W; Z.to_euclidean_division_equations; lia.
    + intros a b c s IH H. assert (Ha : octet a) by now apply Forall_inv in H. assert (Hb : octet b) by now apply Forall_inv_tail, Forall_inv in H.
      assert (Hc : octet c) by now apply Forall_inv_tail, Forall_inv_tail, Forall_inv in H.
      assert (Hs : octets s) by now apply Forall_inv_tail, Forall_inv_tail, Forall_inv_tail in H. unfold octet in Ha, Hb, Hc. clear H.
      cbn [b64encode]. do 4 (apply Forall_cons; [apply W; Z.to_euclidean_division_equations; lia|]). now apply IH.
Qed.
(** The example of RFC 2617 *)
Definition aladdin : credentials := with_user new_cred (lit "Aladdin") (lit "open sesame").
Theorem C217_refuted : let c := with_user new_cred (lit "u") (lit "a:b") in FromHTTPString (cred_str c) = Err NameError.
Proof. vm_compute. reflexivity. Qed.
Example C217_nonvacuous : cred_str aladdin = lit "Basic QWxhZGRpbjpvcGVuIHNlc2FtZQ==" /\
  FromHTTPString (lit "basic QWxhZGRpbjpvcGVuIHNlc2FtZQ==") = Ok aladdin.
Proof. split; vm_compute; reflexivity. Qed.

(** ** C218: which paths credentials are known to be good for *)
Lemma accepted_good paths : forall c q, good_for (cr_prefixes (accepted c paths)) q <->
  good_for (cr_prefixes c) q \/ exists p, In p paths /\ covers (segments_of p) q.
Proof.
  induction paths as [|p paths IH]; intros c q; cbn [accepted fold_left].
  - split; [now left|]. intros [H|(p & [] & _)]. exact H.
  - unfold accepted in IH. rewrite IH, add_good. split.
    + intros [[H|H]|(p' & P & H)]; [now left|right; exists p; split; [now left|exact H]|right; exists p'; split; [now right|exact H]].
    + intros [H|(p' & [<-|P] & H)]; [left; now left|left; now right|right; now exists p'].
Qed.
Theorem C218_history c paths path : cr_prefixes c = [] ->
  (TestPath (accepted c paths) path = true <-> exists p, In p paths /\ covers (segments_of p) (segments_of path)).
Proof.
  intros E. rewrite TestPath_iff, accepted_good, E. split; [|now right]. intros [(a & [] & _)|H]. exact H.
Qed.
Theorem C218_segments l : l <> [] -> Forall plain_segment l -> segments_of (abs_path l) = l.
Proof. apply segments_abs. Qed.
Theorem C218_never_lost c paths paths' path : TestPath (accepted c paths) path = true -> TestPath (accepted c (paths ++ paths')) path = true.
Proof.
  unfold accepted. rewrite fold_left_app. intros H. apply TestPath_iff. apply (accepted_good paths'). left. now apply TestPath_iff.
Qed.
Theorem C218_itself c path : TestPath (AddSuccessPath c path) path = true.
Proof. apply TestPath_iff, add_good. right. apply covers_refl. Qed.
(** No path in the list goes for another. *)
Theorem C218_shortest c paths : cr_prefixes c = [] ->
  forall x a y b z, cr_prefixes (accepted c paths) = x ++ a :: y ++ b :: z -> ~ covers a b /\ ~ covers b a.
Proof.
  intros E. assert (G : forall c, antichain (cr_prefixes c) -> antichain (cr_prefixes (accepted c paths))).
  { induction paths as [|p paths IH]; intros c' H; [exact H|]. cbn [accepted fold_left]. apply IH. now apply add_antichain. }
  apply G. rewrite E. intros x a y b z H. now destruct x.
Qed.
(** Nothing else of the credentials changes. *)
Theorem C218_rest c paths : let c' := accepted c paths in
  cr_space c' = cr_space c /\ cr_realm c' = cr_realm c /\ cr_user c' = cr_user c /\ cr_pass c' = cr_pass c.
Proof.
  cbv zeta. revert c. induction paths as [|p paths IH]; intros c; [repeat split|]. cbn [accepted fold_left]. unfold accepted in IH.
  destruct (IH (AddSuccessPath c p)) as (-> & -> & -> & ->). unfold AddSuccessPath. destruct (success_loop (segments_of p) (cr_prefixes c)). repeat split.
Qed.
Example C218_nonvacuous : let c := accepted aladdin [lit "/a/b"; lit "/c/"; lit "/a/"] in
  cr_prefixes c = [[lit "c"; []]; [lit "a"; []]] /\ TestPath c (lit "/a/x/y") = true /\ TestPath c (lit "/b") = false.
Proof. repeat split; vm_compute; reflexivity. Qed.

(** ** C219: what is sent without being asked for *)
Definition user := (credentials * list str)%type.
Definition manager (l : list user) : list credentials := map (fun x => accepted (fst x) (snd x)) l.
Definition goes_for (x : user) (u : url) : Prop :=
  cr_space (fst x) = u_root u /\ exists p, In p (snd x) /\ covers (segments_of p) (segments_of (u_path u)).
Lemma find_spec {A} (test : A -> result bool) (P : A -> Prop) l : (forall x, In x l -> exists b, test x = Ok b /\ (b = true <-> P x)) -> forall k,
  (forall n x, find test k l = Ok (Some (n, x)) <-> exists a b, l = a ++ x :: b /\ n = (k + length a)%nat /\ P x /\ forall y, In y a -> ~ P y) /\
  (find test k l = Ok None <-> forall y, In y l -> ~ P y).
Proof.
  induction l as [|c l IH]; intros T k.
  - cbn [find]. split; [|split; [easy|reflexivity]]. intros n x. split; [discriminate|]. intros (a & b & E & _). now destruct a.
  - cbn [find]. destruct (T c (or_introl eq_refl)) as (v & E & V). rewrite E. cbn [bind]. assert (T' : forall x, In x l -> exists b, test x = Ok b /\ (b = true <-> P x)) by (intros; apply T; now right).
    specialize (IH T' (S k)). destruct IH as [IH1 IH2]. destruct v.
    + assert (Pc : P c) by now apply V. split.
      * intros n x. split.
        -- intros [= <- <-]. exists [], l. split; [reflexivity|]. split; [cbn; lia|]. split; [exact Pc|easy].
        -- intros (a & b & F & -> & Q & N). destruct a as [|y a]; [injection F as -> ->; cbn [length]; do 3 f_equal; lia|].
           exfalso. injection F as -> ->. apply (N y); [now left|exact Pc].
      * split; [discriminate|]. intros H. exfalso. apply (H c); [now left|exact Pc].
    + assert (Pc : ~ P c) by (intros H; apply V in H; discriminate). split.
      * intros n x. rewrite IH1. split.
        -- intros (a & b & -> & -> & Q & N). exists (c :: a), b. split; [reflexivity|]. split; [cbn; lia|]. split; [exact Q|]. intros y [<-|Y]; auto.
        -- intros (a & b & F & -> & Q & N). destruct a as [|y a]; [injection F as -> ->; contradiction|]. injection F as -> ->.
           exists a, b. split; [reflexivity|]. split; [cbn; lia|]. split; [exact Q|]. intros z Z. apply N. now right.
      * rewrite IH2. split; intros H y Y; [destruct Y as [<-|Y]; auto|apply H; now right].
Qed.
Lemma space_eqb_iff a r : root_text r -> space_eqb a (Some r) = true <-> a = Some r.
Proof.
  intros R. unfold space_eqb. rewrite str_eqb_eq. destruct a as [t|]; cbn [space_text]; [split; [intros ->; reflexivity|intros [= ->]; reflexivity]|].
  split; [|discriminate]. intros <-. exfalso. revert R. vm_compute. intuition discriminate.
Qed.
Lemma TestURL_spec l u r : u_root u = Some r -> root_text r -> (forall x, In x l -> cr_prefixes (fst x) = []) ->
  forall x, In x l -> exists b, TestURL (accepted (fst x) (snd x)) u = Ok b /\ (b = true <-> goes_for x u).
Proof.
  intros U R E x X. unfold TestURL. rewrite U. eexists. split; [reflexivity|]. rewrite andb_true_iff, space_eqb_iff by exact R.
  rewrite C218_history by now apply E. unfold goes_for. rewrite U. destruct (C218_rest (fst x) (snd x)) as (-> & _). reflexivity.
Qed.
Lemma find_map {A B} (f : A -> B) test l : forall k, find test k (map f l) =
  (r <- find (fun x => test (f x)) k l ;; Ok (option_map (fun e => (fst e, f (snd e))) r)).
Proof.
  induction l as [|x l IH]; intros k; [reflexivity|]. cbn [map find]. destruct (test (f x)) as [[]|]; cbn [bind]; [reflexivity|apply IH|reflexivity].
Qed.
Lemma cred_str_accepted c paths : cred_str (accepted c paths) = cred_str c.
Proof. unfold cred_str. destruct (C218_rest c paths) as (_ & _ & -> & ->). reflexivity. Qed.
(** The first credentials for the root of the URL that were accepted for a path that goes for it *)
Theorem C219_first l u r : u_root u = Some r -> root_text r -> (forall x, In x l -> cr_prefixes (fst x) = []) ->
  (forall h, authorization (manager l) u None = Ok (Some h) <->
     exists a x b, l = a ++ x :: b /\ h = cred_str (fst x) /\ goes_for x u /\ forall y, In y a -> ~ goes_for y u) /\
  (authorization (manager l) u None = Ok None <-> forall x, In x l -> ~ goes_for x u).
Proof.
  intros U R E. destruct (find_spec (fun x => TestURL (accepted (fst x) (snd x)) u) (fun x => goes_for x u) l (TestURL_spec l u r U R E) 0) as [F1 F2].
  unfold authorization, FindCredentialsForURL, manager. rewrite find_map.
  destruct (find (fun x => TestURL (accepted (fst x) (snd x)) u) 0 l) as [[[n x]|]|e] eqn:G; cbn [bind option_map fst snd].
  - split.
    + intros h. rewrite cred_str_accepted. split.
      * intros [= <-]. destruct (proj1 (F1 n x) eq_refl) as (a & b & H1 & _ & H2 & H3). exists a, x, b. repeat split; try assumption; apply H2.
      * intros (a & y & b & H1 & -> & H2 & H3). assert (K : Ok (Some (n, x)) = Ok (Some (length a, y))) by (apply F1; exists a, b; repeat split; try assumption; apply H2). injection K as _ ->. reflexivity.
    + split; [discriminate|]. intros H. apply F2 in H. discriminate.
  - split; [|split; [intros _; now apply F2|reflexivity]]. intros h. split; [discriminate|].
    intros (a & y & b & H1 & -> & H2 & H3). assert (K : @Ok (option (nat * user)) None = Ok (Some (length a, y))) by (apply F1; exists a, b; repeat split; try assumption; apply H2). discriminate.
  - exfalso. assert (T : forall k l0, (forall x, In x l0 -> In x l) -> forall e, find (fun x => TestURL (accepted (fst x) (snd x)) u) k l0 <> Err e).
    { clear G F1 F2. intros k l0. revert k. induction l0 as [|x l0 IH]; intros k S e'; [discriminate|]. cbn [find].
      destruct (TestURL_spec l u r U R E x (S x (or_introl eq_refl))) as (b & -> & _). cbn [bind]. destruct b; [discriminate|]. apply IH. intros y Y. apply S. now right. }
    now apply (T 0%nat l (fun x H => H) e).
Qed.
Theorem C219_given l u v : authorization l u (Some v) = Ok (Some v). Proof. reflexivity. Qed.
(** Missing: accepted paths with an empty segment before the end. *)
Theorem C219_partial l u r q h : u_root u = Some r -> root_text r -> u_path u = abs_path q -> q <> [] -> Forall plain_segment q ->
  (forall x, In x l -> cr_prefixes (fst x) = [] /\ forall p, In p (snd x) -> exists a, p = abs_path a /\ a <> [] /\ Forall plain_segment a /\ no_gap a) ->
  authorization (manager l) u None = Ok (Some h) ->
  exists x a, In x l /\ h = cred_str (fst x) /\ cr_space (fst x) = Some r /\ In (abs_path a) (snd x) /\ at_or_below a q.
Proof.
  intros U R Q1 Q2 Q3 H A. apply (C219_first l u r U R) in A; [|intros x X; now apply H]. destruct A as (a & x & b & -> & -> & [S (p & P & C)] & _).
  assert (X : In x (a ++ x :: b)) by (rewrite in_app_iff; cbn; tauto). destruct (H x X) as [_ K]. destruct (K p P) as (d & -> & D1 & D2 & D3).
  exists x, d. repeat split; try assumption; [now rewrite S|]. rewrite Q1, !segments_abs in C by assumption. now apply covers_below.
Qed.
(** And what is at or below an accepted path gets them, or those of an earlier user. *)
Theorem C219_sent l u r q x a : u_root u = Some r -> root_text r -> u_path u = abs_path q -> q <> [] -> Forall plain_segment q ->
  (forall x, In x l -> cr_prefixes (fst x) = []) -> In x l -> cr_space (fst x) = Some r -> In (abs_path a) (snd x) -> a <> [] -> Forall plain_segment a ->
  at_or_below a q -> exists h, authorization (manager l) u None = Ok (Some h).
Proof.
  intros U R Q1 Q2 Q3 E X S P A1 A2 B. destruct (C219_first l u r U R E) as [F1 F2].
  assert (G : goes_for x u). { split; [now rewrite S|]. exists (abs_path a). split; [exact P|]. rewrite Q1, !segments_abs by assumption. now apply below_covers. }
  destruct (authorization (manager l) u None) as [[h|]|e] eqn:Z; [now exists h| |].
  - exfalso. apply (proj1 F2 eq_refl x X G).
  - exfalso. clear F1 F2 G. revert Z. unfold authorization, FindCredentialsForURL, manager. rewrite find_map.
    destruct (find (fun x => TestURL (accepted (fst x) (snd x)) u) 0 l) as [|e'] eqn:G; [discriminate|]. intros _.
    assert (T : forall k l0, (forall x, In x l0 -> In x l) -> forall e, find (fun x => TestURL (accepted (fst x) (snd x)) u) k l0 <> Err e).
    { clear - U R E. intros k l0. revert k. induction l0 as [|x l0 IH]; intros k S e'; [discriminate|]. cbn [find].
      destruct (TestURL_spec l u r U R E x (S x (or_introl eq_refl))) as (b & -> & _). cbn [bind]. destruct b; [discriminate|]. apply IH. intros y Y. apply S. now right. }
    now apply (T 0%nat l (fun x H => H) e').
Qed.
Definition shop : str := lit "http://shop.example".
Definition at_shop (c : credentials) : credentials := mkCred (Some shop) (cr_realm c) (cr_user c) (cr_pass c) (cr_prefixes c).
(** Accepted for //x, sent to /secret/x *)
Theorem C219_refuted : authorization (manager [(at_shop aladdin, [lit "//x"])]) (mkUrl (Some shop) (lit "/secret/x")) None = Ok (Some (cred_str aladdin)) /\
  ~ at_or_below [[]; lit "x"] [lit "secret"; lit "x"].
Proof.
  split; [vm_compute; reflexivity|]. intros [(r & E)|(d & s & r & E & _)]; [discriminate|].
  destruct d as [|? [|? [|? d]]]; cbn in E; try discriminate.
Qed.
Example C219_nonvacuous : authorization (manager [(at_shop aladdin, [lit "/a/b"; lit "/a/"])]) (mkUrl (Some shop) (lit "/a/c/d")) None = Ok (Some (cred_str aladdin)) /\
  authorization (manager [(at_shop aladdin, [lit "/a/b"; lit "/a/"])]) (mkUrl (Some (lit "http://other.example")) (lit "/a/c/d")) None = Ok None /\
  no_gap [lit "a"; []] /\ root_text shop.
Proof.
  split; [vm_compute; reflexivity|]. split; [vm_compute; reflexivity|]. split.
  - unfold no_gap. cbn [removelast]. apply Forall_cons; [discriminate|apply Forall_nil].
  - unfold root_text, shop. vm_compute. tauto.
Qed.

(** ** C220: credentials for a challenge *)
Definition any_realm (c : credentials) : Prop := cr_realm c = None \/ cr_realm c = Some [].
(** Missing: credentials with a realm. *)
Theorem C220_partial m params space : root_text space -> (forall c, In c m -> any_realm c) ->
  let ch := with_space (BasicChallenge params) (Some space) in
  (forall k c, FindCredentials m ch = Ok (Some (k, c)) <->
     exists a b, m = a ++ c :: b /\ k = length a /\ cr_space c = Some space /\ forall y, In y a -> cr_space y <> Some space) /\
  (FindCredentials m ch = Ok None <-> forall y, In y m -> cr_space y <> Some space).
Proof.
  intros R A ch. assert (S : exists t, challenge_str ch = Ok t).
  { subst ch. unfold with_space, BasicChallenge, challenge_str. cbn [ch_scheme ch_params]. rewrite Challenge_scheme. destruct (ch_params _); eauto. }
  destruct S as (t & S). unfold FindCredentials. rewrite S. cbn [bind].
  assert (T : forall x, In x m -> exists b, MatchChallenge x ch = Ok b /\ (b = true <-> cr_space x = Some space)).
  { intros x X. unfold MatchChallenge, ch. cbn [with_space ch_scheme ch_space]. unfold BasicChallenge. rewrite Challenge_scheme.
    change (str_eqb (lit "Basic") (lit "Basic")) with true. cbn [negb]. pose proof (space_eqb_iff (cr_space x) space R) as K.
    destruct (space_eqb (cr_space x) (Some space)); cbn [negb]; [|now exists false].
    exists true. split; [|exact K]. destruct (A x X) as [-> | ->]; reflexivity. }
  apply (find_spec _ (fun x => cr_space x = Some space) m T 0).
Qed.
(** Whatever is found is for the protection space of a Basic challenge. *)
Lemma find_only {A} (test : A -> result bool) l : forall k n x, find test k l = Ok (Some (n, x)) -> (k <= n)%nat /\ nth_error l (n - k) = Some x /\ test x = Ok true.
Proof.
  induction l as [|c l IH]; intros k n x; cbn [find]; [discriminate|]. destruct (test c) as [[]|] eqn:E; cbn [bind]; [|intros H|discriminate].
  - intros [= <- <-]. rewrite Nat.sub_diag. cbn. auto.
  - apply IH in H as (H1 & H2 & H3). split; [lia|]. split; [|exact H3]. replace (n - k)%nat with (S (n - S k)) by lia. exact H2.
Qed.
Theorem C220_only m ch k c space : ch_space ch = Some space -> root_text space -> FindCredentials m ch = Ok (Some (k, c)) ->
  nth_error m k = Some c /\ ch_scheme ch = Some (lit "Basic") /\ cr_space c = Some space /\ any_realm c.
Proof.
  intros S R. unfold FindCredentials. destruct (challenge_str ch); [|discriminate]. cbn [bind]. intros H. apply find_only in H as (_ & H & T).
  rewrite Nat.sub_0_r in H. split; [exact H|]. unfold MatchChallenge in T. rewrite S in T. destruct (ch_scheme ch) as [s|]; [|discriminate].
  destruct (str_eqb (lit "Basic") s) eqn:E; [|discriminate]. apply str_eqb_eq in E as <-. cbn [negb] in T. split; [reflexivity|].
  destruct (space_eqb (cr_space c) (Some space)) eqn:E; [|discriminate]. apply space_eqb_iff in E; [|exact R]. split; [exact E|]. cbn [negb] in T.
  unfold any_realm. destruct (cr_realm c) as [[|x r]|]; auto. discriminate.
Qed.
(** Credentials with a realm never work: not even for a challenge with this realm. *)
Theorem C220_realm_refuted c params realm space : cr_realm c = Some realm -> realm <> [] -> cr_space c = Some space ->
  FindCredentials [c] (with_space (BasicChallenge params) (Some space)) = Err AttributeError.
Proof.
  intros E N S. unfold FindCredentials, challenge_str. cbn [with_space ch_scheme ch_params]. unfold BasicChallenge at 1. rewrite Challenge_scheme.
  assert (G : find (fun c0 => MatchChallenge c0 (with_space (BasicChallenge params) (Some space))) 0 [c] = Err AttributeError).
  { cbn [find]. unfold MatchChallenge. cbn [with_space ch_scheme ch_space]. unfold BasicChallenge. rewrite Challenge_scheme, E, S. change (str_eqb (lit "Basic") (lit "Basic")) with true. cbn [negb].
    unfold space_eqb. rewrite str_eqb_refl. cbn [negb]. now destruct realm. }
  destruct (ch_params (BasicChallenge params)); cbn [bind]; exact G.
Qed.
(** A challenge of another scheme makes the search fail, whatever the credentials. *)
Theorem C220_scheme_refuted m t c rest space : ListFromString t = Ok (c :: rest) -> ch_scheme c = None ->
  FindCredentials m (with_space c (Some space)) = Err TypeError.
Proof. intros _ E. unfold FindCredentials, challenge_str. cbn [with_space ch_scheme]. now rewrite E. Qed.
Example C220_nonvacuous :
  FindCredentials [aladdin; at_shop aladdin] (with_space (BasicChallenge demo_params) (Some shop)) = Ok (Some (1%nat, at_shop aladdin)) /\
  (exists c, ListFromString (lit "Digest realm=x") = Ok [c] /\ ch_scheme c = None).
Proof. split; [vm_compute; reflexivity|]. eexists. split; [vm_compute; reflexivity|reflexivity]. Qed.

(** ** C221: what a response does *)
Lemma nth_update {A} (f : A -> A) l : forall k j, nth_error (update k f l) j = if Nat.eqb j k then option_map f (nth_error l j) else nth_error l j.
Proof.
  induction l as [|x l IH]; intros [|k] [|j]; cbn [update nth_error Nat.eqb option_map]; try reflexivity; [now destruct (Nat.eqb j k)|apply IH].
Qed.
(** Credentials that were tried and not refused are good for the path of the request: nothing else changes, and the next
    request to the URL carries an Authorization header. *)
Theorem C221_accepted m u k c status header : status <> 401 -> nth_error m k = Some c ->
  exists m', Finished m u (Some k) status header = Ok (m', None, []) /\ length m' = length m /\
  (exists c', nth_error m' k = Some c' /\ TestPath c' (u_path u) = true /\ cred_str c' = cred_str c /\ cr_space c' = cr_space c) /\
  forall j, j <> k -> nth_error m' j = nth_error m j.
Proof.
  intros S N. exists (update k (fun c => AddSuccessPath c (u_path u)) m). unfold Finished. replace (status =? 401) with false by lia. cbn [bind].
  split; [reflexivity|]. split.
  { clear N. revert k. induction m as [|x m IH]; intros [|k]; cbn [update length]; auto. }
  split; [|intros j J; rewrite nth_update; now apply Nat.eqb_neq in J as ->].
  exists (AddSuccessPath c (u_path u)). rewrite nth_update, Nat.eqb_refl, N. split; [reflexivity|]. split; [apply C218_itself|].
  split; [apply (cred_str_accepted c [u_path u])|apply (C218_rest c [u_path u])].
Qed.
Theorem C221_untried m u status header : status <> 401 -> Finished m u None status header = Ok (m, None, []).
Proof. intros S. unfold Finished. replace (status =? 401) with false by lia. reflexivity. Qed.
(** Missing: responses without or with several challenges, with schemes other than Basic, and credentials that were tried or have a realm. *)
Theorem C221_challenged_partial m u root params t : u_root u = Some root -> root_text root -> Forall good_aparam params ->
  (forall c, In c m -> any_realm c) -> SetWWWAuthenticate [BasicChallenge params] = Ok t ->
  (exists a c b, m = a ++ c :: b /\ cr_space c = Some root /\ (forall y, In y a -> cr_space y <> Some root) /\
     Finished m u None 401 (Some t) = Ok (m, Some (length a), [cred_str c])) \/
  ((forall c, In c m -> cr_space c <> Some root) /\ Finished m u None 401 (Some t) = Ok (m, None, [])).
Proof.
  intros U R G A E. destruct (C213_read params G) as (full & l & t' & _ & E1 & E2 & _). unfold SetWWWAuthenticate in E. cbn [map_str] in E. rewrite E1 in E.
  cbn [bind join_comma] in E. injection E as <-. unfold Finished. change (401 =? 401) with true. cbn [bind GetWWWAuthenticate]. rewrite E2. cbn [bind challenges_loop].
  rewrite U. destruct (C220_partial m l root R A) as [F1 F2].
  destruct (FindCredentials m (with_space (BasicChallenge l) (Some root))) as [[[k c]|]|e] eqn:F; cbn [bind].
  - destruct (proj1 (F1 k c) eq_refl) as (a & b & H1 & -> & H2 & H3). left. exists a, c, b. repeat split; try assumption. 
  - right. split; [now apply F2|]. reflexivity.
  - exfalso. destruct (Exists_dec (fun c => cr_space c = Some root) m) as [X|X].
    { intros c. destruct (cr_space c) as [s|]; [|now right]. destruct (str_eqb s root) eqn:Q; [apply str_eqb_eq in Q as ->; now left|right; apply neq_eqb in Q; congruence]. }
    + assert (Y : exists a c b, m = a ++ c :: b /\ cr_space c = Some root /\ forall y, In y a -> cr_space y <> Some root).
      { clear - X. induction X as [c m H|c m H IH]; [exists [], c, m; repeat split; [exact H|easy]|].
        destruct (cr_space c) as [s|] eqn:C.
        - destruct (str_eqb s root) eqn:Q; [apply str_eqb_eq in Q as ->; exists [], c, m; repeat split; [exact C|easy]|].
          apply neq_eqb in Q. destruct IH as (a & c' & b & -> & B1 & B2). exists (c :: a), c', b. repeat split; [exact B1|]. intros y [<-|Y]; [congruence|auto].
        - destruct IH as (a & c' & b & -> & B1 & B2). exists (c :: a), c', b. repeat split; [exact B1|]. intros y [<-|Y]; [congruence|auto]. }
      destruct Y as (a & c & b & Y1 & Y2 & Y3). assert (K : @Err (option (nat * credentials)) e = Ok (Some (length a, c))) by (apply F1; eauto 6). discriminate.
    + assert (K : @Err (option (nat * credentials)) e = Ok None) by (apply F2; intros y Y Z; apply X, Exists_exists; eauto). discriminate.
Qed.
(** Credentials that are refused are not taken away: the response cannot be handled at all. *)
Theorem C221_refuted m u k header : Finished m u (Some k) 401 header = Err AttributeError /\ Finished m u None 401 None = Err TypeError /\
  Finished m u None 401 (Some (lit "Negotiate")) = Err TypeError /\ Finished m u None 401 (Some (lit "Basic realm=""a"", Basic realm=""b""")) = Err BadSyntax.
Proof. repeat split. Qed.
Example C221_nonvacuous :
  Finished [aladdin; at_shop aladdin] (mkUrl (Some shop) (lit "/a/")) None 401 (Some (lit "Basic realm=""x""")) = Ok ([aladdin; at_shop aladdin], Some 1%nat, [cred_str aladdin]) /\
  exists m, Finished [aladdin; at_shop aladdin] (mkUrl (Some shop) (lit "/a/")) (Some 1%nat) 200 None = Ok (m, None, []) /\
  authorization m (mkUrl (Some shop) (lit "/a/b")) None = Ok (Some (cred_str aladdin)).
Proof. split; [vm_compute; reflexivity|]. eexists. split; vm_compute; reflexivity. Qed.

Print Assumptions C213_read.
Print Assumptions C214_partial.
Print Assumptions C214_refused.
Print Assumptions C214_refuted.
Print Assumptions C215_partial.
Print Assumptions C215_refused.
Print Assumptions C215_other_scheme.
Print Assumptions C215_refuted.
Print Assumptions C216_lookup.
Print Assumptions C216_missing.
Print Assumptions C216_realm.
Print Assumptions C217_partial.
Print Assumptions C217_any_case.
Print Assumptions C217_refused.
Print Assumptions C217_base64.
Print Assumptions C217_refuted.
Print Assumptions C218_history.
Print Assumptions C218_segments.
Print Assumptions C218_never_lost.
Print Assumptions C218_itself.
Print Assumptions C218_shortest.
Print Assumptions C218_rest.
Print Assumptions C219_first.
Print Assumptions C219_given.
Print Assumptions C219_partial.
Print Assumptions C219_sent.
Print Assumptions C219_refuted.
Print Assumptions C220_partial.
Print Assumptions C220_only.
Print Assumptions C220_realm_refuted.
Print Assumptions C220_scheme_refuted.
Print Assumptions C221_accepted.
Print Assumptions C221_untried.
Print Assumptions C221_challenged_partial.
Print Assumptions C221_refuted.
