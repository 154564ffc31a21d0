(** What a request looks like on the wire. *)
From Coq Require Import Lia Zify Permutation.
From Verif Require Import Py Iso Dec XmlUtils XmlChars XmlCharsSpec XmlCharsProofs Xsd XsdSpec XsdProofs Imscp ImscpProofs Shapes ShapesProofs2
  HttpCore HttpParams HttpSpec HttpProofs HttpProofs2 HttpProofs3 HttpProofs8 OdPage OdPageProofs HttpConn HttpConnSpec HttpConnProofs
  HttpConnProofs5.
Open Scope Z_scope.

(** ** Headers *)
Definition dict_ok (h : headers) : Prop := NoDup (map fst h) /\ Forall (fun e => fst e = lower (fst (snd e))) h.
Lemma dset_keys k v d : NoDup (map fst d) -> NoDup (map fst (dset k v d)) /\
  (forall x, In x (map fst (dset k v d)) -> x = k \/ In x (map fst d)).
Proof.
  induction d as [|[k1 v1] d IH]; intros N; cbn [dset map fst].
  - split; [constructor; [easy|constructor]|]. intros x [->|[]]. now left.
  - cbn [map fst] in N. apply NoDup_cons_iff in N. destruct N as [N1 N2]. destruct (IH N2) as [A B].
    destruct (str_eqb k k1) eqn:X; cbn [map fst].
    + split; [now constructor|]. intros x [->|H]; [right; now left|right; now right].
    + apply str_eqb_neq in X. split.
      * constructor; [|exact A]. intros H. apply B in H. destruct H as [H|H]; [congruence|contradiction].
      * intros x [->|H]; [right; now left|]. apply B in H. destruct H; [now left|right; now right].
Qed.
Lemma dset_ok k v d : Forall (fun e => fst e = lower (fst (snd e))) d -> k = lower (fst v) ->
  Forall (fun e => fst e = lower (fst (snd e))) (dset k v d).
Proof.
  intros F K. induction F as [|[k1 v1] d H Hd IH]; cbn [dset]; [constructor; [exact K|constructor]|].
  destruct (str_eqb k k1) eqn:X.
  - apply str_eqb_eq in X. constructor; [cbn; congruence|assumption].
  - now constructor.
Qed.
Lemma SetHeader_ok n v a h : dict_ok h -> dict_ok (SetHeader n v a h).
Proof.
  intros [A B]. unfold SetHeader. destruct v as [v|].
  - destruct (dget (lower n) h) as [[o1 o2]|]; (split; [now apply dset_keys|now apply dset_ok]).
  - split; [|now apply Forall_forall; intros x X; apply filter_In in X; destruct X as [X _]; rewrite Forall_forall in B; apply B]. clear B. induction h as [|[k1 v1] h IH]; [constructor|]. cbn [filter map fst] in *.
    apply NoDup_cons_iff in A. destruct A as [A1 A2]. destruct (negb (str_eqb k1 (lower n))); [|now apply IH].
    cbn [map fst]. constructor; [|now apply IH]. intros H. apply A1. apply in_map_iff in H. destruct H as (x & <- & H).
    apply in_map. now apply filter_In in H.
Qed.
Lemma set_headers_ok h : set_headers h -> dict_ok h.
Proof. induction 1; [split; constructor|now apply SetHeader_ok]. Qed.
Lemma GetHeader_Set1 h n v name : GetHeader (SetHeader n (Some v) false h) name =
  if str_eqb (lower n) (lower name) then Some v else GetHeader h name.
Proof.
  unfold GetHeader, SetHeader. destruct (dget (lower n) h) as [[a b]|]; rewrite dget_dset;
    now destruct (str_eqb (lower n) (lower name)).
Qed.
Definition wire_field (e : str * (str * str)) : str * str := (fst (snd e), 32 :: snd (snd e)).
Lemma lower_keys h : dict_ok h -> map (fun f => lower (fst f)) (map wire_field h) = map fst h.
Proof.
  intros [_ B]. rewrite map_map. induction B as [|e h H _ IH]; [reflexivity|]. cbn [map]. f_equal; [now rewrite H|exact IH].
Qed.
Lemma field_dict h name : dict_ok h -> field name (map wire_field h) = option_map (fun v => 32 :: v) (GetHeader h name).
Proof.
  intros [A B]. unfold field, GetHeader. assert (V : values_of name (map wire_field h) =
    match dget (lower name) h with Some nv => [32 :: snd nv] | None => [] end).
  { unfold values_of. induction h as [|[k [n v]] h IH]; [reflexivity|].
    cbn [map filter wire_field fst snd]. cbn [map fst] in A. apply NoDup_cons_iff in A. destruct A as [A1 A2].
    apply Forall_cons_iff in B. destruct B as [B1 B2]. cbn [fst snd] in B1. cbn [dget]. rewrite <- B1. specialize (IH A2 B2).
    destruct (str_eqb k (lower name)) eqn:X.
    - apply str_eqb_eq in X. rewrite <- X, str_eqb_refl. cbn [map snd]. f_equal.
      rewrite <- X in IH. etransitivity; [exact IH|]. rewrite X.
      destruct (dget (lower name) h) as [nv|] eqn:Y; [|reflexivity]. exfalso. apply A1. apply dget_In in Y; [|exact A2].
      rewrite X. change (lower name) with (fst (lower name, nv)). now apply in_map.
    - assert (str_eqb (lower name) k = false) as ->; [|exact IH]. apply str_eqb_neq. apply str_eqb_neq in X. congruence. }
  rewrite V. destruct (dget (lower name) h) as [[a b]|]; reflexivity.
Qed.
Lemma dict_perm h h' : Permutation h h' -> dict_ok h -> dict_ok h'.
Proof.
  intros P [A B]. split.
  - eapply Permutation_NoDup; [apply Permutation_map; exact P|exact A].
  - eapply Permutation_Forall; eassumption.
Qed.
Lemma dget_perm h h' k : Permutation h h' -> NoDup (map fst h) -> dget k h = dget k h'.
Proof.
  intros P N. assert (N' : NoDup (map fst h')) by (eapply Permutation_NoDup; [apply Permutation_map; exact P|exact N]).
  destruct (dget k h) as [v|] eqn:X.
  - apply dget_In in X; [|exact N]. symmetry. apply dget_In; [exact N'|]. eapply Permutation_in; eassumption.
  - destruct (dget k h') as [v|] eqn:Y; [|reflexivity]. apply dget_In in Y; [|exact N'].
    apply (Permutation_in _ (Permutation_sym P)) in Y. apply (dget_In k h v N) in Y. congruence.
Qed.
Lemma header_lines h : concat (map header_line h) ++ CRLF = fields_text (map wire_field h).
Proof.
  unfold fields_text. f_equal. rewrite map_map. apply (f_equal (@concat Z)). apply map_ext. intros [k [n v]]. unfold header_line, field_text, wire_field. cbn.
  reflexivity.
Qed.

(** ** Numbers *)
Definition low (c : Z) : Z := if (c >=? 65) && (c <=? 90) then c + 32 else c.
Lemma lower_hex s : Forall hex_digit s -> Forall hex_digit (lower s) /\ hex_number (lower s) = hex_number s.
Proof.
  unfold hex_number. generalize 0. induction s as [|c s IH]; intros v H; [split; [constructor|reflexivity]|].
  apply Forall_cons_iff in H. destruct H as [H1 H2]. unfold lower in *. cbn [map fold_left]. fold (low c).
  assert (X : hex_digit (low c) /\ hex_of_digit (low c) = hex_of_digit c).
  { unfold hex_digit, low, hex_of_digit in *. destruct ((c >=? 65) && (c <=? 90)) eqn:Y; [|split; [exact H1|reflexivity]].
    split; [lia|]. repeat (match goal with |- context [if ?b then _ else _] => destruct b eqn:? end); lia. }
  destruct X as [X1 X2]. split.
  - constructor; [exact X1|]. now apply (IH 0).
  - rewrite X2. now apply IH.
Qed.
Lemma fmt_x_hex n : 0 <= n -> hexadecimal n (fmt_x n).
Proof.
  intros H. destruct (fmt_X_spec 0 n H) as (A & B & C). unfold fmt_x. destruct (lower_hex _ A) as [D F].
  split; [|split; [exact D|congruence]]. intros X. apply C. unfold lower in X. now apply map_eq_nil in X.
Qed.
Lemma pystr_decimal n : 0 <= n -> decimal n (pystr n).
Proof.
  intros H. rewrite pystr_nonneg by exact H.
  exact (conj (fmt_not_nil n) (conj (fmt_digits n H) (dval_fmt n H))).
Qed.

(** ** The body *)
(** The pieces of the body, as they are read *)
Inductive body_runs (chunk : nat) : req -> str -> req -> Prop :=
| body_end q q' : ReadRequestBody chunk q = Ok (q', []) -> body_runs chunk q [] q'
| body_more q q' data t qf : ReadRequestBody chunk q = Ok (q', data) -> data <> [] -> body_runs chunk q' t qf ->
    body_runs chunk q (data ++ t) qf.
Definition unsent (q : req) (pos : Z) (all : bool) (rest : str) (qf : req) : Prop := qf = q_progress q pos all rest.
Lemma done_runs chunk q : q_sentall q = true -> body_runs chunk q [] q.
Proof. intros H. constructor. unfold ReadRequestBody. now rewrite H. Qed.
Lemma crlf_cons a : CRLF ++ a = 13 :: 10 :: a. Proof. reflexivity. Qed.
Lemma last_chunk_ok : chunks [] [] last_chunk.
Proof.
  change last_chunk with (lit "0" ++ [] ++ [13; 10] ++ fields_text []). constructor; [|constructor|constructor].
  split; [discriminate|]. split; [|reflexivity]. constructor; [|constructor]. left. split; vm_compute; discriminate.
Qed.
Lemma one_chunk_ok data body text : data <> [] -> Z.of_nat (length data) + 2 <= maxint -> chunks body [] text ->
  chunks (data ++ body) [] (one_chunk data ++ text).
Proof.
  intros N L C. unfold one_chunk. rewrite <- !app_assoc.
  change (fmt_x (len data) ++ CRLF ++ data ++ CRLF ++ text) with (fmt_x (len data) ++ [] ++ [13; 10] ++ data ++ [13; 10] ++ text).
  constructor; try assumption; [|constructor]. apply fmt_x_hex. unfold len. lia.
Qed.
Lemma one_chunk_ne data : one_chunk data <> [].
Proof.
  unfold one_chunk. destruct (fmt_x_hex (len data)) as (H & _); [unfold len; lia|]. now destruct (fmt_x (len data)).
Qed.
Lemma firstn_ne {A} n (l : list A) : n <> O -> l <> [] -> firstn n l <> [].
Proof. destruct n; [easy|]. now destruct l. Qed.
Lemma chunked_stream chunk rest : chunk <> O -> forall q, q_sentall q = false -> q_body q = None -> q_chunked q = true ->
  q_rest q = rest -> Z.of_nat (length rest) + 2 <= maxint ->
  exists t pos rest', chunks rest [] t /\ body_runs chunk q t (q_progress q pos true rest').
Proof.
  intros Hc. remember (length rest) as n eqn:En. revert rest En. induction n as [n IH] using lt_wf_ind.
  intros rest -> q A B C D L.
  assert (R : ReadRequestBody chunk q = let data := firstn chunk rest in let pos := q_pos q + len data in
    if nonempty data then Ok (q_progress q pos false (skipn chunk rest), one_chunk data)
    else Ok (q_progress q pos true rest, last_chunk)).
  { unfold ReadRequestBody. now rewrite A, B, C, D. }
  cbv zeta in R. destruct rest as [|x rest].
  - rewrite firstn_nil in R. cbn [nonempty] in R. exists (last_chunk ++ []), (q_pos q + len []), [].
    split; [rewrite app_nil_r; apply last_chunk_ok|]. eapply body_more; [exact R|discriminate|].
    apply done_runs. reflexivity.
  - destruct chunk as [|k]; [congruence|]. set (data := firstn (S k) (x :: rest)) in *.
    assert (Nd : data <> []) by discriminate. change (nonempty data) with true in R. cbv iota in R.
    assert (Ld : (length data + length (skipn (S k) (x :: rest)) = length (x :: rest))%nat).
    { rewrite <- app_length. unfold data. now rewrite firstn_skipn. }
    assert (Lp : (0 < length data)%nat) by (unfold data; cbn; lia).
    destruct (IH (length (skipn (S k) (x :: rest))) ltac:(lia) (skipn (S k) (x :: rest)) eq_refl
      (q_progress q (q_pos q + len data) false (skipn (S k) (x :: rest)))) as (t & pos & rest' & Ct & Rt);
      try reflexivity; try assumption; [lia|].
    exists (one_chunk data ++ t), pos, rest'. split.
    + rewrite <- (firstn_skipn (S k) (x :: rest)) at 1. fold data. apply one_chunk_ok; [exact Nd|lia|exact Ct].
    + eapply body_more; [exact R|apply one_chunk_ne|exact Rt].
Qed.
Lemma sized_stream chunk n : chunk <> O -> forall q rest, q_sentall q = false -> q_body q = None -> q_chunked q = false ->
  q_rest q = rest -> q_len q = Some (q_pos q + Z.of_nat n) -> length rest = n ->
  exists pos rest', body_runs chunk q rest (q_progress q pos true rest').
Proof.
  intros Hc. induction n as [n IH] using lt_wf_ind. intros q rest A B C D L N.
  assert (R : ReadRequestBody chunk q = if Z.of_nat n =? 0 then Ok (q_progress q (q_pos q) true rest, []) else
    let k := if Z.of_nat n >? Z.of_nat chunk then chunk else n in
    let data := firstn k rest in
    if nonempty data then Ok (q_progress q (q_pos q + len data) false (skipn k rest), data) else Err HTTPException).
  { unfold ReadRequestBody. rewrite A, B, C, D, L. replace (q_pos q + Z.of_nat n - q_pos q) with (Z.of_nat n) by lia.
    now rewrite Nat2Z.id. }
  destruct (Z.of_nat n =? 0) eqn:X.
  - assert (n = 0%nat) by lia. subst n. destruct rest; [|cbn in *; lia]. eexists. eexists. apply body_end. exact R.
  - cbv zeta in R. set (k := if Z.of_nat n >? Z.of_nat chunk then chunk else n) in *.
    assert (Hk : (0 < k <= n)%nat) by (unfold k; destruct (Z.of_nat n >? Z.of_nat chunk) eqn:Y; lia).
    set (data := firstn k rest) in *. assert (Ld : length data = k) by (unfold data; rewrite firstn_length; lia).
    assert (Nd : nonempty data = true) by (destruct data; [cbn in Ld; lia|reflexivity]).
    rewrite Nd in R. destruct (IH (n - k)%nat ltac:(lia) (q_progress q (q_pos q + len data) false (skipn k rest)) (skipn k rest))
      as (pos & rest' & Rt); try reflexivity; try assumption.
    + cbn. rewrite L. unfold len. f_equal. lia.
    + rewrite skipn_length. lia.
    + exists pos, rest'. rewrite <- (firstn_skipn k rest). fold data. eapply body_more; [exact R| |exact Rt].
      intros ->. discriminate.
Qed.
Lemma body_text chunk q : chunk <> O -> q_sentall q = false -> q_pos q = 0 -> q_rest q = q_source q ->
  Z.of_nat (length (payload q)) + 2 <= maxint -> (q_chunked q = true -> q_body q <> Some []) ->
  (q_chunked q = false -> q_body q = None -> q_len q = Some (Z.of_nat (length (q_source q)))) ->
  exists t pos rest', (if q_chunked q then chunks (payload q) [] t else t = payload q) /\
    body_runs chunk q t (q_progress q pos true rest').
Proof.
  intros Hc A B C D F G. unfold payload in *. destruct (q_body q) as [b|] eqn:Y.
  - assert (R : ReadRequestBody chunk q = Ok (q_progress q (len b) true (q_rest q),
      if q_chunked q then one_chunk b ++ last_chunk else b)).
    { unfold ReadRequestBody. rewrite A, Y. now destruct (q_chunked q). }
    destruct (q_chunked q) eqn:X.
    + exists ((one_chunk b ++ last_chunk) ++ []), (len b), (q_rest q). split.
      * rewrite app_nil_r. rewrite <- (app_nil_r b) at 1. apply one_chunk_ok; [|exact D|apply last_chunk_ok].
        intros ->. now apply F.
      * eapply body_more; [exact R| |now apply done_runs]. pose proof (one_chunk_ne b). now destruct (one_chunk b).
    + exists b, (len b), (q_rest q). split; [reflexivity|]. destruct b as [|x b]; [now apply body_end|].
      rewrite <- (app_nil_r (x :: b)) at 1. eapply body_more; [exact R|discriminate|now apply done_runs].
  - destruct (q_chunked q) eqn:X.
    + apply chunked_stream; assumption.
    + destruct (sized_stream chunk (length (q_source q)) Hc q (q_source q)) as (pos & rest' & R); try assumption; try reflexivity.
      * rewrite B. now apply G.
      * eauto.
Qed.

(** ** The whole request *)
Lemma neq_lower a b : str_eqb a b = false -> a <> b. Proof. apply str_eqb_neq. Qed.
Lemma field_wire h name : dict_ok h ->
  field name (map wire_field (sort by_key h)) = option_map (fun v => 32 :: v) (GetHeader h name).
Proof.
  intros D. pose proof (sort_perm by_key h) as P. rewrite field_dict by (eapply dict_perm; [apply Permutation_sym; exact P|exact D]).
  f_equal. unfold GetHeader. f_equal. apply dget_perm; [exact P|].
  eapply Permutation_NoDup; [apply Permutation_map, Permutation_sym; exact P|apply D].
Qed.
Lemma padded_more c v : padded c v -> padded c (32 :: v).
Proof. intros (a & b & -> & A & B). exists (32 :: a), b. repeat split; try assumption. constructor; [now left|exact A]. Qed.
Lemma padded_self c : padded c (32 :: c).
Proof. exists [32], []. split; [now rewrite app_nil_r|]. split; [|constructor]. constructor; [now left|constructor]. Qed.
Lemma HasHeader_Get h n : HasHeader h n = match GetHeader h n with Some _ => true | None => false end.
Proof. unfold HasHeader, GetHeader. now destruct (dget (lower n) h). Qed.

Definition TE := lit "Transfer-Encoding".
Definition CL := lit "Content-Length".
Definition AU := lit "Authorization".
Lemma lower_TE : lower TE = lit "transfer-encoding". Proof. reflexivity. Qed.
Lemma lower_CL : lower CL = lit "content-length". Proof. reflexivity. Qed.
Lemma lower_AU : lower AU = lit "authorization". Proof. reflexivity. Qed.

(** What CalculateTransferLength decides for a request *)
Lemma request_length_ok q : fresh q -> sendable q -> forall q0, q_headers q0 = q_headers q -> q_body q0 = q_body q ->
  q_method q0 = q_method q -> q_len q0 = q_len q ->
  exists h chunked l, request_length q0 = Ok (q_transfer q0 h chunked l) /\ dict_ok h /\
    (forall name, ~ generated name -> GetHeader h name = GetHeader (q_headers q) name) /\
    (forall name v, GetHeader (q_headers q) name = Some v -> GetHeader h name = Some v) /\
    GetHeader h AU = GetHeader (q_headers q) AU /\
    (chunked = true -> q_body q <> Some [] /\ exists coding v, GetHeader h TE = Some v /\ padded coding v /\ lower coding = lit "chunked") /\
    (chunked = false -> GetHeader h TE = None /\
       (q_body q = None -> l = Some (Z.of_nat (length (q_source q)))) /\
       ((GetHeader h CL = None /\ payload q = []) \/
        exists v n, GetHeader h CL = Some v /\ padded n v /\ decimal (Z.of_nat (length (payload q))) n)).
Proof.
  intros [(F1 & F2 & F3 & F4 & F5 & F6) _ _ _ F] [S1 S2 S3 S4] q0 E1 E2 E3 E4. apply set_headers_ok in F.
  unfold request_length, declared_length, GetContentLength. rewrite E1, E2, E3, E4. fold TE CL in *.
  destruct (GetHeader (q_headers q) TE) as [v|] eqn:T.
  - destruct (S2 v eq_refl) as (Nb & coding & P & L). rewrite (not_identity _ _ P L). cbn [negb bind].
    exists (q_headers q), true, None. split; [reflexivity|]. split; [exact F|]. split; [reflexivity|]. split; [now intros|].
    split; [reflexivity|]. split; [|discriminate]. intros _. split; [exact Nb|]. exists coding, v. now repeat split.
  - destruct (GetHeader (q_headers q) CL) as [v|] eqn:C.
    + destruct (S1 v eq_refl) as (n & P & D). rewrite (content_length _ _ _ D P). cbn [bind option_map].
      exists (q_headers q), false, (Some (Z.of_nat (length (payload q)))). split.
      { destruct (q_body q) as [b|] eqn:B; [|reflexivity]. unfold payload. rewrite B. unfold len. now rewrite Z.eqb_refl. }
      split; [exact F|]. split; [reflexivity|]. split; [now intros|]. split; [reflexivity|]. split; [discriminate|].
      intros _. split; [exact T|]. split; [intros HB; unfold payload; rewrite HB; reflexivity|]. right. exists v, n. exact (conj C (conj P D)).
    + cbn [bind option_map]. destruct (q_body q) as [b|] eqn:B.
      * assert (Pb : payload q = b) by (unfold payload; now rewrite B).
        destruct (nonempty b || negb (upper_in (q_method q) [lit "GET"; lit "HEAD"; lit "DELETE"])) eqn:X.
        -- exists (SetHeader CL (Some (pystr (len b))) false (q_headers q)), false, (Some (len b)).
           split; [reflexivity|]. split; [now apply SetHeader_ok|].
           assert (G : forall name, lower CL <> lower name -> GetHeader (SetHeader CL (Some (pystr (len b))) false (q_headers q)) name = GetHeader (q_headers q) name).
           { intros name N. rewrite GetHeader_Set1. apply str_eqb_neq in N. now rewrite N. }
           split; [|split; [|split; [|split; [discriminate|]]]].
           ++ intros name N. apply G. intros Y. apply N. right. left. rewrite <- Y. reflexivity.
           ++ intros name w H. rewrite GetHeader_Set1. destruct (str_eqb (lower CL) (lower name)) eqn:Y; [|exact H].
              apply str_eqb_eq in Y. unfold GetHeader in H, C. rewrite <- Y, C in H. discriminate.
           ++ apply G. rewrite lower_CL, lower_AU. discriminate.
           ++ intros _. split; [rewrite G; [exact T|rewrite lower_CL, lower_TE; discriminate]|]. split; [discriminate|]. right.
              exists (pystr (len b)), (pystr (len b)). split; [rewrite GetHeader_Set1, str_eqb_refl; reflexivity|].
              split; [exists [], []; split; [cbn; now rewrite app_nil_r|split; constructor]|]. rewrite Pb. apply pystr_decimal. unfold len. lia.
        -- exists (q_headers q), false, (q_len q). split; [reflexivity|]. split; [exact F|]. split; [reflexivity|]. split; [now intros|].
           split; [reflexivity|]. split; [discriminate|]. intros _. split; [exact T|]. split; [discriminate|]. left.
           split; [exact C|]. rewrite Pb. destruct b; [reflexivity|discriminate].
      * exists (SetHeader TE (Some (lit "chunked")) false (q_headers q)), true, (q_len q).
        split; [reflexivity|]. split; [now apply SetHeader_ok|].
        assert (G : forall name, lower TE <> lower name -> GetHeader (SetHeader TE (Some (lit "chunked")) false (q_headers q)) name = GetHeader (q_headers q) name).
        { intros name N. rewrite GetHeader_Set1. apply str_eqb_neq in N. now rewrite N. }
        split; [|split; [|split; [|split; [|discriminate]]]].
        ++ intros name N. apply G. intros Y. apply N. left. rewrite <- Y. reflexivity.
        ++ intros name w H. rewrite GetHeader_Set1. destruct (str_eqb (lower TE) (lower name)) eqn:Y; [|exact H].
           apply str_eqb_eq in Y. unfold GetHeader in H, T. rewrite <- Y, T in H. discriminate.
        ++ apply G. rewrite lower_TE, lower_AU. discriminate.
        ++ intros _. split; [discriminate|]. exists (lit "chunked"), (lit "chunked").
           split; [rewrite GetHeader_Set1, str_eqb_refl; reflexivity|]. split; [|reflexivity].
           exists [], []. split; [cbn; reflexivity|split; constructor].
Qed.

Lemma version_text v : version_str v = lit "HTTP/" ++ pystr (v_major v) ++ lit "." ++ pystr (v_minor v).
Proof. reflexivity. Qed.
(** The text of the request: its head, and what is read of its body *)
Theorem request_written chunk cred q resp : chunk <> O -> fresh q -> sendable q ->
  let q0 := q_links q (q_response q) true (q_try q) in
  exists h chunked l head t pos rest', ReadRequestHeader cred q0 = Ok (q_transfer q0 h chunked l, head) /\ head <> [] /\
    GetExpectContinue h = false /\
    let q1 := q_links (q_transfer q0 h chunked l) (Some resp) true (q_try q) in
    body_runs chunk q1 t (q_progress q1 pos true rest') /\ request_text cred q (head ++ t).
Proof.
  intros Hc F S q0. destruct (request_length_ok q F S q0 eq_refl eq_refl eq_refl eq_refl)
    as (h & chunked & l & R & D & G1 & G2 & G3 & T1 & T2).
  set (h' := match HasHeader h AU, cred with
           | false, Some c => SetHeader AU (Some c) false h
           | _, _ => h
           end).
  set (head := q_method q ++ lit " " ++ q_url q ++ lit " " ++ version_str (q_version q) ++ CRLF ++
      concat (map header_line (sort by_key h')) ++ CRLF).
  assert (D' : dict_ok h').
  { unfold h'. destruct (HasHeader h AU), cred; try exact D. now apply SetHeader_ok. }
  assert (G' : forall name, lower AU <> lower name -> GetHeader h' name = GetHeader h name).
  { intros name N. unfold h'. destruct (HasHeader h AU), cred; try reflexivity. rewrite GetHeader_Set1. apply str_eqb_neq in N. now rewrite N. }
  assert (GA : GetHeader h' AU = match GetHeader (q_headers q) AU with Some v => Some v | None => cred end).
  { unfold h'. rewrite HasHeader_Get, G3. destruct (GetHeader (q_headers q) AU) eqn:X; [exact G3|].
    destruct cred; [now rewrite GetHeader_Set1, str_eqb_refl|exact G3]. }
  destruct F as [(F1 & F2 & F3 & F4 & F5 & F6) _ _ F7 _]. destruct S as [_ _ S3 S4].
  set (q1 := q_links (q_transfer q0 h' chunked l) (Some resp) true (q_try q)).
  destruct (body_text chunk q1 Hc) as (t & pos & rest' & P & B); try assumption.
  { intros X. apply T1. exact X. }
  { intros X Y. apply T2; assumption. }
  change (q_chunked q1) with chunked in P. change (payload q1) with (payload q) in P.
  exists h', chunked, l, head, t, pos, rest'. refine (conj _ (conj _ (conj _ (conj B _)))).
  - unfold ReadRequestHeader. rewrite R. cbn [bind]. reflexivity.
  - unfold head. destruct (q_method q); discriminate.
  - unfold GetExpectContinue. rewrite G' by discriminate. rewrite G1; [now rewrite S3|].
    unfold generated. intros [X|[X|X]]; discriminate.
  - exists (pystr (v_major (q_version q))), (pystr (v_minor (q_version q))), (map wire_field (sort by_key h')), t.
    refine (conj (pystr_decimal _ (proj1 F7)) (conj (pystr_decimal _ (proj2 F7)) (conj _ (conj _ (conj _ (conj _ (conj _ _))))))).
    + unfold head. rewrite version_text, header_lines. rewrite <- !app_assoc. reflexivity.
    + destruct chunked.
      * destruct (T1 eq_refl) as (_ & coding & v & X & Y & Z'). apply (request_chunked _ _ _ coding (32 :: v)).
        -- rewrite field_wire by exact D'. fold TE. rewrite G' by discriminate. now rewrite X.
        -- now apply padded_more.
        -- exact Z'.
        -- exact P.
      * subst t. destruct (T2 eq_refl) as (X & _ & [[Y Z']|(v & n & Y & Z1 & Z2)]).
        -- rewrite Z'. apply request_none; rewrite field_wire by exact D'; fold TE CL; rewrite G' by discriminate; [now rewrite X|now rewrite Y].
        -- apply (request_sized _ _ n (32 :: v)); try (rewrite field_wire by exact D'; fold TE CL; rewrite G' by discriminate).
           ++ now rewrite X.
           ++ now rewrite Y.
           ++ now apply padded_more.
           ++ exact Z2.
    + rewrite lower_keys.
      * eapply Permutation_NoDup; [apply Permutation_map, Permutation_sym, sort_perm|apply D'].
      * eapply dict_perm; [apply Permutation_sym, sort_perm|exact D'].
    + intros name N. rewrite field_wire by exact D'. f_equal. rewrite G'; [now apply G1|].
      intros X. apply N. right. right. rewrite <- X. reflexivity.
    + intros name v X. rewrite field_wire by exact D'. apply G2 in X as Y.
      destruct (str_eqb (lower AU) (lower name)) eqn:Z'.
      * apply str_eqb_eq in Z'. unfold GetHeader in *. rewrite <- Z' in *. fold (GetHeader (q_headers q) AU) in X. fold (GetHeader h' AU).
        unfold GetHeader in GA, X. rewrite X in GA. unfold GetHeader. now rewrite GA.
      * apply str_eqb_neq in Z'. rewrite G' by exact Z'. now rewrite Y.
    + rewrite field_wire by exact D'. fold AU. now rewrite GA.
Qed.

(** The text depends on the request only, not on its links. *)
Lemma ReadRequestBody_links chunk q r b tr : ReadRequestBody chunk (q_links q r b tr) =
  match ReadRequestBody chunk q with Ok (q', d) => Ok (q_links q' r b tr, d) | Err e => Err e end.
Proof.
  unfold ReadRequestBody. cbn [q_links q_sentall q_body q_chunked q_rest q_pos q_len]. destruct (q_sentall q); [reflexivity|].
  destruct (q_body q) as [body|]; [now destruct (q_chunked q)|]. destruct (q_chunked q).
  - now destruct (nonempty (firstn chunk (q_rest q))).
  - destruct (q_len q); [|reflexivity]. destruct (_ =? 0); [reflexivity|]. destruct (nonempty _); reflexivity.
Qed.
Lemma body_runs_det chunk q t qf : body_runs chunk q t qf -> forall q2 r b tr t' qf', q2 = q_links q r b tr -> body_runs chunk q2 t' qf' -> t = t'.
Proof.
  induction 1 as [q q' R|q q' data t qf R N _ IH]; intros q2 r b tr t' qf' -> B.
  - inversion B as [? ? R'|? ? data' t1 ? R' N' B']; subst; [reflexivity|]. rewrite ReadRequestBody_links, R in R'. congruence.
  - inversion B as [? ? R'|? ? data' t1 ? R' N' B']; subst; rewrite ReadRequestBody_links, R in R'; [congruence|].
    injection R' as <- <-. f_equal. eapply IH; [reflexivity|exact B'].
Qed.
Definition message (E : env) (q : req) (text : str) : Prop :=
  exists resp h chunked l head t qf,
    let q0 := q_links q (q_response q) true (q_try q) in
    ReadRequestHeader (e_url_cred E q) q0 = Ok (q_transfer q0 h chunked l, head) /\
    body_runs (e_chunk E) (q_links (q_transfer q0 h chunked l) (Some resp) true (q_try q)) t qf /\ text = head ++ t.
Lemma message_det E q a b : message E q a -> message E q b -> a = b.
Proof.
  intros (r1 & h1 & c1 & l1 & hd1 & t1 & qf1 & R1 & B1 & ->) (r2 & h2 & c2 & l2 & hd2 & t2 & qf2 & R2 & B2 & ->).
  rewrite R1 in R2. apply (f_equal (fun x => match x with Ok y => y | Err _ => (q, []) end)) in R2.
  assert (E2 : hd1 = hd2) by exact (f_equal snd R2). assert (E1 : q_transfer (q_links q (q_response q) true (q_try q)) h1 c1 l1 =
    q_transfer (q_links q (q_response q) true (q_try q)) h2 c2 l2) by exact (f_equal fst R2). subst hd2. f_equal.
  rewrite <- E1 in B2. eapply body_runs_det; [exact B1| |exact B2]. reflexivity.
Qed.
