(** C174-C181: the HTTP client.  The theorems, with examples that meet their hypotheses. *)
From Coq Require Import Lia.
From Verif Require Import Py Iso Dec XmlUtils XmlCharsSpec HttpCore HttpParams HttpSpec HttpConn HttpConnSpec HttpConnProofs HttpConnProofs2
  HttpConnProofs3 HttpConnProofs5 HttpConnProofs6 HttpConnProofs7 HttpConnProofs8.
Open Scope Z_scope.

(** ** An environment, requests and responses for the examples *)
Definition E0 : env := mkEnv 4 (fun _ => None) (fun _ => Ok []) (fun _ => Ok true) (fun _ => Ok (lit "/", lit "h")).
Definition get1 : req := new_req (lit "GET") (lit "/a") (lit "h") (Some []) [] false true.
Definition get2 : req := new_req (lit "GET") (lit "/b") (lit "h") (Some []) [] true true.
Definition post1 : req := new_req (lit "POST") (lit "/c") (lit "h") (Some (lit "xy")) [] false true.
Definition put1 : req := new_req (lit "PUT") (lit "/d") (lit "h") None (lit "abcdefghi") false true.
Definition nl : str := [13; 10].
Definition sending (n : nat) : input := mkInput true (Some (Sent n)) None false false.
Definition receiving (s : str) : input := mkInput true None (Some (Data s)) false false.
Definition sends_of (k n : nat) : list input := repeat (sending n) k.
(** Connections that have sent their requests *)
Definition sent1 : conn := run E0 ([OpNew get1; OpQueue 0] ++ tasks (sends_of 3 1000)) new_conn.
Definition sent2 : conn := run E0 ([OpNew get1; OpNew get2; OpQueue 0; OpQueue 1] ++ tasks (sends_of 6 1000)) new_conn.
Definition answered (q : req) (j : nat) : req := q_progress (q_links (q_transfer q (q_headers q) false (q_len q)) (Some j) false false) 0 true (q_rest q).

Definition h3 : head := mkHead (mkVersion 1 1) 200 (lit "OK") [(lit "Content-Length", lit " 3")].
Definition s3 : str := lit "HTTP/" ++ lit "1" ++ lit "." ++ lit "1" ++ lit " " ++ lit "200" ++ (32 :: lit "OK") ++ [13; 10] ++ fields_text (h_fields h3).
Definition hc : head := mkHead (mkVersion 1 1) 201 (lit "Created now") [(lit "X", lit " 1"); (lit "TRANSFER-encoding", lit " Chunked"); (lit "x", lit " 2,")].
Definition sc : str := lit "HTTP/" ++ lit "1" ++ lit "." ++ lit "1" ++ lit " " ++ lit "201" ++ (32 :: lit "Created now") ++ [13; 10] ++ fields_text (h_fields hc).
Definition tc : str := lit "3" ++ (59 :: lit "n" ++ 61 :: lit "v" ++ []) ++ [13; 10] ++ lit "abc" ++ [13; 10] ++
  (lit "0A" ++ [] ++ [13; 10] ++ lit "0123456789" ++ [13; 10] ++ (lit "0" ++ [] ++ [13; 10] ++ fields_text [(lit "T", lit " t")])).
Definition hu : head := mkHead (mkVersion 1 0) 200 [] [].
Definition su : str := lit "HTTP/" ++ lit "1" ++ lit "." ++ lit "0" ++ lit " " ++ lit "200" ++ [] ++ [13; 10] ++ fields_text (h_fields hu).
Definition h100 : head := mkHead (mkVersion 1 1) 100 (lit "Continue") [].
Definition s100 : str := lit "HTTP/" ++ lit "1" ++ lit "." ++ lit "1" ++ lit " " ++ lit "100" ++ (32 :: lit "Continue") ++ [13; 10] ++ fields_text (h_fields h100).

Ltac small := repeat (apply Forall_nil || (apply Forall_cons; [vm_compute; intuition (congruence || discriminate)|])).
Lemma dec_ok n s : decimal n s <-> s <> [] /\ Forall is_dec s /\ dval s = n. Proof. reflexivity. Qed.
Ltac dec := split; [discriminate|split; [small|reflexivity]].
Lemma one_line_text s : Forall (fun c => c <> 13) s -> one_line s.
Proof. intros F a b ->. rewrite Forall_forall in F. apply (F 13); [|reflexivity]. apply in_or_app. right. now left. Qed.
Ltac token := split; [discriminate|small].
Ltac field1 := split; [token|apply field_value_line, one_line_text; small].
Ltac fields := repeat (apply Forall_nil || (apply Forall_cons; [field1|])).
Lemma spaced_text s : (forall a b, s <> a ++ 32 :: 32 :: b) -> spaced s. Proof. exact (fun H => H). Qed.
Fixpoint no_double (s : str) : bool :=
  match s with c :: ((d :: _) as s') => negb ((c =? 32) && (d =? 32)) && no_double s' | _ => true end.
Lemma no_double_ok s : no_double s = true -> spaced s.
Proof.
  intros H a b ->. induction a as [|c a IH]; [discriminate|]. apply IH. cbn [app no_double] in H. destruct (a ++ 32 :: 32 :: b) eqn:X; [now destruct a|].
  now apply andb_true_iff in H.
Qed.
Ltac reason := apply reason_some; [discriminate|vm_compute; discriminate|split; [small|vm_compute; discriminate]|now apply no_double_ok].
Lemma head3 : head_text h3 s3.
Proof. apply head_text_intro; [dec|dec|dec|reason|fields]. Qed.
Lemma headc : head_text hc sc.
Proof. apply head_text_intro; [dec|dec|dec|reason|fields]. Qed.
Lemma headu : head_text hu su.
Proof. apply head_text_intro; [dec|dec|dec|apply reason_none|fields]. Qed.
Lemma head100 : head_text h100 s100.
Proof. apply head_text_intro; [dec|dec|dec|reason|fields]. Qed.
Lemma not_bodyless m h : (h_status h = 200 \/ h_status h = 201) -> m <> lit "HEAD" -> ~ bodyless m h.
Proof. intros S N [B|[B|[B|B]]]; [lia|lia|lia|contradiction]. Qed.
Lemma framed3 m : m <> lit "HEAD" -> framed m h3 (lit "abc") [] (lit "abc").
Proof.
  intros N. apply (framed_length m h3 (lit "abc") (lit "3") (lit " 3")); try reflexivity; [apply not_bodyless; [now left|exact N]| |dec|vm_compute; discriminate].
  exists [32], []. split; [reflexivity|]. split; [constructor; [now left|constructor]|constructor].
Qed.
Lemma framedc m : m <> lit "HEAD" -> framed m hc (lit "abc0123456789") [(lit "T", lit " t")] tc.
Proof.
  intros N. apply (framed_chunked m hc _ _ _ (lit "Chunked") (lit " Chunked")); try reflexivity.
  - apply not_bodyless; [now right|exact N].
  - exists [32], []. split; [reflexivity|]. split; [constructor; [now left|constructor]|constructor].
  - change (lit "abc0123456789") with (lit "abc" ++ lit "0123456789" ++ []). unfold tc. apply chunks_more; [discriminate|vm_compute; discriminate|dec| |].
    + apply extension_value; [token|token|constructor].
    + apply chunks_more; [discriminate|vm_compute; discriminate|dec|constructor|]. apply chunks_last; [dec|constructor|fields].
Qed.
Lemma waiting1 : exists q, waiting sent1 0 0 q /\ q_method q = lit "GET" /\ q_auto q = true.
Proof.
  destruct (nth_error (c_reqs sent1) 0) as [q|] eqn:X; [|vm_compute in X; discriminate]. exists q.
  assert (Some q = nth_error (c_reqs sent1) 0) as Y by now symmetry. vm_compute in Y. injection Y as ->.
  split; [|split; reflexivity]. split; [vm_compute; repeat split|]. split; [reflexivity|]. split; [reflexivity|].
  constructor; [reflexivity|reflexivity|vm_compute; repeat split|split; [reflexivity|now left]].
Qed.

(** ** C174: responses that say where they end *)

(** However the network cuts the bytes of a response into pieces, the client reports the status,
    the reason, the fields and the body of the response.  It does so once, nothing else happens,
    and the connection can be used again unless the response says otherwise. *)
Theorem C174_responses E c i j q h interim s body trailer text l :
  waiting c i j q -> interim_text interim -> head_text h s -> framed (q_method q) h body trailer text ->
  ~ (100 <= h_status h <= 199) -> plain_status q (h_status h) -> connection_ok (h_fields h ++ trailer) ->
  delivers l (interim ++ s ++ text) ->
  let c' := run E (tasks l) c in
  outcome c' i (h_status h) None body /\ shows c' j h trailer /\ others_kept c c' i /\
  c_log c' = c_log c ++ [EvFinished i (h_status h)] /\ c_wire c' = c_wire c /\ free c' /\
  (persists h trailer -> c_socket c' = true) /\ (closes h trailer -> c_socket c' = false).
Proof. apply answer_read. Qed.
Lemma delivers_one s : s <> [] -> delivers [receiving s] s.
Proof. intros N. exists [s]. split; [constructor; [split; reflexivity|constructor]|]. split; [now repeat constructor|]. cbn. apply app_nil_r. Qed.
Lemma delivers_app a b s t : delivers a s -> delivers b t -> delivers (a ++ b) (s ++ t).
Proof.
  intros (ss & A1 & A2 & A3) (tt & B1 & B2 & B3). exists (ss ++ tt). split; [now apply Forall2_app|]. split; [now apply Forall_app|].
  rewrite concat_app. congruence.
Qed.
Lemma delivers_each s : delivers (map (fun c => receiving [c]) s) s.
Proof.
  induction s as [|x s IH]; [exists []; repeat split; constructor|]. cbn [map]. change (x :: s) with ([x] ++ s).
  change (receiving [x] :: map (fun c => receiving [c]) s) with ([receiving [x]] ++ map (fun c => receiving [c]) s).
  apply delivers_app; [|exact IH]. apply delivers_one. discriminate.
Qed.
(** A chunked response after two interim ones, byte by byte *)
Example C174_chunked : exists q, waiting sent1 0 0 q /\ interim_text (s100 ++ s100 ++ []) /\ head_text hc sc /\
  framed (q_method q) hc (lit "abc0123456789") [(lit "T", lit " t")] tc /\ ~ (100 <= h_status hc <= 199) /\
  plain_status q (h_status hc) /\ connection_ok (h_fields hc ++ [(lit "T", lit " t")]) /\ persists hc [(lit "T", lit " t")] /\
  delivers (map (fun c => receiving [c]) ((s100 ++ s100 ++ []) ++ sc ++ tc)) ((s100 ++ s100 ++ []) ++ sc ++ tc).
Proof.
  destruct waiting1 as (q & W & M & A). exists q. split; [exact W|]. split.
  { apply (interim_some h100); [vm_compute; intuition congruence|apply head100|].
    apply (interim_some h100); [vm_compute; intuition congruence|apply head100|constructor]. }
  split; [apply headc|]. split; [rewrite M; apply framedc; discriminate|]. split; [vm_compute; intuition congruence|].
  split. { split; [vm_compute; discriminate|]. right. vm_compute. intuition congruence. }
  split; [exact I|]. split; [|apply delivers_each]. split; [right; vm_compute; intuition congruence|reflexivity].
Qed.
Example C174_result :
  let c' := run E0 (tasks (map (fun c => receiving [c]) ((s100 ++ s100 ++ []) ++ sc ++ tc))) sent1 in
  map (fun q => (q_status q, q_resBody q)) (c_reqs c') = [(201, lit "abc0123456789")] /\
  map (fun r => GetHeader (r_headers r) (lit "x")) (c_resps c') = [Some (lit " 1,  2,")].
Proof. vm_compute. split; reflexivity. Qed.

(** ** C175: responses that end with the connection *)
Theorem C175_until_close E c i j q h interim s body l a :
  waiting c i j q -> interim_text interim -> head_text h s -> until_close (q_method q) h ->
  ~ (100 <= h_status h <= 199) -> plain_status q (h_status h) ->
  delivers l (interim ++ s ++ body) -> hangs_up a ->
  let c' := run E (tasks (l ++ [a])) c in
  outcome c' i (h_status h) None body /\ shows c' j h [] /\ others_kept c c' i /\
  c_log c' = c_log c ++ [EvFinished i (h_status h)] /\ c_wire c' = c_wire c /\ free c' /\ c_socket c' = false.
Proof. apply answer_until_close. Qed.
Example C175_example : exists q, waiting sent1 0 0 q /\ interim_text [] /\ head_text hu su /\ until_close (q_method q) hu /\
  ~ (100 <= h_status hu <= 199) /\ plain_status q (h_status hu) /\
  delivers [receiving (su ++ lit "ab"); receiving (lit "c")] ([] ++ su ++ lit "abc") /\ hangs_up (receiving []).
Proof.
  destruct waiting1 as (q & W & M & A). exists q. split; [exact W|]. split; [constructor|]. split; [apply headu|].
  split. { split; [rewrite M; apply not_bodyless; [now left|discriminate]|]. split; reflexivity. }
  split; [vm_compute; intuition congruence|]. split. { split; [vm_compute; discriminate|]. right. vm_compute. intuition congruence. }
  split; [|split; reflexivity]. exists [su ++ lit "ab"; lit "c"].
  split; [repeat (constructor; [split; reflexivity|]); constructor|]. split; [repeat (constructor; [discriminate|]); constructor|reflexivity].
Qed.
Example C175_result :
  map (fun q => (q_status q, q_resBody q)) (c_reqs (run E0 (tasks [receiving (su ++ lit "ab"); receiving (lit "c"); receiving []]) sent1)) =
  [(200, lit "abc")].
Proof. vm_compute. reflexivity. Qed.

(** ** C176: responses that are cut off *)

(** Whatever part of a response has come when the server closes the connection: the request is
    finished once, and the caller gets the status of the response with a part of its body, or
    status 0. *)
Theorem C176_cut_off_partial E c i j q h s body trailer text l a sofar missing :
  waiting c i j q -> head_text h s -> framed (q_method q) h body trailer text ->
  ~ (100 <= h_status h <= 199) -> plain_status q (h_status h) ->
  sofar ++ missing = s ++ text -> missing <> [] -> delivers l sofar -> hangs_up a ->
  let c' := run E (tasks (l ++ [a])) c in
  exists q', nth_error (c_reqs c') i = Some q' /\ q_error q' = None /\ q_done q' = true /\ free c' /\ c_socket c' = false /\
    ((q_status q' = 0 /\ c_log c' = c_log c ++ [EvFinished i 0]) \/
     (q_status q' = h_status h /\ c_log c' = c_log c ++ [EvFinished i (h_status h)] /\
      exists more, body = received_body q' ++ more)).
Proof. apply answer_cut. Qed.
Lemma cut_case : exists q, waiting sent1 0 0 q /\ head_text h3 s3 /\ framed (q_method q) h3 (lit "abc") [] (lit "abc") /\
  ~ (100 <= h_status h3 <= 199) /\ plain_status q (h_status h3) /\ (s3 ++ lit "ab") ++ lit "c" = s3 ++ lit "abc" /\
  lit "c" <> [] /\ delivers [receiving (s3 ++ lit "ab")] (s3 ++ lit "ab") /\ hangs_up (receiving []).
Proof.
  destruct waiting1 as (q & W & M & A). exists q. split; [exact W|]. split; [apply head3|]. split; [rewrite M; apply framed3; discriminate|].
  split; [vm_compute; intuition congruence|]. split. { split; [vm_compute; discriminate|]. right. vm_compute. intuition congruence. }
  split; [reflexivity|]. split; [discriminate|]. split; [apply delivers_one; discriminate|split; reflexivity].
Qed.
(** The caller is not told that a part is missing: the status is that of a good response and
    there is no error. *)
Theorem C176_refuted : ~ (forall E c i j q h s body trailer text l a sofar missing,
  waiting c i j q -> head_text h s -> framed (q_method q) h body trailer text ->
  ~ (100 <= h_status h <= 199) -> plain_status q (h_status h) ->
  sofar ++ missing = s ++ text -> missing <> [] -> delivers l sofar -> hangs_up a ->
  exists q', nth_error (c_reqs (run E (tasks (l ++ [a])) c)) i = Some q' /\ (q_error q' <> None \/ q_status q' = 0)).
Proof.
  intros H. destruct cut_case as (q & A1 & A2 & A3 & A4 & A5 & A6 & A7 & A8 & A9).
  destruct (H E0 sent1 0%nat 0%nat q h3 s3 _ _ _ _ _ _ _ A1 A2 A3 A4 A5 A6 A7 A8 A9) as (q' & X & Y).
  vm_compute in X. injection X as <-. destruct Y as [Y|Y]; [now apply Y|discriminate].
Qed.

(** ** C177: several responses on one connection *)

(** Responses that were asked for one after the other are given to their requests in this order,
    if no piece holds bytes of two of them. *)
Theorem C177_in_order_partial E xs c :
  quiescent c -> c_response c = hd_error (map x_resp xs) -> c_respq c = tl (map x_resp xs) ->
  NoDup (map x_req xs) -> NoDup (map x_resp xs) -> Forall (exchange_ok c) xs ->
  let c' := run E (tasks (concat (map x_pieces xs))) c in
  Forall (fun x => outcome c' (x_req x) (h_status (x_head x)) None (x_body x) /\
                   shows c' (x_resp x) (x_head x) (x_trailer x)) xs /\
  (forall k, ~ In k (map x_req xs) -> nth_error (c_reqs c') k = nth_error (c_reqs c) k) /\
  c_log c' = c_log c ++ map (fun x => EvFinished (x_req x) (h_status (x_head x))) xs /\
  c_wire c' = c_wire c /\ free c' /\ c_socket c' = true.
Proof.
  intros A B C D F G. destruct (answers_in_order E xs c A B C D F G) as (H1 & H2 & _ & H4 & H5 & H6 & H7).
  exact (conj H1 (conj H2 (conj H4 (conj H5 (conj H6 H7))))).
Qed.
Definition x0 (l : list input) : exchange := mkExchange 0 0 h3 [] (lit "abc") l.
Definition x1 (l : list input) : exchange := mkExchange 1 1 hc [(lit "T", lit " t")] (lit "abc0123456789") l.
Lemma quiet2 : quiescent sent2. Proof. vm_compute. repeat split. Qed.
Lemma awaited2 k : (k = 0 \/ k = 1)%nat -> exists q, awaited sent2 k k q /\ q_method q = lit "GET" /\ q_auto q = true.
Proof.
  intros [-> | ->].
  - destruct (nth_error (c_reqs sent2) 0) as [q|] eqn:X; [|vm_compute in X; discriminate]. exists q.
    assert (Some q = nth_error (c_reqs sent2) 0) as Y by now symmetry. vm_compute in Y. injection Y as ->.
    split; [|split; reflexivity].
    constructor; [reflexivity|reflexivity|vm_compute; repeat split|split; [reflexivity|now left]].
  - destruct (nth_error (c_reqs sent2) 1) as [q|] eqn:X; [|vm_compute in X; discriminate]. exists q.
    assert (Some q = nth_error (c_reqs sent2) 1) as Y by now symmetry. vm_compute in Y. injection Y as ->.
    split; [|split; reflexivity].
    constructor; [reflexivity|reflexivity|vm_compute; repeat split|split; [reflexivity|now right]].
Qed.
Lemma plain_200 q s : (s = 200 \/ s = 201) -> plain_status q s. Proof. intros H. split; [lia|]. right. lia. Qed.
Lemma answer0 q : q_method q = lit "GET" -> answer_ok q (x0 [receiving (s3 ++ lit "abc")]).
Proof.
  intros M. exists [], s3, (lit "abc"). cbn [x0 x_head x_body x_trailer x_pieces]. split; [constructor|]. split; [apply head3|].
  split; [rewrite M; apply framed3; discriminate|]. split; [vm_compute; intuition congruence|]. split; [apply plain_200; now left|].
  split; [split; [right; vm_compute; intuition congruence|reflexivity]|]. apply delivers_one. discriminate.
Qed.
Lemma answer1 q : q_method q = lit "GET" -> answer_ok q (x1 [receiving (s100 ++ sc ++ tc)]).
Proof.
  intros M. exists (s100 ++ []), sc, tc. cbn [x1 x_head x_body x_trailer x_pieces].
  split; [apply (interim_some h100); [vm_compute; intuition congruence|apply head100|constructor]|]. split; [apply headc|].
  split; [rewrite M; apply framedc; discriminate|]. split; [vm_compute; intuition congruence|]. split; [apply plain_200; now right|].
  split; [split; [right; vm_compute; intuition congruence|reflexivity]|]. rewrite app_nil_r. apply delivers_one. discriminate.
Qed.
Example C177_example : let xs := [x0 [receiving (s3 ++ lit "abc")]; x1 [receiving (s100 ++ sc ++ tc)]] in
  quiescent sent2 /\ c_response sent2 = hd_error (map x_resp xs) /\ c_respq sent2 = tl (map x_resp xs) /\
  NoDup (map x_req xs) /\ NoDup (map x_resp xs) /\ Forall (exchange_ok sent2) xs.
Proof.
  cbv zeta. split; [apply quiet2|]. split; [reflexivity|]. split; [reflexivity|].
  assert (N : NoDup [0%nat; 1%nat]) by (repeat constructor; cbn; intuition lia). split; [exact N|]. split; [exact N|].
  constructor; [|constructor; [|constructor]].
  - destruct (awaited2 0) as (q & A & M & _); [now left|]. exists q. split; [exact A|now apply answer0].
  - destruct (awaited2 1) as (q & A & M & _); [now right|]. exists q. split; [exact A|now apply answer1].
Qed.
Example C177_result :
  map (fun q => (q_status q, received_body q)) (c_reqs (run E0 (tasks [receiving (s3 ++ lit "abc"); receiving (s100 ++ sc ++ tc)]) sent2)) =
  [(200, lit "abc"); (201, lit "abc0123456789")].
Proof. vm_compute. reflexivity. Qed.
(** If one piece holds both responses, the second one is not given to its request. *)
Theorem C177_refuted : ~ (forall E c i1 j1 q1 i2 j2 q2 h1 s1 b1 h2 s2 b2 l,
  quiescent c -> c_response c = Some j1 -> c_respq c = [j2] -> i1 <> i2 -> j1 <> j2 ->
  awaited c i1 j1 q1 -> awaited c i2 j2 q2 ->
  head_text h1 s1 -> framed (q_method q1) h1 b1 [] b1 -> head_text h2 s2 -> framed (q_method q2) h2 b2 [] b2 ->
  h_status h1 = 200 -> h_status h2 = 200 -> persists h1 [] -> persists h2 [] ->
  delivers l ((s1 ++ b1) ++ (s2 ++ b2)) ->
  outcome (run E (tasks l) c) i1 200 None b1 /\ outcome (run E (tasks l) c) i2 200 None b2).
Proof.
  intros H. destruct (awaited2 0) as (q1 & A1 & M1 & _); [now left|]. destruct (awaited2 1) as (q2 & A2 & M2 & _); [now right|].
  assert (P : persists h3 []) by (split; [right; vm_compute; intuition congruence|reflexivity]).
  assert (F1 : framed (q_method q1) h3 (lit "abc") [] (lit "abc")) by (rewrite M1; apply framed3; discriminate).
  assert (F2 : framed (q_method q2) h3 (lit "abc") [] (lit "abc")) by (rewrite M2; apply framed3; discriminate).
  assert (N : 0%nat <> 1%nat) by discriminate.
  assert (D : delivers [receiving ((s3 ++ lit "abc") ++ (s3 ++ lit "abc"))] ((s3 ++ lit "abc") ++ (s3 ++ lit "abc"))) by (apply delivers_one; discriminate).
  assert (R1 : c_response sent2 = Some 0%nat) by reflexivity. assert (R2 : c_respq sent2 = [1%nat]) by reflexivity.
  destruct (H E0 sent2 0%nat 0%nat q1 1%nat 1%nat q2 h3 s3 (lit "abc") h3 s3 (lit "abc") _ quiet2 R1 R2 N N A1 A2 head3 F1 head3 F2 eq_refl eq_refl P P D)
    as [_ (q' & X & Y & _)].
  vm_compute in X. injection X as <-. discriminate.
Qed.
(** It is lost if the server closes the connection then. *)
Example C177_lost :
  map (fun q => (q_status q, q_error q)) (c_reqs (run E0 (tasks [receiving ((s3 ++ lit "abc") ++ (s3 ++ lit "abc")); receiving []]) sent2)) =
  [(200, None); (0, None)].
Proof. vm_compute. reflexivity. Qed.

(** ** C178: what a request looks like on the wire *)

(** However few bytes the socket takes at a time: once it has been ready often enough, the
    server has got the request line, the caller's fields and a body it can delimit, and the
    client waits for the response.  Before that, it has got a beginning of them. *)
Theorem C178_request_partial E c i q :
  e_chunk E <> O -> by_request E -> ready c -> c_response c = None -> c_respq c = [] -> c_queue c = [i] -> new_request c i q ->
  exists m, request_text (e_url_cred E q) q m /\
  forall l, Forall sends l ->
    ((enough [m] <= times_writable l)%nat ->
      let c' := run E (tasks l) c in
      sent_text c m c' /\ others_kept c c' i /\ c_log c' = c_log c /\
      exists q', waiting c' i (length (c_resps c)) q' /\ q_method q' = q_method q /\ q_auto q' = q_auto q) /\
    (l <> [] -> exists x more, m = x ++ more /\ sent_text c x (run E (tasks l) c)).
Proof.
  intros Hc Hb Rd Rn Rq Hq New.
  destruct (requests_sent E Hc Hb [i] c Rd (fun _ => Rq) Hq) as (ms & Hms & Run).
  - constructor; [easy|constructor].
  - intros k [<-|[]]. now exists q.
  - intros [|k] j qj; [now right|]. destruct k; discriminate.
  - now left.
  - inversion Hms as [|? m ? ms' (q1 & N & T & _) Hn]; subst. inversion Hn; subst. destruct New as (N' & F & S).
    assert (q1 = q) by congruence. subst q1. exists m. split; [exact T|]. intros l Hl. destruct (Run l Hl) as [Ra Rp]. split.
    + intros En. destruct (Ra En) as [(S1 & S1b & S1c & S1d & S1e & S1f) S2 S3 (w & ws & S4 & S4') S5 [S6 S6'] S7 S8 S9]. cbv zeta. split; [|split; [|split; [exact S8|]]].
      * unfold sent_text, W in *. cbn [concat] in S4'. rewrite app_nil_r in S4'. destruct (c_socket c); [eauto|]. injection S4 as <- <-. exact S4'.
      * intros k Nk. apply S7. intros [->|[]]. congruence.
      * destruct (S9 O i eq_refl) as (q2 & q' & N2 & Aw & M & A & _). assert (q2 = q) by congruence. subst q2.
        exists q'. split; [|now split]. rewrite Nat.add_0_r in Aw.
        assert (Pe : pending (run E (tasks l) c) = [length (c_resps c)]).
        { rewrite S6'. unfold pending. now rewrite Rn. }
        unfold pending in Pe. destruct (c_response (run E (tasks l) c)) as [j|] eqn:X; [|congruence]. injection Pe as -> Pq.
        split; [now repeat split|]. split; [exact X|]. split; [exact Pq|exact Aw].
    + intros Nl. destruct (Rp Nl) as (x & more & w & ws & Ex & Hw & Hw'). cbn [concat] in Ex. rewrite app_nil_r in Ex.
      exists x, more. split; [exact Ex|]. unfold sent_text, W in *. destruct (c_socket c); [eauto|]. injection Hw as <- <-. exact Hw'.
Qed.
Definition queued (qs : list req) (is : list nat) : conn := run E0 (map OpNew qs ++ map OpQueue is) new_conn.
Lemma fresh_new m u host body source stream auto : fresh (new_req m u host body source stream auto).
Proof.
  constructor.
  - repeat split.
  - split; reflexivity.
  - split; [reflexivity|]. destruct stream; [now right|now left].
  - split; discriminate.
  - exact (headers_set (lit "Host") (Some host) false [] headers_none).
Qed.
Lemma sendable_new m u host body source stream auto :
  Z.of_nat (length (match body with Some b => b | None => source end)) + 2 <= maxint -> sendable (new_req m u host body source stream auto).
Proof. intros H. constructor; try exact H; try (intros v X; vm_compute in X; discriminate). reflexivity. Qed.
(** A stream that is sent in chunks *)
Example C178_example : e_chunk E0 <> O /\ by_request E0 /\ ready (queued [put1] [0%nat]) /\ c_response (queued [put1] [0%nat]) = None /\
  c_respq (queued [put1] [0%nat]) = [] /\ c_queue (queued [put1] [0%nat]) = [0%nat] /\ new_request (queued [put1] [0%nat]) 0 put1.
Proof.
  split; [discriminate|]. split; [now intros q r b t|]. split; [vm_compute; repeat split; discriminate|]. split; [reflexivity|]. split; [reflexivity|].
  split; [reflexivity|]. split; [reflexivity|]. split; [apply fresh_new|]. apply sendable_new. vm_compute. discriminate.
Qed.
Example C178_result : c_wire (run E0 (tasks (sends_of 120 1)) (queued [put1] [0%nat])) =
  [lit "PUT /d HTTP/1.1" ++ nl ++ lit "Host: h" ++ nl ++ lit "Transfer-Encoding: chunked" ++ nl ++ nl ++
   lit "4" ++ nl ++ lit "abcd" ++ nl ++ lit "4" ++ nl ++ lit "efgh" ++ nl ++ lit "1" ++ nl ++ lit "i" ++ nl ++ lit "0" ++ nl ++ nl].
Proof. vm_compute. reflexivity. Qed.
(** With an empty string as body and "Transfer-Encoding: chunked" the client sends five bytes
    too many; the server takes them for the beginning of the next request. *)
Definition empty1 : req :=
  q_transfer (new_req (lit "POST") (lit "/c") (lit "h") (Some []) [] false true)
    (SetHeader (lit "Transfer-Encoding") (Some (lit "chunked")) false (SetHeader (lit "Host") (Some (lit "h")) false [])) false None.
Lemma empty_chunks body trailer text : chunks body trailer text -> body = [] -> trailer = [] -> exists size e,
  hexadecimal 0 size /\ extension e /\ text = size ++ e ++ [13; 10; 13; 10].
Proof.
  intros [size e t H X _|size e data b t rest N _ _ _ _] B T.
  - subst t. exists size, e. exact (conj H (conj X eq_refl)).
  - destruct data; [congruence|discriminate].
Qed.
Theorem C178_refuted : ~ (forall E c i q l a t,
  e_chunk E <> O -> by_request E -> ready c -> c_response c = None -> c_respq c = [] -> c_queue c = [i] ->
  nth_error (c_reqs c) i = Some q -> fresh q -> GetHeader (q_headers q) (lit "Transfer-Encoding") = Some (lit "chunked") ->
  GetHeader (q_headers q) (lit "Expect") = None -> c_socket c = false -> Forall sends l -> c_request (run E (tasks l) c) = None ->
  c_wire (run E (tasks l) c) = (a ++ [13; 10; 13; 10] ++ t) :: c_wire c -> (forall x y, a ++ [13; 10; 13] <> x ++ [13; 10; 13; 10] ++ y) ->
  chunks (payload q) [] t).
Proof.
  intros H. set (a := lit "POST /c HTTP/1.1" ++ nl ++ lit "Host: h" ++ nl ++ lit "Transfer-Encoding: chunked").
  assert (X : chunks [] [] (lit "0" ++ nl ++ nl ++ lit "0" ++ nl ++ nl)).
  { apply (H E0 (queued [empty1] [0%nat]) 0%nat empty1 (sends_of 5 1000) a).
    - discriminate.
    - now intros q r b t.
    - vm_compute. repeat split; discriminate.
    - reflexivity.
    - reflexivity.
    - reflexivity.
    - reflexivity.
    - constructor; [repeat split|split; reflexivity|split; [reflexivity|now left]|split; discriminate|].
      exact (headers_set (lit "Transfer-Encoding") (Some (lit "chunked")) false _ (headers_set (lit "Host") (Some (lit "h")) false [] headers_none)).
    - reflexivity.
    - reflexivity.
    - reflexivity.
    - apply Forall_forall. intros b Hb. apply repeat_spec in Hb. subst b. repeat split. right. exists 1000%nat. split; [reflexivity|lia].
    - vm_compute. reflexivity.
    - vm_compute. reflexivity.
    - intros x y E.
      clear - E. unfold a, nl in E. vm_compute in E.
      repeat (destruct x as [|? x]; [discriminate|injection E as _ E]). destruct x; discriminate. }
  destruct (empty_chunks _ _ _ X eq_refl eq_refl) as (size & e & (N & F & _) & Ex & Et).
  destruct size as [|c1 [|c2 size]]; [congruence| |].
  - injection Et as _ Et. destruct Ex; try discriminate.
  - injection Et as _ <- _. apply Forall_inv_tail, Forall_inv in F. vm_compute in F. intuition congruence.
Qed.

(** ** C179: requests are sent in order *)

(** Requests that may be repeated are sent one after the other, each of them once and in the
    order in which they were queued, without waiting for responses. *)
Theorem C179_in_order_partial E c is :
  e_chunk E <> O -> by_request E -> ready c -> linked c -> c_queue c = is -> is <> [] -> NoDup is ->
  (forall i, In i is -> exists q, new_request c i q /\ idempotent (q_method q) = true) ->
  exists ms, Forall2 (fun i m => exists q, nth_error (c_reqs c) i = Some q /\ request_text (e_url_cred E q) q m) is ms /\
  forall l, Forall sends l ->
    ((enough ms <= times_writable l)%nat ->
      let c' := run E (tasks l) c in
      sent_text c (concat ms) c' /\ c_queue c' = [] /\ c_request c' = None /\ c_log c' = c_log c /\
      pending c' = pending c ++ seq (length (c_resps c)) (length is) /\
      forall k i, nth_error is k = Some i -> exists q', awaited c' i (length (c_resps c) + k) q') /\
    (l <> [] -> exists x more, concat ms = x ++ more /\ sent_text c x (run E (tasks l) c)).
Proof.
  intros Hc Hb Rd Lk Hq Ne Nd New. destruct (requests_sent E Hc Hb is c Rd Lk Hq Nd) as (ms & Hms & Run).
  - intros i Hi. destruct (New i Hi) as (q & N & _). now exists q.
  - intros k i q Hk Hi. left. destruct (New i) as (q' & N & I); [eapply nth_error_In; exact Hk|]. destruct N as (N & _).
    assert (q' = q) by congruence. now subst.
  - now left.
  - exists ms. split.
    { clear - Hms. induction Hms as [|i m is ms (q & N & T & _) _ IH]; constructor; [now exists q|exact IH]. }
    intros l Hl. destruct (Run l Hl) as [Ra Rp]. split.
    + intros En. destruct (Ra En) as [S1 S2 S3 (w & ws & S4 & S4') S5 [S6 S6'] S7 S8 S9]. cbv zeta.
      refine (conj _ (conj S2 (conj (proj1 S1) (conj S8 (conj S6' _))))).
      * unfold sent_text, W in *. destruct (c_socket c); [eauto|]. injection S4 as <- <-. exact S4'.
      * intros k i Hk. destruct (S9 k i Hk) as (q & q' & _ & A & _). now exists q'.
    + intros Nl. destruct (Rp Nl) as (x & more & w & ws & Ex & Hw & Hw').
      exists x, more. split; [exact Ex|]. unfold sent_text, W in *. destruct (c_socket c); [eauto|]. injection Hw as <- <-. exact Hw'.
Qed.
Definition two : conn := queued [get1; put1] [0%nat; 1%nat].
Example C179_example : e_chunk E0 <> O /\ by_request E0 /\ ready two /\ linked two /\ c_queue two = [0%nat; 1%nat] /\
  (forall i, In i [0%nat; 1%nat] -> exists q, new_request two i q /\ idempotent (q_method q) = true).
Proof.
  split; [discriminate|]. split; [now intros q r b t|]. split; [vm_compute; repeat split; discriminate|]. split; [now intros _|].
  split; [reflexivity|]. intros i [<-|[<-|[]]].
  - exists get1. split; [|reflexivity]. split; [reflexivity|]. split; [apply fresh_new|]. apply sendable_new. vm_compute. discriminate.
  - exists put1. split; [|reflexivity]. split; [reflexivity|]. split; [apply fresh_new|]. apply sendable_new. vm_compute. discriminate.
Qed.
(** A request that must not be repeated is sent while the response to another one is awaited,
    and it is sent again and again. *)
Definition post_queued : conn := step E0 (step E0 sent1 (OpNew post1)) (OpQueue 1).
Definition post_head : str := lit "POST /c HTTP/1.1" ++ nl ++ lit "Content-Length: 2" ++ nl ++ lit "Host: h" ++ nl ++ nl.
Definition post_text : str := post_head ++ lit "xy".
Theorem C179_refuted : ~ (forall E c i rest q l,
  e_chunk E <> O -> by_request E -> ready c -> linked c -> pending c <> [] -> c_queue c = i :: rest -> c_socket c = true ->
  new_request c i q -> idempotent (q_method q) = false -> Forall sends l -> c_wire (run E (tasks l) c) = c_wire c).
Proof.
  intros H. assert (X : c_wire (run E0 (tasks (sends_of 8 1000)) post_queued) = c_wire post_queued).
  { apply (H E0 post_queued 1%nat [] post1).
    - discriminate.
    - now intros q r b t.
    - vm_compute. repeat split; discriminate.
    - intros Y. vm_compute in Y. discriminate.
    - vm_compute. discriminate.
    - reflexivity.
    - reflexivity.
    - split; [reflexivity|]. split; [apply fresh_new|]. apply sendable_new. vm_compute. discriminate.
    - reflexivity.
    - apply Forall_forall. intros b Hb. apply repeat_spec in Hb. subst b. repeat split. right. exists 1000%nat. split; [reflexivity|lia]. }
  vm_compute in X. discriminate.
Qed.
Example C179_again : exists w, c_wire post_queued = [w] /\
  c_wire (run E0 (tasks (sends_of 8 1000)) post_queued) = [w ++ post_text ++ post_head ++ post_head].
Proof. eexists. split; vm_compute; reflexivity. Qed.

(** ** C180: whole exchanges *)

(** A caller queues requests that may be repeated on an open connection (or a new one).  The socket takes
    the bytes as slowly as it likes, then the responses come in pieces.  Each request gets its
    response, and its Finished method is called once. *)
Theorem C180_exchanges_partial E c is :
  e_chunk E <> O -> by_request E -> ready c -> c_response c = None -> c_respq c = [] -> c_queue c = is -> is <> [] -> NoDup is ->
  (forall i, In i is -> exists q, new_request c i q /\ idempotent (q_method q) = true) ->
  exists ms, Forall2 (fun i m => exists q, nth_error (c_reqs c) i = Some q /\ request_text (e_url_cred E q) q m) is ms /\
  forall l xs, Forall sends l -> (enough ms <= times_writable l)%nat ->
    map x_req xs = is -> map x_resp xs = seq (length (c_resps c)) (length is) ->
    (forall x q, In x xs -> nth_error (c_reqs c) (x_req x) = Some q -> answer_ok q x) ->
    let c' := run E (tasks (l ++ concat (map x_pieces xs))) c in
    sent_text c (concat ms) c' /\
    Forall (fun x => outcome c' (x_req x) (h_status (x_head x)) None (x_body x) /\
                     shows c' (x_resp x) (x_head x) (x_trailer x)) xs /\
    (forall k, ~ In k is -> nth_error (c_reqs c') k = nth_error (c_reqs c) k) /\
    c_log c' = c_log c ++ map (fun x => EvFinished (x_req x) (h_status (x_head x))) xs /\ free c' /\ c_socket c' = true.
Proof.
  intros Hc Hb Rd Rn Rq Hq Ne Nd New. destruct (requests_sent E Hc Hb is c Rd (fun _ => Rq) Hq Nd) as (ms & Hms & Run).
  - intros i Hi. destruct (New i Hi) as (q & N & _). now exists q.
  - intros k i q Hk Hi. left. destruct (New i) as (q' & N & I); [eapply nth_error_In; exact Hk|]. destruct N as (N & _).
    assert (q' = q) by congruence. now subst.
  - now left.
  - exists ms. split.
    { clear - Hms. induction Hms as [|i m is ms (q & N & T & _) _ IH]; constructor; [now exists q|exact IH]. }
    intros l xs Hl En Xi Xj Ans. destruct (Run l Hl) as [Ra _].
    destruct (Ra En) as [(S1a & S1b & S1c & S1d & S1e & S1f) S2 S3 (w & ws & S4 & S4') S5 [S6 S6'] S7 S8 S9]. clear Ra Run.
    cbv zeta. rewrite run_app. set (c1 := run E (tasks l) c) in *.
    assert (Pe : pending c1 = map x_resp xs) by (rewrite S6', Xj; unfold pending; now rewrite Rn).
    destruct (answers_in_order E xs c1) as (H1 & H2 & _ & H4 & H5 & H6 & H7).
    + now repeat split.
    + unfold pending in Pe. destruct (c_response c1); [|congruence]. now rewrite <- Pe.
    + unfold pending in Pe. destruct (c_response c1); [|congruence]. now rewrite <- Pe.
    + now rewrite Xi.
    + rewrite Xj. apply seq_NoDup.
    + apply Forall_forall. intros x Hx. apply In_nth_error in Hx. destruct Hx as (k & Hk).
      assert (Hi : nth_error is k = Some (x_req x)) by (rewrite <- Xi; now apply map_nth_error).
      assert (Hj : nth_error (seq (length (c_resps c)) (length is)) k = Some (x_resp x)) by (rewrite <- Xj; now apply map_nth_error).
      assert (Lk : (k < length is)%nat) by (apply nth_error_Some; congruence).
      assert (Ej : x_resp x = (length (c_resps c) + k)%nat).
      { apply (nth_error_nth _ _ O) in Hj. rewrite seq_nth in Hj by exact Lk. congruence. }
      destruct (S9 k (x_req x) Hi) as (q & q' & N & Aw & M & A & _). exists q'. split; [now rewrite Ej|].
      destruct (Ans x q) as (interim & s & text & A1 & A2 & A3 & A4 & A5 & A6); [eapply nth_error_In; exact Hk|exact N|].
      exists interim, s, text. rewrite M. unfold plain_status in *. rewrite A. exact (conj A1 (conj A2 (conj A3 (conj A4 (conj A5 A6))))).
    + split; [|split; [exact H1|split; [|split; [|split; assumption]]]].
      * unfold sent_text, W in *. rewrite H5. destruct (c_socket c); [eauto|]. injection S4 as <- <-. exact S4'.
      * intros k Hk. rewrite H2; [now apply S7|now rewrite Xi].
      * rewrite H4, S8. reflexivity.
Qed.
Definition gets : conn := queued [get1; get2] [0%nat; 1%nat].
Example C180_example : e_chunk E0 <> O /\ by_request E0 /\ ready gets /\ c_response gets = None /\ c_respq gets = [] /\
  c_queue gets = [0%nat; 1%nat] /\
  (forall i, In i [0%nat; 1%nat] -> exists q, new_request gets i q /\ idempotent (q_method q) = true) /\
  let xs := [x0 [receiving (s3 ++ lit "abc")]; x1 [receiving (s100 ++ sc ++ tc)]] in
  map x_req xs = [0%nat; 1%nat] /\ map x_resp xs = seq (length (c_resps gets)) 2 /\
  forall x q, In x xs -> nth_error (c_reqs gets) (x_req x) = Some q -> answer_ok q x.
Proof.
  split; [discriminate|]. split; [now intros q r b t|]. split; [vm_compute; repeat split; discriminate|]. split; [reflexivity|].
  split; [reflexivity|]. split; [reflexivity|]. split.
  { intros i [<-|[<-|[]]].
    - exists get1. split; [|reflexivity]. split; [reflexivity|]. split; [apply fresh_new|]. apply sendable_new. vm_compute. discriminate.
    - exists get2. split; [|reflexivity]. split; [reflexivity|]. split; [apply fresh_new|]. apply sendable_new. vm_compute. discriminate. }
  cbv zeta. split; [reflexivity|]. split; [reflexivity|]. intros x q [<-|[<-|[]]] H; injection H as <-.
  - now apply answer0.
  - now apply answer1.
Qed.
(** With "Expect: 100-continue" the method is called twice, the first time with status 100 and
    before the response has come. *)
Definition expect1 : req :=
  q_transfer post1 (SetHeader (lit "Expect") (Some (lit "100-continue")) false (q_headers post1)) false None.
Definition finished_times (i : nat) (l : list event) : nat :=
  length (filter (fun e => match e with EvFinished k _ => Nat.eqb k i | _ => false end) l).
Theorem C180_refuted : ~ (forall E q l, fresh q -> q_auto q = false ->
  (finished_times 0 (c_log (run E ([OpNew q; OpQueue 0] ++ tasks l) new_conn)) <= 1)%nat).
Proof.
  intros H. set (q := mkReq (q_method expect1) (q_url expect1) (q_version expect1) (q_headers expect1) false None 0 false (q_body expect1) [] [] 0 None None false [] [] None
    false false false).
  assert (F : fresh q).
  { constructor; [repeat split|split; reflexivity|split; [reflexivity|now left]|split; discriminate|].
    exact (headers_set (lit "Expect") (Some (lit "100-continue")) false _ (headers_set (lit "Host") (Some (lit "h")) false [] headers_none)). }
  specialize (H E0 q (sends_of 2 1000 ++ [receiving s100] ++ sends_of 3 1000 ++ [receiving (s3 ++ lit "abc")]) F eq_refl).
  vm_compute in H. lia.
Qed.
Example C180_interim : c_log (run E0 ([OpNew expect1; OpQueue 0] ++ tasks (sends_of 2 1000 ++ [receiving s100] ++ sends_of 3 1000)) new_conn) =
  [EvFinished 0 100].
Proof. vm_compute. reflexivity. Qed.

(** ** C181: every response is handed over *)

(** After a response the client raises nothing. *)
Theorem C181_no_exception_partial E c i j q h s body trailer text l :
  waiting c i j q -> head_text h s -> framed (q_method q) h body trailer text ->
  ~ (100 <= h_status h <= 199) -> plain_status q (h_status h) -> connection_ok (h_fields h ++ trailer) ->
  delivers l (s ++ text) -> (forall e, In (EvRaised e) (c_log (run E (tasks l) c)) -> In (EvRaised e) (c_log c)).
Proof.
  intros A B C D F G H e X. destruct (answer_read E c i j q h [] s body trailer text l A interim_none B C D F G H) as (_ & _ & _ & L & _).
  rewrite L in X. apply in_app_or in X. destruct X as [X|[X|[]]]; [exact X|discriminate].
Qed.
Definition h304 : head := mkHead (mkVersion 1 1) 304 [] [].
Definition s304 : str := lit "HTTP/" ++ lit "1" ++ lit "." ++ lit "1" ++ lit " " ++ lit "304" ++ [] ++ [13; 10] ++ fields_text (h_fields h304).
(** A response "304 Not Modified" ends the thread with an AttributeError. *)
Theorem C181_refuted : ~ (forall E c i j q h s body trailer text l,
  waiting c i j q -> head_text h s -> framed (q_method q) h body trailer text ->
  ~ (100 <= h_status h <= 199) -> h_status h <> 401 -> connection_ok (h_fields h ++ trailer) ->
  delivers l (s ++ text) -> (forall e, In (EvRaised e) (c_log (run E (tasks l) c)) -> In (EvRaised e) (c_log c))).
Proof.
  intros H. destruct waiting1 as (q & W & M & A).
  assert (X : In (EvRaised AttributeError) (c_log sent1)).
  { apply (H E0 sent1 0%nat 0%nat q h304 s304 [] [] [] [receiving (s304 ++ [])] W).
    - apply head_text_intro; [dec|dec|dec|apply reason_none|fields].
    - apply framed_none. right. right. now left.
    - vm_compute. intuition congruence.
    - vm_compute. discriminate.
    - exact I.
    - apply delivers_one. discriminate.
    - vm_compute. right. now left. }
  vm_compute in X. exact X.
Qed.

Print Assumptions C174_responses.
Print Assumptions C175_until_close.
Print Assumptions C176_cut_off_partial.
Print Assumptions C176_refuted.
Print Assumptions C177_in_order_partial.
Print Assumptions C177_refuted.
Print Assumptions C178_request_partial.
Print Assumptions C178_refuted.
Print Assumptions C179_in_order_partial.
Print Assumptions C179_refuted.
Print Assumptions C180_exchanges_partial.
Print Assumptions C180_refuted.
Print Assumptions C181_no_exception_partial.
Print Assumptions C181_refuted.
