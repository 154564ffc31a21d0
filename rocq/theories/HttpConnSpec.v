(** Specification for the HTTP client: what a response looks like on the wire, what a request
    looks like on the wire, and what the caller is told. *)
From Verif Require Import Py Iso Dec XmlUtils XmlCharsSpec HttpCore HttpParams HttpSpec HttpConn.
Open Scope Z_scope.

(** *** Text *)

(** A number in decimal and in hexadecimal notation *)
Definition decimal (n : Z) (s : str) : Prop := s <> [] /\ Forall is_dec s /\ dval s = n.
Definition hexadecimal (n : Z) (s : str) : Prop := s <> [] /\ Forall hex_digit s /\ hex_number s = n.
(** No end of line inside *)
Definition one_line (s : str) : Prop := forall a b, s <> a ++ 13 :: 10 :: b.
Definition white (c : Z) : Prop := c = 32 \/ c = 9.
(** Text without control characters, parentheses and quotes; it does not end in a space *)
Definition text_char (c : Z) : Prop := 32 <= c /\ c <> 127 /\ c <> 34 /\ c <> 40.
Definition plain_text (s : str) : Prop := Forall text_char s /\ last s 0 <> 32.
(** Words with single spaces between them *)
Definition spaced (s : str) : Prop := forall a b, s <> a ++ 32 :: 32 :: b.

(** *** Heads of responses *)
Record head := mkHead {
  h_version : version;
  h_status : Z;
  h_reason : str;
  h_fields : list (str * str) (* names and values *) }.

(** The text after the status code: nothing, or a space and the reason *)
Inductive reason_text : str -> str -> Prop :=
| reason_none : reason_text [] []
| reason_some r : r <> [] -> hd 0 r <> 32 -> plain_text r -> spaced r -> reason_text r (32 :: r).
(** The value of a field can go on in lines that begin with white space. *)
Inductive field_value : str -> Prop :=
| field_value_line l : one_line l -> field_value l
| field_value_fold l c v : one_line l -> white c -> field_value (c :: v) ->
    field_value (l ++ 13 :: 10 :: c :: v).
Definition field_ok (f : str * str) : Prop := is_token (fst f) /\ field_value (snd f).
Definition field_text (f : str * str) : str := fst f ++ [58] ++ snd f ++ [13; 10].
Definition fields_text (l : list (str * str)) : str := concat (map field_text l) ++ [13; 10].
Inductive head_text (h : head) : str -> Prop :=
| head_text_intro major minor status reason :
    decimal (v_major (h_version h)) major -> decimal (v_minor (h_version h)) minor ->
    decimal (h_status h) status -> reason_text (h_reason h) reason -> Forall field_ok (h_fields h) ->
    head_text h (lit "HTTP/" ++ major ++ lit "." ++ minor ++ lit " " ++ status ++ reason ++ [13; 10] ++
                 fields_text (h_fields h)).

(** The values of all fields of this name, whatever the case of its letters *)
Definition values_of (name : str) (l : list (str * str)) : list str :=
  map snd (filter (fun f => str_eqb (lower (fst f)) (lower name)) l).
Definition field (name : str) (l : list (str * str)) : option str :=
  match values_of name l with [] => None | vs => Some (join (lit ", ") vs) end.

(** *** Bodies of responses *)

(** Responses that have no body, whatever their fields say *)
Definition bodyless (method : str) (h : head) : Prop :=
  100 <= h_status h <= 199 \/ h_status h = 204 \/ h_status h = 304 \/ method = lit "HEAD".
(** [;name=value] after the size of a chunk *)
Inductive extension : str -> Prop :=
| extension_none : extension []
| extension_name n e : is_token n -> extension e -> extension (59 :: n ++ e)
| extension_value n v e : is_token n -> is_token v -> extension e -> extension (59 :: n ++ 61 :: v ++ e)
| extension_quoted n v e : is_token n -> Forall (fun c => 32 <= c < 256) v -> extension e ->
    extension (59 :: n ++ 61 :: QuoteString v true ++ e).
(** [chunks body trailer text]: the text is the body in chunks, with these fields at the end. *)
Inductive chunks : str -> list (str * str) -> str -> Prop :=
| chunks_last size e trailer : hexadecimal 0 size -> extension e -> Forall field_ok trailer ->
    chunks [] trailer (size ++ e ++ [13; 10] ++ fields_text trailer)
| chunks_more size e data body trailer rest :
    data <> [] -> Z.of_nat (length data) + 2 <= maxint ->
    hexadecimal (Z.of_nat (length data)) size -> extension e -> chunks body trailer rest ->
    chunks (data ++ body) trailer (size ++ e ++ [13; 10] ++ data ++ [13; 10] ++ rest).
(** White space around a value *)
Definition padded (s v : str) : Prop :=
  exists a b, v = a ++ s ++ b /\ Forall white a /\ Forall white b.

(** [framed method h body trailer text]: the text after the head h of a response to this method
    is this body, and it says itself where it ends. *)
Inductive framed (method : str) (h : head) : str -> list (str * str) -> str -> Prop :=
| framed_none : bodyless method h -> framed method h [] [] []
| framed_length body n v :
    ~ bodyless method h -> field (lit "Transfer-Encoding") (h_fields h) = None ->
    field (lit "Content-Length") (h_fields h) = Some v -> padded n v ->
    decimal (Z.of_nat (length body)) n -> Z.of_nat (length body) <= maxint ->
    framed method h body [] body
| framed_chunked body trailer text coding v :
    ~ bodyless method h -> field (lit "Transfer-Encoding") (h_fields h) = Some v ->
    padded coding v -> lower coding = lit "chunked" -> chunks body trailer text -> framed method h body trailer text.
(** The body goes on until the server closes the connection. *)
Definition until_close (method : str) (h : head) : Prop :=
  ~ bodyless method h /\ field (lit "Transfer-Encoding") (h_fields h) = None /\
  field (lit "Content-Length") (h_fields h) = None.

(** Responses of the class 1xx that may come before the final one *)
Inductive interim_text : str -> Prop :=
| interim_none : interim_text []
| interim_some h s t : 100 <= h_status h <= 199 -> head_text h s -> interim_text t -> interim_text (s ++ t).

(** The Connection field can be read. *)
Definition connection_ok (l : list (str * str)) : Prop :=
  match field (lit "Connection") l with Some v => plain_text v | None => True end.

(** *** What the caller sees *)

(** The body, returned as a string or written to the caller's stream *)
Definition received_body (q : req) : str := match q_resStream q with Some s => s | None => q_resBody q end.
(** Nothing is done about this status: it is handed to the caller. *)
Definition plain_status (q : req) (s : Z) : Prop :=
  s <> 401 /\ (q_auto q = false \/ ~ (300 <= s <= 399)).

(** Request i, which is q, has been sent and its response is read as number j: nothing of it
    has come yet. *)
Record awaited (c : conn) (i j : nat) (q : req) : Prop := mkAwaited {
  w_resp : nth_error (c_resps c) j = Some (new_resp i);
  w_req : nth_error (c_reqs c) i = Some q;
  w_link : q_response q = Some j /\ q_connected q = false /\ q_try q = false;
  w_empty : q_resBuffer q = [] /\ (q_resStream q = None \/ q_resStream q = Some []) }.
(** All that is queued has been sent, and nothing is left of earlier responses. *)
Definition quiescent (c : conn) : Prop :=
  c_queue c = [] /\ c_request c = None /\ c_mode c = REQ_READY /\ c_socket c = true /\ c_send c = [] /\
  concat (c_recv c) = [] /\ c_size c = 0.
(** The client waits for the answer to request i only. *)
Definition waiting (c : conn) (i j : nat) (q : req) : Prop :=
  quiescent c /\ c_response c = Some j /\ c_respq c = [] /\ awaited c i j q.

(** The socket is ready for reading and recv returns s. *)
Definition reads (a : input) (s : str) : Prop := i_broken a = false /\ i_read a = Some (Data s).
(** The network delivers this text, in pieces of any size. *)
Definition delivers (l : list input) (text : str) : Prop :=
  exists ss, Forall2 reads l ss /\ Forall (fun s => s <> []) ss /\ concat ss = text.
(** recv returns nothing: the server closed the connection. *)
Definition hangs_up (a : input) : Prop := reads a [].
Definition tasks (l : list input) : list op := map OpTask l.

(** Request i was answered with this status and body, in the history that leads to c'. *)
Definition outcome (c' : conn) (i : nat) (status : Z) (err : option cause) (body : str) : Prop :=
  exists q', nth_error (c_reqs c') i = Some q' /\ q_status q' = status /\ q_error q' = err /\
    received_body q' = body /\ q_done q' = true.
(** The response object shows the head and the fields that came after the body. *)
Definition shows (c' : conn) (j : nat) (h : head) (trailer : list (str * str)) : Prop :=
  exists r, nth_error (c_resps c') j = Some r /\ r_version r = Some (h_version h) /\ r_status r = Some (h_status h) /\
    r_reason r = Some (h_reason h) /\ forall name, GetHeader (r_headers r) name = field name (h_fields h ++ trailer).
(** Nothing happened to the other requests. *)
Definition others_kept (c c' : conn) (i : nat) : Prop :=
  forall k, k <> i -> nth_error (c_reqs c') k = nth_error (c_reqs c) k.
(** Nothing is being sent or read: the connection can be used for the next request. *)
Definition free (c : conn) : Prop :=
  c_queue c = [] /\ c_request c = None /\ c_response c = None /\ c_respq c = [] /\ c_mode c = REQ_READY /\
  c_send c = [] /\ concat (c_recv c) = [] /\ c_size c = 0.

(** What the head says about the connection: HTTP/1.1 and later keep it open without a
    Connection field, others close it, and so does the option close. *)
Definition at_least_11 (v : version) : Prop := v_major v > 1 \/ (v_major v = 1 /\ v_minor v >= 1).
Definition persists (h : head) (trailer : list (str * str)) : Prop :=
  at_least_11 (h_version h) /\ field (lit "Connection") (h_fields h ++ trailer) = None.
Definition closes (h : head) (trailer : list (str * str)) : Prop :=
  ~ at_least_11 (h_version h) \/
  exists a c, field (lit "Connection") (h_fields h ++ trailer) = Some (a ++ c) /\ Forall (eq 32) a /\ lower c = lit "close".

(** One response among several: the pieces in which its text arrives, and nothing else *)
Record exchange := mkExchange {
  x_req : nat; x_resp : nat; x_head : head; x_trailer : list (str * str); x_body : str; x_pieces : list input }.
Definition answer_ok (q : req) (x : exchange) : Prop :=
  exists interim s text, interim_text interim /\ head_text (x_head x) s /\
    framed (q_method q) (x_head x) (x_body x) (x_trailer x) text /\ ~ (100 <= h_status (x_head x) <= 199) /\
    plain_status q (h_status (x_head x)) /\ persists (x_head x) (x_trailer x) /\
    delivers (x_pieces x) (interim ++ s ++ text).
Definition exchange_ok (c : conn) (x : exchange) : Prop :=
  exists q, awaited c (x_req x) (x_resp x) q /\ answer_ok q x.

(** *** Requests *)

(** Headers that were set by calls of SetHeader *)
Inductive set_headers : headers -> Prop :=
| headers_none : set_headers []
| headers_set name v append h : set_headers h -> set_headers (SetHeader name v append h).
Definition payload (q : req) : str := match q_body q with Some b => b | None => q_source q end.
(** What a server makes of the fields of a request: the text after them is this body. *)
Inductive request_framed (l : list (str * str)) : str -> str -> Prop :=
| request_none : field (lit "Transfer-Encoding") l = None -> field (lit "Content-Length") l = None -> request_framed l [] []
| request_sized body n v : field (lit "Transfer-Encoding") l = None -> field (lit "Content-Length") l = Some v ->
    padded n v -> decimal (Z.of_nat (length body)) n -> request_framed l body body
| request_chunked body text coding v : field (lit "Transfer-Encoding") l = Some v -> padded coding v ->
    lower coding = lit "chunked" -> chunks body [] text -> request_framed l body text.
(** The fields the client may add *)
Definition generated (name : str) : Prop :=
  lower name = lit "transfer-encoding" \/ lower name = lit "content-length" \/ lower name = lit "authorization".
(** The request on the wire.  [cred]: the credentials for the URL, if there are any *)
Definition request_text (cred : option str) (q : req) (text : str) : Prop :=
  exists major minor l t,
    decimal (v_major (q_version q)) major /\ decimal (v_minor (q_version q)) minor /\
    text = q_method q ++ lit " " ++ q_url q ++ lit " HTTP/" ++ major ++ lit "." ++ minor ++ [13; 10] ++ fields_text l ++ t /\
    request_framed l (payload q) t /\
    NoDup (map (fun f => lower (fst f)) l) /\
    (forall name, ~ generated name -> field name l = option_map (fun v => 32 :: v) (GetHeader (q_headers q) name)) /\
    (forall name v, GetHeader (q_headers q) name = Some v -> field name l = Some (32 :: v)) /\
    field (lit "Authorization") l =
      option_map (fun v => 32 :: v) (match GetHeader (q_headers q) (lit "Authorization") with Some v => Some v | None => cred end).
(** A request as the caller made it, with nothing sent or received yet *)
Record fresh (q : req) : Prop := mkFresh {
  f_new : q_status q = 0 /\ q_pos q = 0 /\ q_sentall q = false /\ q_rest q = q_source q /\ q_len q = None /\ q_chunked q = false;
  f_links : q_connected q = false /\ q_try q = false;
  f_empty : q_resBuffer q = [] /\ (q_resStream q = None \/ q_resStream q = Some []);
  f_version : 0 <= v_major (q_version q) /\ 0 <= v_minor (q_version q);
  f_headers : set_headers (q_headers q) }.
(** Fields set by the caller agree with the body; there is no wait for 100 Continue. *)
Record sendable (q : req) : Prop := mkSendable {
  s_length : forall v, GetHeader (q_headers q) (lit "Content-Length") = Some v ->
    exists n, padded n v /\ decimal (Z.of_nat (length (payload q))) n;
  s_coding : forall v, GetHeader (q_headers q) (lit "Transfer-Encoding") = Some v ->
    q_body q <> Some [] /\ exists coding, padded coding v /\ lower coding = lit "chunked";
  s_expect : GetHeader (q_headers q) (lit "Expect") = None;
  s_size : Z.of_nat (length (payload q)) + 2 <= maxint }.

(** In this iteration nothing is received; the socket takes some bytes, at least one, or is not
    ready for writing. *)
Definition sends (a : input) : Prop :=
  i_connect a = true /\ i_broken a = false /\ i_read a = None /\
  (i_write a = None \/ exists n, i_write a = Some (Sent n) /\ (0 < n)%nat).
Definition writable (a : input) : bool := match i_write a with Some _ => true | None => false end.
Definition times_writable (l : list input) : nat := length (filter writable l).
(** c' has sent this text after what c had sent, on the same connection or on a new one. *)
Definition sent_text (c : conn) (text : str) (c' : conn) : Prop :=
  if c_socket c then exists w l, c_wire c = w :: l /\ c_wire c' = (w ++ text) :: l
  else c_wire c' = text :: c_wire c.
(** Nothing is being sent. *)
Definition ready (c : conn) : Prop :=
  c_request c = None /\ c_mode c = REQ_READY /\ c_send c = [] /\ concat (c_recv c) = [] /\ c_size c = 0 /\
  (c_socket c = true -> c_wire c <> []).
(** The credentials depend on the request only. *)
Definition by_request (E : env) : Prop := forall q r b t, e_url_cred E (q_links q r b t) = e_url_cred E q.
(** The responses that are awaited, in the order in which they are read *)
Definition pending (c : conn) : list nat := match c_response c with Some j => j :: c_respq c | None => [] end.
Definition linked (c : conn) : Prop := c_response c = None -> c_respq c = [].
(** How often the socket must be ready at most for these texts *)
Definition enough (ms : list str) : nat := list_sum (map (fun m => 2 * length m + 2)%nat ms).
(** A new request of this number *)
Definition new_request (c : conn) (i : nat) (q : req) : Prop := nth_error (c_reqs c) i = Some q /\ fresh q /\ sendable q.

(** *** Connections that break *)

(** Nothing of the response to request i, which is number j, has come yet. *)
Definition unanswered (c : conn) (i j : nat) : Prop :=
  exists q r, nth_error (c_reqs c) i = Some q /\ q_response q = Some j /\ q_try q = false /\ q_status q = 0 /\
    nth_error (c_resps c) j = Some r /\ r_status r = None /\ r_request r = i.
(** These requests were given up, one after the other and once each; nothing else was touched,
    and the next request needs a new socket. *)
Definition given_up (c : conn) (is : list nat) (err : option cause) (c' : conn) : Prop :=
  (forall i, In i is -> exists q, nth_error (c_reqs c') i = Some q /\ q_status q = 0 /\ q_error q = err /\ q_done q = true) /\
  (forall k, ~ In k is -> nth_error (c_reqs c') k = nth_error (c_reqs c) k) /\
  c_log c' = c_log c ++ map (fun i => EvFinished i 0) is /\
  c_socket c' = false /\ c_request c' = None /\ c_response c' = None /\ c_respq c' = [] /\
  c_mode c' = REQ_READY /\ c_send c' = [] /\ c_recv c' = [].
(** What select and recv do when the connection breaks *)
Definition fails_reading (a : input) : Prop := i_broken a = false /\ i_read a = Some RecvError.
Definition fails_sending (a : input) : Prop := i_write a = Some SendError.
