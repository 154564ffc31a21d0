(** Model of the HTTP client of pyslet/pyslet/rfc2616.py: messages, requests, responses and
    connections.

    - Strings are byte strings.  Requests and responses are numbered; the connection holds
      them in two lists, so that two references to the same object are the same number.
    - HTTPException is [HTTPException]; SyntaxError (BadSyntax) is a subclass of it.
      UnboundLocalError is a subclass of NameError.
    - The environment [env] gives what lies outside this file: URIs (rfc2396), challenges and
      credentials (rfc2617) and SOCKET_CHUNK.
    - One iteration of the loop of ConnectionTask is [iteration]: what the socket does in it is
      its argument.  Errors raised by select, SSL and the locks are not modelled; a connection
      belongs to one thread.
    - logging is not modelled.
    - The manager's side (QueueRequest, _DeactivateConnection) is only logged: a request that
      is sent again is queued again by an operation of its own. *)
From Verif Require Import Py Iso Dec XmlUtils Xsd Imscp Shapes XmlChars HttpCore HttpParams OdPage.
Open Scope Z_scope.

Notation HTTPException := ProcessingError.
Definition is_http (e : exn) : bool :=
  match e with HTTPException | BadSyntax => true | _ => false end.
Definition CRLF : str := [CR; LF].
Definition len (s : str) : Z := Z.of_nat (length s).
Definition nonempty (s : str) : bool := match s with [] => false | _ => true end.
Definition maxint : Z := 2 ^ 63 - 1.

(** ** HTTPMessage: rfc2616.py 946-1333 *)

(** headers: 955-1010.  A dictionary from lower-case names to names and values. *)
Definition headers := params.
Definition GetHeader (h : headers) (name : str) : option str := option_map snd (dget (lower name) h).
Definition HasHeader (h : headers) (name : str) : bool :=
  match dget (lower name) h with Some _ => true | None => false end.
Definition SetHeader (name : str) (value : option str) (append : bool) (h : headers) : headers :=
  let key := lower name in
  match value with
  | None => filter (fun e => negb (str_eqb (fst e) key)) h
  | Some v =>
      match dget key h with
      | Some (_, old) => dset key (name, if append then old ++ lit ", " ++ v else v) h
      | None => dset key (name, v) h
      end
  end.
(** GetContentLength: 1130-1139 *)
Definition GetContentLength (h : headers) : result (option Z) :=
  match GetHeader h (lit "Content-Length") with
  | Some v => n <- int_of (strip v) ;; Ok (Some n)
  | None => Ok None
  end.
(** GetConnection: 1064-1073 *)
Definition GetConnection (h : headers) : result (list str) :=
  match GetHeader h (lit "Connection") with
  | Some (c :: v) => w <- WordParser true (c :: v) ;; Ok (map lower (fst (ParseTokenList w)))
  | _ => Ok []
  end.
(** GetExpectContinue: 1255-1260 *)
Definition GetExpectContinue (h : headers) : bool :=
  match GetHeader h (lit "Expect") with
  | Some v => str_eqb (lower (strip v)) (lit "100-continue")
  | None => false
  end.
(** The first two headers CalculateTransferLength looks at: 1298-1315.  [Some (Some n)]: the
    length n; [Some None]: chunked; [None]: neither. *)
Definition declared_length (h : headers) : result (option (option Z)) :=
  match GetHeader h (lit "Transfer-Encoding") with
  | Some e =>
      if negb (str_eqb e (lit "identity")) then Ok (Some None)
      else n <- GetContentLength h ;; Ok (option_map Some n)
  | None => n <- GetContentLength h ;; Ok (option_map Some n)
  end.

(** ** HTTPResponse: 1718-1973 *)
Inductive rmode := RESP_STATUS | RESP_HEADER | RESP_CHUNK_SIZE | RESP_CHUNK_DATA
| RESP_CHUNK_TRAILER | RESP_DATA | RESP_DONE.
Record resp := mkResp {
  r_headers : headers;
  r_chunked : bool;            (* transferChunked *)
  r_len : option Z;            (* transferLength *)
  r_pos : Z;                   (* transferPos *)
  r_version : option version;
  r_status : option Z;
  r_reason : option str;
  r_mode : rmode;
  r_curr : option (str * str); (* currHeader *)
  r_request : nat }.
(** __init__ and Reset: 1729-1742 *)
Definition new_resp (q : nat) : resp := mkResp [] false None 0 None None None RESP_STATUS None q.

(** RecvNeeds, NeedLine, NeedBytes: 1829-1852 *)
Inductive needs := NLine | NBytes (n : Z) | NNone.
Definition RecvNeeds (r : resp) : needs :=
  match r_mode r with
  | RESP_STATUS | RESP_HEADER | RESP_CHUNK_SIZE | RESP_CHUNK_TRAILER => NLine
  | RESP_DONE => NNone
  | RESP_CHUNK_DATA | RESP_DATA =>
      match r_len r with
      | Some n => if n =? 0 then NBytes 0 else NBytes (n - r_pos r)
      | None => NBytes 0
      end
  end.

(** CalculateTransferLength of a response: 1280-1333 *)
Definition response_length (method : str) (r : resp) : result (bool * option Z) :=
  let s := match r_status r with Some s => s | None => 0 end in
  if (s / 100 =? 1) || (s =? 204) || (s =? 304) || str_eqb method (lit "HEAD") then Ok (false, Some 0)
  else
    d <- declared_length (r_headers r) ;;
    match d with
    | Some None => Ok (true, None)
    | Some (Some n) => Ok (false, Some n)
    | None => Ok (false, r_len r)
    end.

(** h.split(':',1) *)
Fixpoint split_colon (s : str) : option (str * str) :=
  match s with
  | [] => None
  | c :: s' =>
      if c =? 58 then Some ([], s')
      else match split_colon s' with Some (a, b) => Some (c :: a, b) | None => None end
  end.
Definition chop2 (s : str) : str := firstn (length s - 2) s.
(** The header read so far is stored: 1915, 1924 *)
Definition store_curr (r : resp) : headers :=
  match r_curr r with
  | Some (n, v) => SetHeader n (Some (chop2 v)) true (r_headers r)
  | None => r_headers r
  end.
Definition with_headers (r : resp) (h : headers) (curr : option (str * str)) : resp :=
  mkResp h (r_chunked r) (r_len r) (r_pos r) (r_version r) (r_status r) (r_reason r) (r_mode r) curr (r_request r).
(** ReadHeader: 1911-1932.  HTTP2616ProtocolError does not exist. *)
Definition ReadHeader (r : resp) (h : str) : result resp :=
  if str_eqb h CRLF then Ok (with_headers r (store_curr r) None)
  else
    match ParseLWS h, r_curr r with
    | Some _, Some (n, v) => Ok (with_headers r (r_headers r) (Some (n, v ++ h)))
    | _, _ =>
        match split_colon h with
        | Some nv => Ok (with_headers r (store_curr r) (Some nv))
        | None => Err NameError
        end
    end.
(** ParseRemainder: rfc2616_core.py 653-663.  A word that is None cannot be joined. *)
Fixpoint join_words (w : words) : result str :=
  match w with
  | [] => Ok []
  | Some t :: w' => r <- join_words w' ;; Ok (t ++ r)
  | None :: _ => Err TypeError
  end.
Definition ParseRemainder (w : words) : result str := if more w then join_words w else Ok [].

Definition with_mode (r : resp) (m : rmode) : resp :=
  mkResp (r_headers r) (r_chunked r) (r_len r) (r_pos r) (r_version r) (r_status r) (r_reason r) m
    (r_curr r) (r_request r).
Definition with_length (r : resp) (chunked : bool) (l : option Z) (p : Z) (m : rmode) : resp :=
  mkResp (r_headers r) chunked l p (r_version r) (r_status r) (r_reason r) m (r_curr r) (r_request r).

(** The status line: 1855-1866 *)
Definition status_line (r : resp) (line : str) : result resp :=
  w <- WordParser false (chop2 line) ;;
  '(v, w) <- ParseHTTPVersion w ;;
  let w := ParseSP w in
  let '(s, w) := match cWord w with
                 | Some t => if IsDIGITS t then (int_digits t, next w) else (0, w)
                 | None => (0, w)
                 end in
  reason <- ParseRemainder (ParseSP w) ;;
  Ok (mkResp (r_headers r) (r_chunked r) (r_len r) (r_pos r) (Some v) (Some s) (Some reason) RESP_HEADER
        (r_curr r) (r_request r)).
(** The end of the headers: 1868-1883 *)
Definition headers_end (method : str) (r : resp) : result resp :=
  '(chunked, l) <- response_length method r ;;
  Ok (if chunked then with_length r true None (r_pos r) RESP_CHUNK_SIZE
      else match l with
           | None => with_length r false (Some 0) 0 RESP_DATA
           | Some n => if n =? 0 then with_length r false (Some 0) 0 RESP_DONE
                       else with_length r false (Some n) 0 RESP_DATA
           end).
(** The size of a chunk: 1884-1897 *)
Definition chunk_size (r : resp) (line : str) : result resp :=
  w <- WordParser true (chop2 line) ;;
  match fst (ParseToken w) with
  | None => Err TypeError
  | Some t =>
      match int16 t with
      | None => Err ValueError
      | Some n => Ok (if n =? 0 then with_length r (r_chunked r) (Some 0) 0 RESP_CHUNK_TRAILER
                      else with_length r (r_chunked r) (Some (n + 2)) 0 RESP_CHUNK_DATA)
      end
  end.
Definition is_done (r : resp) : bool := match r_mode r with RESP_DONE => true | _ => false end.
(** RecvLine: 1854-1909, up to the call of Finished.  What an exception leaves half done is
    not modelled. *)
Definition RecvLine (method : str) (r : resp) (line : str) : result resp :=
  match r_mode r with
  | RESP_STATUS => status_line r line
  | RESP_HEADER =>
      r <- ReadHeader r line ;;
      if str_eqb line CRLF then headers_end method r else Ok r
  | RESP_CHUNK_SIZE => chunk_size r line
  | RESP_CHUNK_TRAILER =>
      r <- ReadHeader r line ;;
      Ok (if str_eqb line CRLF then with_mode r RESP_DONE else r)
  | RESP_CHUNK_DATA | RESP_DATA | RESP_DONE => Err HTTPException
  end.
(** RecvBytes: 1934-1959, up to the call of Finished: the data passed to WriteResponse *)
Definition RecvBytes (r : resp) (data : str) : resp * str :=
  let pos := r_pos r + len data in
  let l := match r_len r with Some n => n | None => 0 end in
  match r_mode r with
  | RESP_CHUNK_DATA =>
      let extra := pos - (l - 2) in
      let out := if extra >? 0 then firstn (length data - Z.to_nat extra) data else data in
      (with_length r (r_chunked r) (r_len r) pos (if pos >=? l then RESP_CHUNK_SIZE else RESP_CHUNK_DATA), out)
  | RESP_DATA =>
      if negb (l =? 0) then
        let out := if pos >? l then firstn (Z.to_nat (pos - l)) data else data in
        (with_length r (r_chunked r) (r_len r) pos (if pos >=? l then RESP_DONE else RESP_DATA), out)
      else (with_length r (r_chunked r) (r_len r) pos RESP_DATA, data)
  | _ => (r, [])
  end.

(** ** HTTPRequest: 1335-1716 *)

(** What went wrong: a socket error, an error indicated by select, an exception *)
Inductive cause := CSocket | CIndicated | CExn (e : exn).
Record req := mkReq {
  q_method : str;
  q_url : str;                (* the path and query of the request line *)
  q_version : version;
  q_headers : headers;
  q_chunked : bool;
  q_len : option Z;
  q_pos : Z;
  q_sentall : bool;           (* transferDone *)
  q_body : option str;        (* reqBody; None: a stream *)
  q_source : str;             (* the whole of the stream *)
  q_rest : str;               (* what is left to read of the stream *)
  q_status : Z;
  q_error : option cause;
  q_response : option nat;
  q_connected : bool;         (* connection is set *)
  q_resBuffer : list str;
  q_resBody : str;
  q_resStream : option str;   (* what was written to the caller's stream *)
  q_auto : bool;              (* autoRedirect *)
  q_try : bool;               (* tryCredentials is set *)
  q_done : bool }.

Definition q_transfer (q : req) (h : headers) (chunked : bool) (l : option Z) : req :=
  mkReq (q_method q) (q_url q) (q_version q) h chunked l (q_pos q) (q_sentall q) (q_body q) (q_source q)
    (q_rest q) (q_status q) (q_error q) (q_response q) (q_connected q) (q_resBuffer q) (q_resBody q)
    (q_resStream q) (q_auto q) (q_try q) (q_done q).
Definition q_progress (q : req) (pos : Z) (all : bool) (rest : str) : req :=
  mkReq (q_method q) (q_url q) (q_version q) (q_headers q) (q_chunked q) (q_len q) pos all (q_body q) (q_source q)
    rest (q_status q) (q_error q) (q_response q) (q_connected q) (q_resBuffer q) (q_resBody q)
    (q_resStream q) (q_auto q) (q_try q) (q_done q).
Definition q_outcome (q : req) (status : Z) (err : option cause) (done : bool) : req :=
  mkReq (q_method q) (q_url q) (q_version q) (q_headers q) (q_chunked q) (q_len q) (q_pos q) (q_sentall q) (q_body q)
    (q_source q) (q_rest q) status err (q_response q) (q_connected q) (q_resBuffer q) (q_resBody q)
    (q_resStream q) (q_auto q) (q_try q) done.
Definition q_links (q : req) (response : option nat) (connected : bool) (try : bool) : req :=
  mkReq (q_method q) (q_url q) (q_version q) (q_headers q) (q_chunked q) (q_len q) (q_pos q) (q_sentall q) (q_body q)
    (q_source q) (q_rest q) (q_status q) (q_error q) response connected (q_resBuffer q) (q_resBody q)
    (q_resStream q) (q_auto q) try (q_done q).
Definition q_received (q : req) (buffer : list str) (body : str) (stream : option str) : req :=
  mkReq (q_method q) (q_url q) (q_version q) (q_headers q) (q_chunked q) (q_len q) (q_pos q) (q_sentall q) (q_body q)
    (q_source q) (q_rest q) (q_status q) (q_error q) (q_response q) (q_connected q) buffer body stream
    (q_auto q) (q_try q) (q_done q).

(** CalculateTransferLength of a request: 1280-1333 *)
Definition upper_in (m : str) (l : list str) : bool := existsb (str_eqb (upper m)) l.
Definition request_length (q : req) : result req :=
  d <- declared_length (q_headers q) ;;
  match d with
  | Some None => Ok (q_transfer q (q_headers q) true None)
  | Some (Some n) =>
      match q_body q with
      | Some b => if negb (len b =? n) then Err HTTPException
                  else Ok (q_transfer q (q_headers q) false (Some n))
      | None => Ok (q_transfer q (q_headers q) false (Some n))
      end
  | None =>
      match q_body q with
      | None => Ok (q_transfer q (SetHeader (lit "Transfer-Encoding") (Some (lit "chunked")) false (q_headers q))
                      true (q_len q))
      | Some b =>
          if nonempty b || negb (upper_in (q_method q) [lit "GET"; lit "HEAD"; lit "DELETE"]) then
            Ok (q_transfer q (SetHeader (lit "Content-Length") (Some (pystr (len b))) false (q_headers q))
                  false (Some (len b)))
          else Ok (q_transfer q (q_headers q) false (q_len q))
      end
  end.
Definition header_line (e : str * (str * str)) : str := fst (snd e) ++ lit ": " ++ snd (snd e) ++ CRLF.
(** ReadRequestHeader: 1544-1562.  [cred]: the credentials the manager has for the URL *)
Definition ReadRequestHeader (cred : option str) (q : req) : result (req * str) :=
  q <- request_length q ;;
  let h := match HasHeader (q_headers q) (lit "Authorization"), cred with
           | false, Some c => SetHeader (lit "Authorization") (Some c) false (q_headers q)
           | _, _ => q_headers q
           end in
  Ok (q_transfer q h (q_chunked q) (q_len q),
      q_method q ++ lit " " ++ q_url q ++ lit " " ++ version_str (q_version q) ++ CRLF ++
      concat (map header_line (sort by_key h)) ++ CRLF).
(** "%x" *)
Definition fmt_x (n : Z) : str := lower (fmt_X 0 n).
Definition one_chunk (s : str) : str := fmt_x (len s) ++ CRLF ++ s ++ CRLF.
Definition last_chunk : str := lit "0" ++ CRLF ++ CRLF.
(** ReadRequestBody: 1564-1612.  A stream returns as many bytes as it is asked for while it
    has them; one without chunked encoding always has a length, [None - 0] raises TypeError. *)
Definition ReadRequestBody (chunk : nat) (q : req) : result (req * str) :=
  if q_sentall q then Ok (q, []) else
  match q_body q with
  | None =>
      if q_chunked q then
        let data := firstn chunk (q_rest q) in
        let pos := q_pos q + len data in
        if nonempty data then Ok (q_progress q pos false (skipn chunk (q_rest q)), one_chunk data)
        else Ok (q_progress q pos true (q_rest q), last_chunk)
      else
        match q_len q with
        | None => Err TypeError
        | Some l =>
            let n := l - q_pos q in
            if n =? 0 then Ok (q_progress q (q_pos q) true (q_rest q), [])
            else
              let k := if n >? Z.of_nat chunk then chunk else Z.to_nat n in
              let data := firstn k (q_rest q) in
              if nonempty data then Ok (q_progress q (q_pos q + len data) false (skipn k (q_rest q)), data)
              else Err HTTPException
        end
  | Some b =>
      let q' := q_progress q (len b) true (q_rest q) in
      if q_chunked q then Ok (q', one_chunk b ++ last_chunk) else Ok (q', b)
  end.
(** WriteResponse: 1629-1634 *)
Definition WriteResponse (q : req) (data : str) : req :=
  if nonempty data then
    match q_resStream q with
    | Some s => q_received q (q_resBuffer q) (q_resBody q) (Some (s ++ data))
    | None => q_received q (q_resBuffer q ++ [data]) (q_resBody q) None
    end
  else q.
(** 1644-1648: the body is put together *)
Definition collect (q : req) : req :=
  match q_resStream q with
  | Some _ => q
  | None => q_received q [] (concat (q_resBuffer q)) None
  end.

(** ** Connection: 44-532 *)
Inductive cmode := REQ_READY | REQ_BODY_WAITING | REQ_BODY_SENDING | CLOSE_WAIT.
Inductive event :=
| EvFinished (q : nat) (status : Z)  (* HTTPRequest.Finished was called *)
| EvResend (q : nat)                 (* the request was queued again by the client itself *)
| EvIdle                             (* _DeactivateConnection was called *)
| EvRaised (e : exn).                (* ThreadTask raised *)
Record conn := mkConn {
  c_reqs : list req;
  c_resps : list resp;
  c_queue : list nat;           (* requestQueue *)
  c_request : option nat;
  c_respq : list nat;           (* responseQueue *)
  c_response : option nat;
  c_mode : cmode;
  c_waiting : bool;             (* continueWaitStart is set *)
  c_socket : bool;
  c_send : list str;            (* sendBuffer *)
  c_recv : list str;            (* recvBuffer *)
  c_size : Z;                   (* recvBufferSize *)
  c_wire : list str;            (* what each socket took, the last socket first *)
  c_log : list event }.

Definition M A := conn -> result A * conn.
Definition ret {A} (a : A) : M A := fun c => (Ok a, c).
Definition raise {A} (e : exn) : M A := fun c => (Err e, c).
Definition mbind {A B} (m : M A) (k : A -> M B) : M B :=
  fun c => match m c with (Ok a, c) => k a c | (Err e, c) => (Err e, c) end.
Definition lift {A} (r : result A) : M A := fun c => (r, c).
Definition modify (f : conn -> conn) : M unit := fun c => (Ok tt, f c).
Definition get : M conn := fun c => (Ok c, c).
Notation "x <~ e ;; k" := (mbind e (fun x => k)) (at level 61, e at next level, right associativity).
Notation "' p <~ e ;; k" := (mbind e (fun p => k)) (at level 61, p pattern, e at next level, right associativity).

Fixpoint upd {A} (l : list A) (i : nat) (x : A) : list A :=
  match l, i with
  | [], _ => []
  | _ :: l', O => x :: l'
  | y :: l', S i' => y :: upd l' i' x
  end.
Definition set_reqs (f : list req -> list req) (c : conn) : conn :=
  mkConn (f (c_reqs c)) (c_resps c) (c_queue c) (c_request c) (c_respq c) (c_response c) (c_mode c) (c_waiting c)
    (c_socket c) (c_send c) (c_recv c) (c_size c) (c_wire c) (c_log c).
Definition set_resps (f : list resp -> list resp) (c : conn) : conn :=
  mkConn (c_reqs c) (f (c_resps c)) (c_queue c) (c_request c) (c_respq c) (c_response c) (c_mode c) (c_waiting c)
    (c_socket c) (c_send c) (c_recv c) (c_size c) (c_wire c) (c_log c).
Definition set_queue (l : list nat) (c : conn) : conn :=
  mkConn (c_reqs c) (c_resps c) l (c_request c) (c_respq c) (c_response c) (c_mode c) (c_waiting c)
    (c_socket c) (c_send c) (c_recv c) (c_size c) (c_wire c) (c_log c).
Definition set_request (o : option nat) (c : conn) : conn :=
  mkConn (c_reqs c) (c_resps c) (c_queue c) o (c_respq c) (c_response c) (c_mode c) (c_waiting c)
    (c_socket c) (c_send c) (c_recv c) (c_size c) (c_wire c) (c_log c).
Definition set_responses (l : list nat) (o : option nat) (c : conn) : conn :=
  mkConn (c_reqs c) (c_resps c) (c_queue c) (c_request c) l o (c_mode c) (c_waiting c)
    (c_socket c) (c_send c) (c_recv c) (c_size c) (c_wire c) (c_log c).
Definition set_mode (m : cmode) (w : bool) (c : conn) : conn :=
  mkConn (c_reqs c) (c_resps c) (c_queue c) (c_request c) (c_respq c) (c_response c) m w
    (c_socket c) (c_send c) (c_recv c) (c_size c) (c_wire c) (c_log c).
Definition set_send (l : list str) (c : conn) : conn :=
  mkConn (c_reqs c) (c_resps c) (c_queue c) (c_request c) (c_respq c) (c_response c) (c_mode c) (c_waiting c)
    (c_socket c) l (c_recv c) (c_size c) (c_wire c) (c_log c).
Definition set_recv (l : list str) (n : Z) (c : conn) : conn :=
  mkConn (c_reqs c) (c_resps c) (c_queue c) (c_request c) (c_respq c) (c_response c) (c_mode c) (c_waiting c)
    (c_socket c) (c_send c) l n (c_wire c) (c_log c).
Definition set_socket (b : bool) (w : list str) (c : conn) : conn :=
  mkConn (c_reqs c) (c_resps c) (c_queue c) (c_request c) (c_respq c) (c_response c) (c_mode c) (c_waiting c)
    b (c_send c) (c_recv c) (c_size c) w (c_log c).
Definition add_event (e : event) (c : conn) : conn :=
  mkConn (c_reqs c) (c_resps c) (c_queue c) (c_request c) (c_respq c) (c_response c) (c_mode c) (c_waiting c)
    (c_socket c) (c_send c) (c_recv c) (c_size c) (c_wire c) (c_log c ++ [e]).

(** The object with this number.  (A number always has an object.) *)
Definition getq (i : nat) : M req :=
  fun c => match nth_error (c_reqs c) i with Some q => (Ok q, c) | None => (Err Unmodelled, c) end.
Definition putq (i : nat) (q : req) : M unit := modify (set_reqs (fun l => upd l i q)).
Definition getr (i : nat) : M resp :=
  fun c => match nth_error (c_resps c) i with Some r => (Ok r, c) | None => (Err Unmodelled, c) end.
Definition putr (i : nat) (r : resp) : M unit := modify (set_resps (fun l => upd l i r)).
(** An attribute of None *)
Definition the {A} (o : option A) : M A := match o with Some a => ret a | None => raise AttributeError end.

(** What lies outside: URIs and credentials *)
Record env := mkEnv {
  e_chunk : nat;                               (* SOCKET_CHUNK *)
  e_url_cred : req -> option str;              (* FindCredentialsForURL *)
  e_auth : str -> result (list (option str));  (* the credentials found for each challenge *)
  e_has_host : str -> result bool;             (* URIFactory.URI(location).host *)
  e_redirect : str -> result (str * str)       (* SetRequestURI: path and host *) }.

Section Client.
Variable E : env.

(** Resend: 1400-1415, SetRequestURI: 1417-1458 *)
Definition Resend (i : nat) (url : option str) : M unit :=
  q <~ getq i ;;
  let q := q_outcome (q_progress q 0 false (q_rest q)) 0 None false in
  let q := q_transfer q (q_headers q) false None in
  q <~ lift match url with
            | None => Ok q
            | Some u =>
                '(path, host) <- e_redirect E u ;;
                Ok (mkReq (q_method q) path (q_version q) (SetHeader (lit "Host") (Some host) false (q_headers q))
                      (q_chunked q) (q_len q) (q_pos q) (q_sentall q) (q_body q) (q_source q) (q_rest q)
                      (q_status q) (q_error q) (q_response q) (q_connected q) (q_resBuffer q) (q_resBody q)
                      (q_resStream q) (q_auto q) (q_try q) (q_done q))
            end ;;
  let q := q_progress q 0 false (q_source q) in
  _ <~ putq i (match q_resStream q with
               | Some _ => q_received q (q_resBuffer q) (q_resBody q) (Some [])
               | None => q_received q [] (q_resBody q) None
               end) ;;
  modify (add_event (EvResend i)).

(** The loop over the challenges of a 401 response: 1709-1716 *)
Fixpoint try_challenges (i : nat) (l : list (option str)) : M unit :=
  match l with
  | [] => ret tt
  | None :: l' =>
      q <~ getq i ;;
      _ <~ putq i (q_links q (q_response q) (q_connected q) false) ;;
      try_challenges i l'
  | Some cred :: l' =>
      q <~ getq i ;;
      let q := q_transfer q (SetHeader (lit "Authorization") (Some cred) false (q_headers q)) (q_chunked q) (q_len q) in
      _ <~ putq i (q_links q (q_response q) (q_connected q) true) ;;
      _ <~ Resend i None ;;
      try_challenges i l'
  end.
(** Finished: 1678-1716.  The manager has no RemoveCredentials, a str has no Resolve. *)
Definition Finished (i : nat) : M unit :=
  q <~ getq i ;;
  _ <~ putq i (q_outcome q (q_status q) (q_error q) true) ;;
  _ <~ modify (add_event (EvFinished i (q_status q))) ;;
  _ <~ (if q_try q then
          if q_status q =? 401 then raise AttributeError
          else q <~ getq i ;; putq i (q_links q (q_response q) (q_connected q) false)
        else ret tt) ;;
  if q_auto q && (300 <=? q_status q) && (q_status q <=? 399) &&
     (negb (q_status q =? 302) || upper_in (q_method q) [lit "GET"; lit "HEAD"]) then
    j <~ the (q_response q) ;; r <~ getr j ;;
    location <~ the (GetHeader (r_headers r) (lit "Location")) ;;
    let location := strip location in
    if nonempty location then
      h <~ lift (e_has_host E location) ;;
      if h then Resend i (Some location) else raise AttributeError
    else ret tt
  else if q_status q =? 401 then
    j <~ the (q_response q) ;; r <~ getr j ;;
    match GetHeader (r_headers r) (lit "WWW-Authenticate") with
    | None => raise TypeError
    | Some v => l <~ lift (e_auth E v) ;; try_challenges i l
    end
  else ret tt.
(** HTTPRequest.Disconnect: 1535-1542 *)
Definition Disconnect (i : nat) : M unit :=
  q <~ getq i ;;
  _ <~ putq i (q_links q (q_response q) false (q_try q)) ;;
  if q_status q >? 0 then Finished i else ret tt.
(** Connection.RequestDisconnect: 250-258.  It is called while a response is being handled. *)
Definition RequestDisconnect : M unit :=
  c <~ get ;;
  i <~ the (c_request c) ;;
  _ <~ Disconnect i ;;
  _ <~ modify (set_request None) ;;
  match c_response c with
  | Some _ => modify (fun c => set_mode CLOSE_WAIT (c_waiting c) (set_send [] c))
  | None => raise Unmodelled
  end.
(** Connection.Continue: 260-269 *)
Definition Continue (i : nat) : M unit :=
  c <~ get ;;
  match c_request c, c_mode c with
  | Some k, REQ_BODY_WAITING =>
      if Nat.eqb k i then modify (set_mode REQ_BODY_SENDING (c_waiting c)) else ret tt
  | _, _ => ret tt
  end.
(** HTTPRequest.ResponseFinished: 1636-1676.  In Python 2 an object compares greater than a
    number, so [self.response>=200] is true. *)
Definition ResponseFinished (i : nat) (err : option cause) : M unit :=
  q <~ getq i ;;
  j <~ the (q_response q) ;; r <~ getr j ;;
  match r_status r with
  | None => _ <~ putq i (q_outcome q 0 err (q_done q)) ;; Finished i
  | Some s =>
      _ <~ putq i (collect (q_outcome q s err (q_done q))) ;;
      if (100 <=? s) && (s <=? 199) then
        if q_connected q then Continue i else ret tt
      else if q_connected q then
        if s >=? 300 then
          q <~ getq i ;;
          '(q, data) <~ lift (ReadRequestBody (e_chunk E) q) ;;
          _ <~ putq i q ;;
          if nonempty data then RequestDisconnect else ret tt
        else ret tt
      else Finished i
  end.
(** HTTPResponse.Finished: 1961-1965 *)
Definition response_finished (j : nat) : M unit :=
  r <~ getr j ;;
  _ <~ ResponseFinished (r_request r) None ;;
  match r_status r with
  | Some s => if (100 <=? s) && (s <=? 199) then putr j (new_resp (r_request r)) else ret tt
  | None => ret tt
  end.
(** HTTPResponse.ServerDisconnect: 1967-1973.  (The text put in reason is not modelled.) *)
Definition ServerDisconnect (j : nat) (err : option cause) : M unit :=
  r <~ getr j ;; ResponseFinished (r_request r) err.

(** Connection.Close: 271-307 *)
Fixpoint close_responses (fuel : nat) (err : option cause) : M unit :=
  c <~ get ;;
  match c_response c with
  | None => ret tt
  | Some j =>
      match fuel with
      | O => raise OutOfFuel
      | S f =>
          _ <~ ServerDisconnect j err ;;
          c <~ get ;;
          _ <~ modify match c_respq c with
                      | k :: l => set_responses l (Some k)
                      | [] => set_responses [] None
                      end ;;
          close_responses f err
      end
  end.
Definition Close (err : option cause) : M unit :=
  c <~ get ;;
  _ <~ match c_request c with
       | Some i => _ <~ Disconnect i ;;
                   modify (fun c => set_mode CLOSE_WAIT (c_waiting c) (set_request None c))
       | None => ret tt
       end ;;
  c <~ get ;;
  _ <~ close_responses (S (length (c_respq c))) err ;;
  modify (fun c => set_mode REQ_READY (c_waiting c)
                     (set_recv [] 0 (set_send [] (set_socket false (c_wire c) c)))).

(** _StartRequest: 337-357 *)
Definition StartRequest (i : nat) : M unit :=
  _ <~ modify (set_request (Some i)) ;;
  q <~ getq i ;;
  let q := q_links q (q_response q) true (q_try q) in
  _ <~ putq i q ;;
  '(q, head) <~ lift (ReadRequestHeader (e_url_cred E q) q) ;;
  _ <~ modify (fun c =>
         let j := length (c_resps c) in
         let c := set_send (c_send c ++ [head]) c in
         let c := if GetExpectContinue (q_headers q) then set_mode REQ_BODY_WAITING false c
                  else set_mode REQ_BODY_SENDING (c_waiting c) c in
         let c := set_resps (fun l => l ++ [new_resp i]) c in
         match c_response c with
         | Some k => set_responses (c_respq c ++ [j]) (Some k) c
         | None => set_responses (c_respq c) (Some j) c
         end) ;;
  c <~ get ;;
  putq i (q_links q (Some (length (c_resps c) - 1)%nat) true (q_try q)).

(** What send does: takes so many bytes, or raises *)
Inductive sent := Sent (n : nat) | SendError.
(** _SendRequestData: 359-390.  Line 381 compares instead of assigning. *)
Definition take_wire (s : str) (c : conn) : conn :=
  set_socket (c_socket c) match c_wire c with w :: l => (w ++ s) :: l | [] => [s] end c.
Definition SendRequestData (a : sent) : M unit :=
  c <~ get ;;
  match c_send c with
  | [] => ret tt
  | [] :: l => modify (set_send l)
  | data :: l =>
      match a with
      | SendError => Close (Some CSocket)
      | Sent n =>
          let n := Nat.min n (length data) in
          _ <~ modify (take_wire (firstn n data)) ;;
          match n with
          | O => i <~ the (c_request c) ;; _ <~ Disconnect i ;;
                 modify (fun c => set_send [] (set_request None c))
          | _ => if Nat.ltb n (length data) then modify (set_send (skipn n data :: l)) else modify (set_send l)
          end
      end
  end.

(** What recv does: returns data (nothing at the end of the stream), or raises *)
Inductive received := Data (s : str) | RecvError.
(** data.find(CRLF): the line with its end, and what follows *)
Fixpoint find_line (s : str) : option (str * str) :=
  match s with
  | [] => None
  | c :: s' =>
      match s' with
      | d :: r => if (c =? CR) && (d =? LF) then Some (CRLF, r)
                  else match find_line s' with Some (a, b) => Some (c :: a, b) | None => None end
      | [] => None
      end
  end.
(** The loop that takes n bytes from the buffer: 459-475 *)
Fixpoint take_bytes (n got : Z) (pre buf : list str) : result (str * list str) :=
  match buf with
  | [] => Err IndexError
  | data :: rest =>
      if got + len data <? n then take_bytes n (got + len data) (pre ++ [data]) rest
      else if got + len data =? n then Ok (concat (pre ++ [data]), rest)
      else Ok (concat (pre ++ [firstn (Z.to_nat (n - got)) data]), skipn (Z.to_nat (n - got)) data :: rest)
  end.
(** Data for the response, and what it does with it *)
Definition deliver_line (j : nat) (line : str) : M unit :=
  r <~ getr j ;; q <~ getq (r_request r) ;;
  r <~ lift (RecvLine (q_method q) r line) ;;
  _ <~ putr j r ;;
  if is_done r then response_finished j else ret tt.
Definition deliver_bytes (j : nat) (data : str) : M unit :=
  r <~ getr j ;;
  let '(r', out) := RecvBytes r data in
  _ <~ putr j r' ;;
  q <~ getq (r_request r) ;;
  _ <~ putq (r_request r) (WriteResponse q out) ;;
  if is_done r' then response_finished j else ret tt.
(** The loop of _RecvResponseData: 416-483.  [last]: the local variable bytes, if it is set.
    Each pass takes a byte at least or goes on to a mode that needs a line, so that the fuel
    is enough.  A number of bytes that does not fit an int is a long. *)
Fixpoint recv_loop (fuel : nat) (last : option str) : M bool :=
  c <~ get ;;
  match c_response c with
  | None => ret false
  | Some j =>
      match fuel with
      | O => raise OutOfFuel
      | S f =>
          r <~ getr j ;;
          match RecvNeeds r with
          | NLine =>
              match find_line (concat (c_recv c)) with
              | Some (line, rest) =>
                  _ <~ modify (set_recv (if nonempty rest then [rest] else []) (len rest)) ;;
                  _ <~ deliver_line j line ;;
                  recv_loop f last
              | None => ret false
              end
          | NBytes n =>
              if (n >? maxint) || (n <? - maxint - 1) then raise HTTPException
              else if n =? 0 then
                if c_size c >? 0 then
                  let bytes := concat (c_recv c) in
                  _ <~ modify (set_recv [] 0) ;;
                  _ <~ deliver_bytes j bytes ;;
                  recv_loop f (Some bytes)
                else ret false
              else if c_size c <? n then ret false
              else if n >? 0 then
                '(bytes, rest) <~ lift (take_bytes n 0 [] (c_recv c)) ;;
                _ <~ modify (set_recv rest (c_size c - len bytes)) ;;
                _ <~ deliver_bytes j bytes ;;
                recv_loop f (Some bytes)
              else
                match last with
                | None => raise NameError
                | Some bytes =>
                    _ <~ modify (set_recv (c_recv c) (c_size c - len bytes)) ;;
                    _ <~ deliver_bytes j bytes ;;
                    recv_loop f (Some bytes)
                end
          | NNone => ret true
          end
      end
  end.
(** _RecvResponseData: 392-483.  The error of recv is not passed on. *)
Definition RecvResponseData (a : received) : M bool :=
  match a with
  | RecvError | Data [] => _ <~ Close None ;; ret true
  | Data s =>
      _ <~ modify (fun c => set_recv (c_recv c ++ [s]) (c_size c + len s) c) ;;
      c <~ get ;;
      recv_loop (4 * length (concat (c_recv c)) + 4) None
  end.

(** What the socket and the clock do in one iteration *)
Record input := mkInput {
  i_connect : bool;              (* a new socket, if one is needed, can be connected *)
  i_write : option sent;         (* select: ready for writing, and what send does *)
  i_read : option received;      (* select: ready for reading, and what recv does *)
  i_broken : bool;               (* select: an error on the socket *)
  i_late : bool                  (* the wait for 100 Continue has been too long *) }.

Definition idempotent (m : str) : bool :=
  existsb (str_eqb m) [lit "GET"; lit "HEAD"; lit "PUT"; lit "DELETE"; lit "OPTIONS"; lit "TRACE"].
Definition before_11 (v : option version) : bool :=
  match v with Some v => version_cmp v (mkVersion 1 1) <? 0 | None => true end.
(** Lines 158-163 *)
Definition start_next : M unit :=
  c <~ get ;;
  match c_queue c, c_mode c with
  | i :: l, REQ_READY =>
      q <~ getq i ;;
      _ <~ (if match c_response c with None => true | Some _ => false end || idempotent (q_method q)
            then modify (set_queue l) else ret tt) ;;
      StartRequest i
  | _, _ => ret tt
  end.
(** 211-242: the response section *)
Definition response_section (a : input) : M unit :=
  c <~ get ;;
  match c_response c with
  | None => ret tt
  | Some _ =>
      if i_broken a then Close (Some CIndicated)
      else match i_read a with
      | None => ret tt
      | Some d =>
          done <~ RecvResponseData d ;;
          if done then
            c <~ get ;;
            closing <~ match c_response c with
                       | None => ret false
                       | Some j =>
                           r <~ getr j ;;
                           tokens <~ lift (GetConnection (r_headers r)) ;;
                           ret (existsb (str_eqb (lit "close")) tokens || before_11 (r_version r))
                       end ;;
            closing <~ match c_respq c, c_response c with
                       | k :: l, _ => _ <~ modify (set_responses l (Some k)) ;; ret closing
                       | [], Some _ =>
                           _ <~ modify (set_responses [] None) ;;
                           ret (closing || match c_mode c with CLOSE_WAIT => true | _ => false end)
                       | [], None => ret closing
                       end ;;
            if closing then Close None else ret tt
          else ret tt
      end
  end.
(** One iteration of the loop of ConnectionTask: 156-248 *)
Definition iteration (a : input) : M unit :=
  _ <~ start_next ;;
  c <~ get ;;
  match c_request c, c_response c with
  | None, None =>
      _ <~ match c_mode c with CLOSE_WAIT => Close None | _ => ret tt end ;;
      modify (add_event EvIdle)
  | _, _ =>
      _ <~ (if c_socket c then ret tt
            else if i_connect a then modify (fun c => set_socket true ([] :: c_wire c) c)
            else raise HTTPException) ;;
      if match c_send c with [] => false | _ => true end then
        _ <~ match i_write a with Some s => SendRequestData s | None => ret tt end ;;
        c <~ get ;;
        match c_send c with
        | [] => ret tt
        | _ => response_section a
        end
      else
        match c_mode c with
        | REQ_BODY_WAITING =>
            _ <~ (if c_waiting c then
                    if i_late a then modify (set_mode REQ_BODY_SENDING true) else ret tt
                  else modify (set_mode REQ_BODY_WAITING true)) ;;
            response_section a
        | REQ_BODY_SENDING =>
            i <~ the (c_request c) ;;
            q <~ getq i ;;
            '(q, data) <~ lift (ReadRequestBody (e_chunk E) q) ;;
            _ <~ putq i q ;;
            if nonempty data then modify (fun c => set_send (c_send c ++ [data]) c)
            else
              _ <~ Disconnect i ;;
              _ <~ modify (fun c => set_mode REQ_READY (c_waiting c) (set_request None c)) ;;
              response_section a
        | REQ_READY | CLOSE_WAIT => response_section a
        end
  end.
(** ThreadTask catches HTTPException: 790-802 *)
Definition task (a : input) : M unit :=
  fun c => match iteration a c with
           | (Err e, c) => if is_http e then Close (Some (CExn e)) c else (Err e, c)
           | r => r
           end.

(** ** Histories *)
Inductive op :=
| OpNew (q : req)       (* the caller makes a request *)
| OpQueue (i : nat)     (* it is queued on this connection: 687-690 *)
| OpTask (a : input).
Definition step (c : conn) (o : op) : conn :=
  match o with
  | OpNew q => set_reqs (fun l => l ++ [q]) c
  | OpQueue i => set_queue (c_queue c ++ [i]) c
  | OpTask a => match task a c with (Err e, c) => add_event (EvRaised e) c | (Ok _, c) => c end
  end.
Definition run (l : list op) (c : conn) : conn := fold_left step l c.
End Client.

(** Connection.__init__: 79-101 *)
Definition new_conn : conn := mkConn [] [] [] None [] None REQ_READY false false [] [] 0 [] [].
(** HTTPRequest.__init__: 1364-1398, with SetRequestURI: the path, and the Host header *)
Definition new_req (method url host : str) (body : option str) (source : str) (stream auto : bool) : req :=
  mkReq method url (mkVersion 1 1) (SetHeader (lit "Host") (Some host) false []) false None 0 false body source
    source 0 None None false [] [] (if stream then Some [] else None) auto false false.
