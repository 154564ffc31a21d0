(** Model of pyslet/pyslet/rfc2617.py, HTTP authentication, and of the places of rfc2616.py
    that use it.

    Strings are byte strings.  A URL is what is asked of it here: its canonical root (None
    when it is not absolute; rfc2396.py GetCanonicalRoot) and its path ([] also for None).
    The text of the log and the locks are left out. *)
From Verif Require Import Py Iso Dec XmlUtils Imscp HttpCore HttpParams HttpHeaders HttpConn.
From Verif Require Uri.
Open Scope Z_scope.

(** ** Challenges *)

(** A parameter: name, value, qflag.  The scheme of a challenge is None when it is not a
    string but a parameter: see [RequireChallenge]. *)
Definition aparam : Type := str * str * bool.
Record challenge := mkChallenge {
  ch_scheme : option str; ch_params : list aparam; ch_dict : list (str * str); ch_space : option str }.

(** Dictionaries from strings to strings, in the order of insertion *)
Fixpoint sset (k v : str) (d : list (str * str)) : list (str * str) :=
  match d with
  | [] => [(k, v)]
  | (k', v') :: d' => if str_eqb k k' then (k', v) :: d' else (k', v') :: sset k v d'
  end.
Fixpoint sget (k : str) (d : list (str * str)) : option str :=
  match d with
  | [] => None
  | (k', v) :: d' => if str_eqb k k' then Some v else sget k d'
  end.
Definition shas (k : str) (d : list (str * str)) : bool := match sget k d with Some _ => true | None => false end.

(** Challenge.__init__: rfc2617.py 29-42 *)
Definition add_param (d : list (str * str)) (p : aparam) : list (str * str) :=
  let '(pn, pv, _) := p in
  let d := sset pn pv d in
  let _pn := lower pn in
  if negb (shas _pn d) then sset _pn pv d else d.
Definition Challenge (scheme : option str) (params : list aparam) : challenge :=
  let pdict := fold_left add_param params [] in
  if negb (shas (lit "realm") pdict) then
    mkChallenge scheme (params ++ [(lit "realm", lit "Default", true)]) (sset (lit "realm") (lit "Default") pdict) None
  else mkChallenge scheme params pdict None.
(** BasicChallenge.__init__: 107-108 *)
Definition BasicChallenge (params : list aparam) : challenge := Challenge (Some (lit "Basic")) params.

(** __str__: 68-75.  A scheme that is not a string cannot be joined. *)
Fixpoint join_comma (l : list str) : str :=
  match l with [] => [] | [x] => x | x :: l' => x ++ lit ", " ++ join_comma l' end.
Definition param_str (p : aparam) : str := let '(pn, pv, pq) := p in pn ++ lit "=" ++ QuoteString pv pq.
Definition challenge_str (c : challenge) : result str :=
  match ch_scheme c with
  | None => Err TypeError
  | Some s => match ch_params c with [] => Ok s | l => Ok (s ++ lit " " ++ join_comma (map param_str l)) end
  end.

(** __getitem__ with a name, __contains__, __len__: 83-102 *)
Definition getitem (c : challenge) (index : str) : result str :=
  let result := sget index (ch_dict c) in
  let result := match result with None => sget (lower index) (ch_dict c) | r => r end in
  match result with None => Err KeyError | Some v => Ok v end.
Definition contains (c : challenge) (key : str) : bool := shas key (ch_dict c) || shas (lower key) (ch_dict c).

(** AuthorizationParser.RequireChallenge: 278-304.  For a scheme other than basic the
    scheme is forgotten: Challenge is called with the parameters alone, so that the first of
    them is its scheme, and without parameters the call raises TypeError. *)
Definition param_of (w : words) : result (option aparam * words) :=
  match ParseToken w with
  | (Some paramName, w) =>
      w <- RequireSeparator 61 (ParseSP w) ;;
      let w := ParseSP w in
      '(paramValue, forceQ, w) <-
        (if IsToken w then '(v, w) <- RequireToken w ;; Ok (v, false, w)
         else '(v, w) <- RequireQuotedString w ;; Ok (v, true, w)) ;;
      Ok (Some (paramName, paramValue, forceQ), w)
  | (None, w) => Ok (None, w)
  end.
Fixpoint challenge_loop (fuel : nat) (params : list aparam) (w : words) : result (list aparam * words) :=
  match fuel with
  | O => Err OutOfFuel
  | S f =>
      match cWord w with
      | None => Ok (params, w)
      | Some _ =>
          '(p, w) <- param_of w ;;
          let params := match p with Some p => params ++ [p] | None => params end in
          let '(sep, w) := ParseSeparator 44 (ParseSP w) in
          if sep then challenge_loop f params w else Ok (params, w)
      end
  end.
Definition RequireChallenge (w : words) : result (challenge * words) :=
  '(authScheme, w) <- RequireToken (ParseSP w) ;;
  '(params, w) <- challenge_loop (S (length w)) [] (ParseSP w) ;;
  if str_eqb (lower authScheme) (lit "basic") then Ok (BasicChallenge params, w)
  else
    match params with
    | [] => Err TypeError
    | _ :: params => Ok (Challenge None params, w)
    end.

(** FromString: 44-52 *)
Definition FromString (source : str) : result challenge :=
  p <- WordParser false source ;;
  '(c, p) <- RequireChallenge (ParseSP p) ;;
  _ <- RequireEnd (ParseSP p) ;;
  Ok c.
(** ListFromString: 54-66 *)
Fixpoint list_loop (fuel : nat) (challenges : list challenge) (p : words) : result (list challenge * words) :=
  match fuel with
  | O => Err OutOfFuel
  | S f =>
      '(c, p) <- ParseProduction RequireChallenge p ;;
      let challenges := match c with Some c => challenges ++ [c] | None => challenges end in
      let '(sep, p) := ParseSeparator 44 p in
      if sep then list_loop f challenges p else Ok (challenges, p)
  end.
Definition ListFromString (source : str) : result (list challenge) :=
  p <- WordParser true source ;;
  '(challenges, p) <- list_loop (S (length p)) [] p ;;
  _ <- RequireEnd p ;;
  Ok challenges.

(** ** base64, as binascii has it (Modules/binascii.c of Python 2.7) *)
Definition b64_alphabet : str := lit "ABCDEFGHIJKLMNOPQRSTUVWXYZabcdefghijklmnopqrstuvwxyz0123456789+/".
Definition PAD : Z := 61.
Definition b64_char (k : Z) : Z := nth (Z.to_nat k) b64_alphabet 0.
(** b64encode *)
Fixpoint b64encode (s : str) : str :=
  match s with
  | [] => []
  | [a] => [b64_char (a / 4); b64_char (a mod 4 * 16); PAD; PAD]
  | [a; b] => [b64_char (a / 4); b64_char (a mod 4 * 16 + b / 16); b64_char (b mod 16 * 4); PAD]
  | a :: b :: c :: s' =>
      b64_char (a / 4) :: b64_char (a mod 4 * 16 + b / 16) :: b64_char (b mod 16 * 4 + c / 64) :: b64_char (c mod 64)
      :: b64encode s'
  end.
(** table_a2b_base64 without the padding *)
Fixpoint index_of (c : Z) (l : str) (k : Z) : option Z :=
  match l with [] => None | x :: l' => if c =? x then Some k else index_of c l' (k + 1) end.
Definition b64_value (c : Z) : option Z := index_of c b64_alphabet 0.
(** binascii_find_valid(…,1) == '=', at a padding character: what follows, other characters
    aside, is one too *)
Fixpoint pad_next (s : str) : bool :=
  match s with
  | [] => false
  | c :: s' => if c =? PAD then true else match b64_value c with Some _ => false | None => pad_next s' end
  end.
(** binascii_a2b_base64: [quad_pos], [leftchar], [leftbits] *)
Fixpoint a2b (s : str) (quad_pos leftchar leftbits : Z) : result str :=
  match s with
  | [] => if leftbits =? 0 then Ok [] else Err TypeError
  | c :: s' =>
      if c =? PAD then
        if (quad_pos <? 2) || ((quad_pos =? 2) && negb (pad_next s')) then a2b s' quad_pos leftchar leftbits
        else Ok []
      else
        match b64_value c with
        | None => a2b s' quad_pos leftchar leftbits
        | Some v =>
            let quad_pos := (quad_pos + 1) mod 4 in
            let leftchar := leftchar * 64 + v in
            let leftbits := leftbits + 6 in
            if leftbits >=? 8 then
              let leftbits := leftbits - 8 in
              r <- a2b s' quad_pos (leftchar mod 2 ^ leftbits) leftbits ;;
              Ok ((leftchar / 2 ^ leftbits) mod 256 :: r)
            else a2b s' quad_pos leftchar leftbits
        end
  end.
Definition b64decode (s : str) : result str := a2b s 0 0 0.

(** ** Credentials *)

(** Credentials and BasicCredentials: 122-134, 187-192.  The scheme is always Basic. *)
Record credentials := mkCred {
  cr_space : option str; cr_realm : option str; cr_user : option str; cr_pass : option str;
  cr_prefixes : list (list str) }.
Definition new_cred : credentials := mkCred None None None None [].
Definition with_user (c : credentials) (u p : str) : credentials :=
  mkCred (cr_space c) (cr_realm c) (Some u) (Some p) (cr_prefixes c).
Definition with_prefixes (c : credentials) (l : list (list str)) : credentials :=
  mkCred (cr_space c) (cr_realm c) (cr_user c) (cr_pass c) l.

(** SetBasicCredentials: 194-199.  HTTPInvalidBasicCredentials is not defined anywhere. *)
Definition SetBasicCredentials (c : credentials) (basic : str) : result credentials :=
  d <- b64decode basic ;;
  match split_on 58 d with
  | [u; p] => Ok (with_user c u p)
  | _ => Err NameError
  end.
(** __str__: 269-273 *)
Definition cred_str (c : credentials) : str :=
  match cr_user c, cr_pass c with
  | Some u, Some p => lit "Basic" ++ lit " " ++ b64encode (u ++ lit ":" ++ p)
  | _, _ => lit "Basic" ++ lit " "
  end.
(** FromWords, FromHTTPString: 165-183.  After ParseRemainder there are no words left. *)
Definition FromHTTPString (source : str) : result credentials :=
  wp <- WordParser true source ;;
  '(scheme, wp) <- RequireToken wp ;;
  if str_eqb (lower scheme) (lit "basic") then
    r <- ParseRemainder wp ;;
    c <- SetBasicCredentials new_cred r ;;
    _ <- RequireEnd [] ;;
    Ok c
  else Err NotImplementedError.

(** IsPrefix: 258-267 *)
Fixpoint prefix_loop (prefix path : list str) : bool :=
  match prefix, path with
  | [], _ => true
  | s :: prefix, t :: path =>
      if (match s with [] => false | _ => true end) && negb (str_eqb s t) then false else prefix_loop prefix path
  | _ :: _, [] => false
  end.
Definition IsPrefix (prefix path : list str) : bool :=
  if (length path <? length prefix)%nat then false else prefix_loop prefix path.
(** TestPath: 225-232 *)
Definition segments_of (path : str) : list str := Uri.NormalizeSegments (Uri.SplitAbsPath path).
Definition TestPath (c : credentials) (path : str) : bool :=
  existsb (fun p => IsPrefix p (segments_of path)) (cr_prefixes c).
(** AddSuccessPath: 234-256; the loop gives keep and the list *)
Fixpoint success_loop (new : list str) (prefixes : list (list str)) : bool * list (list str) :=
  match prefixes with
  | [] => (true, [])
  | p :: l =>
      if IsPrefix p new then (false, p :: l)
      else if IsPrefix new p then success_loop new l
      else let '(keep, l) := success_loop new l in (keep, p :: l)
  end.
Definition AddSuccessPath (c : credentials) (path : str) : credentials :=
  let new := segments_of path in
  let '(keep, l) := success_loop new (cr_prefixes c) in
  with_prefixes c (if keep then l ++ [new] else l).

(** URIs are compared as texts, with None as 'None' (rfc2396.py 849-851) *)
Definition space_text (s : option str) : str := match s with Some t => t | None => lit "None" end.
Definition space_eqb (a b : option str) : bool := str_eqb (space_text a) (space_text b).
Record url := mkUrl { u_root : option str; u_path : str }.
(** TestURL: 214-223 *)
Definition TestURL (c : credentials) (u : url) : result bool :=
  match u_root u with
  | None => Err ValueError
  | Some _ => Ok (space_eqb (cr_space c) (u_root u) && TestPath c (u_path u))
  end.
(** MatchChallenge: 136-153.  A challenge has no attribute realm. *)
Definition MatchChallenge (c : credentials) (ch : challenge) : result bool :=
  if negb (match ch_scheme ch with Some s => str_eqb (lit "Basic") s | None => false end) then Ok false
  else if negb (space_eqb (cr_space c) (ch_space ch)) then Ok false
  else match cr_realm c with
       | Some (_ :: _) => Err AttributeError
       | _ => Ok true
       end.

(** ** The request manager: rfc2616.py 891-898, 926-939.  Credentials are found by their
    place in the list. *)
Fixpoint find {A} (test : A -> result bool) (k : nat) (l : list A) : result (option (nat * A)) :=
  match l with
  | [] => Ok None
  | c :: l' => b <- test c ;; if (b : bool) then Ok (Some (k, c)) else find test (S k) l'
  end.
Definition AddCredentials (m : list credentials) (c : credentials) : list credentials := m ++ [c].
(** FindCredentials; the text of the challenge is made for the log first *)
Definition FindCredentials (m : list credentials) (ch : challenge) : result (option (nat * credentials)) :=
  _ <- challenge_str ch ;;
  find (fun c => MatchChallenge c ch) 0 m.
Definition FindCredentialsForURL (m : list credentials) (u : url) : result (option (nat * credentials)) :=
  find (fun c => TestURL c u) 0 m.

(** HTTPRequest.ReadRequestHeader, rfc2616.py 1552-1556: the Authorization header that is sent *)
Definition authorization (m : list credentials) (u : url) (set : option str) : result (option str) :=
  match set with
  | Some v => Ok (Some v)
  | None => c <- FindCredentialsForURL m u ;; Ok (option_map (fun c => cred_str (snd c)) c)
  end.

(** The header WWW-Authenticate: rfc2616.py 1804-1821 *)
Definition GetWWWAuthenticate (header : option str) : result (option (list challenge)) :=
  match header with
  | Some v => l <- ListFromString v ;; Ok (Some l)
  | None => Ok None
  end.
Fixpoint map_str (l : list challenge) : result (list str) :=
  match l with [] => Ok [] | c :: l' => s <- challenge_str c ;; r <- map_str l' ;; Ok (s :: r) end.
Definition SetWWWAuthenticate (challenges : list challenge) : result str :=
  l <- map_str challenges ;; Ok (join_comma l).

(** HTTPRequest.Finished, rfc2616.py 1684-1716, for a status that is not a redirection.
    [try] is the place of the credentials that were tried; the result is the manager's
    credentials, what is tried now, and the Authorization headers with which the request is
    sent again.  The manager has no method RemoveCredentials. *)
Definition with_space (c : challenge) (s : option str) : challenge := mkChallenge (ch_scheme c) (ch_params c) (ch_dict c) s.
Fixpoint update {A} (k : nat) (f : A -> A) (l : list A) : list A :=
  match l, k with
  | [], _ => []
  | x :: l', O => f x :: l'
  | x :: l', S k' => x :: update k' f l'
  end.
Fixpoint challenges_loop (m : list credentials) (u : url) (try : option nat) (sent : list str) (l : list challenge)
    : result (option nat * list str) :=
  match l with
  | [] => Ok (try, sent)
  | c :: l' =>
      f <- FindCredentials m (with_space c (u_root u)) ;;
      match f with
      | Some (k, cr) => challenges_loop m u (Some k) (sent ++ [cred_str cr]) l'
      | None => challenges_loop m u None sent l'
      end
  end.
Definition Finished (m : list credentials) (u : url) (try : option nat) (status : Z) (header : option str)
    : result (list credentials * option nat * list str) :=
  m <- match try with
       | None => Ok m
       | Some k => if status =? 401 then Err AttributeError else Ok (update k (fun c => AddSuccessPath c (u_path u)) m)
       end ;;
  if status =? 401 then
    cs <- GetWWWAuthenticate header ;;
    match cs with
    | None => Err TypeError
    | Some l => '(try, sent) <- challenges_loop m u None [] l ;; Ok (m, try, sent)
    end
  else Ok (m, None, []).
