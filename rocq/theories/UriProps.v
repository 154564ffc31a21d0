(** Property theorems for the URI module (C06 to C13). *)
From Verif Require Import Py Uri UriSpec UriProofs UriProofs2 UriProofs3.

(** C06: escaping round-trips, whatever characters are declared reserved, and the escaped
    text holds only percent escapes and characters that may stand for themselves. *)
Theorem C06_unescape_escape : forall (reserved : Z -> bool) (s : str),
  is_octets s ->
  UnescapeData (EscapeData reserved s) = s /\
  escapes_ok (EscapeData reserved s) /\
  forall x, In x (EscapeData reserved s) ->
    x = 37 \/ hex_digit x \/
    (reserved x = false /\ (IsUnreserved x = true \/ IsReserved x = true)).
Proof.
  exact (fun r s H => conj (unescape_escape r s H)
    (conj (escape_escapes_ok r s H) (escape_clean r s H))).
Qed.
Print Assumptions C06_unescape_escape.

Example C06_ex : is_octets (lit "a%2F/ b") /\
  EscapeData IsReserved (lit "a%2F/ b") = lit "a%252F%2F%20b".
Proof. split; [repeat constructor; lia|reflexivity]. Qed.

(** C07: canonical escaping is idempotent and keeps the meaning. *)
Theorem C07_canonicalize : forall s : str,
  escapes_ok s -> is_octets s ->
  exists r, CanonicalizeData s = Ok r /\ CanonicalizeData r = Ok r /\
    UnescapeData r = UnescapeData s /\ is_octets r /\ escapes_ok r.
Proof. exact canonicalize_spec. Qed.
Print Assumptions C07_canonicalize.

Example C07_ex : CanonicalizeData (lit "%41%2541 %2f") = Ok (lit "A%2541%20%2f").
Proof. reflexivity. Qed.

(** C08: splitting and joining paths are inverse to each other. *)
Theorem C08_split_join_abs : forall p : str,
  47 :: join (SplitAbsPath (47 :: p)) = 47 :: p /\ Forall slash_free (SplitAbsPath (47 :: p)).
Proof. exact abs_split_join. Qed.
Print Assumptions C08_split_join_abs.

Theorem C08_split_join_rel : forall p : str,
  join (SplitRelPath p) = p /\ Forall slash_free (SplitRelPath p).
Proof. exact rel_split_join. Qed.
Print Assumptions C08_split_join_rel.

Theorem C08_join_split : forall segs : list str,
  segs <> [] -> Forall slash_free segs ->
  SplitRelPath (join segs) = segs /\ SplitAbsPath (47 :: join segs) = segs.
Proof. exact segments_unique. Qed.
Print Assumptions C08_join_split.

Example C08_ex : SplitAbsPath (lit "/a//b/") = [lit "a"; []; lit "b"; []].
Proof. reflexivity. Qed.

(** C09: normalised segment lists have no removable dot segments, lead to the same place,
    and are left alone by a second normalisation. *)
Theorem C09_normalize : forall segs : list str,
  segs <> [] ->
  normal (NormalizeSegments segs) /\
  destination (NormalizeSegments segs) = destination segs /\
  NormalizeSegments (NormalizeSegments segs) = NormalizeSegments segs.
Proof. exact normalize_property. Qed.
Print Assumptions C09_normalize.

Example C09_ex :
  NormalizeSegments (map lit ["a"; "."; ".."; ".."; "b"; "c"; ".."]%string)
  = [lit ".."; lit "b"; []].
Proof. reflexivity. Qed.

(** C10: a URI is the concatenation of its components. *)
Theorem C10_recompose : forall (s : str) (u : uri), URI s = Ok u ->
  compose (scheme u) (authority u) (path_of u) (query u) (fragment u) = s /\ str_of u = s.
Proof. exact recompose. Qed.
Print Assumptions C10_recompose.

Example C10_ex : exists u, URI (lit "http://u@h:1/p//q?x=/?#f#g") = Ok u /\
  authority u = Some (lit "u@h:1") /\ absPath u = Some (lit "/p//q") /\
  query u = Some (lit "x=/?") /\ fragment u = Some (lit "f#g").
Proof. eexists. split; [vm_compute; reflexivity|]. repeat split. Qed.

(** C11: resolving against a base that has scheme, authority and absolute path.  The
    claim that the path of the result has no dot segments holds for references with a
    relative path only. *)
Theorem C11_resolve_partial : forall bs base rs ref sch ba bp,
  URI bs = Ok base -> URI rs = Ok ref ->
  scheme base = Some sch -> authority base = Some ba -> absPath base = Some bp ->
  scheme ref = None -> ~ same_document ref ->
  exists u, Resolve ref base = Ok u /\
    scheme u = Some sch /\
    authority u = match authority ref with Some a => Some a | None => Some ba end /\
    relPath u = None /\ opaquePart u = None /\ query u = query ref /\ fragment u = fragment ref /\
    (authority ref <> None \/ absPath ref <> None -> absPath u = absPath ref) /\
    (forall bsegs rsegs, authority ref = None -> absPath ref = None ->
       bsegs <> [] -> Forall slash_free bsegs -> bp = 47 :: join bsegs ->
       rsegs <> [] -> Forall slash_free rsegs -> relPath ref = Some (join rsegs) ->
       exists segs, absPath u = Some (47 :: join segs) /\ normal segs /\ Forall slash_free segs /\
         destination segs = destination (removelast bsegs ++ rsegs)).
Proof. exact resolve_general. Qed.
Print Assumptions C11_resolve_partial.

(** References to the current document only change the fragment. *)
Theorem C11_same_document : forall bs base ref,
  URI bs = Ok base -> same_document ref ->
  Resolve ref base = Ok (mkURI (octets base) (fragment ref) (scheme base) (schemeSpecificPart base)
    (opaquePart base) (authority base) (absPath base) (relPath base) (query base)).
Proof. exact resolve_same_document. Qed.
Print Assumptions C11_same_document.

(** Absolute references do not depend on the base. *)
Theorem C11_absolute : forall rs ref base,
  URI rs = Ok ref -> scheme ref <> None -> Resolve ref base = Ok ref.
Proof. exact resolve_absolute. Qed.
Print Assumptions C11_absolute.

Example C11_ex : exists b r u,
  URI (lit "http://h/a/b/c?q") = Ok b /\ URI (lit "../x/./y#f") = Ok r /\
  authority b = Some (lit "h") /\ absPath b = Some (lit "/a/b/c") /\ scheme r = None /\
  Resolve r b = Ok u /\ str_of u = lit "http://h/a/x/y#f".
Proof. do 3 eexists. repeat (split; [vm_compute; reflexivity|]). vm_compute; reflexivity. Qed.

(** The full claim of C11 is false: with a base that has no path the reference runs into
    the authority, and an absolute-path reference keeps its dot segments. *)
Theorem C11_resolve_refuted :
  (exists b r u, URI (lit "http://host") = Ok b /\ URI (lit "x") = Ok r /\
     Resolve r b = Ok u /\ authority b = Some (lit "host") /\ authority r = None /\
     authority u = Some (lit "hostx")) /\
  (exists b r u, URI (lit "http://host/a") = Ok b /\ URI (lit "/b/../c") = Ok r /\
     Resolve r b = Ok u /\ absPath u = Some (lit "/b/../c")).
Proof.
  split; do 3 eexists; repeat (split; [vm_compute; reflexivity|]); vm_compute; reflexivity.
Qed.
Print Assumptions C11_resolve_refuted.

(** C12: Relative then Resolve gives the URI back, for paths P that are not a prefix of the
    base path, without dot segments, empty inner segments or colons. *)
Theorem C12_relative_resolve_partial : forall us u bs b sch a P B,
  URI us = Ok u -> URI bs = Ok b ->
  scheme u = Some sch -> scheme b = Some sch -> authority u = Some a -> authority b = Some a ->
  P <> [] -> Forall slash_free P -> absPath u = Some (47 :: join P) ->
  B <> [] -> Forall slash_free B -> absPath b = Some (47 :: join B) ->
  Forall ordinary P -> Forall ordinary B -> plain_segments P -> ~ (exists t, B = P ++ t) ->
  exists r, Relative u b = Ok r /\ scheme r = None /\ authority r = None /\ absPath r = None /\
    Resolve r b = Ok u.
Proof. exact relative_resolve. Qed.
Print Assumptions C12_relative_resolve_partial.

Example C12_ex : exists u b r,
  URI (lit "http://h/a/x/y?q#f") = Ok u /\ URI (lit "http://h/a/b/c") = Ok b /\
  absPath u = Some (47 :: join [lit "a"; lit "x"; lit "y"]) /\
  absPath b = Some (47 :: join [lit "a"; lit "b"; lit "c"]) /\
  Forall ordinary [lit "a"; lit "x"; lit "y"] /\
  Relative u b = Ok r /\ str_of r = lit "../x/y?q#f" /\ Resolve r b = Ok u.
Proof.
  do 3 eexists. do 4 (split; [vm_compute; reflexivity|]).
  split; [repeat constructor; discriminate|].
  repeat (split; [vm_compute; reflexivity|]). vm_compute; reflexivity.
Qed.

Example C12_ex_plain : plain_segments [lit "a"; lit "x"; lit "y"] /\
  ~ (exists t, [lit "a"; lit "b"; lit "c"] = [lit "a"; lit "x"; lit "y"] ++ t).
Proof.
  split; [split|].
  - intros C s rest H _ ->. destruct C as [|? [|? [|? [|? ?]]]]; discriminate.
  - repeat constructor; cbn; intuition discriminate.
  - intros (t & Ht). discriminate.
Qed.

(** The full claim is false: a path that is a prefix of the base path becomes the empty
    reference, and a first segment with a colon becomes a scheme. *)
Theorem C12_relative_resolve_refuted :
  (exists u b r v, URI (lit "http://h/a") = Ok u /\ URI (lit "http://h/a/b") = Ok b /\
     Relative u b = Ok r /\ Resolve r b = Ok v /\ str_of v = lit "http://h/a/b") /\
  (exists u b r v, URI (lit "http://h/x:y") = Ok u /\ URI (lit "http://h/b") = Ok b /\
     Relative u b = Ok r /\ Resolve r b = Ok v /\ str_of v = lit "x:y").
Proof.
  split; do 4 eexists; repeat (split; [vm_compute; reflexivity|]); vm_compute; reflexivity.
Qed.
Print Assumptions C12_relative_resolve_refuted.

(** C13: splitting a server's text gives its parts; ports are always digits. *)
Theorem C13_split_server_partial : forall userinfo host port,
  (forall u, userinfo = Some u -> ~ In 64 u) -> ~ In 58 host -> ~ In 64 host ->
  (forall x, port = Some x -> Forall (fun c => In c (lit "0123456789")) x) ->
  SplitServer (Some (compose_server userinfo host port)) = (userinfo, Some host, port).
Proof. exact split_compose_server. Qed.
Print Assumptions C13_split_server_partial.

Theorem C13_port_digits : forall a x, snd (SplitServer a) = Some x ->
  Forall (fun c => In c (lit "0123456789")) x.
Proof. exact SplitServer_port_digits. Qed.
Print Assumptions C13_port_digits.

Example C13_ex : SplitServer (Some (lit "me:pw@www.example.com:80"))
  = (Some (lit "me:pw"), Some (lit "www.example.com"), Some (lit "80")).
Proof. reflexivity. Qed.

(** Not every authority is the recombination of its parts. *)
Theorem C13_split_server_refuted :
  exists a u h p, SplitServer (Some a) = (u, Some h, p) /\ compose_server u h p <> a.
Proof.
  exists (lit "u@h:12xx"), (Some (lit "u")), (lit "h"), (Some (lit "12")).
  split; [reflexivity|discriminate].
Qed.
Print Assumptions C13_split_server_refuted.
