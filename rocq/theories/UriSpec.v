(** Specification vocabulary for URIs. *)
From Verif Require Import Py Uri.

Definition is_octets (s : str) : Prop := Forall (fun c => 0 <= c < 256) s.

(** Hexadecimal digits, by enumeration. *)
Definition hex_digit (c : Z) : Prop := In c (lit "0123456789ABCDEFabcdef").

(** Every percent sign introduces two hexadecimal digits. *)
Inductive escapes_ok : str -> Prop :=
| ok_nil : escapes_ok []
| ok_pct h l s : hex_digit h -> hex_digit l -> escapes_ok s -> escapes_ok (37 :: h :: l :: s)
| ok_chr c s : c <> 37 -> escapes_ok s -> escapes_ok (c :: s).

(** A path segment has no slash in it. *)
Definition slash_free (s : str) : Prop := ~ In 47 s.

(** Text of a list of segments. *)
Definition join (l : list str) : str :=
  match l with
  | [] => []
  | s :: l' => s ++ concat (map (fun t => 47 :: t) l')
  end.

(** Where a segment list leads, starting from some directory: how many levels up,
    then which directories down, then which name (empty for a directory). *)
Record place := Place { ups : nat; downs : list str; name : str }.

Definition go (p : nat * list str) (s : str) : nat * list str :=
  if str_eqb s (lit ".") then p
  else if str_eqb s (lit "..") then
    match snd p with
    | [] => (S (fst p), [])
    | _ :: d => (fst p, d)
    end
  else (fst p, s :: snd p).

Definition is_dots (s : str) : bool := str_eqb s (lit ".") || str_eqb s (lit "..").

(** The place reached: all segments but the last are directories to go through; the last
    one is a name, unless it is "." or ".." *)
Definition destination (segs : list str) : place :=
  let dirs := fold_left go (removelast segs) (0%nat, []) in
  let l := last segs [] in
  if is_dots l then let d := go dirs l in Place (fst d) (rev (snd d)) []
  else Place (fst dirs) (rev (snd dirs)) l.

(** No "." segment, and ".." only at the start. *)
Definition normal (segs : list str) : Prop :=
  ~ In (lit ".") segs /\
  forall l1 s l2, segs = l1 ++ s :: lit ".." :: l2 -> s = lit "..".

(** RFC 2396 reference syntax: the components put together again. *)
Definition compose (scheme authority path query fragment : option str) : str :=
  match scheme with Some s => s ++ lit ":" | None => [] end ++
  match authority with Some a => lit "//" ++ a | None => [] end ++
  match path with Some p => p | None => [] end ++
  match query with Some q => lit "?" ++ q | None => [] end ++
  match fragment with Some f => lit "#" ++ f | None => [] end.

(** A server: userinfo@host:port *)
Definition compose_server (userinfo : option str) (host : str) (port : option str) : str :=
  match userinfo with Some u => u ++ lit "@" | None => [] end ++ host ++
  match port with Some p => lit ":" ++ p | None => [] end.

(** The hierarchical or opaque path of a parsed URI, whichever it has. *)
Definition path_of (u : uri) : option str :=
  match opaquePart u with
  | Some o => Some o
  | None => match absPath u with Some p => Some p | None => relPath u end
  end.

(** A reference to the current document: nothing but perhaps a fragment. *)
Definition same_document (u : uri) : Prop :=
  scheme u = None /\ authority u = None /\ query u = None /\
  (absPath u = None \/ absPath u = Some []) /\ (relPath u = None \/ relPath u = Some []).

(** Neither "." ([dot]) nor ".." ([dotdot]) *)
Definition ordinary (s : str) : Prop := s <> dot /\ s <> dotdot.

(** All segments but the last are non-empty, and none contains a colon. *)
Definition plain_segments (P : list str) : Prop :=
  (forall C s rest, P = C ++ s :: rest -> rest <> [] -> s <> []) /\ Forall (fun s => ~ In 58 s) P.
