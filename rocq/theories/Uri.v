(** Model of pyslet/pyslet/rfc2396.py (RFC 2396 URIs).

    Octet strings are [list Z] (octets 0..255).  The character predicates of the
    Python code also accept None and '' and answer False; the model calls them on
    characters only. *)
From Verif Require Import Py.

(** rfc2396.py:16-59 *)
Definition IsUpAlpha (c : Z) : bool := (c >=? 0x41) && (c <=? 0x5A).
Definition IsLowAlpha (c : Z) : bool := (c >=? 0x61) && (c <=? 0x7A).
Definition IsAlpha (c : Z) : bool := IsUpAlpha c || IsLowAlpha c.
Definition IsDigit (c : Z) : bool := (c >=? 0x30) && (c <=? 0x39).
Definition IsAlphaNum (c : Z) : bool := IsUpAlpha c || IsLowAlpha c || IsDigit c.
Definition IsReserved (c : Z) : bool :=
  mem c [0x3B; 0x2F; 0x3F; 0x3A; 0x40; 0x26; 0x3D; 0x2B; 0x24; 0x2C].
Definition IsMark (c : Z) : bool :=
  mem c [0x2D; 0x5F; 0x2E; 0x21; 0x7E; 0x2A; 0x27; 0x28; 0x29].
Definition IsUnreserved (c : Z) : bool := IsAlphaNum c || IsMark c.
Definition IsHex (c : Z) : bool :=
  IsDigit c || ((c >=? 0x41) && (c <=? 0x46)) || ((c >=? 0x61) && (c <=? 0x66)).
Definition IsSchemeChar (c : Z) : bool := IsAlphaNum c || mem c [0x2B; 0x2D; 0x2E].
Definition IsAuthorityReserved (c : Z) : bool := mem c [0x3B; 0x3A; 0x40; 0x3F; 0x2F].
(** rfc2396.py:244 and 393 *)
Definition IsPathSegmentReserved (c : Z) : bool := mem c [0x2F; 0x3B; 0x3D; 0x3F].
Definition IsQueryReserved (c : Z) : bool :=
  mem c [0x3B; 0x2F; 0x3F; 0x3A; 0x40; 0x26; 0x3D; 0x2B; 0x2C; 0x24].

(** The value of a hexadecimal digit (Python's int(_,16) on checked digits). *)
Definition hexval (c : Z) : Z :=
  if IsDigit c then c - 0x30
  else if (c >=? 0x41) && (c <=? 0x46) then c - 0x41 + 10
  else c - 0x61 + 10.

(** A digit of "%X". *)
Definition hexdigit (n : Z) : Z := if n <? 10 then 0x30 + n else 0x41 + (n - 10).

(** "%%%02X"%ord(c) for an octet *)
Definition pct (c : Z) : str := [0x25; hexdigit (c / 16); hexdigit (c mod 16)].

(** rfc2396.py:61-87 ParseURIC: the number of leading URI characters. [mode] is
    None, '%' or the first hex digit of an escape. *)
Inductive uric_mode := UNone | UPct | UHex.
Fixpoint parse_uric_loop (mode : uric_mode) (s : str) (uric : nat) : nat :=
  match s with
  | [] => uric
  | c :: s' =>
      match mode with
      | UNone =>
          if IsReserved c || IsUnreserved c then parse_uric_loop UNone s' (uric + 1)
          else if c =? 0x25 then parse_uric_loop UPct s' uric
          else uric
      | UPct => if IsHex c then parse_uric_loop UHex s' uric else uric
      | UHex => if IsHex c then parse_uric_loop UNone s' (uric + 3) else uric
      end
  end.
Definition ParseURIC (s : str) : nat := parse_uric_loop UNone s 0.

(** rfc2396.py:90-102 ParseScheme; [pre] is octets[0:pos] reversed. *)
Fixpoint parse_scheme_loop (pre : str) (s : str) : option str :=
  match s with
  | [] => None
  | c :: s' =>
      if (match pre with [] => false | _ => true end && IsSchemeChar c) || IsAlpha c then
        parse_scheme_loop (c :: pre) s'
      else if c =? 0x3A then Some (rev pre)
      else None
  end.
Definition ParseScheme (s : str) : option str := parse_scheme_loop [] s.

(** rfc2396.py:105-130 CanonicalizeData.  Simplification: Python's int(escape,16)
    also accepts blanks, signs and single digits; here anything but two hex digits
    after '%' is a ValueError. *)
Fixpoint CanonicalizeData (s : str) : result str :=
  match s with
  | [] => Ok []
  | c :: s' =>
      if c =? 0x25 then
        match s' with
        | h :: l :: s'' =>
            if IsHex h && IsHex l then
              let d := hexval h * 16 + hexval l in
              r <- CanonicalizeData s'' ;;
              Ok (if IsUnreserved d then d :: r else 0x25 :: h :: l :: r)
            else Err ValueError
        | _ => Err ValueError
        end
      else
        r <- CanonicalizeData s' ;;
        Ok (if negb (IsUnreserved c || IsReserved c) then pct c ++ r else c :: r)
  end.

(** rfc2396.py:133-141 EscapeData *)
Fixpoint EscapeData (reserved : Z -> bool) (s : str) : str :=
  match s with
  | [] => []
  | c :: s' =>
      (if reserved c || negb (IsUnreserved c || IsReserved c) then pct c else [c])
      ++ EscapeData reserved s'
  end.

(** rfc2396.py:144-170 UnescapeData *)
Inductive unesc_mode := ENone | EPct | EHex (h : Z).
Fixpoint unescape_loop (mode : unesc_mode) (s : str) : str :=
  match s with
  | [] => []
  | c :: s' =>
      match mode with
      | ENone => if c =? 0x25 then unescape_loop EPct s' else c :: unescape_loop ENone s'
      | EPct => if IsHex c then unescape_loop (EHex c) s'
                else 0x25 :: c :: unescape_loop ENone s'
      | EHex h => if IsHex c then (hexval h * 16 + hexval c) :: unescape_loop ENone s'
                  else 0x25 :: h :: unescape_loop ENone s'
      end
  end.
Definition UnescapeData (s : str) : str := unescape_loop ENone s.

(** rfc2396.py:173-242 SplitServer.  [pre] is authority[:pos] reversed; [acc] is
    the text since hStart or pStart, reversed. *)
Inductive server_mode := SNone | SHost (acc : str) | SPort (acc : str) | SUser.
Fixpoint split_server_loop (mode : server_mode) (pre : str) (s : str)
    (userinfo host port : option str) : option str * option str * option str :=
  match s with
  | [] =>
      match mode with
      | SNone => (userinfo, Some (rev pre), port)
      | SHost acc => (userinfo, Some (rev acc), port)
      | SPort acc => (userinfo, host, Some (rev acc))
      | SUser => (Some (rev pre), Some [], port)
      end
  | c :: s' =>
      match mode with
      | SNone =>
          if c =? 0x40 then split_server_loop (SHost []) (c :: pre) s' (Some (rev pre)) host port
          else if c =? 0x3A then
            split_server_loop (SPort []) (c :: pre) s' userinfo (Some (rev pre)) port
          else split_server_loop SNone (c :: pre) s' userinfo host port
      | SHost acc =>
          if c =? 0x3A then
            split_server_loop (SPort []) (c :: pre) s' userinfo (Some (rev acc)) port
          else split_server_loop (SHost (c :: acc)) (c :: pre) s' userinfo host port
      | SPort acc =>
          if (c =? 0x40) && match userinfo with None => true | _ => false end then
            split_server_loop (SHost []) (c :: pre) s' (Some (rev pre)) None port
          else if negb (IsDigit c) then
            match userinfo with
            | None => split_server_loop SUser (c :: pre) s' userinfo None port
            | Some _ => (userinfo, host, Some (rev acc))
            end
          else split_server_loop (SPort (c :: acc)) (c :: pre) s' userinfo host port
      | SUser =>
          if c =? 0x40 then split_server_loop (SHost []) (c :: pre) s' (Some (rev pre)) host port
          else split_server_loop SUser (c :: pre) s' userinfo host port
      end
  end.
Definition SplitServer (authority : option str) : option str * option str * option str :=
  match authority with
  | None => (None, None, None)
  | Some [] => (None, Some [], None)
  | Some a => split_server_loop SNone [] a None None None
  end.

(** rfc2396.py:247-276 SplitPath.  [seg] is path[segStart:pos] reversed, or None
    when segStart is None. *)
Fixpoint split_path_loop (seg : option str) (s : str) : list str :=
  match s with
  | [] => match seg with Some g => [rev g] | None => [] end
  | c :: s' =>
      if c =? 0x2F then
        match seg with
        | Some g => rev g :: split_path_loop (Some []) s'
        | None => split_path_loop (Some []) s'
        end
      else
        split_path_loop (match seg with Some g => Some (c :: g) | None => None end) s'
  end.
Definition SplitAbsPath (p : str) : list str :=
  match p with [] => [] | _ => split_path_loop None p end.
Definition SplitRelPath (p : str) : list str :=
  match p with [] => [[]] | _ => split_path_loop (Some []) p end.

(** string.join(segments,'/') *)
Fixpoint join_slash (l : list str) : str :=
  match l with
  | [] => []
  | [s] => s
  | s :: l' => s ++ 0x2F :: join_slash l'
  end.

(** rfc2396.py:278-303 NormalizeSegments.  [rdone] is pathSegments[:i] reversed and
    [rest] is pathSegments[i:]. *)
Definition dot : str := [0x2E].
Definition dotdot : str := [0x2E; 0x2E].

Fixpoint normalize_loop (rdone rest : list str) : list str :=
  match rest with
  | [] => rev rdone
  | s :: rest' =>
      if str_eqb s dot then
        match rest' with
        | [] => rev rdone ++ [[]]
        | _ => normalize_loop rdone rest'
        end
      else
        match rdone with
        | p :: rdone' =>
            if str_eqb s dotdot && negb (str_eqb p dotdot) then
              match rest' with
              | [] => rev rdone' ++ [[]]
              | _ => normalize_loop rdone' rest'
              end
            else normalize_loop (s :: rdone) rest'
        | [] => normalize_loop (s :: rdone) rest'
        end
  end.

Definition NormalizeSegments (segs : list str) : list str :=
  let r := normalize_loop [] segs in
  match r with
  | [] => r
  | _ => if str_eqb (last r []) dotdot then r ++ [[]] else r
  end.

(** rfc2396.py:305-321 RelativizeSegments.  [path] is pathSegments[pos:] and
    [base] is baseSegments[pos:]. *)
Fixpoint relativize_loop (result path base : list str) : list str :=
  match base with
  | [] => result
  | b :: base' =>
      match result with
      | [] =>
          match path with
          | [] => relativize_loop [] [] base'
          | p :: path' =>
              if str_eqb b p then relativize_loop [] path' base'
              else relativize_loop path path' base'
          end
      | _ => relativize_loop (dotdot :: result) (tl path) base'
      end
  end.

Definition RelativizeSegments (path base : list str) : list str :=
  let result := relativize_loop [] path base in
  match result with
  | [] =>
      if Nat.ltb (length base) (length path) then
        (* pathSegments[len(baseSegments)-1:] with Python's negative index -1 when
           baseSegments is empty *)
        match base with
        | [] => skipn (length path - 1) path
        | _ => skipn (length base - 1) path
        end
      else []
  | [[]] => dot :: result
  | _ => result
  end.

(** rfc2396.py:323-330 *)
Definition MakeRelPathAbs (absPath basePath : str) : str :=
  join_slash (RelativizeSegments (NormalizeSegments (SplitAbsPath absPath))
                                 (NormalizeSegments (SplitAbsPath basePath))).

(** rfc2396.py:332-360 *)
Fixpoint count_dotdot (l : list str) : nat :=
  match l with
  | s :: l' => if str_eqb s dotdot then S (count_dotdot l') else O
  | [] => O
  end.
Definition MakeRelPathRel (relPath baseRelPath : str) : str :=
  let path := NormalizeSegments (SplitRelPath relPath) in
  let base := NormalizeSegments (SplitRelPath baseRelPath) in
  let i := Nat.max (count_dotdot path) (count_dotdot base) in
  let '(path, base) :=
    if Nat.ltb 0 i then
      (NormalizeSegments (repeat (lit "x") i ++ path),
       NormalizeSegments (repeat (lit "x") i ++ base))
    else (path, base) in
  join_slash (RelativizeSegments path base).

(** The URI object, rfc2396.py:413-450. *)
Record uri := mkURI {
  octets : str;
  fragment : option str;
  scheme : option str;
  schemeSpecificPart : option str;
  opaquePart : option str;
  authority : option str;
  absPath : option str;
  relPath : option str;
  query : option str
}.

(** The part of the object set by the two component parsers. *)
Record comps := mkComps {
  c_opaque : option str;
  c_auth : option str;
  c_abs : option str;
  c_rel : option str;
  c_query : option str
}.
Definition no_comps : comps := mkComps None None None None None.

(** rfc2396.py:452-519 ParseSchemeSpecificPart and 521-604 ParseRelativeURI.  The
    two loops are identical from mode '/' on, so they share [path_loop]; the
    accumulators hold the text since aStart, pStart, rStart or qStart, reversed. *)
Inductive pmode :=
| PSlash | PAuth (acc : str) | PPath (acc : str) | PRel (acc : str) | PQuery (acc : str).
Fixpoint path_loop (mode : pmode) (s : str) (k : comps) : comps :=
  match s with
  | [] =>
      match mode with
      | PSlash => mkComps (c_opaque k) (c_auth k) (Some [0x2F]) (c_rel k) (c_query k)
      | PAuth acc => mkComps (c_opaque k) (Some (rev acc)) (c_abs k) (c_rel k) (c_query k)
      | PPath acc => mkComps (c_opaque k) (c_auth k) (Some (rev acc)) (c_rel k) (c_query k)
      | PRel acc => mkComps (c_opaque k) (c_auth k) (c_abs k) (Some (rev acc)) (c_query k)
      | PQuery acc => mkComps (c_opaque k) (c_auth k) (c_abs k) (c_rel k) (Some (rev acc))
      end
  | c :: s' =>
      match mode with
      | PSlash =>
          if c =? 0x2F then path_loop (PAuth []) s' k
          else if c =? 0x3F then
            path_loop (PQuery []) s'
              (mkComps (c_opaque k) (c_auth k) (Some [0x2F]) (c_rel k) (c_query k))
          else path_loop (PPath [c; 0x2F]) s' k
      | PAuth acc =>
          if c =? 0x2F then
            path_loop (PPath [c]) s'
              (mkComps (c_opaque k) (Some (rev acc)) (c_abs k) (c_rel k) (c_query k))
          else if c =? 0x3F then
            path_loop (PQuery []) s'
              (mkComps (c_opaque k) (Some (rev acc)) (c_abs k) (c_rel k) (c_query k))
          else path_loop (PAuth (c :: acc)) s' k
      | PPath acc =>
          if c =? 0x3F then
            path_loop (PQuery []) s'
              (mkComps (c_opaque k) (c_auth k) (Some (rev acc)) (c_rel k) (c_query k))
          else path_loop (PPath (c :: acc)) s' k
      | PRel acc =>
          if c =? 0x3F then
            path_loop (PQuery []) s'
              (mkComps (c_opaque k) (c_auth k) (c_abs k) (Some (rev acc)) (c_query k))
          else path_loop (PRel (c :: acc)) s' k
      | PQuery acc => path_loop (PQuery (c :: acc)) s' k
      end
  end.

Definition ParseSchemeSpecificPart (ssp : str) : comps :=
  match ssp with
  | [] => no_comps
  | c :: s' =>
      if c =? 0x2F then path_loop PSlash s' no_comps
      else mkComps (Some ssp) None None None None
  end.

Definition ParseRelativeURI (s : str) : comps :=
  match s with
  | [] => mkComps None None None (Some []) None
  | c :: s' =>
      if c =? 0x2F then path_loop PSlash s' no_comps
      else if c =? 0x3F then path_loop (PQuery []) s' (mkComps None None None (Some []) None)
      else path_loop (PRel [c]) s' no_comps
  end.

(** rfc2396.py:416-450 URI.__init__ for an octet string.  URIFactory.URI (886-891)
    picks a subclass by scheme; the subclasses parse these components the same way. *)
Definition URI (s : str) : result uri :=
  let n := ParseURIC s in
  let oct := firstn n s in
  frag <- (match skipn n s with
           | [] => Ok None
           | c :: f => if c =? 0x23 then Ok (Some f) else Err URIException
           end) ;;
  match ParseScheme oct with
  | Some sch =>
      let ssp := skipn (length sch + 1) oct in
      let k := ParseSchemeSpecificPart ssp in
      Ok (mkURI oct frag (Some sch) (Some ssp) (c_opaque k) (c_auth k) (c_abs k) (c_rel k)
            (c_query k))
  | None =>
      let k := ParseRelativeURI oct in
      Ok (mkURI oct frag None None (c_opaque k) (c_auth k) (c_abs k) (c_rel k) (c_query k))
  end.

(** rfc2396.py:830-847 __str__ *)
Definition str_of (u : uri) : str :=
  match fragment u with
  | Some f => octets u ++ 0x23 :: f
  | None => octets u
  end.

Definition opt_app (pre : str) (o : option str) : str :=
  match o with Some s => pre ++ s | None => [] end.

(** Truth value of an optional string: None and '' are false. *)
Definition truthy (o : option str) : bool :=
  match o with Some (_ :: _) => true | _ => false end.
Definition is_none {A} (o : option A) : bool := match o with None => true | _ => false end.

(** SplitRelPath(None) behaves as SplitRelPath('') (line 249: [if path]). *)
Definition split_rel_opt (o : option str) : list str :=
  match o with Some p => SplitRelPath p | None => [[]] end.

(** rfc2396.py:645-729 Resolve (with currentDocRef=None) *)
Definition Resolve (self base : uri) : result uri :=
  if negb (truthy (absPath self) || truthy (relPath self)) && is_none (scheme self)
     && is_none (authority self) && is_none (query self) then
    match fragment self with
    | None => URI (octets base)
    | Some f => URI (octets base ++ 0x23 :: f)
    end
  else if negb (is_none (scheme self)) then URI (str_of self)
  else
    let sch := scheme base in
    let '(auth, path) :=
      match authority self with
      | None =>
          (authority base,
           match absPath self with
           | None =>
               match absPath base with
               | Some bp =>
                   let segs := NormalizeSegments
                     (removelast (SplitAbsPath bp) ++ split_rel_opt (relPath self)) in
                   Some (0x2F :: join_slash segs)
               | None =>
                   let segs := NormalizeSegments
                     (removelast (split_rel_opt (relPath base)) ++ split_rel_opt (relPath self)) in
                   let r := join_slash segs in
                   Some (match r with [] => [0x2E; 0x2F] | _ => r end)
               end
           | Some p => Some p
           end)
      | Some a => (Some a, absPath self)
      end in
    URI ((match sch with Some s => s ++ [0x3A] | None => [] end)
         ++ opt_app [0x2F; 0x2F] auth
         ++ opt_app [] path
         ++ opt_app [0x3F] (query self)
         ++ opt_app [0x23] (fragment self)).

(** str.lower() on ASCII octets *)
Definition lower (s : str) : str := map (fun c => if IsUpAlpha c then c + 32 else c) s.

Definition opt_eqb (a b : option str) : bool :=
  match a, b with
  | Some x, Some y => str_eqb x y
  | None, None => true
  | _, _ => false
  end.

(** rfc2396.py:731-828 Relative.  URIRelativeError is rendered as URIException. *)
Definition Relative (self base : uri) : result uri :=
  if negb (is_none (opaquePart self)) then URI (str_of self)
  else
    let finish (auth path : option str) :=
      URI (opt_app [0x2F; 0x2F] auth ++ opt_app [] path
           ++ opt_app [0x3F] (query self) ++ opt_app [0x23] (fragment self)) in
    let continue :=
      if is_none (authority self) && negb (is_none (authority base)) then Err URIException
      else if negb (opt_eqb (authority self) (authority base)) then
        finish (authority self)
               (match absPath self with Some p => Some p | None => relPath self end)
      else
        match absPath self with
        | None =>
            match absPath base with
            | Some _ => Err URIException
            | None =>
                match relPath self with
                | None => Err URIException
                | Some p =>
                    match relPath base with
                    | None => finish None (Some p)
                    | Some bp => finish None (Some (MakeRelPathRel p bp))
                    end
                end
            end
        | Some p =>
            match absPath base with
            | None => URI (str_of self)
            | Some bp => finish None (Some (MakeRelPathAbs p bp))
            end
        end in
    match scheme self with
    | None =>
        match scheme base with
        | Some _ => Err URIException
        | None => continue
        end
    | Some s =>
        match scheme base with
        | None => URI (str_of self)
        | Some bs => if str_eqb (lower s) (lower bs) then continue else URI (str_of self)
        end
    end.

(** rfc2396.py:853-866 Canonicalize (class URI) *)
Definition Canonicalize (u : uri) : result uri :=
  URI ((match scheme u with
        | Some s => lower s ++ 0x3A :: (match schemeSpecificPart u with Some p => p | None => [] end)
        | None => octets u
        end) ++
       (match fragment u with Some (c :: f) => 0x23 :: c :: f | _ => [] end)).

(** rfc2396.py:363-390 SplitPathSegment *)
Fixpoint split_params (acc : str) (s : str) : list str :=
  match s with
  | [] => [rev acc]
  | c :: s' => if c =? 0x3B then rev acc :: split_params [] s' else split_params (c :: acc) s'
  end.
Fixpoint split_segment_loop (acc : str) (s : str) : str * list str :=
  match s with
  | [] => (rev acc, [])
  | c :: s' => if c =? 0x3B then (rev acc, split_params [] s')
               else split_segment_loop (c :: acc) s'
  end.
Definition SplitPathSegment (s : str) : str * list str := split_segment_loop [] s.
