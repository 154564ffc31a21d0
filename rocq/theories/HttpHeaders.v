(** Model of pyslet/pyslet/rfc2616_headers.py.

    Simplification: quality values are thousandths.  A value written with more than three
    decimals is rounded through a binary float by the program; that is not modelled. *)
From Verif Require Import Py Iso Dec XmlUtils Imscp HttpCore HttpParams.
Open Scope Z_scope.

(** ParseProduction: rfc2616_core.py 449-460 *)
Definition ParseProduction {A} (f : words -> result (A * words)) (w : words)
    : result (option A * words) :=
  match f w with
  | Ok (a, w') => Ok (Some a, w')
  | Err BadSyntax => Ok (None, w)
  | Err e => Err e
  end.

(** ** Quality values: rfc2616_params.py 735-756 *)
Definition ParseQualityValue (w : words) : result (option Z * words) :=
  if IsToken w then
    match cWord w with
    | Some t =>
        match split_on 46 t with
        | [a] => if IsDIGITS a then Ok (Some (Z.min 1000 (int_digits a * 1000)), next w) else Ok (None, w)
        | [a; b] =>
            if IsDIGITS a && IsDIGITS b then
              if int_digits a >=? 1 then Ok (Some 1000, next w)
              else if (length b <=? 3)%nat
                   then Ok (Some (int_digits b * 10 ^ (3 - Z.of_nat (length b))), next w)
                   else Err Unmodelled
            else Ok (None, w)
        | _ => Ok (None, w)
        end
    | None => Ok (None, w)
    end
  else Ok (None, w).
(** ["%.3f"%q], then rstrip of zeros and of dots: rfc2616_headers.py 151-159, 265-272 *)
Fixpoint rstrip_rev (c : Z) (s : str) : str :=
  match s with [] => [] | x :: s' => if x =? c then rstrip_rev c s' else s end.
Definition rstrip (c : Z) (s : str) : str := rev (rstrip_rev c (rev s)).
Definition q_str (q : Z) : str :=
  rstrip 46 (rstrip 48 (fmt (q / 1000) ++ lit "." ++ pad 3 (fmt (q mod 1000)))).

(** ** MediaRange: 12-117 *)
Definition star : str := lit "*".
Definition CompareTypes (a b : str) : comparison :=
  if str_eqb a star then if str_eqb b star then Eq else Gt
  else if str_eqb b star then Lt else scmp (lower a) (lower b).
(** cmp of dictionaries of equal length.  Python looks for the smallest key at which the
    two differ; simplified: this is the lexicographic order of the sorted entries. *)
Definition entry_cmp (a b : str * (str * str)) : comparison :=
  match scmp (fst a) (fst b) with
  | Eq => match scmp (fst (snd a)) (fst (snd b)) with
          | Eq => scmp (snd (snd a)) (snd (snd b))
          | c => c
          end
  | c => c
  end.
Fixpoint entries_cmp (a b : params) : comparison :=
  match a, b with
  | [], [] => Eq
  | [], _ => Lt
  | _, [] => Gt
  | x :: a', y :: b' => match entry_cmp x y with Eq => entries_cmp a' b' | c => c end
  end.
Definition dict_cmp (a b : params) : comparison := entries_cmp (sort by_key a) (sort by_key b).
Definition range_cmp (a b : media) : comparison :=
  match CompareTypes (m_type a) (m_type b) with
  | Eq =>
      match CompareTypes (m_sub a) (m_sub b) with
      | Eq =>
          match (length (m_params b) ?= length (m_params a))%nat with
          | Eq => dict_cmp (m_params a) (m_params b)
          | c => c
          end
      | c => c
      end
  | c => c
  end.
(** MatchMediaType: 80-117 *)
Definition has_param (d : params) (e : str * (str * str)) : bool :=
  match dget (fst e) d with Some (_, v) => str_eqb v (snd (snd e)) | None => false end.
Definition MatchMediaType (range m : media) : bool :=
  if str_eqb (m_type range) star then true
  else if negb (str_eqb (lower (m_type range)) (lower (m_type m))) then false
  else if str_eqb (m_sub range) star then true
  else if negb (str_eqb (lower (m_sub range)) (lower (m_sub m))) then false
  else forallb (has_param (m_params m)) (m_params range).

(** RequireMediaRange: 741-751 *)
Definition RequireMediaRange (w : words) : result (media * words) :=
  '(t, w) <- RequireToken (ParseSP w) ;;
  w <- RequireSeparator 47 w ;;
  '(u, w) <- RequireToken w ;;
  '(ps, w) <- ParseParameters false (Some (lit "q")) (ParseSP w) ;;
  Ok (mkMedia (lower t) (lower u) ps, w).
Definition range_FromString (s : str) : result media :=
  w <- WordParser true s ;;
  '(r, w) <- RequireMediaRange w ;;
  _ <- RequireEnd w ;; Ok r.

(** ** AcceptItem, AcceptList: 120-232, 753-794 *)
Record accept := mkAccept { a_range : media; a_q : Z; a_ext : params }.
Definition accept_cmp (a b : accept) : comparison :=
  match range_cmp (a_range a) (a_range b) with
  | Eq => a_q b ?= a_q a
  | c => c
  end.
Definition accept_str (a : accept) : str :=
  media_str (a_range a) ++
  (if negb (match a_ext a with [] => true | _ => false end) || negb (a_q a =? 1000)
   then lit "; q=" ++ q_str (a_q a) ++ FormatParameters (a_ext a) else []).
(** The q parameter, after the separator: 753-775, 796-820 *)
Definition q_parameter (w : words) : result (Z * words) :=
  '(t, w) <- RequireToken (ParseSP w) ;;
  if negb (str_eqb (lower t) (lit "q")) then Err BadSyntax else
  w <- RequireSeparator 61 (ParseSP w) ;;
  '(q, w) <- ParseQualityValue (ParseSP w) ;;
  match q with Some q => Ok (q, w) | None => Err BadSyntax end.
Definition RequireAcceptItem (w : words) : result (accept * words) :=
  '(r, w) <- RequireMediaRange (ParseSP w) ;;
  let '(semi, w) := ParseSeparator 59 (ParseSP w) in
  if semi then
    '(q, w) <- q_parameter w ;;
    '(ext, w) <- ParseParameters true None w ;;
    Ok (mkAccept r q ext, w)
  else Ok (mkAccept r 1000 [], w).
Definition accept_FromString (s : str) : result accept :=
  w <- WordParser true s ;;
  '(a, w) <- RequireAcceptItem (ParseSP w) ;;
  _ <- RequireEnd (ParseSP w) ;; Ok a.
(** The loops of RequireAcceptList and RequireAcceptTokenList: 777-794, 822-840 *)
Fixpoint items_loop {A} (fuel : nat) (item : words -> result (A * words)) (w : words)
    : result (list A * words) :=
  match fuel with
  | O => Err OutOfFuel
  | S f =>
      if more w then
        '(a, w) <- ParseProduction item w ;;
        match a with
        | None => Ok ([], w)
        | Some a =>
            let '(comma, w) := ParseSeparator 44 (ParseSP w) in
            if comma then '(l, w) <- items_loop f item w ;; Ok (a :: l, w) else Ok ([a], w)
        end
      else Ok ([], w)
  end.
Definition AcceptList (items : list accept) : list accept := sort accept_cmp items.
Definition acceptlist_FromString (s : str) : result (list accept) :=
  w <- WordParser true s ;;
  '(l, w) <- items_loop (S (length w)) RequireAcceptItem (ParseSP w) ;;
  match l with
  | [] => Err BadSyntax
  | _ => _ <- RequireEnd w ;; Ok (AcceptList l)
  end.
Definition acceptlist_str (l : list accept) : str := join (lit ", ") (map accept_str l).

(** SelectType: 194-213, and the same loop in the other lists.  [matches] is the test of
    an item against a candidate. *)
Section Select.
Context {I C : Type}.
Variable (matches : I -> C -> bool) (quality : I -> Z).
(** What [default] makes of a candidate that no item matched *)
Variable default : C -> option C * Z -> option C * Z.
Definition first_match (items : list I) (c : C) : option I := find (fun i => matches i c) items.
Definition select_step (items : list I) (best : option C * Z) (c : C) : option C * Z :=
  match first_match items c with
  | Some i => if quality i >? snd best then (Some c, quality i) else best
  | None => default c best
  end.
Definition select (items : list I) (cs : list C) : option C :=
  fst (fold_left (select_step items) cs (None, 0)).
End Select.
Definition no_default {C} (c : C) (best : option C * Z) : option C * Z := best.
Definition SelectType (items : list accept) (l : list media) : option media :=
  select (fun a m => MatchMediaType (a_range a) m) a_q no_default items l.

(** ** AcceptToken, AcceptTokenList: 235-357 *)
Record atoken := mkAtoken { at_token : str; at_q : Z }.
Definition atoken_cmp (a b : atoken) : comparison :=
  let by_q := at_q b ?= at_q a in
  if str_eqb (at_token a) star then if str_eqb (at_token b) star then by_q else Gt
  else if str_eqb (at_token b) star then Lt
  else match scmp (lower (at_token a)) (lower (at_token b)) with Eq => by_q | c => c end.
Definition atoken_str (a : atoken) : str :=
  at_token a ++ (if at_q a =? 1000 then [] else lit ";q=" ++ q_str (at_q a)).
Definition RequireAcceptToken (w : words) : result (atoken * words) :=
  '(t, w) <- RequireToken (ParseSP w) ;;
  let '(semi, w) := ParseSeparator 59 (ParseSP w) in
  if semi then '(q, w) <- q_parameter w ;; Ok (mkAtoken t q, w)
  else Ok (mkAtoken t 1000, w).
Definition atoken_FromString (s : str) : result atoken :=
  w <- WordParser true s ;;
  '(a, w) <- RequireAcceptToken (ParseSP w) ;;
  _ <- RequireEnd (ParseSP w) ;; Ok a.
Definition AcceptTokenList (items : list atoken) : list atoken := sort atoken_cmp items.
Definition token_items (s : str) : result (list atoken) :=
  w <- WordParser true s ;;
  '(l, w) <- items_loop (S (length w)) RequireAcceptToken (ParseSP w) ;;
  _ <- RequireEnd w ;; Ok l.
Definition atokens_FromString (s : str) : result (list atoken) :=
  l <- token_items s ;; Ok (AcceptTokenList l).
Definition atokens_str (l : list atoken) : str := join (lit ", ") (map atoken_str l).
Definition token_matches (a : atoken) (t : str) : bool :=
  str_eqb (lower (at_token a)) (lower t) || str_eqb (lower (at_token a)) star.
Definition SelectToken (items : list atoken) (l : list str) : option str :=
  select token_matches at_q no_default items l.
(** AcceptCharsetList: 360-386 *)
Definition charset_default (t : str) (best : option str * Z) : option str * Z :=
  if str_eqb (lower t) (lit "iso-8859-1") then if 1000 >? snd best then (Some t, 1000) else best
  else best.
Definition SelectCharset (items : list atoken) (l : list str) : option str :=
  select token_matches at_q charset_default items l.
(** AcceptEncodingList: 389-422 *)
Definition encoding_default (t : str) (best : option str * Z) : option str * Z :=
  if str_eqb (lower t) (lit "identity") then if snd best =? 0 then (Some t, snd best) else best
  else best.
Definition SelectEncoding (items : list atoken) (l : list str) : option str :=
  select token_matches at_q encoding_default items l.

(** ** AcceptLanguageItem, AcceptLanguageList: 425-469 *)
Definition lang_range (a : atoken) : list str :=
  if str_eqb (at_token a) star then [] else split_on 45 (lower (at_token a)).
Definition language_cmp (a b : atoken) : comparison :=
  match (length (lang_range b) ?= length (lang_range a))%nat with
  | Eq => tag_cmp (lang_range a) (lang_range b)
  | c => c
  end.
Definition AcceptLanguageList (items : list atoken) : list atoken := sort language_cmp items.
Definition languages_FromString (s : str) : result (list atoken) :=
  l <- token_items s ;; Ok (AcceptLanguageList l).
Definition SelectLanguage (items : list atoken) (l : list lang) : option lang :=
  select (fun a t => PartialMatch t (lang_range a)) at_q no_default items l.
Fixpoint map_ok {A B} (f : A -> result B) (l : list A) : result (list B) :=
  match l with [] => Ok [] | a :: l' => b <- f a ;; bs <- map_ok f l' ;; Ok (b :: bs) end.
(** SelectToken: the best match is turned into a string, None too. *)
Definition SelectLanguageToken (items : list atoken) (l : list str) : result str :=
  ls <- map_ok lang_FromString l ;;
  Ok (match SelectLanguage items ls with Some t => lang_str t | None => lit "None" end).

(** ** AcceptRanges: 472-525 *)
Definition has (s : str) (l : list str) : bool := existsb (str_eqb s) l.
Record ranges := mkRanges { r_ranges : list str; r_sorted : list str }.
Definition AcceptRanges (args : list str) : result ranges :=
  let low := map lower args in
  if has (lit "none") low then
    match low with [_] => Ok (mkRanges [] []) | _ => Err BadSyntax end
  else Ok (mkRanges args (sort scmp low)).
Definition ranges_FromString (s : str) : result ranges :=
  w <- WordParser true s ;;
  let '(l, w) := ParseTokenList w in
  match l with
  | [] => Err BadSyntax
  | _ => _ <- RequireEnd w ;; AcceptRanges l
  end.
Definition ranges_str (r : ranges) : str :=
  match r_ranges r with [] => lit "none" | l => join (lit ", ") l end.
Definition ranges_cmp (a b : ranges) : comparison := tag_cmp (r_sorted a) (r_sorted b).

(** ** Allow: 528-573 *)
Record allow := mkAllow { al_methods : list str; al_sorted : list str }.
Definition Allow (args : list str) : allow := mkAllow (map upper args) (sort scmp (map upper args)).
Definition allow_FromString (s : str) : result allow :=
  w <- WordParser true s ;;
  let '(l, w) := ParseTokenList w in
  _ <- RequireEnd w ;; Ok (Allow l).
Definition Allowed (a : allow) (method : str) : bool := has (upper method) (al_sorted a).
Definition allow_str (a : allow) : str := join (lit ", ") (al_methods a).
Definition allow_cmp (a b : allow) : comparison := tag_cmp (al_sorted a) (al_sorted b).

(** ** CacheControl: 576-658.  A directive with no value, a simple one or a list.
    FromString calls a method that does not exist. *)
Inductive cvalue := CNone | CSimple (s : str) | CTuple (l : list str).
Record cache := mkCache { cc_directives : list str; cc_values : list (str * cvalue) }.
Fixpoint cset (k : str) (v : cvalue) (d : list (str * cvalue)) : list (str * cvalue) :=
  match d with
  | [] => [(k, v)]
  | (k', v') :: d' => if str_eqb k k' then (k', v) :: d' else (k', v') :: cset k v d'
  end.
Definition CacheControl (args : list (str * cvalue)) : result cache :=
  match args with
  | [] => Err TypeError
  | _ => Ok (mkCache (map (fun a => lower (fst a)) args)
                     (fold_left (fun d a => cset (lower (fst a)) (snd a) d) args []))
  end.
Definition cache_FromString (s : str) : result cache :=
  _ <- WordParser true s ;; Err AttributeError.
Definition cache_item (c : cache) (d : str) : result str :=
  match assoc d (cc_values c) with
  | None => Err KeyError
  | Some CNone => Ok d
  | Some (CTuple l) => Ok (d ++ lit "=" ++ QuoteString (join (lit ", ") l) true)
  | Some (CSimple s) => Ok (d ++ lit "=" ++ QuoteString s false)
  end.
Definition cache_str (c : cache) : result str :=
  l <- map_ok (cache_item c) (cc_directives c) ;; Ok (join (lit ", ") l).
Definition cache_get (c : cache) (key : str) : result cvalue :=
  match assoc (lower key) (cc_values c) with Some v => Ok v | None => Err KeyError end.
Definition cache_contains (c : cache) (key : str) : bool :=
  match assoc (lower key) (cc_values c) with Some _ => true | None => false end.

(** ** ContentRange: 661-727, 842-870 *)
Record crange := mkRange { cr_first : option Z; cr_last : option Z; cr_total : option Z }.
Definition ContentRange (first last total : option Z) : result crange :=
  match first, last with
  | Some _, None => Err TypeError
  | _, _ => Ok (mkRange first last total)
  end.
Definition crange_str (r : crange) : result str :=
  first <- match cr_first r, cr_last r with
           | None, _ => Ok star
           | Some a, Some b => Ok (pystr a ++ lit "-" ++ pystr b)
           | Some _, None => Err TypeError
           end ;;
  Ok (lit "bytes " ++ first ++ lit "/" ++ match cr_total r with None => star | Some n => pystr n end).
Definition crange_len (r : crange) : result Z :=
  match cr_first r with
  | Some a => match cr_last r with
              | Some b => if b - a + 1 >? 0 then Ok (b - a + 1) else Err ValueError
              | None => Err TypeError
              end
  | None => Err ValueError
  end.
Definition crange_valid (r : crange) : bool :=
  match cr_first r, cr_last r with
  | Some a, Some b =>
      (a <=? b) && (a >=? 0) && match cr_total r with None => true | Some n => b <? n end
  | _, _ => false
  end.
Definition RequireContentRangeSpec (w : words) : result (crange * words) :=
  '(unit, w) <- RequireToken (ParseSP w) ;;
  if negb (str_eqb (lower unit) (lit "bytes")) then Err BadSyntax else
  '(spec, w) <- RequireToken (ParseSP w) ;;
  '(first, last) <-
    (if str_eqb spec star then Ok (None, None)
     else match split_on 45 spec with
          | [a; b] => if negb (IsDIGITS a) || negb (IsDIGITS b) then Err BadSyntax
                      else Ok (Some (int_digits a), Some (int_digits b))
          | _ => Err BadSyntax
          end) ;;
  w <- RequireSeparator 47 (ParseSP w) ;;
  '(t, w) <- RequireToken (ParseSP w) ;;
  total <- (if str_eqb t star then Ok None
            else if IsDIGITS t then Ok (Some (int_digits t)) else Err BadSyntax) ;;
  r <- ContentRange first last total ;;
  Ok (r, w).
Definition crange_FromString (s : str) : result crange :=
  w <- WordParser true s ;;
  '(r, w) <- RequireContentRangeSpec (ParseSP w) ;;
  _ <- RequireEnd (ParseSP w) ;; Ok r.
