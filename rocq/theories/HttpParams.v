(** Model of pyslet/pyslet/rfc2616_params.py.  ParameterParser is the word parser. *)
From Verif Require Import Py Iso Dec XmlUtils Imscp HttpCore.
Open Scope Z_scope.

Definition upper (s : str) : str :=
  map (fun c => if (c >=? 97) && (c <=? 122) then c - 32 else c) s.

(** ** HTTPVersion: rfc2616_params.py 11-58 *)
Record version := mkVersion { v_major : Z; v_minor : Z }.
Definition version_str (v : version) : str :=
  lit "HTTP/" ++ pystr (v_major v) ++ lit "." ++ pystr (v_minor v).
Definition version_cmp (a b : version) : Z :=
  if v_major a <? v_major b then -1
  else if v_major a >? v_major b then 1
  else if v_minor a <? v_minor b then -1
  else if v_minor a >? v_minor b then 1
  else 0.
(** ParseHTTPVersion: 575-606.  The handler of SyntaxError names a variable that does not
    exist. *)
Definition ParseHTTPVersion (w : words) : result (version * words) :=
  match ('(t, w) <- RequireToken (ParseSP w) ;;
         if negb (str_eqb (upper t) (lit "HTTP")) then Err BadSyntax else
         w <- RequireSeparator 47 (ParseSP w) ;;
         '(t, w) <- RequireToken (ParseSP w) ;;
         match split_on 46 t with
         | [a; b] => if negb (IsDIGITS a) || negb (IsDIGITS b) then Err BadSyntax
                     else Ok (mkVersion (int_digits a) (int_digits b), w)
         | _ => Err BadSyntax
         end) with
  | Err BadSyntax => Err NameError
  | r => r
  end.
Definition version_FromString (s : str) : result version :=
  w <- WordParser true s ;;
  '(v, w) <- ParseHTTPVersion w ;;
  _ <- RequireEnd w ;; Ok v.

(** ** FullDate: 115-149, 608-696 *)
Definition wkday : list str := map lit ["Mon"; "Tue"; "Wed"; "Thu"; "Fri"; "Sat"; "Sun"]%string.
Definition weekday_ : list str :=
  map lit ["Monday"; "Tuesday"; "Wednesday"; "Thursday"; "Friday"; "Saturday"; "Sunday"]%string.
Definition month_ : list str :=
  map lit ["Jan"; "Feb"; "Mar"; "Apr"; "May"; "Jun"; "Jul"; "Aug"; "Sep"; "Oct"; "Nov"; "Dec"]%string.
(** The tables from lower-case names to numbers: 771-777 *)
Fixpoint position (t : str) (l : list str) (i : Z) : option Z :=
  match l with [] => None | x :: l' => if str_eqb t (lower x) then Some i else position t l' (i + 1) end.
Definition wkdayTable (t : str) : option Z :=
  match position t wkday 0 with Some i => Some i | None => position t weekday_ 0 end.
Definition monthTable (t : str) : option Z := position t month_ 0.

Definition need {A} (o : option A) : result A := match o with Some a => Ok a | None => Err BadSyntax end.

Definition RequireFullDate (w : words) : result (timepoint * words) :=
  '(t, w) <- RequireToken (ParseSP w) ;;
  dow <- need (wkdayTable (lower t)) ;;
  let w := ParseSP w in
  let '(comma, w) := ParseSeparator 44 w in
  '(cy, month, day, w) <-
    (if comma then
       let w := ParseSP w in
       if IsToken w && IsInteger w then
         '(day, w) <- RequireInteger w ;;
         '(t, w) <- RequireToken (ParseSP w) ;;
         month <- need (monthTable (lower t)) ;;
         '(year, w) <- RequireInteger (ParseSP w) ;;
         Ok (Some (Some (year / 100), year mod 100), month, day, w)
       else
         '(t, w) <- RequireToken w ;;
         match split_on 45 t with
         | [a; b; c] =>
             if negb (IsDIGITS a) || negb (IsDIGITS c) then Err BadSyntax
             else month <- need (monthTable (lower b)) ;;
                  Ok (Some (None, int_digits c), month, int_digits a, w)
         | _ => Err BadSyntax
         end
     else
       '(t, w) <- RequireToken w ;;
       month <- need (monthTable (lower t)) ;;
       '(day, w) <- RequireInteger (ParseSP w) ;;
       Ok (None, month, day, w)) ;;
  '(hour, w) <- RequireInteger (ParseSP w) ;;
  w <- RequireSeparator 58 w ;;
  '(minute, w) <- RequireInteger w ;;
  w <- RequireSeparator 58 w ;;
  '(second, w) <- RequireInteger w ;;
  let w := ParseSP w in
  '(century, year, w) <-
    match cy with
    | None => '(year, w) <- RequireInteger w ;; Ok (Some (year / 100), year mod 100, w)
    | Some (c, year) =>
        '(t, w) <- RequireToken w ;;
        if str_eqb (upper t) (lit "GMT") then Ok (c, year, w) else Err BadSyntax
    end ;;
  let century := match century with Some c => c | None => if year <? 90 then 20 else 19 end in
  d <- Date_calendar (Some century) (Some year) (Some (month + 1)) (Some day) None ;;
  t <- Time (Some hour) (Some minute) (Some second) (Some 0) None None ;;
  '(_, _, _, _, wd) <- GetWeekDay d ;;
  match wd with
  | Some wd => if wd =? dow + 1 then Ok (mkTP d t, w) else Err BadSyntax
  | None => Err BadSyntax
  end.
Definition FromHTTPString (s : str) : result timepoint :=
  w <- WordParser true s ;;
  '(tp, w) <- RequireFullDate w ;;
  _ <- RequireEnd (ParseSP w) ;; Ok tp.

Definition fmt4 (n : Z) : str := pad 4 (fmt n).
Definition nth_name (l : list str) (i : Z) : result str :=
  if i <? 0 then Err Unmodelled else index l (Z.to_nat i).
(** FullDate.__str__ of a complete date and time; GetCalendarTimePoint, iso8601.py 1836 *)
Definition FullDate_str (p : timepoint) : result str :=
  match d_year (p_date p), d_month (p_date p), d_day (p_date p), t_minute (p_time p), t_second (p_time p) with
  | Some year, Some month, Some day, Some minute, Some second =>
      '(_, _, _, _, wd) <- GetWeekDay (p_date p) ;;
      match wd with
      | Some wd =>
          dn <- nth_name wkday (wd - 1) ;;
          mn <- nth_name month_ (month - 1) ;;
          Ok (dn ++ lit ", " ++ fmt2 day ++ lit " " ++ mn ++ lit " "
              ++ fmt4 (d_century (p_date p) * 100 + year) ++ lit " "
              ++ fmt2 (t_hour (p_time p)) ++ lit ":" ++ fmt2 minute ++ lit ":" ++ fmt2 second ++ lit " GMT")
      | None => Err TypeError
      end
  | _, _, _, _, _ => Err TypeError
  end.

(** ** TransferEncoding: 151-195, 698-709 *)
Record encoding := mkEncoding { te_token : str; te_params : params }.
Definition TransferEncoding (token : str) (ps : params) : encoding :=
  let token := lower token in
  if str_eqb token (lit "chunked") then mkEncoding (lit "chunked") [] else mkEncoding token ps.
Definition RequireTransferEncoding (w : words) : result (encoding * words) :=
  '(t, w) <- RequireToken (ParseSP w) ;;
  let t := lower t in
  if negb (str_eqb t (lit "chunked")) then
    '(ps, w) <- ParseParameters true None w ;; Ok (TransferEncoding t ps, w)
  else Ok (TransferEncoding (lit "chunked") [], w).
Definition encoding_FromString (s : str) : result encoding :=
  w <- WordParser true s ;;
  '(e, w) <- RequireTransferEncoding w ;;
  _ <- RequireEnd w ;; Ok e.
Definition encoding_str (e : encoding) : str := te_token e ++ FormatParameters (te_params e).

(** ** MediaType: 198-252, 711-721 *)
Record media := mkMedia { m_type : str; m_sub : str; m_params : params }.
Definition RequireMediaType (w : words) : result (media * words) :=
  '(t, w) <- RequireToken (ParseSP w) ;;
  w <- RequireSeparator 47 w ;;
  '(u, w) <- RequireToken w ;;
  '(ps, w) <- ParseParameters false None (ParseSP w) ;;
  Ok (mkMedia (lower t) (lower u) ps, w).
Definition media_FromString (s : str) : result media :=
  w <- WordParser false s ;;
  '(m, w) <- RequireMediaType w ;;
  _ <- RequireEnd (ParseSP w) ;; Ok m.
Definition media_str (m : media) : str :=
  m_type m ++ lit "/" ++ m_sub m ++ FormatParameters (m_params m).

(** ** ProductToken: 255-422, 723-733 *)

(** A part of an item of an exploded version: a number or a string *)
Inductive vpart := VNum (n : Z) | VStr (s : str).
Record product := mkProduct { p_token : str; p_version : option str; p_exploded : list (list vpart) }.

(** ParseInteger: the digits at the start *)
Fixpoint digit_run (s : str) : str * str :=
  match s with
  | [] => ([], [])
  | c :: s' => if IsDIGIT c then let '(a, r) := digit_run s' in (c :: a, r) else ([], s)
  end.
Definition flush (modifier : str) : list vpart := match modifier with [] => [] | _ => [VStr modifier] end.
(** One item: 290-325 *)
Fixpoint item_loop (fuel : nat) (s : str) (vitem : list vpart) (modifier : str)
    : result (list vpart * str) :=
  match fuel with
  | O => Err OutOfFuel
  | S f =>
      match s with
      | [] => Ok (vitem ++ flush modifier, s)
      | c :: r =>
          if c =? 46 then Ok (vitem ++ flush modifier, s)
          else
            match digit_run s with
            | ([], _) =>
                item_loop f r (match vitem with [] => [VNum (-1)] | _ => vitem end) (modifier ++ [c])
            | (d, r) => item_loop f r (vitem ++ flush modifier ++ [VNum (int_digits d)]) []
            end
      end
  end.
Fixpoint explode_loop (fuel : nat) (s : str) : result (list (list vpart)) :=
  match fuel with
  | O => Err OutOfFuel
  | S f =>
      match s with
      | [] => Ok []
      | _ =>
          '(i, r) <- item_loop (S (length s)) s [] [] ;;
          is <- explode_loop f (match r with c :: r' => if c =? 46 then r' else r | [] => [] end) ;;
          Ok (i :: is)
      end
  end.
Definition Explode (s : str) : result (list (list vpart)) := explode_loop (S (length s)) s.
Definition ProductToken (token : str) (ver : option str) : result product :=
  match ver with
  | Some v => x <- Explode v ;; Ok (mkProduct token ver x)
  | None => Ok (mkProduct token None [])
  end.

(** cmp of numbers and strings: numbers come first *)
Definition vcmp (a b : vpart) : comparison :=
  match a, b with
  | VNum x, VNum y => x ?= y
  | VStr x, VStr y => scmp x y
  | VNum _, VStr _ => Lt
  | VStr _, VNum _ => Gt
  end.
(** __cmp__: 362-417.  The parts of an item: a missing part sorts after. *)
Fixpoint item_cmp (a b : list vpart) : comparison :=
  match a, b with
  | [], [] => Eq
  | [], _ => Gt
  | _, [] => Lt
  | x :: a', y :: b' => match vcmp x y with Eq => item_cmp a' b' | c => c end
  end.
(** The items: a missing item sorts before. *)
Fixpoint items_cmp (a b : list (list vpart)) : comparison :=
  match a, b with
  | [], [] => Eq
  | [], _ => Lt
  | _, [] => Gt
  | x :: a', y :: b' => match item_cmp x y with Eq => items_cmp a' b' | c => c end
  end.
Definition product_cmp (a b : product) : comparison :=
  match scmp (p_token a) (p_token b) with
  | Eq => items_cmp (p_exploded a) (p_exploded b)
  | c => c
  end.
Definition RequireProductToken (w : words) : result (product * words) :=
  '(t, w) <- RequireToken (ParseSP w) ;;
  let '(slash, w) := ParseSeparator 47 (ParseSP w) in
  if slash then '(v, w) <- RequireToken w ;; p <- ProductToken t (Some v) ;; Ok (p, w)
  else p <- ProductToken t None ;; Ok (p, w).
Definition product_FromString (s : str) : result product :=
  w <- WordParser true s ;;
  '(p, w) <- RequireProductToken (ParseSP w) ;;
  _ <- RequireEnd (ParseSP w) ;; Ok p.
(** ListFromString: 337-348 *)
Fixpoint product_loop (fuel : nat) (w : words) : result (list product * words) :=
  match fuel with
  | O => Err OutOfFuel
  | S f =>
      match cWord w with
      | Some _ => '(p, w) <- RequireProductToken w ;;
                  '(l, w) <- product_loop f (ParseSP w) ;; Ok (p :: l, w)
      | None => Ok ([], w)
      end
  end.
Definition product_ListFromString (s : str) : result (list product) :=
  w <- WordParser true s ;;
  '(l, w) <- product_loop (S (length w)) (ParseSP w) ;;
  _ <- RequireEnd w ;; Ok l.
Definition product_str (p : product) : str :=
  match p_version p with None => p_token p | Some v => p_token p ++ lit "/" ++ v end.

(** ** LanguageTag: 425-514, 758-765 *)
Record lang := mkLang { l_primary : str; l_subtags : list str }.
Definition l_tag (l : lang) : list str := lower (l_primary l) :: map lower (l_subtags l).
Fixpoint match_from (range tag : list str) : bool :=
  match range, tag with
  | [], _ => true
  | r :: range', t :: tag' => if str_eqb t r then match_from range' tag' else false
  | _ :: _, [] => false
  end.
Definition PartialMatch (l : lang) (range : list str) : bool :=
  if (length (l_tag l) <? length range)%nat then false else match_from range (l_tag l).
Definition RequireLanguageTag (w : words) : result (lang * words) :=
  '(t, w) <- RequireToken (ParseSP w) ;;
  match split_on 45 t with
  | p :: subs => Ok (mkLang p subs, ParseSP w)
  | [] => Err IndexError
  end.
Definition lang_FromString (s : str) : result lang :=
  w <- WordParser false s ;;
  '(l, w) <- RequireLanguageTag (ParseSP w) ;;
  _ <- RequireEnd (ParseSP w) ;; Ok l.
(** ListFromString: 480-494, with ParseProduction *)
Fixpoint lang_loop (fuel : nat) (w : words) : result (list lang * words) :=
  match fuel with
  | O => Err OutOfFuel
  | S f =>
      let w := ParseSP w in
      '(t, w) <- match RequireLanguageTag w with
                 | Ok (t, w') => Ok ([t], w')
                 | Err BadSyntax => Ok ([], w)
                 | Err e => Err e
                 end ;;
      let '(comma, w) := ParseSeparator 44 (ParseSP w) in
      if comma then '(l, w) <- lang_loop f w ;; Ok (t ++ l, w) else Ok (t, w)
  end.
Definition lang_ListFromString (s : str) : result (list lang) :=
  w <- WordParser false s ;;
  '(l, w) <- lang_loop (S (length w)) w ;;
  _ <- RequireEnd (ParseSP w) ;; Ok l.
(** string.join(…,'-') *)
Fixpoint join (sep : str) (l : list str) : str :=
  match l with [] => [] | [x] => x | x :: l' => x ++ sep ++ join sep l' end.
Definition lang_str (l : lang) : str := join [45] (l_primary l :: l_subtags l).
(** cmp of tuples of strings *)
Fixpoint tag_cmp (a b : list str) : comparison :=
  match a, b with
  | [], [] => Eq
  | [], _ => Lt
  | _, [] => Gt
  | x :: a', y :: b' => match scmp x y with Eq => tag_cmp a' b' | c => c end
  end.
Definition lang_cmp (a b : lang) : comparison := tag_cmp (l_tag a) (l_tag b).

(** ** EntityTag: 517-570, 767-790 *)
Record etag := mkEtag { e_tag : str; e_weak : bool }.
Definition RequireEntityTag (w : words) : result (etag * words) :=
  let '(t, w) := ParseToken (ParseSP w) in
  let w := ParseSP w in
  '(weak, w) <-
    match t with
    | Some t =>
        if negb (str_eqb (upper t) (lit "W")) then Err BadSyntax
        else w <- RequireSeparator 47 w ;; Ok (true, ParseSP w)
    | None => Ok (false, w)
    end ;;
  '(tag, w) <- RequireQuotedString w ;;
  Ok (mkEtag tag weak, ParseSP w).
Definition etag_FromString (s : str) : result etag :=
  w <- WordParser true s ;;
  '(e, w) <- RequireEntityTag w ;;
  _ <- RequireEnd w ;; Ok e.
Definition etag_str (e : etag) : str :=
  if e_weak e then lit "W/" ++ QuoteString (e_tag e) true else QuoteString (e_tag e) true.
Definition etag_cmp (a b : etag) : comparison :=
  match scmp (e_tag a) (e_tag b) with
  | Eq => match e_weak a, e_weak b with false, true => Lt | true, false => Gt | _, _ => Eq end
  | c => c
  end.
