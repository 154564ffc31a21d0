(** Model of pyslet/pyslet/rfc2616_core.py: the lexical level of HTTP and the word parser.

    Strings are byte strings (lists of numbers).  A parser position is what is left of the
    source: [theChar] is its first character, None at the end; SetPos to a saved position
    is going back to what was left then.  HTTP's SyntaxError is [BadSyntax]. *)
From Verif Require Import Py Iso XmlUtils.
Open Scope Z_scope.

(** ** Characters: rfc2616_core.py 17-94 *)
Definition IsOCTET (c : Z) : bool := c <? 256.
Definition IsCHAR (c : Z) : bool := c <? 128.
(* IsDIGIT: Iso.v *)
Fixpoint all_digits (s : str) : bool :=
  match s with [] => true | c :: s' => if IsDIGIT c then all_digits s' else false end.
Definition IsDIGITS (s : str) : bool := match s with [] => false | _ => all_digits s end.
Definition IsCTL (c : Z) : bool := (c <? 32) || (c =? 127).
Definition CR := 13. Definition LF := 10. Definition SP := 32. Definition HT := 9. Definition DQUOTE := 34.
Definition BACKSLASH := 92.
(** SEPARATORS: 85 *)
Definition SEPARATORS : str := lit "()<>@,;:\" ++ [DQUOTE] ++ lit "/[]?={} " ++ [HT].
Definition IsSEPARATOR (c : Z) : bool := mem c SEPARATORS.

(** [ord(None)] raises TypeError. *)
Definition ord (s : str) : result Z := match s with [] => Err TypeError | c :: _ => Ok c end.

(** ** HTTPParser: 106-334 *)

(** The run of SP and HT *)
Fixpoint blanks (s : str) : str * str :=
  match s with
  | [] => ([], [])
  | c :: s' => if mem c [SP; HT] then let '(a, r) := blanks s' in (c :: a, r) else ([], s)
  end.
(** ParseLWS: 109-129 *)
Definition ParseLWS (s : str) : option (str * str) :=
  let '(a, s1) := match s with
                  | c :: d :: r => if (c =? CR) && (d =? LF) then ([CR; LF], r) else ([], s)
                  | _ => ([], s)
                  end in
  let '(b, s2) := blanks s1 in
  match b with [] => None | _ => Some (a ++ b, s2) end.
(** ParseOneTEXT: 131-151 *)
Definition ParseOneTEXT (unfold : bool) (s : str) : result (option (str * str)) :=
  match ParseLWS s with
  | Some (lws, r) =>
      if unfold && str_eqb (firstn 2 lws) [CR; LF] then Ok (Some ([SP], r)) else Ok (Some (lws, r))
  | None =>
      c <- ord s ;;
      if IsOCTET c && negb (IsCTL c) then Ok (Some ([c], tl s)) else Ok None
  end.
(** ParseToken: 174-190 *)
Fixpoint token_run (s : str) : str * str :=
  match s with
  | [] => ([], [])
  | c :: s' => if IsCTL c || IsSEPARATOR c then ([], s) else let '(a, r) := token_run s' in (c :: a, r)
  end.
Definition ParseToken_c (s : str) : option str * str :=
  match token_run s with ([], r) => (None, r) | (t, r) => (Some t, r) end.

(** The loops of ParseCText and ParseQDText: 233-259, 291-317, with the characters that
    end them. *)
Fixpoint text_loop (fuel : nat) (stop : str) (unfold : bool) (s : str) : result (str * str) :=
  match fuel with
  | O => Err OutOfFuel
  | S f =>
      match s with
      | [] => Ok ([], [])
      | c :: _ =>
          if mem c stop then Ok ([], s)
          else
            t <- ParseOneTEXT unfold s ;;
            match t with
            | None => Ok ([], s)
            | Some (a, r) => '(b, r') <- text_loop f stop unfold r ;; Ok (a ++ b, r')
            end
      end
  end.
Definition ParseCText (unfold : bool) (s : str) : result (str * str) :=
  text_loop (S (length s)) (lit "()\") unfold s.
Definition ParseQDText (unfold : bool) (s : str) : result (str * str) :=
  text_loop (S (length s)) [BACKSLASH; DQUOTE] unfold s.

(** ParseQuotedPair: 319-334 *)
Definition ParseQuotedPair (s : str) : result (option (str * str)) :=
  match s with
  | b :: r => if b =? BACKSLASH then c <- ord r ;; if IsCHAR c then Ok (Some ([b; c], tl r)) else Ok None
              else Ok None
  | [] => Ok None
  end.

(** ParseComment: 192-231.  After the opening bracket; [depth] brackets are open. *)
Fixpoint comment_loop (fuel : nat) (unfold : bool) (depth : nat) (s : str) : result (str * str) :=
  match fuel with
  | O => Err OutOfFuel
  | S f =>
      match s with
      | [] => Err ValueError
      | c :: r =>
          if c =? 41 then
            match depth with
            | S (S d) => '(b, r') <- comment_loop f unfold (S d) r ;; Ok (c :: b, r')
            | _ => Ok ([c], r)
            end
          else if c =? 40 then '(b, r') <- comment_loop f unfold (S depth) r ;; Ok (c :: b, r')
          else if c =? BACKSLASH then
            q <- ParseQuotedPair s ;;
            match q with
            | Some (p, r) => '(b, r') <- comment_loop f unfold depth r ;; Ok (p ++ b, r')
            | None => Err ValueError
            end
          else
            '(t, r) <- ParseCText unfold s ;;
            match t with
            | [] => Err ValueError
            | _ => '(b, r') <- comment_loop f unfold depth r ;; Ok (t ++ b, r')
            end
      end
  end.
Definition ParseComment (unfold : bool) (s : str) : result (option str * str) :=
  match s with
  | c :: r => if c =? 40 then '(b, r') <- comment_loop (S (length s)) unfold 1 r ;; Ok (Some (40 :: b), r')
              else Ok (None, s)
  | [] => Ok (None, s)
  end.

(** ParseQuotedString: 261-289.  After the opening quote; the end of the source ends the
    string without complaint. *)
Fixpoint quoted_loop (fuel : nat) (unfold : bool) (s : str) : result (str * str) :=
  match fuel with
  | O => Err OutOfFuel
  | S f =>
      match s with
      | [] => Ok ([], [])
      | c :: r =>
          if c =? DQUOTE then Ok ([DQUOTE], r)
          else if c =? BACKSLASH then
            q <- ParseQuotedPair s ;;
            match q with
            | Some (p, r) => '(b, r') <- quoted_loop f unfold r ;; Ok (p ++ b, r')
            | None => Err ValueError
            end
          else
            '(t, r) <- ParseQDText unfold s ;;
            match t with
            | [] => Err ValueError
            | _ => '(b, r') <- quoted_loop f unfold r ;; Ok (t ++ b, r')
            end
      end
  end.
Definition ParseQuotedString_c (unfold : bool) (s : str) : result (option str * str) :=
  match s with
  | c :: r => if c =? DQUOTE then '(b, r') <- quoted_loop (S (length s)) unfold r ;; Ok (Some (DQUOTE :: b), r')
              else Ok (None, s)
  | [] => Ok (None, s)
  end.

(** ** DecodeQuotedString, QuoteString: 666-710 *)
Fixpoint unescape (escape : bool) (s : str) : str :=
  match s with
  | [] => []
  | c :: s' => if negb escape && (c =? BACKSLASH) then unescape true s' else c :: unescape false s'
  end.
(** [s[1:-1]] *)
Definition strip1 (s : str) : str := removelast (tl s).
Definition DecodeQuotedString (s : str) : str :=
  let q := strip1 s in
  if mem BACKSLASH q then unescape false q else q.

Fixpoint quote_loop (s : str) (force : bool) : str * bool :=
  match s with
  | [] => ([], force)
  | c :: s' =>
      if mem c [BACKSLASH; DQUOTE] || (IsCTL c && negb (mem c [SP; HT])) then
        let '(b, f) := quote_loop s' true in (BACKSLASH :: c :: b, f)
      else if IsCTL c || IsSEPARATOR c then
        let '(b, f) := quote_loop s' true in (c :: b, f)
      else let '(b, f) := quote_loop s' force in (c :: b, f)
  end.
Definition QuoteString (s : str) (force : bool) : str :=
  let '(b, f) := quote_loop s force in
  if f then DQUOTE :: b ++ [DQUOTE] else b.

(** ** WordParser: 336-664 *)

(** The words: None is a word too, after white space at the end of the source. *)
Definition words := list (option str).

(** [while p.ParseLWS()]: what is left, and whether there was any *)
Fixpoint skip_lws (fuel : nat) (s : str) : bool * str :=
  match fuel with
  | O => (false, s)
  | S f => match ParseLWS s with Some (_, r) => (true, snd (skip_lws f r)) | None => (false, s) end
  end.
(** _InitParser: 371-394 *)
Fixpoint word_loop (fuel : nat) (ignoreSpace : bool) (s : str) : result words :=
  match fuel with
  | O => Err OutOfFuel
  | S f =>
      match s with
      | [] => Ok []
      | _ =>
          let '(sp, s) := skip_lws (length s) s in
          let pre := if sp && negb ignoreSpace then [Some [SP]] else [] in
          '(w, r) <-
            match s with
            | [] => Ok (ParseToken_c [])
            | c :: r =>
                if IsSEPARATOR c then
                  if c =? 40 then ParseComment true s
                  else if c =? DQUOTE then ParseQuotedString_c true s
                  else Ok (Some [c], r)
                else Ok (ParseToken_c s)
            end ;;
          ws <- word_loop f ignoreSpace r ;;
          Ok (pre ++ w :: ws)
      end
  end.
Definition WordParser (ignoreSpace : bool) (s : str) : result words :=
  word_loop (S (length s)) ignoreSpace s.

(** The current word *)
Definition cWord (w : words) : option str := match w with Some x :: _ => Some x | _ => None end.
(** [if self.cWord] *)
Definition more (w : words) : bool := match cWord w with Some (_ :: _) => true | _ => false end.
(** ParseWord: 484-492 *)
Definition next (w : words) : words := tl w.

(** RequireEnd: 472-482 *)
Definition RequireEnd (w : words) : result unit := if more w then Err BadSyntax else Ok tt.
(** IsToken, ParseToken, ParseTokenLower, RequireToken: 494-535 *)
Definition IsToken (w : words) : bool :=
  match cWord w with Some (c :: _) => negb (IsSEPARATOR c) | _ => false end.
Definition ParseToken (w : words) : option str * words :=
  if IsToken w then (cWord w, next w) else (None, w).
Definition RequireToken (w : words) : result (str * words) :=
  match ParseToken w with (Some t, w) => Ok (t, w) | (None, _) => Err BadSyntax end.
(** ParseTokenList: 512-523 *)
Definition is_sep (sep : Z) (w : words) : bool :=
  match cWord w with Some t => str_eqb t [sep] | None => false end.
Fixpoint token_list (fuel : nat) (w : words) : list str * words :=
  match fuel with
  | O => ([], w)
  | S f =>
      if more w then
        if IsToken w then
          match cWord w with
          | Some t => let '(l, w) := token_list f (next w) in (t :: l, w)
          | None => ([], w)
          end
        else if is_sep 44 w then token_list f (next w)
        else ([], w)
      else ([], w)
  end.
Definition ParseTokenList (w : words) : list str * words := token_list (S (length w)) w.
(** int() of digits *)
Definition int_digits (s : str) : Z := fold_left (fun v c => v * 10 + (c - 48)) s 0.
(** IsInteger, ParseInteger, RequireInteger: 537-556 *)
Definition IsInteger (w : words) : bool := match cWord w with Some t => IsDIGITS t | None => false end.
Definition RequireInteger (w : words) : result (Z * words) :=
  match cWord w with
  | Some t => if IsDIGITS t then Ok (int_digits t, next w) else Err BadSyntax
  | None => Err BadSyntax
  end.
(** ParseSeparator, RequireSeparator, ParseSP: 558-579, 594-598 *)
Definition ParseSeparator (sep : Z) (w : words) : bool * words :=
  if is_sep sep w then (true, next w) else (false, w).
Definition RequireSeparator (sep : Z) (w : words) : result words :=
  if is_sep sep w then Ok (next w) else Err BadSyntax.
Definition ParseSP (w : words) : words := snd (ParseSeparator SP w).
(** IsQuotedString, ParseQuotedString: 581-592 *)
Definition IsQuotedString (w : words) : bool :=
  match cWord w with Some (c :: _) => c =? DQUOTE | _ => false end.
Definition ParseQuotedString (w : words) : option str * words :=
  if IsQuotedString w then (option_map DecodeQuotedString (cWord w), next w) else (None, w).
(** RequireProduction(self.ParseQuotedString(),…) *)
Definition RequireQuotedString (w : words) : result (str * words) :=
  match ParseQuotedString w with (Some t, w) => Ok (t, w) | (None, _) => Err BadSyntax end.

(** ** Parameters: 600-651

    A dictionary is the list of its entries in the order of insertion: the key with the
    name and the value. *)
Definition params := list (str * (str * str)).
Fixpoint dset (k : str) (v : str * str) (d : params) : params :=
  match d with
  | [] => [(k, v)]
  | (k', v') :: d' => if str_eqb k k' then (k', v) :: d' else (k', v') :: dset k v d'
  end.
Fixpoint dget (k : str) (d : params) : option (str * str) :=
  match d with
  | [] => None
  | (k', v) :: d' => if str_eqb k k' then Some v else dget k d'
  end.

Definition skip_if (b : bool) (w : words) : words := if b then ParseSP w else w.
Definition one_param (ignoreAllSpace : bool) (qMode : option str) (w : words)
    : result (str * (str * str) * words) :=
  w <- RequireSeparator 59 (ParseSP w) ;;
  '(name, w) <- RequireToken (ParseSP w) ;;
  let key := lower name in
  if (match qMode with Some q => str_eqb key q | None => false end) then Err BadSyntax else
  w <- RequireSeparator 61 (skip_if ignoreAllSpace w) ;;
  let w := skip_if ignoreAllSpace w in
  '(value, w) <- (if IsToken w then RequireToken w else RequireQuotedString w) ;;
  Ok (key, (name, value), w).
(** With caseSensitive=False *)
Fixpoint params_loop (fuel : nat) (ignoreAllSpace : bool) (qMode : option str) (d : params)
    (w : words) : result (params * words) :=
  match fuel with
  | O => Err OutOfFuel
  | S f =>
      if more w then
        match one_param ignoreAllSpace qMode w with
        | Ok (k, v, w') => params_loop f ignoreAllSpace qMode (dset k v d) w'
        | Err BadSyntax => Ok (d, w)
        | Err e => Err e
        end
      else Ok (d, w)
  end.
Definition ParseParameters (ignoreAllSpace : bool) (qMode : option str) (w : words)
    : result (params * words) :=
  params_loop (S (length w)) ignoreAllSpace qMode [] (ParseSP w).

(** cmp of strings *)
Fixpoint scmp (a b : str) : comparison :=
  match a, b with
  | [], [] => Eq
  | [], _ => Lt
  | _, [] => Gt
  | x :: a', y :: b' => match x ?= y with Eq => scmp a' b' | c => c end
  end.
(** list.sort: stable *)
Section Sort.
Context {A : Type}.
Variable cmp : A -> A -> comparison.
Fixpoint insert (x : A) (l : list A) : list A :=
  match l with
  | [] => [x]
  | y :: l' => match cmp y x with Lt => y :: insert x l' | _ => x :: l end
  end.
Definition sort (l : list A) : list A := fold_right insert [] l.
End Sort.

(** FormatParameters: 712-723 *)
Definition by_key (a b : str * (str * str)) : comparison := scmp (fst a) (fst b).
Definition format_param (e : str * (str * str)) : str :=
  let '(_, (name, value)) := e in lit "; " ++ name ++ lit "=" ++ QuoteString value false.
Definition FormatParameters (d : params) : str := concat (map format_param (sort by_key d)).
