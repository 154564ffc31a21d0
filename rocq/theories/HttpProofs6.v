(** Product tokens, language tags and dates. *)
From Coq Require Import Lia Zify Permutation Sorted.
From Verif Require Import Py Iso IsoSpec IsoProofs IsoProofs2 IsoProofs3 Dec XmlUtils Imscp ImscpProofs HttpCore HttpParams HttpHeaders HttpSpec
  HttpProofs HttpProofs2 HttpProofs3 HttpProofs4 HttpProofs5.
Open Scope Z_scope.

Lemma product_round_trip t v p : is_token t -> (match v with Some v => is_token v | None => True end) ->
  ProductToken t v = Ok p -> product_FromString (product_str p) = Ok p.
Proof.
  intros T V E. destruct (ProductToken_ok t v) as (p' & E' & <- & <-). rewrite E in E'. inversion E'; subst p'. clear E'.
  unfold product_FromString, product_str. destruct (p_version p) as [v|] eqn:PV.
  - replace (p_token p ++ lit "/" ++ v) with (render [LTok (p_token p); LSep 47; LTok v])
      by (unfold render; cbn [map concat render1]; rewrite app_nil_r; reflexivity).
    rewrite WordParser_render.
    2:{ cbn [lex_ok]. split; [exact T|]. split; [exact I|]. split; [apply single47|]. now split. }
    cbn [bind wordsof flat_map word1 app]. cbn [render1]. rewrite ParseSP_tok by exact T. unfold RequireProductToken.
    rewrite ParseSP_tok, RequireToken_tok by exact T. cbn [bind]. rewrite ParseSP_sep by lia.
    rewrite ParseSeparator_ok. rewrite RequireToken_tok by exact V. cbn [bind]. rewrite E. reflexivity.
  - replace (p_token p) with (render [LTok (p_token p)])
      by (unfold render; cbn [map concat render1]; rewrite app_nil_r; reflexivity).
    rewrite WordParser_render by (cbn [lex_ok]; now repeat split; try apply T).
    cbn [bind wordsof flat_map word1 app]. cbn [render1]. rewrite ParseSP_tok by exact T. unfold RequireProductToken.
    rewrite ParseSP_tok, RequireToken_tok by exact T. cbn [bind]. rewrite ParseSP_nil, ParseSeparator_nil.
    cbn [bind]. rewrite E. reflexivity.
Qed.

(** ** Language tags *)
Lemma join_join_with x l : join [x] l = join_with x l.
Proof. induction l as [|a l IH]; [reflexivity|]. cbn [join join_with]. destruct l; [reflexivity|]. cbn [app]. now rewrite IH. Qed.
Lemma join_token l : Forall (fun s => Forall token_char s) l -> Forall token_char (join [45] l).
Proof.
  induction 1 as [|a l H _ IH]; [constructor|]. cbn [join]. destruct l as [|b l]; [exact H|].
  apply Forall_app. split; [exact H|]. cbn [app]. constructor; [|exact IH]. unfold token_char, separator. cbn [In]. lia.
Qed.
Lemma lang_round_trip l : l_primary l <> [] -> Forall subtag (l_primary l :: l_subtags l) ->
  lang_FromString (lang_str l) = Ok l.
Proof.
  intros N F. unfold lang_FromString, lang_str. set (t := join [45] (l_primary l :: l_subtags l)).
  assert (T : is_token t).
  { split.
    - unfold t. cbn [join]. destruct (l_subtags l); [exact N|]. intros X. now apply app_eq_nil in X.
    - apply join_token. eapply Forall_impl; [|exact F]. now intros s []. }
  replace t with (render [LTok t]) at 1 by (unfold render; cbn [map concat render1]; now rewrite app_nil_r).
  rewrite WordParser_render by (cbn [lex_ok]; repeat split; apply T).
  cbn [bind wordsof flat_map word1 app]. cbn [render1]. rewrite ParseSP_tok by exact T. unfold RequireLanguageTag.
  rewrite ParseSP_tok, RequireToken_tok by exact T. cbn [bind]. unfold t. rewrite join_join_with, split_on_join.
  - destruct l. reflexivity.
  - discriminate.
  - eapply Forall_impl; [|exact F]. now intros s [].
Qed.
Lemma match_from_spec r : forall t, match_from r t = true <-> exists rest, t = r ++ rest.
Proof.
  induction r as [|x r IH]; intros t; cbn [match_from].
  - split; [intros _; now exists t|reflexivity].
  - destruct t as [|y t]; [split; [discriminate|intros (z & Z); discriminate]|].
    destruct (str_eqb y x) eqn:E.
    + apply str_eqb_eq in E. subst y. rewrite IH. split; intros (z & Z); exists z; [now rewrite Z|now inversion Z].
    + split; [discriminate|]. intros (z & Z). inversion Z. subst. now rewrite str_eqb_refl in E.
Qed.
Lemma PartialMatch_spec l r : PartialMatch l r = true <-> exists rest, l_tag l = r ++ rest.
Proof.
  unfold PartialMatch. destruct (Nat.ltb_spec (length (l_tag l)) (length r)) as [H|H]; [|apply match_from_spec].
  split; [discriminate|]. intros (z & Z). rewrite Z, app_length in H. lia.
Qed.

(** ** Dates *)
Definition tokb (c : Z) : bool := negb (IsCTL c || IsSEPARATOR c).
Lemma tokb_token s : s <> [] -> forallb tokb s = true -> is_token s.
Proof.
  intros N F. split; [exact N|]. rewrite forallb_forall in F. apply Forall_forall. intros c C.
  apply token_char_model. apply F in C. unfold tokb in C. now apply negb_true_iff in C.
Qed.
(** The check of a table of names *)
Definition good_name (table : str -> option Z) (l : list str) (i : Z) : bool :=
  let n := name l i in
  negb (IsDIGITS n) && forallb tokb n && negb (str_eqb n []) &&
  negb (mem 45 n) && (match table (lower n) with Some j => j =? i - 1 | None => false end).
Definition range_ (n : nat) : list Z := map Z.of_nat (seq 1 n).
Lemma in_range n i : 1 <= i <= Z.of_nat n -> In i (range_ n).
Proof. intros H. unfold range_. apply in_map_iff. exists (Z.to_nat i). split; [lia|]. apply in_seq. lia. Qed.
Lemma good_tables : forallb (good_name wkdayTable short_days) (range_ 7) = true /\
  forallb (good_name wkdayTable long_days) (range_ 7) = true /\
  forallb (good_name monthTable month_names) (range_ 12) = true.
Proof. vm_compute. repeat split. Qed.
Lemma good_name_facts table l i : good_name table l i = true ->
  is_token (name l i) /\ IsDIGITS (name l i) = false /\ table (lower (name l i)) = Some (i - 1) /\ ~ In 45 (name l i).
Proof.
  unfold good_name. rewrite !andb_true_iff, !negb_true_iff. intros ((((A & B) & C) & D) & E).
  split; [|split; [exact A|split]].
  - apply tokb_token; [|exact B]. intros X. rewrite X in C. discriminate.
  - destruct (table _) as [j|]; [|discriminate]. apply Z.eqb_eq in E. now subst.
  - rewrite <- mem_In. now rewrite D.
Qed.
Lemma short_day i : 1 <= i <= 7 -> is_token (name short_days i) /\ IsDIGITS (name short_days i) = false /\
  wkdayTable (lower (name short_days i)) = Some (i - 1) /\ ~ In 45 (name short_days i).
Proof.
  intros H. apply good_name_facts. destruct good_tables as (A & _ & _). rewrite forallb_forall in A. now apply A, in_range.
Qed.
Lemma long_day i : 1 <= i <= 7 -> is_token (name long_days i) /\ IsDIGITS (name long_days i) = false /\
  wkdayTable (lower (name long_days i)) = Some (i - 1) /\ ~ In 45 (name long_days i).
Proof.
  intros H. apply good_name_facts. destruct good_tables as (_ & A & _). rewrite forallb_forall in A. now apply A, in_range.
Qed.
Lemma month_name i : 1 <= i <= 12 -> is_token (name month_names i) /\ IsDIGITS (name month_names i) = false /\
  monthTable (lower (name month_names i)) = Some (i - 1) /\ ~ In 45 (name month_names i).
Proof.
  intros H. apply good_name_facts. destruct good_tables as (_ & _ & A). rewrite forallb_forall in A. now apply A, in_range.
Qed.
Ltac Zify.zify_convert_to_euclidean_division_equations_flag ::= constr:(true).
Lemma two_digits n : 0 <= n <= 99 -> two n <> [] /\ Forall is_dec (two n) /\ dval (two n) = n.
Proof.
  intros H. split; [discriminate|]. split; [unfold two; repeat constructor; unfold is_dec; lia|].
  unfold two, dval. cbn [fold_left]. lia.
Qed.
Lemma four_digits n : 0 <= n <= 9999 -> four n <> [] /\ Forall is_dec (four n) /\ dval (four n) = n.
Proof.
  intros H. split; [discriminate|]. split; [unfold four; repeat constructor; unfold is_dec; lia|].
  unfold four, dval. cbn [fold_left]. lia.
Qed.
Lemma one_digit n : 0 <= n <= 9 -> [48 + n] <> [] /\ Forall is_dec [48 + n] /\ dval [48 + n] = n.
Proof.
  intros H. split; [discriminate|]. split; [repeat constructor; unfold is_dec; lia|].
  unfold dval. cbn [fold_left]. lia.
Qed.
Lemma fmt_4 n : 1000 <= n <= 9999 -> fmt n = four n.
Proof.
  intros H. unfold fmt, four. rewrite dec_fuel_S. replace (n <? 10) with false by lia.
  assert (3 <= Z.log2 n) by (apply Z.log2_le_pow2; lia).
  destruct (Z.to_nat (Z.log2 n)) as [|[|[|k]]] eqn:E; [lia|lia|lia|].
  rewrite dec_fuel_S. replace (n / 10 <? 10) with false by lia.
  rewrite dec_fuel_S. replace (n / 10 / 10 <? 10) with false by lia.
  rewrite dec_fuel_S. replace (n / 10 / 10 / 10 <? 10) with true by lia. unfold Iso.digit.
  replace (n / 10 / 10 / 10) with (n / 1000) by lia. replace (n / 10 / 10) with (n / 100) by lia. reflexivity.
Qed.
Lemma fmt4_spec n : 0 <= n <= 9999 -> fmt4 n = four n.
Proof.
  intros H. unfold fmt4, pad. destruct (n <? 10) eqn:E.
  - rewrite fmt_1 by lia. unfold four. cbn [length Nat.sub repeat app]. replace (n / 1000) with 0 by lia.
    replace (n / 100 mod 10) with 0 by lia. replace (n / 10 mod 10) with 0 by lia. replace (n mod 10) with n by lia. reflexivity.
  - destruct (n <? 100) eqn:E2; [|destruct (n <? 1000) eqn:E3].
    + rewrite fmt_2 by lia. unfold four. cbn [length Nat.sub repeat app]. replace (n / 1000) with 0 by lia.
      replace (n / 100 mod 10) with 0 by lia. replace (n / 10 mod 10) with (n / 10) by lia. reflexivity.
    + rewrite fmt_3 by lia. unfold four. cbn [length Nat.sub repeat app]. replace (n / 1000) with 0 by lia.
      replace (n / 100 mod 10) with (n / 100) by lia. reflexivity.
    + rewrite fmt_4 by lia. reflexivity.
Qed.
Lemma gmt_token : is_token (lit "GMT").
Proof. now apply tokb_token. Qed.

Lemma Date_calendar_ymd y m d : valid_ymd y m d ->
  Date_calendar (Some (y / 100)) (Some (y mod 100)) (Some m) (Some d) None = Ok (of_ymd y m d).
Proof. intros V. unfold Date_calendar, Date. cbn. apply (CheckDate_ymd y m d V). Qed.
Lemma Time_utc h m s : clock_ok h m s -> Time (Some h) (Some m) (Some s) (Some 0) None None = Ok (utc h m s).
Proof.
  intros C. unfold Time, SetFromValues. cbn [Z.eqb bind]. apply CheckTime_valid. constructor; [exact C|constructor].
Qed.
Lemma weekday_of y m d n : valid_ymd y m d -> gregorian n (y, m, d) ->
  1 <= weekday n <= 7 /\ exists a b c e, GetWeekDay (of_ymd y m d) = Ok (a, b, c, e, Some (weekday n)).
Proof.
  intros V G. split; [unfold weekday; lia|]. pose proof V as (Y & VM). apply gregorian_iff in G as (_ & _ & <-).
  destruct (GetWeekDay_ymd y m d VM) as (Y' & w & wd & W & ->).
  assert (wd = weekday (absn y m d)) as ->; [|now eauto].
  destruct W as (_ & R & E). pose proof (mon1_range Y') as (_ & M). unfold weekday. rewrite E. lia.
Qed.
Definition finish (dow century year month day hour minute second : Z) (w : words) : result (timepoint * words) :=
  d <- Date_calendar (Some century) (Some year) (Some (month + 1)) (Some day) None ;;
  t <- Time (Some hour) (Some minute) (Some second) (Some 0) None None ;;
  '(_, _, _, _, wd) <- GetWeekDay d ;;
  match wd with
  | Some wd => if wd =? dow + 1 then Ok (mkTP d t, w) else Err BadSyntax
  | None => Err BadSyntax
  end.
Lemma finish_ok y m d n wd h mi s w : valid_ymd y m d -> gregorian n (y, m, d) -> clock_ok h mi s ->
  finish (wd - 1) (y / 100) (y mod 100) (m - 1) d h mi s w =
  if weekday n =? wd then Ok (day_time y m d h mi s, w) else Err BadSyntax.
Proof.
  intros V G C. destruct (weekday_of y m d n V G) as (R & a & b & c & e & E). unfold finish.
  replace (m - 1 + 1) with m by lia. rewrite Date_calendar_ymd by exact V. cbn [bind]. rewrite Time_utc by exact C.
  cbn [bind]. rewrite E. cbn [bind]. replace (wd - 1 + 1) with wd by lia. reflexivity.
Qed.
Definition clock_lex (h m s : Z) : list lex := [LTok (two h); LSep 58; LTok (two m); LSep 58; LTok (two s)].
Lemma clock_range h m s : clock_ok h m s -> 0 <= h <= 99 /\ 0 <= m <= 99 /\ 0 <= s <= 99.
Proof. unfold clock_ok. lia. Qed.
Lemma tok_digits s : s <> [] /\ Forall is_dec s /\ True -> is_token s.
Proof. intros (N & F & _). now apply digits_token. Qed.

Definition lex1123 (wd y m d h mi s : Z) : list lex :=
  [LTok (name short_days wd); LSep 44; LSp; LTok (two d); LSp; LTok (name month_names m); LSp; LTok (four y); LSp]
  ++ clock_lex h mi s ++ [LSp; LTok (lit "GMT")].
Definition lex850 (wd y m d h mi s : Z) : list lex :=
  [LTok (name long_days wd); LSep 44; LSp; LTok (two d ++ 45 :: name month_names m ++ 45 :: two (y mod 100)); LSp]
  ++ clock_lex h mi s ++ [LSp; LTok (lit "GMT")].
Definition lexasc (wd y m d h mi s : Z) : list lex :=
  [LTok (name short_days wd); LSp; LTok (name month_names m); LSps (if d <? 10 then 1 else 0);
   LTok (if d <? 10 then [48 + d] else two d); LSp]
  ++ clock_lex h mi s ++ [LSp; LTok (four y)].

Section Forms.
Variables y m d n h mi s wd : Z.
Hypotheses (V : valid_ymd y m d) (G : gregorian n (y, m, d)) (C : clock_ok h mi s) (wd_range : 1 <= wd <= 7).
Lemma ranges : 1 <= y <= 9999 /\ 1 <= m <= 12 /\ 1 <= d <= 31.
Proof.
  destruct V as (A & B & D). pose proof (month_length_pos (leap y) m). lia.
Qed.
Lemma clock_toks : is_token (two h) /\ is_token (two mi) /\ is_token (two s).
Proof.
  destruct (clock_range _ _ _ C) as (A & B & D). repeat split; try discriminate;
  (eapply Forall_impl; [apply dec_token_char|]; apply two_digits; assumption).
Qed.
Lemma clock_parse (R : words) (k : Z -> Z -> Z -> words -> result (timepoint * words)) :
  ('(hour, w) <- RequireInteger (ParseSP (wordsof true (clock_lex h mi s) ++ R)) ;;
   w <- RequireSeparator 58 w ;;
   '(minute, w) <- RequireInteger w ;;
   w <- RequireSeparator 58 w ;;
   '(second, w) <- RequireInteger w ;;
   k hour minute second (ParseSP w)) = k h mi s (ParseSP R).
Proof.
  destruct (clock_range _ _ _ C) as (A & B & D). destruct clock_toks as (T & _).
  destruct (two_digits h A) as (A1 & A2 & A3). destruct (two_digits mi B) as (B1 & B2 & B3). destruct (two_digits s D) as (D1 & D2 & D3).
  unfold clock_lex. cbn [wordsof flat_map word1 app]. cbn [render1].
  rewrite ParseSP_tok by exact T. rewrite RequireInteger_ok by assumption. cbn [bind].
  rewrite RequireSeparator_ok. cbn [bind]. rewrite RequireInteger_ok by assumption. cbn [bind].
  rewrite RequireSeparator_ok. cbn [bind]. rewrite RequireInteger_ok by assumption. cbn [bind].
  now rewrite A3, B3, D3.
Qed.
Lemma lex1123_render : render (lex1123 wd y m d h mi s) = rfc1123_date wd y m d h mi s.
Proof.
  unfold lex1123, rfc1123_date, clock, clock_lex, render. cbn [app map concat]. cbn [render1].
  change (lit ", ") with [44; 32]. change (lit " ") with [32]. change (lit ":") with [58]. change (lit " GMT") with (32 :: lit "GMT").
  cbn [repeat]. rewrite <- !app_assoc. cbn [app]. now rewrite app_nil_r.
Qed.
Lemma lex850_render : render (lex850 wd y m d h mi s) = rfc850_date wd y m d h mi s.
Proof.
  unfold lex850, rfc850_date, clock, clock_lex, render. cbn [app map concat]. cbn [render1].
  change (lit ", ") with [44; 32]. change (lit " ") with [32]. change (lit ":") with [58]. change (lit " GMT") with (32 :: lit "GMT").
  change (lit "-") with [45]. cbn [repeat]. repeat (rewrite <- app_assoc; cbn [app]). now rewrite app_nil_r.
Qed.
Lemma lexasc_render : render (lexasc wd y m d h mi s) = asctime_date wd y m d h mi s.
Proof.
  unfold lexasc, asctime_date, clock, clock_lex, render. cbn [app map concat]. cbn [render1].
  change (lit " ") with [32]. change (lit ":") with [58].
  destruct (d <? 10); cbn [repeat]; rewrite <- !app_assoc; cbn [app]; now rewrite app_nil_r.
Qed.
Lemma lex1123_ok : lex_ok (lex1123 wd y m d h mi s).
Proof.
  destruct (short_day wd wd_range) as (T1 & _). destruct ranges as (Y & M & D). destruct (month_name m M) as (T2 & _).
  destruct (clock_toks) as (T3 & T4 & T5). pose proof gmt_token as T6. pose proof single44. pose proof single58.
  assert (T7 : is_token (two d)) by (apply digits_token; apply two_digits; lia).
  assert (T8 : is_token (four y)) by (apply digits_token; apply four_digits; lia).
  unfold lex1123, clock_lex. cbn [app lex_ok]. tauto.
Qed.
Lemma lex850_tok : is_token (two d ++ 45 :: name month_names m ++ 45 :: two (y mod 100)).
Proof.
  destruct ranges as (Y & M & D). destruct (month_name m M) as ([_ T] & _).
  assert (H45 : token_char 45) by (unfold token_char, separator; cbn [In]; lia).
  split; [discriminate|]. apply Forall_app. split; [|constructor; [exact H45|apply Forall_app; split; [exact T|constructor; [exact H45|]]]].
  - eapply Forall_impl; [apply dec_token_char|]. apply two_digits; lia.
  - eapply Forall_impl; [apply dec_token_char|]. apply two_digits; lia.
Qed.
Lemma lex850_ok : lex_ok (lex850 wd y m d h mi s).
Proof.
  destruct (long_day wd wd_range) as (T1 & _). destruct (clock_toks) as (T3 & T4 & T5). pose proof gmt_token as T6.
  pose proof single44. pose proof single58. pose proof lex850_tok.
  unfold lex850, clock_lex. cbn [app lex_ok]. tauto.
Qed.
Lemma asc_day : let t := if d <? 10 then [48 + d] else two d in t <> [] /\ Forall is_dec t /\ dval t = d.
Proof. destruct ranges as (_ & _ & D). destruct (Z.ltb_spec d 10); [apply one_digit; lia|apply two_digits; lia]. Qed.
Lemma lexasc_ok : lex_ok (lexasc wd y m d h mi s).
Proof.
  destruct (short_day wd wd_range) as (T1 & _). destruct ranges as (Y & M & D). destruct (month_name m M) as (T2 & _).
  destruct (clock_toks) as (T3 & T4 & T5). pose proof single58.
  assert (T7 : is_token (if d <? 10 then [48 + d] else two d)) by (apply digits_token; apply asc_day).
  assert (T8 : is_token (four y)) by (apply digits_token; apply four_digits; lia).
  unfold lexasc, clock_lex. cbn [app lex_ok]. tauto.
Qed.
Lemma IsInteger_tok t w : IsInteger (Some t :: w) = IsDIGITS t. Proof. reflexivity. Qed.
Ltac clock_step R K :=
  match goal with |- bind ?B _ = _ => replace B with (K h mi s (ParseSP R)) by (symmetry; exact (clock_parse R K)) end; cbn beta.
Lemma parse1123 : FromHTTPString (rfc1123_date wd y m d h mi s) =
  if weekday n =? wd then Ok (day_time y m d h mi s) else Err BadSyntax.
Proof.
  unfold FromHTTPString. rewrite <- lex1123_render, WordParser_render by apply lex1123_ok. cbn [bind].
  destruct (short_day wd wd_range) as (T1 & _ & W1 & _). destruct ranges as (Y & M & D). destruct (month_name m M) as (T2 & _ & M1 & _).
  assert (T7 : is_token (two d)) by (apply digits_token; apply two_digits; lia).
  assert (T8 : is_token (four y)) by (apply digits_token; apply four_digits; lia).
  destruct (two_digits d) as (D1 & D2 & D3); [lia|]. destruct (four_digits y) as (Y1 & Y2 & Y3); [lia|].
  unfold lex1123. rewrite !wordsof_app. cbn [wordsof flat_map word1 app]. cbn [render1].
  change (flat_map (word1 true) (clock_lex h mi s)) with (wordsof true (clock_lex h mi s)).
  unfold RequireFullDate. rewrite ParseSP_tok, RequireToken_tok by exact T1. cbn [bind]. rewrite W1. cbn [need bind].
  rewrite ParseSP_sep by lia. rewrite ParseSeparator_ok. rewrite ParseSP_tok by exact T7.
  rewrite IsToken_tok by exact T7. rewrite IsInteger_tok, IsDIGITS_spec by assumption. cbn [andb].
  rewrite RequireInteger_ok by assumption. cbn [bind]. rewrite ParseSP_tok, RequireToken_tok by exact T2. cbn [bind].
  rewrite M1. cbn [need bind]. rewrite ParseSP_tok by exact T8. rewrite RequireInteger_ok by assumption. cbn [bind].
  rewrite D3, Y3.
  clock_step [Some (lit "GMT")] (fun (hour minute second : Z) (w : words) =>
    '(century, year, w) <- ('(t, w) <- RequireToken w ;; if str_eqb (upper t) (lit "GMT") then Ok (Some (y / 100), y mod 100, w) else Err BadSyntax) ;;
    finish (wd - 1) (match century with Some c => c | None => if year <? 90 then 20 else 19 end) year (m - 1) d hour minute second w).
  rewrite ParseSP_tok, RequireToken_tok by apply gmt_token. cbn [bind].
  change (str_eqb (upper (lit "GMT")) (lit "GMT")) with true. cbn [bind].
  rewrite (finish_ok y m d n) by assumption. now destruct (weekday n =? wd).
Qed.
Lemma parse850 : 1990 <= y <= 2089 -> FromHTTPString (rfc850_date wd y m d h mi s) =
  if weekday n =? wd then Ok (day_time y m d h mi s) else Err BadSyntax.
Proof.
  intros YY. unfold FromHTTPString. rewrite <- lex850_render, WordParser_render by apply lex850_ok. cbn [bind].
  destruct (long_day wd wd_range) as (T1 & _ & W1 & _). destruct ranges as (Y & M & D). destruct (month_name m M) as (T2 & _ & M1 & N45).
  destruct (two_digits d) as (D1 & D2 & D3); [lia|]. destruct (two_digits (y mod 100)) as (Y1 & Y2 & Y3); [lia|].
  pose proof lex850_tok as T3.
  unfold lex850. rewrite !wordsof_app. cbn [wordsof flat_map word1]. cbn [render1].
  change (flat_map (word1 true) (clock_lex h mi s)) with (wordsof true (clock_lex h mi s)).
  set (tk := two d ++ 45 :: name month_names m ++ 45 :: two (y mod 100)) in *.
  assert (ND : IsDIGITS tk = false).
  { unfold IsDIGITS. destruct tk as [|x tk'] eqn:E; [reflexivity|]. rewrite <- E. subst tk.
    unfold two at 1. cbn [app all_digits]. destruct (IsDIGIT (48 + d / 10)); [|reflexivity].
    destruct (IsDIGIT (48 + d mod 10)); reflexivity. }
  cbn [app]. unfold RequireFullDate. rewrite ParseSP_tok, RequireToken_tok by exact T1. cbn [bind]. rewrite W1. cbn [need bind].
  rewrite ParseSP_sep by lia. rewrite ParseSeparator_ok. rewrite ParseSP_tok by exact T3.
  rewrite IsInteger_tok, ND, andb_false_r. rewrite RequireToken_tok by exact T3. cbn [bind].
  unfold tk. rewrite split_app_no by (apply digits_no; [exact D2|unfold is_dec; lia]).
  rewrite split_app_no by exact N45. rewrite split_no by (apply digits_no; [exact Y2|unfold is_dec; lia]).
  rewrite !IsDIGITS_spec by assumption. cbn [negb orb]. rewrite M1. cbn [need bind]. rewrite (int_digits_dval (two d)), (int_digits_dval (two (y mod 100))), D3, Y3.
  clock_step [Some (lit "GMT")] (fun (hour minute second : Z) (w : words) =>
    '(century, year, w) <- ('(t, w) <- RequireToken w ;; if str_eqb (upper t) (lit "GMT") then Ok (None, y mod 100, w) else Err BadSyntax) ;;
    finish (wd - 1) (match century with Some c => c | None => if year <? 90 then 20 else 19 end) year (m - 1) d hour minute second w).
  rewrite ParseSP_tok, RequireToken_tok by apply gmt_token. cbn [bind].
  change (str_eqb (upper (lit "GMT")) (lit "GMT")) with true. cbn [bind].
  assert (CC : (if y mod 100 <? 90 then 20 else 19) = y / 100) by (destruct (Z.ltb_spec (y mod 100) 90); lia). rewrite CC.
  rewrite (finish_ok y m d n) by assumption. now destruct (weekday n =? wd).
Qed.
Lemma parse_asctime : FromHTTPString (asctime_date wd y m d h mi s) =
  if weekday n =? wd then Ok (day_time y m d h mi s) else Err BadSyntax.
Proof.
  unfold FromHTTPString. rewrite <- lexasc_render, WordParser_render by apply lexasc_ok. cbn [bind].
  destruct (short_day wd wd_range) as (T1 & _ & W1 & _). destruct ranges as (Y & M & D). destruct (month_name m M) as (T2 & _ & M1 & _).
  destruct asc_day as (D1 & D2 & D3). destruct (four_digits y) as (Y1 & Y2 & Y3); [lia|].
  assert (T7 : is_token (if d <? 10 then [48 + d] else two d)) by now apply digits_token.
  assert (T8 : is_token (four y)) by now apply digits_token.
  unfold lexasc. rewrite !wordsof_app. cbn [wordsof flat_map word1 app]. cbn [render1].
  change (flat_map (word1 true) (clock_lex h mi s)) with (wordsof true (clock_lex h mi s)).
  set (dd := if d <? 10 then [48 + d] else two d) in *.
  unfold RequireFullDate. rewrite ParseSP_tok, RequireToken_tok by exact T1. cbn [bind]. rewrite W1. cbn [need bind].
  rewrite ParseSP_tok by exact T2. rewrite ParseSeparator_tok by (exact T2 || (unfold separator; cbn [In]; lia)).
  rewrite RequireToken_tok by exact T2. cbn [bind]. rewrite M1. cbn [need bind].
  rewrite ParseSP_tok by exact T7. rewrite RequireInteger_ok by assumption. cbn [bind]. rewrite D3.
  clock_step [Some (four y)] (fun (hour minute second : Z) (w : words) =>
    '(century, year, w) <- ('(year, w) <- RequireInteger w ;; Ok (Some (year / 100), year mod 100, w)) ;;
    finish (wd - 1) (match century with Some c => c | None => if year <? 90 then 20 else 19 end) year (m - 1) d hour minute second w).
  rewrite ParseSP_tok by exact T8. rewrite RequireInteger_ok by assumption. cbn [bind]. rewrite Y3.
  rewrite (finish_ok y m d n) by assumption. now destruct (weekday n =? wd).
Qed.
Lemma FullDate_str_ok : FullDate_str (day_time y m d h mi s) = Ok (rfc1123_date (weekday n) y m d h mi s).
Proof.
  unfold FullDate_str, day_time, of_ymd, utc. cbn [p_date p_time d_year d_month d_day t_minute t_second t_hour d_century].
  fold (of_ymd y m d). destruct (weekday_of y m d n V G) as (R & a & b & c & e & E). rewrite E. cbn [bind].
  destruct ranges as (Y & M & D). destruct (clock_range _ _ _ C) as (Ch & Cm & Cs).
  assert (NW : nth_name wkday (weekday n - 1) = Ok (name short_days (weekday n))).
  { unfold nth_name, name. replace (weekday n - 1 <? 0) with false by lia.
    assert (K : (Z.to_nat (weekday n - 1) < 7)%nat) by lia. revert K. generalize (Z.to_nat (weekday n - 1)).
    intros k K. do 7 (destruct k as [|k]; [reflexivity|]). lia. }
  assert (NM : nth_name month_ (m - 1) = Ok (name month_names m)).
  { unfold nth_name, name. replace (m - 1 <? 0) with false by lia.
    assert (K : (Z.to_nat (m - 1) < 12)%nat) by lia. revert K. generalize (Z.to_nat (m - 1)).
    intros k K. do 12 (destruct k as [|k]; [reflexivity|]). lia. }
  rewrite NW. cbn [bind]. rewrite NM. cbn [bind].
  replace (y / 100 * 100 + y mod 100) with y by lia.
  assert (F2 : forall k, 0 <= k <= 99 -> fmt2 k = two k) by (intros; now apply fmt2_spec).
  assert (F4 : forall k, 0 <= k <= 9999 -> fmt4 k = four k) by apply fmt4_spec.
  rewrite !F2, F4 by lia. unfold rfc1123_date, clock. do 2 f_equal.
Qed.
End Forms.
