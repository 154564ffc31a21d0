(** The word parser on rendered words, and the parsing steps on words. *)
From Verif Require Import Py Iso Dec XmlUtils Imscp HttpCore HttpSpec HttpProofs.
From Coq Require Import Lia Zify.
Open Scope Z_scope.

(** Lexemes: tokens, single separators, quoted strings and spaces *)
Inductive lex := LTok (t : str) | LSep (c : Z) | LQuo (s : str) | LSps (k : nat).
Notation LSp := (LSps 0).
Definition render1 (l : lex) : str :=
  match l with LTok t => t | LSep c => [c] | LQuo s => QuoteString s true | LSps k => repeat 32 (S k) end.
Definition render (l : list lex) : str := concat (map render1 l).
Definition word1 (ig : bool) (l : lex) : words :=
  match l with LSps _ => if ig then [] else [Some [32]] | l => [Some (render1 l)] end.
Definition wordsof (ig : bool) (l : list lex) : words := flat_map (word1 ig) l.
Definition single (c : Z) : Prop := In c [41; 60; 62; 64; 44; 59; 58; 92; 47; 91; 93; 63; 61; 123; 125].
Fixpoint lex_ok (l : list lex) : Prop :=
  match l with
  | [] => True
  | LTok t :: l' => is_token t /\ (match l' with LTok _ :: _ => False | _ => True end) /\ lex_ok l'
  | LSep c :: l' => single c /\ lex_ok l'
  | LQuo s :: l' => octets s /\ lex_ok l'
  | LSps _ :: l' => (match l' with LSps _ :: _ | [] => False | _ => True end) /\ lex_ok l'
  end.

Lemma token_run_spec t r : Forall token_char t ->
  (match r with c :: _ => IsCTL c || IsSEPARATOR c = true | [] => True end) -> token_run (t ++ r) = (t, r).
Proof.
  intros T R. induction T as [|c t Tc T IH].
  - cbn [app]. destruct r as [|c r]; [reflexivity|]. cbn [token_run]. now rewrite R.
  - cbn [app token_run]. apply token_char_model in Tc. now rewrite Tc, IH.
Qed.
Lemma ParseToken_c_spec t r : is_token t ->
  (match r with c :: _ => IsCTL c || IsSEPARATOR c = true | [] => True end) -> ParseToken_c (t ++ r) = (Some t, r).
Proof. intros [N T] R. unfold ParseToken_c. rewrite token_run_spec by assumption. now destruct t. Qed.
Lemma single_sep c : single c -> IsSEPARATOR c = true /\ c <> 40 /\ c <> 34 /\ c <> 13 /\ blank c = false.
Proof.
  unfold single, IsSEPARATOR. rewrite mem_sep. unfold separator. intros H.
  rewrite <- not_true_iff_false, blank_iff. cbn [In] in *. lia.
Qed.

(** The first character of a rendered list *)
Definition starts (l : list lex) (c : Z) : Prop :=
  match l with
  | LTok (x :: _) :: _ => c = x
  | LSep x :: _ => c = x
  | LQuo _ :: _ => c = 34
  | LSps _ :: _ => c = 32
  | _ => False
  end.
Lemma render_cons x l : render (x :: l) = render1 x ++ render l. Proof. reflexivity. Qed.
Lemma render_app a b : render (a ++ b) = render a ++ render b.
Proof. unfold render. now rewrite map_app, concat_app. Qed.
Lemma render_start l : lex_ok l -> l <> [] -> exists c r, render l = c :: r /\ starts l c.
Proof.
  destruct l as [|x l]; [easy|]. intros H _. rewrite render_cons. destruct x as [t|c|s|k]; cbn [render1 lex_ok] in *.
  - destruct t as [|c t]; [now destruct H as [[H _] _]|]. now exists c, (t ++ render l).
  - now exists c, (render l).
  - rewrite QuoteString_true. now exists 34, ((qbody s ++ [DQUOTE]) ++ render l).
  - now exists 32, (repeat 32 k ++ render l).
Qed.
Lemma render_sep l : lex_ok l -> (match l with LTok _ :: _ => False | _ => True end) ->
  match render l with c :: _ => IsCTL c || IsSEPARATOR c = true | [] => True end.
Proof.
  destruct l as [|x l]; [easy|]. intros H N.
  destruct (render_start (x :: l)) as (c & r & E & S); [exact H|easy|]. rewrite E.
  destruct x; cbn in S; [easy| | |]; subst; rewrite orb_true_iff; right.
  - destruct H as [H _]; apply (proj1 (single_sep _ H)).
  - reflexivity.
  - reflexivity.
Qed.
Lemma render_noLWS l : lex_ok l -> (match l with LSps _ :: _ => False | _ => True end) -> ParseLWS (render l) = None.
Proof.
  destruct l as [|x l]; [reflexivity|]. intros H N.
  destruct (render_start (x :: l)) as (c & r & E & S); [exact H|easy|]. rewrite E.
  assert (B : c <> CR /\ blank c = false).
  { destruct x as [t|c'|s|]; cbn in S; [|subst|subst; now split|easy].
    - destruct t as [|y t]; [easy|]. subst y. cbn in H. destruct H as [[_ H] _].
      apply Forall_inv in H. unfold token_char, separator in H. cbn [In] in H. unfold CR.
      rewrite <- not_true_iff_false, blank_iff. lia.
    - cbn in H. destruct H as [H _]. apply single_sep in H. unfold CR. tauto. }
  now apply ParseLWS_none.
Qed.
Lemma skip_none f s : ParseLWS s = None -> skip_lws f s = (false, s).
Proof. intros H. destruct f; [reflexivity|]. cbn [skip_lws]. now rewrite H. Qed.

Lemma word_loop_step f ig s : s <> [] -> word_loop (S f) ig s =
  (let '(sp, s) := skip_lws (length s) s in
   let pre := if sp && negb ig then [Some [SP]] else [] in
   '(w, r) <-
     match s with
     | [] => Ok (ParseToken_c [])
     | c :: r =>
         if IsSEPARATOR c then
           if c =? 40 then ParseComment true s
           else if c =? DQUOTE then ParseQuotedString_c true s
           else Ok (Some [c], r)
         else Ok (ParseToken_c s)
     end ;;
   ws <- word_loop f ig r ;;
   Ok (pre ++ w :: ws)).
Proof. destruct s; [easy|reflexivity]. Qed.

(** One lexeme other than a space *)
Definition lex_word (s : str) : result (option str * str) :=
  match s with
  | [] => Ok (ParseToken_c [])
  | c :: r =>
      if IsSEPARATOR c then
        if c =? 40 then ParseComment true s
        else if c =? DQUOTE then ParseQuotedString_c true s
        else Ok (Some [c], r)
      else Ok (ParseToken_c s)
  end.
Lemma lex_word_spec x l : lex_ok (x :: l) -> (forall k, x <> LSps k) -> lex_word (render (x :: l)) = Ok (Some (render1 x), render l).
Proof.
  intros H N. rewrite render_cons. destruct x as [t|c|s|k]; [| | |now destruct (N k)]; cbn [render1 lex_ok] in *.
  - destruct H as ([Nt T] & R & H). destruct t as [|c t]; [easy|].
    unfold lex_word. cbn [app]. pose proof (Forall_inv T) as Tc. apply token_char_model in Tc.
    apply orb_false_iff in Tc as [_ ->]. change (c :: t ++ render l) with ((c :: t) ++ render l).
    f_equal. apply ParseToken_c_spec; [now split|now apply render_sep].
  - destruct H as [S H]. apply single_sep in S as (S & A & B & _). unfold lex_word. cbn [app]. rewrite S.
    replace (c =? 40) with false by lia. now replace (c =? DQUOTE) with false by (unfold DQUOTE; lia).
  - destruct H as [O H]. pose proof (ParseQuotedString_c_spec true s (render l) O) as E.
    rewrite QuoteString_true in *. unfold lex_word. cbn [app] in *.
    change (IsSEPARATOR DQUOTE) with true. change (DQUOTE =? 40) with false. change (DQUOTE =? DQUOTE) with true. exact E.
Qed.
Lemma render_length x l : lex_ok (x :: l) -> (length (render l) < length (render (x :: l)))%nat.
Proof.
  intros H. rewrite render_cons, app_length. destruct x as [t|c|s|]; cbn [render1]; try (cbn [length repeat]; lia).
  - destruct H as [[N _] _]. destruct t; [easy|]. cbn. lia.
  - rewrite QuoteString_true. cbn. lia.
Qed.
Lemma word_loop_render ig : forall l f, lex_ok l -> (length (render l) < f)%nat ->
  word_loop f ig (render l) = Ok (wordsof ig l).
Proof.
  intros l. remember (length l) as n eqn:L. revert l L. induction n as [n IH] using lt_wf_ind. intros l -> f H F.
  destruct f as [|f]; [lia|]. destruct l as [|x l]; [reflexivity|].
  assert (NE : render (x :: l) <> []).
  { destruct (render_start (x :: l)) as (c & r & E & _); [exact H|easy|]. now rewrite E. }
  rewrite word_loop_step by exact NE.
  pose proof (render_length x l H) as RL.
  assert (Hl : lex_ok l) by (destruct x; cbn in H; tauto).
  assert (D : (exists k, x = LSps k) \/ forall k, x <> LSps k) by (destruct x; eauto; right; discriminate).
  destruct D as [[k ->]|D].
  - cbn [lex_ok] in H. destruct H as [Hn _]. destruct l as [|y l]; [easy|].
    assert (Hy : forall j, y <> LSps j) by (destruct y; easy).
    assert (NL : ParseLWS (render (y :: l)) = None) by (apply render_noLWS; [exact Hl|now destruct y]).
    assert (E : skip_lws (length (render (LSps k :: y :: l))) (render (LSps k :: y :: l)) = (true, render (y :: l))).
    { rewrite render_cons. cbn [render1].
      change (skip_lws (length (repeat 32 (S k) ++ render (y :: l))) (repeat 32 (S k) ++ render (y :: l))) with
        (match ParseLWS (repeat 32 (S k) ++ render (y :: l)) with
         | Some (_, r) => (true, snd (skip_lws (length (repeat 32 k ++ render (y :: l))) r))
         | None => (false, repeat 32 (S k) ++ render (y :: l)) end).
      rewrite ParseLWS_blanks; [| easy | |].
      - now rewrite skip_none.
      - apply forallb_forall. intros z Z. apply repeat_spec in Z. now subst.
      - destruct (render_start (y :: l)) as (c & r & E & S); [exact Hl|easy|]. rewrite E in NL |- *.
        destruct (blank c) eqn:B; [|reflexivity]. exfalso.
        destruct (blank_split (c :: r)) as (b & r' & E' & Hb & Hr). destruct b as [|b0 b].
        + cbn [app] in E'. subst r'. congruence.
        + rewrite E', ParseLWS_blanks in NL; [discriminate|easy|exact Hb|exact Hr]. }
    rewrite E. fold (lex_word (render (y :: l))). rewrite lex_word_spec by assumption. cbn [bind].
    assert (Hl' : lex_ok l) by (destruct y; cbn in Hl; tauto).
    pose proof (render_length y l Hl).
    rewrite (IH (length l)); [|cbn; lia|reflexivity|exact Hl'|lia]. cbn [bind].
    unfold wordsof. cbn [flat_map word1]. unfold SP. f_equal.
    destruct ig; cbn [negb andb app]; destruct y; try easy; reflexivity.
  - rewrite skip_none by (apply render_noLWS; [exact H|destruct x as [| | |k]; try exact I; now destruct (D k)]).
    fold (lex_word (render (x :: l))). rewrite lex_word_spec by assumption. cbn [bind andb].
    rewrite (IH (length l)); [|cbn; lia|reflexivity|exact Hl|lia]. cbn [bind app].
    unfold wordsof. cbn [flat_map]. destruct x as [| | |k]; try reflexivity. now destruct (D k).
Qed.
Lemma WordParser_render ig l : lex_ok l -> WordParser ig (render l) = Ok (wordsof ig l).
Proof. intros H. apply word_loop_render; [exact H|lia]. Qed.

(** ** Steps on words *)
Lemma wordsof_cons ig x l : wordsof ig (x :: l) = word1 ig x ++ wordsof ig l. Proof. reflexivity. Qed.
Lemma wordsof_app ig a b : wordsof ig (a ++ b) = wordsof ig a ++ wordsof ig b.
Proof. unfold wordsof. apply flat_map_app. Qed.
Lemma token_head t : is_token t -> exists c r, t = c :: r /\ IsSEPARATOR c = false /\ token_char c.
Proof.
  intros [N T]. destruct t as [|c r]; [easy|]. exists c, r. apply Forall_inv in T. repeat split; try apply T.
  apply token_char_model, orb_false_iff in T. apply T.
Qed.
Lemma IsToken_tok t w : is_token t -> IsToken (Some t :: w) = true.
Proof. intros H. destruct (token_head t H) as (c & r & -> & S & _). cbn. now rewrite S. Qed.
Lemma RequireToken_tok t w : is_token t -> RequireToken (Some t :: w) = Ok (t, w).
Proof. intros H. unfold RequireToken, ParseToken. now rewrite IsToken_tok. Qed.
Lemma is_sep_tok x t w : is_token t -> separator x -> is_sep x (Some t :: w) = false.
Proof.
  intros H X. destruct (token_head t H) as (c & r & -> & S & _). unfold is_sep. cbn [cWord].
  destruct (str_eqb (c :: r) [x]) eqn:E; [|reflexivity]. apply str_eqb_eq in E. inversion E; subst.
  apply mem_sep in X. unfold IsSEPARATOR in S. congruence.
Qed.
Lemma sp_separator : separator SP. Proof. unfold separator, SP. cbn [In]. lia. Qed.
Lemma ParseSP_tok t w : is_token t -> ParseSP (Some t :: w) = Some t :: w.
Proof. intros H. unfold ParseSP, ParseSeparator. now rewrite is_sep_tok by (exact H || apply sp_separator). Qed.
Lemma ParseSP_sp w : ParseSP (Some [32] :: w) = w.
Proof. reflexivity. Qed.
Lemma ParseSP_nil : ParseSP [] = []. Proof. reflexivity. Qed.
Lemma ParseSP_sep c w : c <> 32 -> ParseSP (Some [c] :: w) = Some [c] :: w.
Proof.
  intros N. unfold ParseSP, ParseSeparator, is_sep. cbn [cWord].
  destruct (str_eqb [c] [SP]) eqn:E; [|reflexivity]. apply str_eqb_eq in E. inversion E. unfold SP in *. congruence.
Qed.
Lemma ParseSP_quo s w : ParseSP (Some (QuoteString s true) :: w) = Some (QuoteString s true) :: w.
Proof.
  rewrite QuoteString_true. unfold ParseSP, ParseSeparator, is_sep. cbn [cWord].
  destruct (str_eqb _ [SP]) eqn:E; [|reflexivity]. apply str_eqb_eq in E. inversion E. 
Qed.
Lemma RequireSeparator_ok c w : RequireSeparator c (Some [c] :: w) = Ok w.
Proof. unfold RequireSeparator, is_sep. cbn [cWord]. now rewrite str_eqb_refl. Qed.
Lemma ParseSeparator_ok c w : ParseSeparator c (Some [c] :: w) = (true, w).
Proof. unfold ParseSeparator, is_sep. cbn [cWord]. now rewrite str_eqb_refl. Qed.
Lemma ParseSeparator_tok c t w : is_token t -> separator c -> ParseSeparator c (Some t :: w) = (false, Some t :: w).
Proof. intros H S. unfold ParseSeparator. now rewrite is_sep_tok. Qed.
Lemma ParseSeparator_other c d w : c <> d -> ParseSeparator c (Some [d] :: w) = (false, Some [d] :: w).
Proof.
  intros N. unfold ParseSeparator, is_sep. cbn [cWord].
  destruct (str_eqb [d] [c]) eqn:E; [|reflexivity]. apply str_eqb_eq in E. inversion E. congruence.
Qed.
Lemma ParseSeparator_nil c : ParseSeparator c [] = (false, []). Proof. reflexivity. Qed.
Lemma RequireQuotedString_ok s w : RequireQuotedString (Some (QuoteString s true) :: w) = Ok (s, w).
Proof.
  unfold RequireQuotedString, ParseQuotedString, IsQuotedString. cbn [cWord].
  pose proof (decode_QuoteString s) as D. rewrite QuoteString_true in *. change (DQUOTE =? DQUOTE) with true.
  cbn [option_map next tl]. now rewrite D.
Qed.
Lemma IsToken_quo s w : IsToken (Some (QuoteString s true) :: w) = false.
Proof. now rewrite QuoteString_true. Qed.
Lemma IsToken_sep c w : separator c -> IsToken (Some [c] :: w) = false.
Proof. intros S. cbn. unfold IsSEPARATOR. apply mem_sep in S. now rewrite S. Qed.

(** Digits *)
Lemma IsDIGIT_dec c : is_dec c -> IsDIGIT c = true.
Proof. unfold is_dec, IsDIGIT. lia. Qed.
Lemma IsDIGITS_spec s : s <> [] -> Forall is_dec s -> IsDIGITS s = true.
Proof.
  intros N F. unfold IsDIGITS. destruct s as [|c s]; [easy|]. clear N.
  induction F as [|x l H _ IH]; [reflexivity|]. cbn [all_digits]. now rewrite IsDIGIT_dec.
Qed.
Lemma dec_token_char c : is_dec c -> token_char c.
Proof. unfold is_dec, token_char, separator. cbn [In]. lia. Qed.
Lemma digits_token s : s <> [] -> Forall is_dec s -> is_token s.
Proof. intros N F. split; [exact N|]. eapply Forall_impl; [|exact F]. apply dec_token_char. Qed.
Lemma fmt_token n : 0 <= n -> is_token (fmt n).
Proof. intros H. apply digits_token; [apply fmt_not_nil|now apply fmt_digits]. Qed.
Lemma pad_digits w s : Forall is_dec s -> Forall is_dec (pad w s).
Proof.
  intros H. unfold pad. apply Forall_app. split; [|exact H]. apply Forall_forall. intros x X.
  apply repeat_spec in X. subst. unfold is_dec. lia.
Qed.
Lemma pad_not_nil w s : s <> [] -> pad w s <> [].
Proof. intros N. unfold pad. destruct s; [easy|]. intros X. now apply app_eq_nil in X. Qed.
Lemma int_digits_dval s : int_digits s = dval s. Proof. reflexivity. Qed.
Lemma dval_zeros k : dval (repeat 48 k) = 0.
Proof.
  induction k as [|k IH]; [reflexivity|]. change (repeat 48 (S k)) with ([48] ++ repeat 48 k).
  rewrite dval_app, IH. reflexivity.
Qed.
Lemma dval_pad w s : dval (pad w s) = dval s.
Proof. unfold pad. rewrite dval_app, dval_zeros. lia. Qed.
Lemma RequireInteger_ok s w : s <> [] -> Forall is_dec s -> RequireInteger (Some s :: w) = Ok (dval s, w).
Proof. intros N F. unfold RequireInteger. cbn [cWord]. now rewrite IsDIGITS_spec. Qed.
Lemma pystr_nonneg n : 0 <= n -> pystr n = fmt n.
Proof. intros H. unfold pystr. now replace (n <? 0) with false by lia. Qed.
Lemma dec_not n c : is_dec n -> ~ is_dec c -> n <> c. Proof. congruence. Qed.
Lemma digits_no x s : Forall is_dec s -> ~ is_dec x -> ~ In x s.
Proof. intros F N I. rewrite Forall_forall in F. now apply N, F. Qed.
