(** Lexing of HTTP: quoted strings and words. *)
From Verif Require Import Py Iso Dec XmlUtils Imscp HttpCore HttpSpec.
From Coq Require Import Lia Zify.
Open Scope Z_scope.

Global Arguments IsSEPARATOR : simpl never.
Global Arguments IsCTL : simpl never.
Global Arguments IsDIGIT : simpl never.
Global Arguments mem : simpl never.
Global Arguments lit : simpl never.
Lemma mem_sep c : mem c SEPARATORS = true <-> separator c.
Proof.
  unfold separator. rewrite mem_In. unfold SEPARATORS.
  change (lit "()<>@,;:\" ++ [DQUOTE] ++ lit "/[]?={} " ++ [HT])
    with [40; 41; 60; 62; 64; 44; 59; 58; 92; 34; 47; 91; 93; 63; 61; 123; 125; 32; 9]. reflexivity.
Qed.
Lemma token_char_model c : token_char c <-> IsCTL c || IsSEPARATOR c = false.
Proof.
  unfold token_char, IsCTL, IsSEPARATOR. rewrite !orb_false_iff, Z.ltb_ge, Z.eqb_neq.
  rewrite <- (not_true_iff_false (mem _ _)), mem_sep. tauto.
Qed.

(** ** DecodeQuotedString *)
(** ** Quoting *)
Definition qbody (s : str) : str := fst (quote_loop s true).
Definition escaped (c : Z) : bool := mem c [BACKSLASH; DQUOTE] || (IsCTL c && negb (mem c [SP; HT])).
Lemma quote_loop_eq c s f : quote_loop (c :: s) f =
  if escaped c then let '(b, f) := quote_loop s true in (BACKSLASH :: c :: b, f)
  else if IsCTL c || IsSEPARATOR c then let '(b, f) := quote_loop s true in (c :: b, f)
  else let '(b, f) := quote_loop s f in (c :: b, f).
Proof. reflexivity. Qed.
Lemma quote_fst s : forall f, fst (quote_loop s f) = qbody s.
Proof.
  unfold qbody. induction s as [|c s IH]; intros f; [reflexivity|]. rewrite !quote_loop_eq.
  destruct (escaped c); [reflexivity|]. destruct (IsCTL c || IsSEPARATOR c); [reflexivity|].
  specialize (IH f). destruct (quote_loop s f), (quote_loop s true). cbn in *. now rewrite IH.
Qed.
Lemma quote_true s : snd (quote_loop s true) = true.
Proof.
  induction s as [|c s IH]; [reflexivity|]. rewrite quote_loop_eq. destruct (quote_loop s true).
  cbn in *. destruct (escaped c); [exact IH|]. destruct (IsCTL c || IsSEPARATOR c); exact IH.
Qed.
Lemma escaped_not_token c : escaped c = true -> IsCTL c || IsSEPARATOR c = true.
Proof.
  unfold escaped. rewrite !orb_true_iff, andb_true_iff. intros [H|[H _]]; [right|now left].
  unfold IsSEPARATOR. rewrite mem_sep. apply mem_In in H. unfold BACKSLASH, DQUOTE in H. cbn [In] in H.
  unfold separator. cbn [In]. lia.
Qed.
Lemma quote_false s : snd (quote_loop s false) = false <-> Forall token_char s.
Proof.
  induction s as [|c s IH]; [split; [constructor|reflexivity]|]. rewrite quote_loop_eq, Forall_cons_iff, token_char_model.
  pose proof (quote_true s) as T. pose proof (escaped_not_token c) as E.
  destruct (quote_loop s true) as [b f]. cbn in T. subst f.
  destruct (escaped c).
  - cbn [snd]. rewrite E by reflexivity. split; [discriminate|intros [X _]; discriminate X].
  - destruct (IsCTL c || IsSEPARATOR c); cbn [snd].
    + split; [discriminate|intros [X _]; discriminate X].
    + rewrite <- IH. destruct (quote_loop s false). cbn [snd]. tauto.
Qed.
Lemma qbody_cons c s : qbody (c :: s) = if escaped c then BACKSLASH :: c :: qbody s else c :: qbody s.
Proof.
  unfold qbody. rewrite quote_loop_eq. destruct (quote_loop s true) as [b f]. cbn.
  destruct (escaped c); [reflexivity|]. now destruct (IsCTL c || IsSEPARATOR c).
Qed.
Lemma escaped_false c : escaped c = false -> c <> 92 /\ c <> 34 /\ (32 <= c /\ c <> 127 \/ c = 9).
Proof.
  unfold escaped. rewrite orb_false_iff, andb_false_iff, negb_false_iff.
  unfold IsCTL. rewrite orb_false_iff, Z.ltb_ge, Z.eqb_neq.
  intros [H1 H2]. rewrite <- not_true_iff_false in H1. rewrite mem_In in H1, H2.
  unfold BACKSLASH, DQUOTE, SP, HT in *. cbn [In] in *. lia.
Qed.
Lemma qbody_token s : Forall token_char s -> qbody s = s.
Proof.
  induction 1 as [|c s H _ IH]; [reflexivity|]. rewrite qbody_cons, IH.
  destruct (escaped c) eqn:E; [|reflexivity]. apply token_char_model in H.
  now rewrite escaped_not_token in H.
Qed.
Lemma qbody_quoted s : quoted (qbody s) s.
Proof.
  induction s as [|c s IH]; [constructor|]. rewrite qbody_cons.
  destruct (escaped c) eqn:E; [now constructor|]. apply escaped_false in E. now constructor.
Qed.
Lemma QuoteString_true s : QuoteString s true = DQUOTE :: qbody s ++ [DQUOTE].
Proof.
  unfold QuoteString, qbody. pose proof (quote_true s). destruct (quote_loop s true). cbn in *. now subst.
Qed.
Lemma QuoteString_false s : QuoteString s false = s /\ Forall token_char s \/
  QuoteString s false = QuoteString s true /\ ~ Forall token_char s.
Proof.
  rewrite QuoteString_true. unfold QuoteString. pose proof (quote_fst s false) as F. pose proof (quote_false s) as S.
  destruct (quote_loop s false) as [b f]. cbn in *. subst b. destruct f.
  - right. split; [reflexivity|]. intros H. apply S in H. discriminate.
  - left. assert (H : Forall token_char s) by now apply S. split; [now apply qbody_token|exact H].
Qed.

(** ** Unquoting *)
Lemma unescape_quoted b s : quoted b s -> unescape false b = s.
Proof.
  induction 1; [reflexivity| |].
  - cbn [unescape negb andb]. destruct (Z.eqb_spec c BACKSLASH); [unfold BACKSLASH in *; congruence|]. now rewrite IHquoted.
  - cbn [unescape negb andb]. change (92 =? BACKSLASH) with true. cbn [unescape negb andb]. now rewrite IHquoted.
Qed.
Lemma quoted_plain_eq b s : quoted b s -> ~ In 92 b -> b = s.
Proof.
  induction 1; intros N; [reflexivity| |].
  - f_equal. apply IHquoted. intros X. apply N. now right.
  - exfalso. apply N. now left.
Qed.
Lemma strip_quotes b : strip1 (DQUOTE :: b ++ [DQUOTE]) = b.
Proof. unfold strip1. cbn [tl]. apply removelast_last. Qed.
Lemma decode_quoted b s : quoted b s -> DecodeQuotedString (DQUOTE :: b ++ [DQUOTE]) = s.
Proof.
  intros Q. unfold DecodeQuotedString. rewrite strip_quotes.
  destruct (mem BACKSLASH b) eqn:M; [now apply unescape_quoted|].
  apply quoted_plain_eq; [exact Q|]. rewrite <- not_true_iff_false, mem_In in M. exact M.
Qed.
Lemma decode_QuoteString s : DecodeQuotedString (QuoteString s true) = s.
Proof. rewrite QuoteString_true. apply decode_quoted, qbody_quoted. Qed.

(** ** Parsing quoted strings *)
Definition blank (c : Z) : bool := mem c [SP; HT].
Lemma blanks_spec p r : forallb blank p = true -> (match r with c :: _ => blank c = false | [] => True end) ->
  blanks (p ++ r) = (p, r).
Proof.
  intros H R. induction p as [|c p IH].
  - cbn [app]. destruct r as [|c r]; [reflexivity|]. cbn [blanks]. fold (blank c). now rewrite R.
  - cbn [forallb] in H. apply andb_true_iff in H as [H1 H2]. cbn [app blanks]. fold (blank c). now rewrite H1, IH.
Qed.
Lemma blank_iff c : blank c = true <-> c = 32 \/ c = 9.
Proof. unfold blank. rewrite mem_In. unfold SP, HT. cbn [In]. intuition. Qed.
Lemma blank_split s : exists b r, s = b ++ r /\ forallb blank b = true /\
  (match r with c :: _ => blank c = false | [] => True end).
Proof.
  induction s as [|c s (b & r & E & H & R)]; [now exists [], []|].
  destruct (blank c) eqn:B; [|exists [], (c :: s); now repeat split].
  exists (c :: b), r. subst s. repeat split; [|exact R]. cbn. now rewrite B.
Qed.
Lemma ParseLWS_blanks b r : b <> [] -> forallb blank b = true ->
  (match r with c :: _ => blank c = false | [] => True end) -> ParseLWS (b ++ r) = Some (b, r).
Proof.
  intros N B R. unfold ParseLWS. destruct b as [|c b]; [easy|].
  assert (C : (c =? CR) = false).
  { cbn [forallb] in B. apply andb_true_iff in B as [B _]. rewrite blank_iff in B. unfold CR. lia. }
  replace (match (c :: b) ++ r with c0 :: d :: r0 => if (c0 =? CR) && (d =? LF) then ([CR; LF], r0) else ([], (c :: b) ++ r) | _ => ([], (c :: b) ++ r) end)
    with (@nil Z, (c :: b) ++ r).
  - rewrite (blanks_spec _ _ B R). reflexivity.
  - cbn [app]. destruct (b ++ r); [reflexivity|]. now rewrite C.
Qed.
Lemma ParseLWS_none c r : c <> CR -> blank c = false -> ParseLWS (c :: r) = None.
Proof.
  intros N B. unfold ParseLWS. apply Z.eqb_neq in N.
  replace (match c :: r with c0 :: d :: r0 => if (c0 =? CR) && (d =? LF) then ([CR; LF], r0) else ([], c :: r) | _ => ([], c :: r) end)
    with (@nil Z, c :: r).
  - cbn [blanks]. fold (blank c). now rewrite B.
  - destruct r; [reflexivity|]. now rewrite N.
Qed.

Definition plain (c : Z) : Prop := escaped c = false /\ octet c.
Definition stops (r : str) : Prop := match r with c :: _ => c = 92 \/ c = 34 | [] => False end.
Lemma plain_facts c : plain c -> c <> 92 /\ c <> 34 /\ c <> 13 /\ (32 <= c < 256 /\ c <> 127 \/ c = 9).
Proof. intros [E O]. apply escaped_false in E. unfold octet in O. lia. Qed.
Lemma text_run u : forall p r f, Forall plain p -> stops r -> (length (p ++ r) < f)%nat ->
  text_loop f [BACKSLASH; DQUOTE] u (p ++ r) = Ok (p, r).
Proof.
  intros p. remember (length p) as n eqn:L. revert p L. induction n as [n IH] using lt_wf_ind.
  intros p -> r f P R F. destruct f as [|f]; [lia|].
  destruct p as [|c p].
  - cbn [app]. destruct r as [|c r]; [easy|]. cbn [text_loop].
    replace (mem c [BACKSLASH; DQUOTE]) with true; [reflexivity|]. symmetry. apply mem_In.
    cbn in R. unfold BACKSLASH, DQUOTE. cbn [In]. intuition.
  - pose proof (Forall_inv P) as Pc. apply plain_facts in Pc.
    change (text_loop (S f) [BACKSLASH; DQUOTE] u ((c :: p) ++ r)) with
      (if mem c [BACKSLASH; DQUOTE] then Ok ([], (c :: p) ++ r)
       else t <- ParseOneTEXT u ((c :: p) ++ r) ;;
            match t with
            | None => Ok ([], (c :: p) ++ r)
            | Some (a, r) => '(b, r') <- text_loop f [BACKSLASH; DQUOTE] u r ;; Ok (a ++ b, r')
            end).
    replace (mem c [BACKSLASH; DQUOTE]) with false.
    2:{ symmetry. apply not_true_iff_false. rewrite mem_In. unfold BACKSLASH, DQUOTE. cbn [In]. lia. }
    destruct (blank c) eqn:B.
    + destruct (blank_split p) as (b & p' & -> & Hb & Hp).
      assert (R' : match p' ++ r with c0 :: _ => blank c0 = false | [] => True end).
      { destruct p' as [|d p']; [|exact Hp]. cbn [app]. destruct r as [|d r]; [easy|]. cbn in R.
        apply not_true_iff_false. rewrite blank_iff. lia. }
      assert (E : ParseOneTEXT u ((c :: b ++ p') ++ r) = Ok (Some (c :: b, p' ++ r))).
      { unfold ParseOneTEXT. replace ((c :: b ++ p') ++ r) with ((c :: b) ++ (p' ++ r)) by (cbn; now rewrite app_assoc).
        rewrite ParseLWS_blanks; [|easy|cbn [forallb]; now rewrite B|exact R'].
        replace (str_eqb (firstn 2 (c :: b)) [CR; LF]) with false; [now rewrite andb_false_r|].
        symmetry. destruct (str_eqb _ _) eqn:X; [|reflexivity]. apply str_eqb_eq in X.
        destruct b; cbn [firstn] in X; inversion X; unfold CR in *; lia. }
      rewrite E. cbn [bind]. rewrite (IH (length p')); [now cbn [bind app]| | | | |].
      * cbn. rewrite app_length. lia.
      * reflexivity.
      * apply Forall_inv_tail in P. now apply Forall_app in P.
      * exact R.
      * revert F. rewrite !app_length. cbn [length]. rewrite app_length. lia.
    + assert (E : ParseOneTEXT u ((c :: p) ++ r) = Ok (Some ([c], p ++ r))).
      { unfold ParseOneTEXT. cbn [app]. rewrite ParseLWS_none; [|unfold CR; lia|exact B]. cbn [ord bind tl].
        unfold IsOCTET, IsCTL. rewrite <- not_true_iff_false, blank_iff in B.
        replace (c <? 256) with true by lia. replace (c <? 32) with false by lia. now replace (c =? 127) with false by lia. }
      rewrite E. cbn [bind]. rewrite (IH (length p)); [now cbn [bind app]| | | | |].
      * cbn. lia.
      * reflexivity.
      * now apply Forall_inv_tail in P.
      * exact R.
      * revert F. cbn [app length]. lia.
Qed.
Lemma qbody_split s : octets s -> exists p t, s = p ++ t /\ qbody s = p ++ qbody t /\ Forall plain p /\
  (match t with c :: _ => escaped c = true | [] => True end).
Proof.
  induction s as [|c s IH]; intros O; [now exists [], []|]. apply Forall_cons_iff in O as [O1 O2].
  rewrite qbody_cons. destruct (escaped c) eqn:E.
  - exists [], (c :: s). repeat split; [now cbn [app]; rewrite qbody_cons, E|constructor|exact E].
  - destruct (IH O2) as (p & t & -> & Q & P & T). exists (c :: p), t. rewrite Q. repeat split; [|exact T]. now constructor.
Qed.
Lemma escaped_char c : octet c -> escaped c = true -> c < 128.
Proof.
  unfold escaped, IsCTL. rewrite !orb_true_iff, mem_In, andb_true_iff, orb_true_iff. unfold BACKSLASH, DQUOTE. cbn [In]. lia.
Qed.
Lemma quoted_run u : forall s r f, octets s -> (length (qbody s ++ DQUOTE :: r) < f)%nat ->
  quoted_loop f u (qbody s ++ DQUOTE :: r) = Ok (qbody s ++ [DQUOTE], r).
Proof.
  intros s. remember (length s) as n eqn:L. revert s L. induction n as [n IH] using lt_wf_ind.
  intros s -> r f O F. destruct f as [|f]; [lia|].
  destruct (qbody_split s O) as (p & t & E & Q & P & T). rewrite Q in *. rewrite <- !app_assoc in *.
  assert (Ot : octets t) by (unfold octets in *; rewrite E in O; now apply Forall_app in O).
  assert (H : forall g, (length (qbody t ++ DQUOTE :: r) < g)%nat -> (length t < length s)%nat \/ p = [] ->
              quoted_loop g u (qbody t ++ DQUOTE :: r) = Ok (qbody t ++ [DQUOTE], r)).
  { intros g G W. destruct (Nat.lt_ge_cases (length t) (length s)) as [Lt|Ge]; [now apply (IH (length t))|].
    destruct W as [W|W]; [lia|]. clear F. 
    destruct g as [|g]; [lia|]. destruct t as [|c t]; [reflexivity|].
    rewrite qbody_cons, T in G |- *. cbn [app quoted_loop].
    change (BACKSLASH =? DQUOTE) with false. change (BACKSLASH =? BACKSLASH) with true.
    unfold ParseQuotedPair. change (BACKSLASH =? BACKSLASH) with true. cbn [ord bind tl].
    apply Forall_cons_iff in Ot as [Oc Ot].
    replace (IsCHAR c) with true by (symmetry; apply Z.ltb_lt; now apply escaped_char).
    cbn [bind]. rewrite (IH (length t)); [now cbn [bind app]| |reflexivity|exact Ot|].
    - subst p. cbn [app] in E. subst s. cbn. lia.
    - revert G. cbn [app length]. lia. }
  destruct p as [|c p]; [cbn [app]; apply H; [exact F|now right]|].
  assert (Lt : (length t < length s)%nat) by (rewrite E, app_length; cbn; lia).
  pose proof (plain_facts _ (Forall_inv P)) as Pc. cbn [app quoted_loop].
  replace (c =? DQUOTE) with false by (unfold DQUOTE; lia). replace (c =? BACKSLASH) with false by (unfold BACKSLASH; lia).
  unfold ParseQDText. change (c :: p ++ qbody t ++ DQUOTE :: r) with ((c :: p) ++ qbody t ++ DQUOTE :: r).
  rewrite text_run; [|exact P| |lia].
  - cbn [bind app]. rewrite H; [reflexivity| |now left]. revert F. rewrite app_length. cbn [length]. lia.
  - destruct t as [|d t]; [now right|]. rewrite qbody_cons, T. now left.
Qed.
Lemma ParseQuotedString_c_spec u s r : octets s ->
  ParseQuotedString_c u (QuoteString s true ++ r) = Ok (Some (QuoteString s true), r).
Proof.
  intros O. rewrite QuoteString_true. unfold ParseQuotedString_c. cbn [app].
  change (DQUOTE =? DQUOTE) with true. rewrite <- app_assoc. cbn [app].
  rewrite quoted_run; [reflexivity|exact O|]. cbn [length]. lia.
Qed.
