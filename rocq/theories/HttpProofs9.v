(** Malformed values. *)
From Coq Require Import Lia Zify Permutation Sorted.
From Verif Require Import Py Iso Dec XmlUtils Imscp ImscpProofs HttpCore HttpParams HttpHeaders HttpSpec
  HttpProofs HttpProofs2 HttpProofs3 HttpProofs4 HttpProofs5 HttpProofs6 HttpProofs7.
Open Scope Z_scope.

Lemma syntax_bind {A B} (r : result A) (f : A -> result B) : syntax_only r -> (forall a, syntax_only (f a)) -> syntax_only (bind r f).
Proof. intros H K. destruct r; [apply K|exact H]. Qed.
Lemma blanks_shorter s : forall a r, blanks s = (a, r) -> (length a + length r = length s)%nat /\ (forall P, Forall P s -> Forall P r).
Proof.
  induction s as [|c s IH]; intros a r; cbn [blanks]; [intros [= <- <-]; now split|].
  destruct (mem c [SP; HT]); [|intros [= <- <-]; now split]. destruct (blanks s) as [a' r'] eqn:E. intros [= <- <-].
  destruct (IH a' r' eq_refl) as [L F]. split; [cbn; lia|]. intros P H. apply Forall_inv_tail in H. now apply F.
Qed.
Lemma LWS_plain s l r : Forall plain_char s -> ParseLWS s = Some (l, r) -> (length r < length s)%nat /\ Forall plain_char r.
Proof.
  intros F. unfold ParseLWS.
  assert (E : (match s with c :: d :: r => if (c =? CR) && (d =? LF) then ([CR; LF], r) else ([], s) | _ => ([], s) end) = ([], s)).
  { destruct s as [|c [|d s]]; try reflexivity. apply Forall_inv in F. unfold plain_char in F. unfold CR. now replace (c =? 13) with false by lia. }
  rewrite E. destruct (blanks s) as [b r'] eqn:B. destruct (blanks_shorter s b r' B) as [L P]. destruct b as [|x b]; [discriminate|].
  intros [= <- <-]. split; [cbn in L; lia|now apply P].
Qed.
Lemma skip_plain f : forall s b r, Forall plain_char s -> skip_lws f s = (b, r) ->
  Forall plain_char r /\ (length r <= length s)%nat /\ (b = true -> (length r < length s)%nat) /\ (b = false -> r = s).
Proof.
  induction f as [|f IH]; intros s b r F; cbn [skip_lws]; [intros [= <- <-]; now repeat split|].
  destruct (ParseLWS s) as [[l r1]|] eqn:E; [|intros [= <- <-]; now repeat split].
  destruct (LWS_plain s l r1 F E) as [L F1]. destruct (skip_lws f r1) as [b2 r2] eqn:E2. cbn [snd]. intros [= <- <-].
  destruct (IH r1 b2 r2 F1 E2) as (F2 & L2 & _). repeat split; [exact F2|lia|lia|discriminate].
Qed.
Lemma token_run_shorter s a r : token_run s = (a, r) -> (length a + length r = length s)%nat /\ (forall P, Forall P s -> Forall P r).
Proof.
  revert a r. induction s as [|c s IH]; intros a r; cbn [token_run]; [intros [= <- <-]; now split|].
  destruct (IsCTL c || IsSEPARATOR c); [intros [= <- <-]; now split|]. destruct (token_run s) as [a' r'] eqn:E. intros [= <- <-].
  destruct (IH a' r' eq_refl) as [L F]. split; [cbn; lia|]. intros P H. apply Forall_inv_tail in H. now apply F.
Qed.
Lemma word_loop_plain ig : forall f s, Forall plain_char s -> (length s < f)%nat -> exists w, word_loop f ig s = Ok w.
Proof.
  induction f as [|f IH]; intros s F L; [lia|]. destruct s as [|c s]; [now exists []|].
  rewrite word_loop_step by discriminate. cbv zeta. destruct (skip_lws (length (c :: s)) (c :: s)) as [sp s1] eqn:E.
  destruct (skip_plain _ _ _ _ F E) as (F1 & L1 & L2 & L3). cbv beta iota.
  match goal with |- exists w, bind ?B _ = Ok w => assert (K : exists v r, B = Ok (v, r) /\ Forall plain_char r /\ (length r < f)%nat) end.
  { destruct s1 as [|d s2].
    - exists None, []. repeat split; [constructor|]. destruct sp; [specialize (L2 eq_refl)|specialize (L3 eq_refl); discriminate]. cbn [length] in *. lia.
    - assert (Pd := Forall_inv F1). assert (F2 := Forall_inv_tail F1). unfold plain_char in Pd.
      destruct (IsSEPARATOR d) eqn:S0.
      + unfold DQUOTE. replace (d =? 40) with false by lia. replace (d =? 34) with false by lia.
        exists (Some [d]), s2. repeat split; [exact F2|]. cbn [length] in *. lia.
      + unfold ParseToken_c. destruct (token_run (d :: s2)) as [t r] eqn:T. destruct (token_run_shorter _ _ _ T) as [LT PT].
        assert (t <> []).
        { intros ->. cbn [token_run] in T. rewrite S0 in T. unfold IsCTL in T. replace ((d <? 32) || (d =? 127)) with false in T by lia.
          cbn [orb] in T. destruct (token_run s2). discriminate. }
        destruct t as [|x t]; [easy|]. exists (Some (x :: t)), r. repeat split; [now apply PT|]. cbn [length] in *. lia. }
  destruct K as (v & r & -> & Fr & Lr). cbn [bind]. destruct (IH r Fr Lr) as [w ->]. cbn [bind]. now eexists.
Qed.
Lemma WordParser_plain ig s : Forall plain_char s -> exists w, WordParser ig s = Ok w.
Proof. intros F. apply word_loop_plain; [exact F|lia]. Qed.

(** The parsers of words *)
Ltac so := repeat first [exact I | reflexivity | apply syntax_bind; [|intros] | match goal with |- syntax_only (let '(_, _) := ?x in _) => destruct x end
  | match goal with |- syntax_only (if ?b then _ else _) => destruct b end].
Lemma RequireToken_so w : syntax_only (RequireToken w).
Proof. unfold RequireToken, ParseToken. destruct (IsToken w) eqn:E; [|reflexivity]. unfold IsToken in E. now destruct (cWord w). Qed.
Lemma RequireSeparator_so c w : syntax_only (RequireSeparator c w).
Proof. unfold RequireSeparator. now destruct (is_sep c w). Qed.
Lemma RequireQuotedString_so w : syntax_only (RequireQuotedString w).
Proof. unfold RequireQuotedString, ParseQuotedString. destruct (IsQuotedString w) eqn:E; [|reflexivity]. unfold IsQuotedString in E. now destruct (cWord w). Qed.
Lemma RequireEnd_so w : syntax_only (RequireEnd w).
Proof. unfold RequireEnd. now destruct (more w). Qed.
Lemma one_param_so ia q w : syntax_only (one_param ia q w).
Proof.
  unfold one_param. apply syntax_bind; [apply RequireSeparator_so|intros w1]. apply syntax_bind; [apply RequireToken_so|intros [n w2]].
  destruct (match q with Some q0 => _ | None => _ end); [reflexivity|]. apply syntax_bind; [apply RequireSeparator_so|intros w3].
  apply syntax_bind; [destruct (IsToken _); [apply RequireToken_so|apply RequireQuotedString_so]|]. now intros [v w4].
Qed.
Lemma RequireToken_less w t r : RequireToken w = Ok (t, r) -> (length r < length w)%nat.
Proof.
  unfold RequireToken, ParseToken. destruct (IsToken w) eqn:E; [|discriminate]. unfold IsToken in E. destruct (cWord w) eqn:C; [|discriminate].
  intros [= <- <-]. destruct w as [|[x|] w]; try discriminate. cbn. lia.
Qed.
Lemma tl_le {A} (w : list A) : (length (tl w) <= length w)%nat. Proof. destruct w; cbn; lia. Qed.
Lemma ParseSP_le w : (length (ParseSP w) <= length w)%nat.
Proof. unfold ParseSP, ParseSeparator. destruct (is_sep SP w); cbn [snd]; [apply tl_le|lia]. Qed.
Lemma RequireSeparator_less c w r : RequireSeparator c w = Ok r -> (length r < length w)%nat.
Proof.
  unfold RequireSeparator. destruct (is_sep c w) eqn:E; [|discriminate]. intros [= <-]. unfold is_sep in E.
  destruct w as [|x w]; [discriminate|]. cbn. lia.
Qed.
Lemma RequireQuotedString_less w t r : RequireQuotedString w = Ok (t, r) -> (length r < length w)%nat.
Proof.
  unfold RequireQuotedString, ParseQuotedString. destruct (IsQuotedString w) eqn:E; [|discriminate]. unfold IsQuotedString in E.
  destruct w as [|[x|] w]; try discriminate. cbn. intros [= <- <-]. lia.
Qed.
Lemma one_param_less ia q w k v r : one_param ia q w = Ok (k, v, r) -> (length r < length w)%nat.
Proof.
  unfold one_param. destruct (RequireSeparator 59 (ParseSP w)) as [w1|] eqn:E1; [|discriminate]. cbn [bind].
  destruct (RequireToken (ParseSP w1)) as [[n w2]|] eqn:E2; [|discriminate]. cbn [bind].
  destruct (match q with Some q0 => _ | None => _ end); [discriminate|].
  destruct (RequireSeparator 61 (skip_if ia w2)) as [w3|] eqn:E3; [|discriminate]. cbn [bind].
  apply RequireSeparator_less in E1, E3. apply RequireToken_less in E2. pose proof (ParseSP_le w). pose proof (ParseSP_le w1).
  assert (S2 : (length (skip_if ia w2) <= length w2)%nat) by (destruct ia; [apply ParseSP_le|cbn; lia]).
  assert (S3 : (length (skip_if ia w3) <= length w3)%nat) by (destruct ia; [apply ParseSP_le|cbn; lia]).
  destruct (IsToken (skip_if ia w3)).
  - destruct (RequireToken (skip_if ia w3)) as [[x w4]|] eqn:E4; [|discriminate]. cbn [bind]. intros [= <- <- <-]. apply RequireToken_less in E4. lia.
  - destruct (RequireQuotedString (skip_if ia w3)) as [[x w4]|] eqn:E4; [|discriminate]. cbn [bind]. intros [= <- <- <-]. apply RequireQuotedString_less in E4. lia.
Qed.
Lemma params_loop_so ia q : forall f d w, (length w < f)%nat -> syntax_only (params_loop f ia q d w).
Proof.
  induction f as [|f IH]; intros d w L; [lia|]. cbn [params_loop]. destruct (more w); [|exact I].
  pose proof (one_param_so ia q w) as S0. destruct (one_param ia q w) as [[[k v] w']|e] eqn:E.
  - apply IH. apply one_param_less in E. lia.
  - cbn in S0. subst e. exact I.
Qed.
Lemma ParseParameters_so ia q w : syntax_only (ParseParameters ia q w).
Proof. unfold ParseParameters. apply params_loop_so. pose proof (ParseSP_le w). lia. Qed.
Lemma quality_so w : syntax_only (ParseQualityValue w) \/ ParseQualityValue w = Err Unmodelled.
Proof.
  unfold ParseQualityValue. destruct (IsToken w); [|now left]. destruct (cWord w); [|now left].
  destruct (split_on 46 l) as [|a [|b [|c l']]]; try (now left).
  - destruct (IsDIGITS a); now left.
  - destruct (IsDIGITS a && IsDIGITS b); [|now left]. destruct (int_digits a >=? 1); [now left|]. destruct (length b <=? 3)%nat; [now left|now right].
Qed.
Section Values.
Variable s : str.
Hypothesis F : Forall plain_char s.
Ltac start ig := let w := fresh "w" in destruct (WordParser_plain ig s F) as [w ->]; cbn [bind].
Lemma media_so : syntax_only (media_FromString s).
Proof.
  unfold media_FromString. start false. apply syntax_bind.
  - unfold RequireMediaType. apply syntax_bind; [apply RequireToken_so|intros [t w1]]. apply syntax_bind; [apply RequireSeparator_so|intros w2].
    apply syntax_bind; [apply RequireToken_so|intros [u w3]]. apply syntax_bind; [apply ParseParameters_so|now intros [p w4]].
  - intros [m w1]. apply syntax_bind; [apply RequireEnd_so|now intros].
Qed.
Lemma encoding_so : syntax_only (encoding_FromString s).
Proof.
  unfold encoding_FromString. start true. apply syntax_bind.
  - unfold RequireTransferEncoding. apply syntax_bind; [apply RequireToken_so|intros [t w1]]. destruct (negb _); [|exact I].
    apply syntax_bind; [apply ParseParameters_so|now intros [p w2]].
  - intros [m w1]. apply syntax_bind; [apply RequireEnd_so|now intros].
Qed.
Lemma product_so : syntax_only (product_FromString s).
Proof.
  unfold product_FromString. start true. apply syntax_bind.
  - unfold RequireProductToken. apply syntax_bind; [apply RequireToken_so|intros [t w1]]. destruct (ParseSeparator 47 _) as [b w2]. destruct b.
    + apply syntax_bind; [apply RequireToken_so|intros [v w3]]. destruct (ProductToken_ok t (Some v)) as (p & -> & _). exact I.
    + exact I.
  - intros [m w1]. apply syntax_bind; [apply RequireEnd_so|now intros].
Qed.
Lemma lang_so : syntax_only (lang_FromString s).
Proof.
  unfold lang_FromString. start false. apply syntax_bind.
  - unfold RequireLanguageTag. apply syntax_bind; [apply RequireToken_so|intros [t w1]].
    destruct (split_on_cons 45 t) as (p & l & ->). exact I.
  - intros [m w1]. apply syntax_bind; [apply RequireEnd_so|now intros].
Qed.
Lemma etag_so : syntax_only (etag_FromString s).
Proof.
  unfold etag_FromString. start true. apply syntax_bind.
  - unfold RequireEntityTag. destruct (ParseToken _) as [t w1]. apply syntax_bind.
    + destruct t as [t|]; [|exact I]. destruct (negb _); [reflexivity|]. apply syntax_bind; [apply RequireSeparator_so|now intros].
    + intros [b w2]. apply syntax_bind; [apply RequireQuotedString_so|now intros [t' w3]].
  - intros [m w1]. apply syntax_bind; [apply RequireEnd_so|now intros].
Qed.
Lemma range_so : syntax_only (range_FromString s).
Proof.
  unfold range_FromString. start true. apply syntax_bind.
  - unfold RequireMediaRange. apply syntax_bind; [apply RequireToken_so|intros [t w1]]. apply syntax_bind; [apply RequireSeparator_so|intros w2].
    apply syntax_bind; [apply RequireToken_so|intros [u w3]]. apply syntax_bind; [apply ParseParameters_so|now intros [p w4]].
  - intros [m w1]. apply syntax_bind; [apply RequireEnd_so|now intros].
Qed.
Lemma allow_so : syntax_only (allow_FromString s).
Proof.
  unfold allow_FromString. start true. destruct (ParseTokenList w) as [l w1]. apply syntax_bind; [apply RequireEnd_so|now intros].
Qed.
Lemma ranges_so : syntax_only (ranges_FromString s).
Proof.
  unfold ranges_FromString. start true. destruct (ParseTokenList w) as [l w1]. destruct l as [|a l]; [reflexivity|].
  apply syntax_bind; [apply RequireEnd_so|intros _]. unfold AcceptRanges. destruct (has _ _); [|exact I]. now destruct l.
Qed.
Lemma crange_so : syntax_only (crange_FromString s).
Proof.
  unfold crange_FromString. start true. apply syntax_bind.
  - unfold RequireContentRangeSpec. apply syntax_bind; [apply RequireToken_so|intros [t w1]]. destruct (negb _); [reflexivity|].
    apply syntax_bind; [apply RequireToken_so|intros [u w2]]. destruct (str_eqb u star).
    + cbn [bind]. apply syntax_bind; [apply RequireSeparator_so|intros w3]. apply syntax_bind; [apply RequireToken_so|intros [v w4]].
      destruct (str_eqb v star); [exact I|]. now destruct (IsDIGITS v).
    + destruct (split_on 45 u) as [|a [|b [|c l]]]; try reflexivity. destruct (negb (IsDIGITS a) || negb (IsDIGITS b)); [reflexivity|].
      cbn [bind]. apply syntax_bind; [apply RequireSeparator_so|intros w3]. apply syntax_bind; [apply RequireToken_so|intros [v w4]].
      destruct (str_eqb v star); [exact I|]. now destruct (IsDIGITS v).
  - intros [m w1]. apply syntax_bind; [apply RequireEnd_so|now intros].
Qed.
(** Versions: success or NameError *)
Lemma version_ne : match version_FromString s with Err e => e = NameError \/ e = BadSyntax | Ok _ => True end.
Proof.
  unfold version_FromString. start true. unfold ParseHTTPVersion.
  match goal with |- context [bind (RequireToken (ParseSP w)) ?Y] => set (B := bind (RequireToken (ParseSP w)) Y); assert (K : syntax_only B) end.
  { apply syntax_bind; [apply RequireToken_so|intros [t w1]]. destruct (negb _); [reflexivity|].
    apply syntax_bind; [apply RequireSeparator_so|intros w2]. apply syntax_bind; [apply RequireToken_so|intros [u w3]].
    destruct (split_on 46 u) as [|a [|b [|c l]]]; try reflexivity. now destruct (negb (IsDIGITS a) || negb (IsDIGITS b)). }
  destruct B as [[v w1]|e]; cbn [bind].
  - pose proof (RequireEnd_so w1) as K1. destruct (RequireEnd w1); cbn [bind]; [exact I|]. right. exact K1.
  - cbn in K. subst e. now left.
Qed.
End Values.
