(** Proofs about XmlUtils.v: escaping, comments, path segments, tokenizer. *)
From Verif Require Import Py Iso Dec XmlUtils XmlSpec.
Ltac Zify.zify_convert_to_euclidean_division_equations_flag ::= constr:(true).

(** *** Progress of the tokenizer *)
Lemma ParseName_len : forall s b n r, ParseName b s = (n, r) ->
  (length r <= length s)%nat /\ (n <> [] -> (length r < length s)%nat).
Proof.
  induction s as [|c s IH]; intros b n r; cbn [ParseName].
  - intros [= <- <-]. split; [apply le_n|congruence].
  - destruct (IsS c); [intros [= <- <-]; split; [apply le_n|congruence]|].
    destruct (mem c _); [intros [= <- <-]; split; [apply le_n|congruence]|].
    destruct (if b then _ else _); [|intros [= <- <-]; split; [apply le_n|congruence]].
    destruct (ParseName true s) as [n' r'] eqn:E. intros [= <- <-].
    destruct (IH _ _ _ E) as [H _]. cbn [length]. split; intros; lia.
Qed.

Lemma SkipSpace_len s : (length (SkipSpace s) <= length s)%nat.
Proof. induction s as [|c s IH]; cbn [SkipSpace]; [apply le_n|]. destruct (IsS c); cbn [length]; lia. Qed.

Lemma ParseChar_len x s r : ParseChar x s = Some r -> s = x :: r.
Proof.
  destruct s as [|c s]; cbn [ParseChar]; [discriminate|]. destruct (c =? x) eqn:E; [|discriminate].
  intros [= ->]. f_equal. lia.
Qed.

Lemma skip_semicolon_len s : (length (skip_semicolon s) <= length s)%nat.
Proof.
  unfold skip_semicolon. destruct (ParseChar 59 s) eqn:E; [|apply le_n].
  apply ParseChar_len in E. subst. cbn [length]. lia.
Qed.

Lemma ParseReference_len s v r : ParseReference s = Ok (v, r) -> (length r <= length s)%nat.
Proof.
  unfold ParseReference. destruct (ParseChar 35 s) as [s1|] eqn:E1.
  - apply ParseChar_len in E1. subst. destruct (ParseChar 120 s1) as [s2|] eqn:E2.
    + apply ParseChar_len in E2. subst. destruct (ParseName true s2) as [n r'] eqn:E.
      destruct (ParseName_len _ _ _ _ E) as [H _]. pose proof (skip_semicolon_len r').
      destruct (py_int 16 n); cbn [bind]; [|discriminate]. destruct (unichr a); cbn [bind]; [|discriminate].
      intros [= _ <-]. cbn [length]. lia.
    + destruct (ParseName true s1) as [n r'] eqn:E.
      destruct (ParseName_len _ _ _ _ E) as [H _]. pose proof (skip_semicolon_len r').
      destruct (py_int 10 n); cbn [bind]; [|discriminate]. destruct (unichr a); cbn [bind]; [|discriminate].
      intros [= _ <-]. cbn [length]. lia.
  - destruct (ParseName false s) as [n r'] eqn:E. destruct (ParseName_len _ _ _ _ E) as [H _].
    pose proof (skip_semicolon_len r'). intros [= _ <-]. lia.
Qed.

Lemma att_loop_len : forall f d s v r, att_loop f d s = Ok (v, r) -> (length r < length s)%nat.
Proof.
  induction f as [|f IH]; intros d s v r; cbn [att_loop]; [discriminate|].
  destruct s as [|c s]; [discriminate|]. destruct (c =? d); [intros [= _ <-]; cbn [length]; lia|].
  destruct (c =? 38).
  - destruct (ParseReference s) as [[x r1]|] eqn:E; cbn [bind]; [|discriminate].
    apply ParseReference_len in E. destruct (att_loop f d r1) as [[vs r2]|] eqn:E2; cbn [bind]; [|discriminate].
    intros [= _ <-]. apply IH in E2. cbn [length]. lia.
  - destruct (att_loop f d s) as [[vs r2]|] eqn:E2; cbn [bind]; [|discriminate].
    intros [= _ <-]. apply IH in E2. cbn [length]. lia.
Qed.

Lemma ParseAttValue_len s v r : ParseAttValue s = Ok (v, r) -> (length r < length s)%nat.
Proof.
  unfold ParseAttValue. destruct s as [|c s]; [discriminate|].
  destruct (_ || _); [|discriminate]. intros H. apply att_loop_len in H. cbn [length]. lia.
Qed.

Lemma att_loop_fuel : forall f1 f2 d s, (length s < f1)%nat -> (length s < f2)%nat ->
  att_loop f1 d s = att_loop f2 d s.
Proof.
  induction f1 as [|f1 IH]; intros [|f2] d s H1 H2; try lia. cbn [att_loop].
  destruct s as [|c s]; [reflexivity|]. cbn [length] in *. destruct (c =? d); [reflexivity|].
  destruct (c =? 38).
  - destruct (ParseReference s) as [[x r1]|] eqn:E; cbn [bind]; [|reflexivity].
    apply ParseReference_len in E. rewrite (IH f2) by lia. reflexivity.
  - rewrite (IH f2) by lia. reflexivity.
Qed.

(** The errors of each parser *)
Definition name_error (e : exn) : Prop := e = ValueError \/ e = OverflowError \/ e = Unmodelled.

Lemma digits_value_err b : forall s v e, digits_value b v s = Err e -> name_error e.
Proof.
  induction s as [|c s IH]; intros v e; cbn [digits_value]; [discriminate|].
  destruct (c >? 128); [intros [= <-]; right; right; reflexivity|].
  destruct (if b =? 16 then _ else _); [apply IH|]. intros [= <-]. left; reflexivity.
Qed.

Lemma int_digits_err b s e : int_digits b s = Err e -> name_error e.
Proof.
  unfold int_digits. destruct s as [|x s]; [intros [= <-]; left; reflexivity|].
  destruct s as [|y s]; [apply digits_value_err|].
  destruct (_ && _ && _); [|apply digits_value_err].
  destruct s; [intros [= <-]; left; reflexivity|apply digits_value_err].
Qed.

Lemma py_int_err b s e : py_int b s = Err e -> name_error e.
Proof.
  unfold py_int. destruct s as [|x s]; [intros [= <-]; left; reflexivity|].
  destruct (x =? 45); [|apply int_digits_err].
  destruct (int_digits b s) eqn:E; cbn [bind]; [discriminate|]. intros [= <-]. eapply int_digits_err, E.
Qed.

Lemma unichr_err n e : unichr n = Err e -> name_error e.
Proof.
  unfold unichr. destruct (_ || _); [intros [= <-]; right; left; reflexivity|].
  destruct (_ || _); [intros [= <-]; left; reflexivity|discriminate].
Qed.

Lemma ParseReference_err s e : ParseReference s = Err e -> name_error e /\ exists s', s = 35 :: s'.
Proof.
  unfold ParseReference. destruct (ParseChar 35 s) as [s1|] eqn:E1.
  - apply ParseChar_len in E1. subst. intros H. split; [|eauto].
    destruct (ParseChar 120 s1) as [s2|].
    + destruct (ParseName true s2) as [n r'].
      destruct (py_int 16 n) eqn:E; cbn [bind] in H; [|injection H as <-; eapply py_int_err, E].
      destruct (unichr a) eqn:E2; cbn [bind] in H; [discriminate|injection H as <-; eapply unichr_err, E2].
    + destruct (ParseName true s1) as [n r'].
      destruct (py_int 10 n) eqn:E; cbn [bind] in H; [|injection H as <-; eapply py_int_err, E].
      destruct (unichr a) eqn:E2; cbn [bind] in H; [discriminate|injection H as <-; eapply unichr_err, E2].
  - destruct (ParseName false s). discriminate.
Qed.

(** [suffix r s]: the rest of the input is a suffix of it *)
Definition suffix (r s : str) : Prop := exists p, s = p ++ r.
Lemma suffix_refl s : suffix s s. Proof. exists []; reflexivity. Qed.
Lemma suffix_cons c r s : suffix r s -> suffix r (c :: s).
Proof. intros [p ->]. exists (c :: p). reflexivity. Qed.
Lemma suffix_trans a b c : suffix a b -> suffix b c -> suffix a c.
Proof. intros [p ->] [q ->]. exists (q ++ p). apply app_assoc. Qed.
#[local] Hint Resolve suffix_refl suffix_cons : suf.

Lemma ParseName_suf : forall s b n r, ParseName b s = (n, r) -> suffix r s.
Proof.
  induction s as [|c s IH]; intros b n r; cbn [ParseName].
  - intros [= <- <-]. apply suffix_refl.
  - destruct (IsS c); [intros [= <- <-]; apply suffix_refl|].
    destruct (mem c _); [intros [= <- <-]; apply suffix_refl|].
    destruct (if b then _ else _); [|intros [= <- <-]; apply suffix_refl].
    destruct (ParseName true s) as [n' r'] eqn:E. intros [= <- <-]. apply suffix_cons, (IH _ _ _ E).
Qed.
Lemma SkipSpace_suf s : suffix (SkipSpace s) s.
Proof. induction s as [|c s IH]; cbn [SkipSpace]; [apply suffix_refl|]. destruct (IsS c); auto with suf. Qed.
Lemma skip_semicolon_suf s : suffix (skip_semicolon s) s.
Proof.
  unfold skip_semicolon. destruct (ParseChar 59 s) eqn:E; [|apply suffix_refl].
  apply ParseChar_len in E. subst. auto with suf.
Qed.
Lemma ParseReference_suf s v r : ParseReference s = Ok (v, r) -> suffix r s.
Proof.
  unfold ParseReference. destruct (ParseChar 35 s) as [s1|] eqn:E1.
  - apply ParseChar_len in E1. subst. destruct (ParseChar 120 s1) as [s2|] eqn:E2.
    + apply ParseChar_len in E2. subst. destruct (ParseName true s2) as [n r'] eqn:E.
      apply ParseName_suf in E. pose proof (skip_semicolon_suf r').
      destruct (py_int 16 n); cbn [bind]; [|discriminate]. destruct (unichr a); cbn [bind]; [|discriminate].
      intros [= _ <-]. do 2 apply suffix_cons. eapply suffix_trans; eassumption.
    + destruct (ParseName true s1) as [n r'] eqn:E.
      apply ParseName_suf in E. pose proof (skip_semicolon_suf r').
      destruct (py_int 10 n); cbn [bind]; [|discriminate]. destruct (unichr a); cbn [bind]; [|discriminate].
      intros [= _ <-]. apply suffix_cons. eapply suffix_trans; eassumption.
  - destruct (ParseName false s) as [n r'] eqn:E. apply ParseName_suf in E.
    pose proof (skip_semicolon_suf r'). intros [= _ <-]. eapply suffix_trans; eassumption.
Qed.
Lemma att_loop_suf : forall f d s v r, att_loop f d s = Ok (v, r) -> suffix r s.
Proof.
  induction f as [|f IH]; intros d s v r; cbn [att_loop]; [discriminate|].
  destruct s as [|c s]; [discriminate|]. destruct (c =? d); [intros [= _ <-]; auto with suf|].
  destruct (c =? 38).
  - destruct (ParseReference s) as [[x r1]|] eqn:E; cbn [bind]; [|discriminate].
    apply ParseReference_suf in E. destruct (att_loop f d r1) as [[vs r2]|] eqn:E2; cbn [bind]; [|discriminate].
    intros [= _ <-]. apply IH in E2. apply suffix_cons. eapply suffix_trans; eassumption.
  - destruct (att_loop f d s) as [[vs r2]|] eqn:E2; cbn [bind]; [|discriminate].
    intros [= _ <-]. apply IH in E2. apply suffix_cons, E2.
Qed.
Lemma ParseAttValue_suf s v r : ParseAttValue s = Ok (v, r) -> suffix r s.
Proof.
  unfold ParseAttValue. destruct s as [|c s]; [discriminate|].
  destruct (_ || _); [|discriminate]. intros H. apply att_loop_suf in H. apply suffix_cons, H.
Qed.

(** An error other than XMLException comes from a numeric reference. *)
Definition numeric_ref (s : str) : Prop := exists p q, s = p ++ 38 :: 35 :: q.
Lemma numeric_suf r s : suffix r s -> numeric_ref r -> numeric_ref s.
Proof. intros [p ->] (q1 & q2 & ->). exists (p ++ q1), q2. apply app_assoc. Qed.
Definition bad_error (e : exn) (s : str) : Prop :=
  e = XMLException \/ (name_error e /\ numeric_ref s).
Lemma bad_suf e r s : suffix r s -> bad_error e r -> bad_error e s.
Proof. intros H [->|[H1 H2]]; [left; reflexivity|right; split; [exact H1|eapply numeric_suf; eassumption]]. Qed.

Lemma ref_bad s e : ParseReference s = Err e -> bad_error e (38 :: s).
Proof.
  intros H. apply ParseReference_err in H as [H [s' ->]]. right. split; [exact H|].
  exists [], s'. reflexivity.
Qed.

Lemma att_loop_err : forall f d s e, (length s < f)%nat -> att_loop f d s = Err e -> bad_error e s.
Proof.
  induction f as [|f IH]; intros d s e Hf; [lia|]. cbn [att_loop].
  destruct s as [|c s]; [intros [= <-]; left; reflexivity|]. cbn [length] in Hf.
  destruct (c =? d); [discriminate|]. destruct (c =? 38) eqn:E38.
  - destruct (ParseReference s) as [[x r1]|] eqn:E; cbn [bind].
    + pose proof (ParseReference_len _ _ _ E). apply ParseReference_suf in E.
      destruct (att_loop f d r1) as [[vs r2]|] eqn:E2; cbn [bind]; [discriminate|].
      intros [= <-]. apply IH in E2; [|lia]. eapply bad_suf; [|exact E2]. auto with suf.
    + intros [= <-]. apply ref_bad in E. replace c with 38 by lia. exact E.
  - destruct (att_loop f d s) as [[vs r2]|] eqn:E2; cbn [bind]; [discriminate|].
    intros [= <-]. apply IH in E2; [|lia]. eapply bad_suf; [|exact E2]. auto with suf.
Qed.
Lemma ParseAttValue_err s e : ParseAttValue s = Err e -> bad_error e s.
Proof.
  unfold ParseAttValue. destruct s as [|c s]; [intros [= <-]; left; reflexivity|].
  destruct (_ || _); [|intros [= <-]; left; reflexivity]. intros H.
  apply att_loop_err in H; [|lia]. eapply bad_suf; [|exact H]. auto with suf.
Qed.

Lemma tag_loop_len : forall f n a s t r, tag_loop f n a s = Ok (t, r) -> (length r < length s)%nat.
Proof.
  induction f as [|f IH]; intros n a s t r; cbn [tag_loop]; [discriminate|].
  pose proof (SkipSpace_len s) as HS. destruct (SkipSpace s) as [|c s'] eqn:ES; [discriminate|].
  cbn [length] in HS.
  destruct (c =? 62); [intros [= _ <-]; lia|]. destruct (c =? 47).
  - destruct (ParseChar 62 s') eqn:E; [|discriminate]. apply ParseChar_len in E. subst.
    intros [= _ <-]. cbn [length] in HS. lia.
  - destruct (ParseName false (c :: s')) as [an r1] eqn:EN. apply ParseName_len in EN as [EN _].
    cbn [length] in EN. destruct an as [|x an]; [discriminate|].
    destruct (ParseChar 61 (SkipSpace r1)) as [r2|] eqn:EC; [|discriminate].
    apply ParseChar_len in EC. pose proof (SkipSpace_len r1) as H1. rewrite EC in H1. cbn [length] in H1.
    destruct (ParseAttValue (SkipSpace r2)) as [[v r3]|] eqn:EV; cbn [bind]; [|discriminate].
    apply ParseAttValue_len in EV. pose proof (SkipSpace_len r2).
    intros H2. apply IH in H2. lia.
Qed.

Lemma tag_loop_suf : forall f n a s t r, tag_loop f n a s = Ok (t, r) -> suffix r s.
Proof.
  induction f as [|f IH]; intros n a s t r; cbn [tag_loop]; [discriminate|].
  pose proof (SkipSpace_suf s) as HS. destruct (SkipSpace s) as [|c s'] eqn:ES; [discriminate|].
  destruct (c =? 62); [intros [= _ <-]; eapply suffix_trans; [|exact HS]; auto with suf|]. destruct (c =? 47).
  - destruct (ParseChar 62 s') eqn:E; [|discriminate]. apply ParseChar_len in E. subst.
    intros [= _ <-]. eapply suffix_trans; [|exact HS]; auto with suf.
  - destruct (ParseName false (c :: s')) as [an r1] eqn:EN. apply ParseName_suf in EN.
    destruct an as [|x an]; [discriminate|].
    destruct (ParseChar 61 (SkipSpace r1)) as [r2|] eqn:EC; [|discriminate].
    apply ParseChar_len in EC. pose proof (SkipSpace_suf r1) as H1. rewrite EC in H1.
    destruct (ParseAttValue (SkipSpace r2)) as [[v r3]|] eqn:EV; cbn [bind]; [|discriminate].
    apply ParseAttValue_suf in EV. pose proof (SkipSpace_suf r2).
    intros H2. apply IH in H2. eapply suffix_trans; [exact H2|]. eapply suffix_trans; [exact EV|].
    eapply suffix_trans; [exact H|]. eapply suffix_trans; [|exact HS].
    eapply suffix_trans; [|exact EN]. eapply suffix_trans; [|exact H1]. auto with suf.
Qed.

Lemma tag_loop_fuel : forall f1 f2 n a s, (length s < f1)%nat -> (length s < f2)%nat ->
  tag_loop f1 n a s = tag_loop f2 n a s.
Proof.
  induction f1 as [|f1 IH]; intros [|f2] n a s H1 H2; try lia. cbn [tag_loop].
  pose proof (SkipSpace_len s) as HS. destruct (SkipSpace s) as [|c s'] eqn:ES; [reflexivity|].
  cbn [length] in HS.
  destruct (c =? 62); [reflexivity|]. destruct (c =? 47); [reflexivity|].
  destruct (ParseName false (c :: s')) as [an r1] eqn:EN. apply ParseName_len in EN as [EN _].
  cbn [length] in EN. destruct an as [|x an]; [reflexivity|].
  destruct (ParseChar 61 (SkipSpace r1)) as [r2|] eqn:EC; [|reflexivity].
  apply ParseChar_len in EC. pose proof (SkipSpace_len r1) as H3. rewrite EC in H3. cbn [length] in H3.
  destruct (ParseAttValue (SkipSpace r2)) as [[v r3]|] eqn:EV; cbn [bind]; [|reflexivity].
  apply ParseAttValue_len in EV. pose proof (SkipSpace_len r2).
  apply IH; lia.
Qed.

Lemma tag_loop_err : forall f n a s e, (length s < f)%nat -> tag_loop f n a s = Err e -> bad_error e s.
Proof.
  induction f as [|f IH]; intros n a s e Hf; [lia|]. cbn [tag_loop].
  pose proof (SkipSpace_len s) as HS. pose proof (SkipSpace_suf s) as HU.
  destruct (SkipSpace s) as [|c s'] eqn:ES; [intros [= <-]; left; reflexivity|].
  cbn [length] in HS.
  destruct (c =? 62); [discriminate|]. destruct (c =? 47);
    [destruct (ParseChar 62 s'); [discriminate|intros [= <-]; left; reflexivity]|].
  destruct (ParseName false (c :: s')) as [an r1] eqn:EN. pose proof (ParseName_suf _ _ _ _ EN) as EU.
  apply ParseName_len in EN as [EN _].
  cbn [length] in EN. destruct an as [|x an]; [intros [= <-]; left; reflexivity|].
  destruct (ParseChar 61 (SkipSpace r1)) as [r2|] eqn:EC; [|intros [= <-]; left; reflexivity].
  apply ParseChar_len in EC. pose proof (SkipSpace_len r1) as H3. pose proof (SkipSpace_suf r1) as H4.
  rewrite EC in H3, H4. cbn [length] in H3.
  assert (suffix (SkipSpace r2) s) as HS2.
  { eapply suffix_trans; [apply SkipSpace_suf|]. eapply suffix_trans; [|exact HU].
    eapply suffix_trans; [|exact EU]. eapply suffix_trans; [|exact H4]. auto with suf. }
  destruct (ParseAttValue (SkipSpace r2)) as [[v r3]|] eqn:EV; cbn [bind].
  - pose proof (ParseAttValue_suf _ _ _ EV). apply ParseAttValue_len in EV. pose proof (SkipSpace_len r2).
    intros H5. apply IH in H5; [|lia]. eapply bad_suf; [|exact H5]. eapply suffix_trans; eassumption.
  - intros [= <-]. apply ParseAttValue_err in EV. eapply bad_suf; eassumption.
Qed.

Lemma ParseTag_len s t r : ParseTag s = Ok (t, r) -> (length r <= length s)%nat.
Proof.
  unfold ParseTag. destruct (ParseName false s) as [n r'] eqn:E. apply ParseName_len in E as [E _].
  destruct n as [|x n]; [intros [= _ <-]; exact E|].
  destruct (tag_loop _ _ _ r') as [[t' r'']|] eqn:E2; cbn [bind]; [|discriminate].
  intros [= _ <-]. apply tag_loop_len in E2. lia.
Qed.
Lemma ParseTag_suf s t r : ParseTag s = Ok (t, r) -> suffix r s.
Proof.
  unfold ParseTag. destruct (ParseName false s) as [n r'] eqn:E. apply ParseName_suf in E.
  destruct n as [|x n]; [intros [= _ <-]; exact E|].
  destruct (tag_loop _ _ _ r') as [[t' r'']|] eqn:E2; cbn [bind]; [|discriminate].
  intros [= _ <-]. apply tag_loop_suf in E2. eapply suffix_trans; eassumption.
Qed.
Lemma ParseTag_err s e : ParseTag s = Err e -> bad_error e s.
Proof.
  unfold ParseTag. destruct (ParseName false s) as [n r'] eqn:E. apply ParseName_suf in E.
  destruct n as [|x n]; [discriminate|].
  destruct (tag_loop _ _ _ r') as [[t' r'']|] eqn:E2; cbn [bind]; [discriminate|].
  intros [= <-]. apply tag_loop_err in E2; [|lia]. eapply bad_suf; eassumption.
Qed.
Lemma ParseETag_len s t r : ParseETag s = Ok (t, r) -> (length r <= length s)%nat.
Proof.
  unfold ParseETag. destruct (ParseName false s) as [n r'] eqn:E. apply ParseName_len in E as [E _].
  destruct (ParseChar 62 (SkipSpace r')) eqn:E2; [|discriminate]. apply ParseChar_len in E2.
  pose proof (SkipSpace_len r') as H. rewrite E2 in H. cbn [length] in H. intros [= _ <-]. lia.
Qed.
Lemma ParseETag_suf s t r : ParseETag s = Ok (t, r) -> suffix r s.
Proof.
  unfold ParseETag. destruct (ParseName false s) as [n r'] eqn:E. apply ParseName_suf in E.
  destruct (ParseChar 62 (SkipSpace r')) eqn:E2; [|discriminate]. apply ParseChar_len in E2.
  pose proof (SkipSpace_suf r') as H. rewrite E2 in H. intros [= _ <-].
  eapply suffix_trans; [|exact E]. eapply suffix_trans; [|exact H]. auto with suf.
Qed.
Lemma ParseETag_err s e : ParseETag s = Err e -> e = XMLException.
Proof.
  unfold ParseETag. destruct (ParseName false s). destruct (ParseChar _ _); [discriminate|].
  intros [= <-]. reflexivity.
Qed.

Definition parse_lt (s : str) : result (token * str) :=
  match ParseChar 47 s with Some s' => ParseETag s' | None => ParseTag s end.
Lemma parse_lt_len s t r : parse_lt s = Ok (t, r) -> (length r <= length s)%nat.
Proof.
  unfold parse_lt. destruct (ParseChar 47 s) eqn:E; [|apply ParseTag_len].
  apply ParseChar_len in E. subst. intros H. apply ParseETag_len in H. cbn [length]. lia.
Qed.
Lemma parse_lt_suf s t r : parse_lt s = Ok (t, r) -> suffix r s.
Proof.
  unfold parse_lt. destruct (ParseChar 47 s) eqn:E; [|apply ParseTag_suf].
  apply ParseChar_len in E. subst. intros H. apply ParseETag_suf in H. auto with suf.
Qed.
Lemma parse_lt_err s e : parse_lt s = Err e -> bad_error e s.
Proof.
  unfold parse_lt. destruct (ParseChar 47 s) eqn:E; [|apply ParseTag_err].
  intros H. apply ParseETag_err in H. left; exact H.
Qed.

Lemma tok_loop_eq f chars s : tok_loop (S f) chars s =
  match s with
  | [] => Ok (flush chars)
  | c :: s' =>
      if c =? 60 then '(t, r) <- parse_lt s' ;; ts <- tok_loop f [] r ;; Ok (flush chars ++ t :: ts)
      else if c =? 38 then '(v, r) <- ParseReference s' ;; tok_loop f (chars ++ [v]) r
      else tok_loop f (chars ++ [c]) s'
  end.
Proof. reflexivity. Qed.

Lemma tok_loop_fuel : forall f1 f2 chars s, (length s < f1)%nat -> (length s < f2)%nat ->
  tok_loop f1 chars s = tok_loop f2 chars s.
Proof.
  induction f1 as [|f1 IH]; intros [|f2] chars s H1 H2; try lia. rewrite !tok_loop_eq.
  destruct s as [|c s]; [reflexivity|]. cbn [length] in *.
  destruct (c =? 60).
  - destruct (parse_lt s) as [[t r]|] eqn:E; cbn [bind]; [|reflexivity].
    apply parse_lt_len in E. rewrite (IH f2) by lia. reflexivity.
  - destruct (c =? 38).
    + destruct (ParseReference s) as [[t r]|] eqn:E; cbn [bind]; [|reflexivity].
      apply ParseReference_len in E. apply IH; lia.
    + apply IH; lia.
Qed.

Lemma tok_loop_err : forall f chars s e, (length s < f)%nat -> tok_loop f chars s = Err e -> bad_error e s.
Proof.
  induction f as [|f IH]; intros chars s e Hf; [lia|]. rewrite tok_loop_eq.
  destruct s as [|c s]; [discriminate|]. cbn [length] in *.
  destruct (c =? 60).
  - destruct (parse_lt s) as [[t r]|] eqn:E; cbn [bind].
    + pose proof (parse_lt_suf _ _ _ E). apply parse_lt_len in E.
      destruct (tok_loop f [] r) eqn:E2; cbn [bind]; [discriminate|]. intros [= <-].
      apply IH in E2; [|lia]. eapply bad_suf; [|exact E2]. auto with suf.
    + intros [= <-]. apply parse_lt_err in E. eapply bad_suf; [|exact E]. auto with suf.
  - destruct (c =? 38) eqn:E38.
    + destruct (ParseReference s) as [[t r]|] eqn:E; cbn [bind].
      * pose proof (ParseReference_suf _ _ _ E). apply ParseReference_len in E. intros H2.
        apply IH in H2; [|lia]. eapply bad_suf; [|exact H2]. auto with suf.
      * intros [= <-]. apply ref_bad in E. replace c with 38 by lia. exact E.
    + intros H2. apply IH in H2; [|lia]. eapply bad_suf; [|exact H2]. auto with suf.
Qed.

Lemma tokenize_errors s e : TokenizeString s = Err e ->
  e = XMLException \/ ((e = ValueError \/ e = OverflowError \/ e = Unmodelled) /\
                       exists p q, s = p ++ lit "&#" ++ q).
Proof. apply tok_loop_err. lia. Qed.

(** Tokenizing with the exact fuel *)
Definition tok (chars s : str) : result (list token) := tok_loop (S (length s)) chars s.
Lemma tok_eq chars s : tok chars s =
  match s with
  | [] => Ok (flush chars)
  | c :: s' =>
      if c =? 60 then '(t, r) <- parse_lt s' ;; ts <- tok [] r ;; Ok (flush chars ++ t :: ts)
      else if c =? 38 then '(v, r) <- ParseReference s' ;; tok (chars ++ [v]) r
      else tok (chars ++ [c]) s'
  end.
Proof.
  unfold tok at 1. rewrite tok_loop_eq. destruct s as [|c s]; [reflexivity|].
  destruct (c =? 60).
  - destruct (parse_lt s) as [[t r]|] eqn:E; cbn [bind]; [|reflexivity]. apply parse_lt_len in E.
    rewrite (tok_loop_fuel _ (S (length r))) by (cbn [length]; lia). reflexivity.
  - destruct (c =? 38).
    + destruct (ParseReference s) as [[t r]|] eqn:E; cbn [bind]; [|reflexivity]. apply ParseReference_len in E.
      apply tok_loop_fuel; cbn [length]; lia.
    + apply tok_loop_fuel; cbn [length]; lia.
Qed.
Definition att (d : Z) (s : str) : result (str * str) := att_loop (S (length s)) d s.
Lemma att_eq d s : att d s =
  match s with
  | [] => Err XMLException
  | c :: s' =>
      if c =? d then Ok ([], s')
      else if c =? 38 then '(v, r) <- ParseReference s' ;; '(vs, r') <- att d r ;; Ok (v :: vs, r')
      else '(vs, r') <- att d s' ;; Ok (c :: vs, r')
  end.
Proof.
  unfold att at 1. cbn [att_loop]. destruct s as [|c s]; [reflexivity|].
  destruct (c =? d); [reflexivity|]. destruct (c =? 38).
  - destruct (ParseReference s) as [[t r]|] eqn:E; cbn [bind]; [|reflexivity]. apply ParseReference_len in E.
    rewrite (att_loop_fuel _ (S (length r))) by (cbn [length]; lia). reflexivity.
  - rewrite (att_loop_fuel _ (S (length s))) by (cbn [length]; lia). reflexivity.
Qed.
