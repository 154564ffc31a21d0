(** Proofs about the texts of expressions: identifiers, literals and fuel. *)
From Coq Require Import Lia ZArith List Bool.
From Verif Require Import Py Iso Dec Shapes XmlChars OdExpr OdExprSpec.
Import ListNotations.
Open Scope Z_scope.
Open Scope list_scope.

(** ** Scanning *)
Lemma run_app p s rest : Forall (fun c => p c = true) s ->
  match rest with [] => True | c :: _ => p c = false end -> run p (s ++ rest) = (s, rest).
Proof.
  intros Hs Hr. induction Hs as [|c s Hc Hs IH]; cbn [app run].
  - destruct rest as [|c r]; [reflexivity|]. cbn [run]. rewrite Hr. reflexivity.
  - rewrite Hc, IH. reflexivity.
Qed.
Lemma run_len p s : forall a b, run p s = (a, b) -> (length b <= length s)%nat.
Proof.
  induction s as [|c s IH]; intros a b H; cbn [run] in H.
  - inversion H. subst. cbn. lia.
  - destruct (p c).
    + destruct (run p s) as [x y] eqn:E. inversion H; subst. specialize (IH _ _ eq_refl). cbn [length]. lia.
    + inversion H; subst. cbn [length]. lia.
Qed.
Lemma wsp_len s : (length (wsp s) <= length s)%nat.
Proof. induction s as [|c s IH]; cbn [wsp length]; [lia|]. destruct (is_wsp c); cbn [length]; lia. Qed.
Lemma wsp_spaces w s : spaces w -> wsp (w ++ s) = wsp s.
Proof.
  intros H. induction H as [|c w Hc H IH]; [reflexivity|]. cbn [app wsp]. unfold is_wsp at 1.
  destruct Hc as [-> | ->]; cbn [Z.eqb orb]; exact IH.
Qed.
Lemma wsp_id c s : is_wsp c = false -> wsp (c :: s) = c :: s.
Proof. intros H. cbn [wsp]. rewrite H. reflexivity. Qed.
Lemma wsp_app s t : wsp s <> [] -> wsp (s ++ t) = wsp s ++ t.
Proof.
  induction s as [|c s IH]; intros H; [contradiction|]. cbn [app wsp] in *. destruct (is_wsp c); [exact (IH H)|reflexivity].
Qed.
Lemma skip_insensitive_len p s s' : skip_insensitive p s = Some s' -> (length s' <= length s)%nat.
Proof. unfold skip_insensitive. destruct (str_eqb _ _); [|discriminate]. intros H. inversion H. rewrite skipn_length. lia. Qed.

(** What may follow an operand *)
Definition stop (rest : str) : Prop := match rest with [] => True | c :: _ => In c [32; 9; 47; 41; 44] end.
Lemma stop_spaces w rest : spaces w -> stop rest -> stop (w ++ rest).
Proof. intros H Hr. destruct H as [|c w Hc H]; [exact Hr|]. destruct Hc as [-> | ->]; cbn; auto. Qed.
Lemma stop_spaces1 w rest : spaces1 w -> stop (w ++ rest).
Proof. intros [H Hn]. destruct H as [|c w Hc H]; [contradiction|]. destruct Hc as [-> | ->]; cbn; auto. Qed.

(** ** Words *)
Lemma same_letter_lower a b : 97 <= a <= 122 -> same_letter a b <-> lower1 b = a.
Proof.
  intros H. unfold same_letter, lower1. destruct ((b >=? 65) && (b <=? 90)) eqn:E; lia.
Qed.
Definition lowercase (s : str) : bool := forallb (fun c => (97 <=? c) && (c <=? 122)) s.
Lemma word_lower w s : lowercase (lit w) = true -> word w s <-> lower s = lit w.
Proof.
  unfold word, lowercase, lower. generalize (lit w). intros l Hl. revert s.
  induction l as [|a l IH]; intros s; cbn [forallb] in Hl.
  - split; [intros H; inversion H; reflexivity|]. destruct s; [constructor|discriminate].
  - apply andb_prop in Hl. destruct Hl as [Ha Hl]. specialize (IH Hl).
    assert (97 <= a <= 122) as Ha' by lia. split.
    + intros H. inversion H as [|x y l1 l2 Hxy Ht]; subst. cbn [map]. f_equal; [apply same_letter_lower; assumption|apply IH; assumption].
    + destruct s as [|b s]; [discriminate|]. cbn [map]. intros H. inversion H as [[H1 H2]]. rewrite H1, H2.
      constructor; [apply same_letter_lower; assumption|]. apply IH. exact H2.
Qed.
Lemma word_letters w s : lowercase (lit w) = true -> word w s -> Forall (fun c => 97 <= c <= 122 \/ 65 <= c <= 90) s.
Proof.
  unfold word, lowercase. generalize (lit w). intros l Hl H. induction H as [|a b l s Hab H IH]; [constructor|].
  cbn [forallb] in Hl. apply andb_prop in Hl. destruct Hl as [Ha Hl]. constructor; [|exact (IH Hl)].
  unfold same_letter in Hab. lia.
Qed.
Lemma word_len w s : word w s -> length s = length (lit w).
Proof. unfold word. intros H. induction H; cbn [length]; congruence. Qed.

(** ** Identifiers *)
Section Ident.
Variable start id : Z -> bool.
Hypothesis Hcl : classes start id.
Lemma start_mark c : In c [32; 9; 39; 40; 41; 44; 45; 46; 47] -> start c = false.
Proof. intros H. destruct (start c) eqn:E; [|reflexivity]. apply (cl_start _ _ Hcl) in E. rewrite (cl_marks _ _ Hcl c H) in E. discriminate. Qed.
Definition id_end (rest : str) : Prop := match rest with [] => True | c :: _ => id c = false /\ c <> 46 end.
Lemma stop_id_end rest : stop rest -> id_end rest.
Proof.
  destruct rest as [|c r]; [trivial|]. intros H. split; [apply (cl_marks _ _ Hcl)|]; cbn [stop In] in *; intuition; subst; try discriminate; auto 12.
Qed.
Lemma ident_loop_app n : identifier start id n -> forall f rest, (length n < f)%nat -> id_end rest ->
  ident_loop start id f (n ++ rest) = Some (n, rest).
Proof.
  induction 1 as [c s Hc Hs|c s t Hc Hs Ht IH]; intros f rest Hf Hr; (destruct f as [|f]; [lia|]); cbn [app ident_loop]; rewrite Hc.
  - rewrite (run_app id s rest Hs) by (destruct rest; [trivial|apply Hr]).
    destruct rest as [|d r]; [reflexivity|]. destruct Hr as [_ Hd].
    destruct (d =? 46) eqn:E; [lia|]. destruct d as [|p|p]; try reflexivity.
    do 6 (destruct p as [p|p|]; try reflexivity). contradiction.
  - rewrite <- app_assoc. cbn [app].
    rewrite (run_app id s (46 :: t ++ rest) Hs) by (apply (cl_marks _ _ Hcl); cbn; auto 12).
    rewrite IH; [reflexivity| |exact Hr]. cbn [length] in Hf. rewrite app_length in Hf. cbn [length] in Hf. lia.
Qed.
Lemma ident_app n rest : identifier start id n -> id_end rest ->
  ParseSimpleIdentifier start id (n ++ rest) = Some (n, rest).
Proof. intros H Hr. apply ident_loop_app; auto. rewrite app_length. lia. Qed.
Lemma ident_none s : match s with [] => True | c :: _ => start c = false end -> ParseSimpleIdentifier start id s = None.
Proof. unfold ParseSimpleIdentifier. destruct s as [|c s]; [reflexivity|]. cbn [ident_loop]. intros ->. reflexivity. Qed.
Lemma ident_letters s : Forall (fun c => 97 <= c <= 122 \/ 65 <= c <= 90) s -> s <> [] -> identifier start id s.
Proof.
  intros H Hn. destruct H as [|c s Hc H]; [contradiction|]. constructor; [apply (cl_letters _ _ Hcl); exact Hc|].
  eapply Forall_impl; [|exact H]. cbn. intros d Hd. apply (cl_start _ _ Hcl), (cl_letters _ _ Hcl), Hd.
Qed.
Lemma word_ident w s rest : lowercase (lit w) = true -> lit w <> [] -> word w s -> id_end rest ->
  ParseSimpleIdentifier start id (s ++ rest) = Some (s, rest).
Proof.
  intros Hw Hn H Hr. apply ident_app; [|exact Hr]. apply ident_letters; [exact (word_letters _ _ Hw H)|].
  intros ->. apply word_len in H. destruct (lit w); [contradiction|discriminate].
Qed.
Lemma ident_loop_len f : forall s n r, ident_loop start id f s = Some (n, r) -> (length r < length s)%nat.
Proof.
  induction f as [|f IH]; intros s n r H; [discriminate|]. cbn [ident_loop] in H.
  destruct s as [|c s]; [discriminate|]. destruct (start c); [|discriminate].
  destruct (run id s) as [a b] eqn:E. apply run_len in E.
  destruct b as [|d b]; [inversion H; subst; cbn [length] in *; lia|].
  destruct (d =? 46) eqn:E46.
  - assert (d = 46) by lia. subst d. destruct (ident_loop start id f b) as [[m q]|] eqn:E2; [|discriminate].
    apply IH in E2. inversion H; subst. cbn [length] in *. lia.
  - assert (Some (c :: a, d :: b) = Some (n, r)) as H'.
    { rewrite <- H. destruct d as [|p|p]; try reflexivity. do 6 (destruct p as [p|p|]; try reflexivity). discriminate. }
    inversion H'; subst. cbn [length] in *. lia.
Qed.
Lemma ident_len s n r : ParseSimpleIdentifier start id s = Some (n, r) -> (length r < length s)%nat.
Proof. apply ident_loop_len. Qed.
Lemma identifier_nonempty n : identifier start id n -> exists c t, n = c :: t /\ start c = true.
Proof. intros H. destruct H; eauto. Qed.
End Ident.
