(** Properties of QTIMigration/lib/rtfutils.py: C34, C76, C77. *)
From Verif Require Import Py Dec XmlUtils Rtf RtfSpec RtfProofs.

(** C34: whatever the input, the tokens are properly nested. *)
Theorem C34_balanced n input l : RtfTokenize n input = Ok l -> nested l.
Proof. exact (tokenize_nested n input l). Qed.
Print Assumptions C34_balanced.
(** At the '}' that closes a group, the state, the groups still open and the tags for the text
    that follows are those from before its '{'. *)
Theorem C34_group_restores input p q r z :
  cur input (pos p) = Some 123 -> step input 123 p = Ok q ->
  steps input (S (length (stack p))) q r -> length (stack r) = S (length (stack p)) ->
  step input 125 r = Ok z ->
  state z = state p /\ stack z = stack p /\ formatTags z = GetFormatTags (state p).
Proof. exact (group_restores input p q r z). Qed.
Print Assumptions C34_group_restores.
Definition tg (n : string) : token := Tag (mkTag (lit n) STag []).
Definition te (n : string) : token := Tag (mkTag (lit n) ETag []).
Example C34_ex : RtfTokenize 60 (lit "{\b a\i b\par c}\par d\line{\fs30 e}") =
  Ok [tg "b"; Text (lit "a"); te "b"; tg "b"; tg "i"; Text (lit "b"); te "i"; te "b"; tg "p";
      tg "i"; tg "b"; Text (lit "c"); te "b"; te "i"; te "p"; tg "p"; Text (lit "d"); Tag (mkTag (lit "br") EmptyElemTag []);
      tg "big"; Text (lit "e"); te "big"; te "p"].
Proof. vm_compute. reflexivity. Qed.
Example C34_group_ex : exists p q r z, let input := lit "\b x{\i y}" in
  formatTags p = [lit "b"] /\
  cur input (pos p) = Some 123 /\ step input 123 p = Ok q /\
  steps input (S (length (stack p))) q r /\ length (stack r) = S (length (stack p)) /\ step input 125 r = Ok z /\
  formatTags r = [lit "i"] /\ formatTags z = [lit "b"].
Proof.
  exists (mkParser [] (lit "x") [lit "b"] (mkRState (Some 1) false true false 0) [] false 4).
  eexists. eexists. eexists. cbv zeta. split; [reflexivity|]. split; [reflexivity|].
  split; [vm_compute; reflexivity|].
  split.
  { eapply st_step; [vm_compute; lia|vm_compute; reflexivity|vm_compute; reflexivity|].
    eapply st_step; [vm_compute; lia|vm_compute; reflexivity|vm_compute; reflexivity|].
    apply st_refl. vm_compute; lia. }
  split; [reflexivity|]. split; [vm_compute; reflexivity|]. split; reflexivity.
Qed.
(** The formatting in force at '{' is lost inside the group as soon as any formatting is
    changed there: b is italic but not bold. *)
Theorem C34_inherit_refuted : exists n, RtfTokenize n (lit "{\b a{\i b}c}") =
  Ok [tg "b"; Text (lit "a"); te "b"; tg "i"; Text (lit "b"); te "i"; tg "b"; Text (lit "c"); te "b"].
Proof. exists 40%nat. vm_compute. reflexivity. Qed.
Print Assumptions C34_inherit_refuted.

(** C76: the tokenizer ends on every input, after at most one turn of its loop per character;
    _partial: if no control word \uc has a negative number. *)
Theorem C76_terminates_partial input n : (forall a b, input <> a ++ lit "\uc-" ++ b) -> (length input < n)%nat ->
  RtfTokenize n input <> Err OutOfFuel /\ RtfTokenize n input = RtfTokenize (S (length input)) input.
Proof. exact (tokenize_terminates input n). Qed.
Print Assumptions C76_terminates_partial.
Example C76_ex : forall a b, lit "\uc0\u65" <> a ++ lit "\uc-" ++ b.
Proof.
  intros a b. change (lit "\uc0\u65") with [92; 117; 99; 48; 92; 117; 54; 53]. change (lit "\uc-") with [92; 117; 99; 45].
  intros H. apply (f_equal (mem 45)) in H. revert H. unfold mem. rewrite !existsb_app. vm_compute (existsb (Z.eqb 45) [92; 117; 99; 45]).
  rewrite orb_true_r. discriminate.
Qed.
Theorem C76_terminates_refuted : exists input, forall n, RtfTokenize n input = Err OutOfFuel.
Proof. exists (lit "\uc-4\u65"). exact spin_tokenize. Qed.
Print Assumptions C76_terminates_refuted.

(** C77: literal text is kept; _partial: text without backslashes and braces. *)
Theorem C77_text_partial t n : Forall (fun c => c <> 92 /\ c <> 123 /\ c <> 125) t -> (length t < n)%nat ->
  RtfTokenize n t = Ok (match t with [] => [] | _ => [Text t] end).
Proof. exact (fun H => tokenize_plain t H n). Qed.
Print Assumptions C77_text_partial.
Example C77_ex : Forall (fun c => c <> 92 /\ c <> 123 /\ c <> 125) (lit "a b").
Proof. vm_compute lit. repeat (apply Forall_cons; [lia|]). apply Forall_nil. Qed.
(** Escaped backslashes and braces disappear; a final backslash and \u without a number raise
    TypeError, negative code points ValueError. *)
Theorem C77_text_refuted : exists n,
  RtfTokenize n (lit "a\{b\\c\}") = Ok [Text (lit "abc")] /\
  RtfTokenize n (lit "a\") = Err TypeError /\
  RtfTokenize n (lit "\u?") = Err TypeError /\
  RtfTokenize n (lit "\u-4000?") = Err ValueError.
Proof. exists 20%nat. repeat split. Qed.
Print Assumptions C77_text_refuted.
