(** Properties C91-C93: element content models. *)
From Verif Require Import Py XmlUtils ContentModel ContentModelSpec ContentModelProofs
  ContentModelProofs2.

(** * C91 *)
(** The cursor accepts exactly the sequences of children the declaration
    allows, whatever the content specification. *)
Theorem C91_cursor_accepts_the_content_model name c w : parsed_content c ->
  (accepts (BuildModel name c) w <-> valid_children c w).
Proof.
  intros Hc. destruct c as [| |p|p|].
  - apply none_accepts. now left.
  - apply any_accepts.
  - destruct (build_mixed name p Hc) as (m0 & HB). rewrite (built_accepts _ _ _ HB), content_of.
    symmetry. apply (children_marked (Mixed p) p). now right.
  - destruct (build_element name p Hc) as (m0 & HB). rewrite (built_accepts _ _ _ HB), content_of.
    symmetry. apply (children_marked (ElementContent p) p). now left.
  - apply none_accepts. now right.
Qed.

(** For mixed content that means: any number of the listed names in any order. *)
Theorem C91_mixed_content name l w : NoDup (map fst l) -> ~ In [] (map snd l) ->
  (accepts (BuildModel name (Mixed (mixed_model l))) w <-> Forall (fun n => In n (map snd l)) w).
Proof.
  intros H1 H2. rewrite C91_cursor_accepts_the_content_model by exact (mixed_parsed l H1 H2).
  apply mixed_valid.
Qed.

Definition a := lit "a".
Definition b := lit "b".
Definition c' := lit "c".
(** (a,(b|c)*,a?)+ *)
Definition model1 : cp :=
  PSeq OneOrMore [PName Once 0 a; PChoice ZeroOrMore [PName Once 1 b; PName Once 2 c'];
                  PName ZeroOrOne 3 a].
Example C91_ex_parsed : parsed_content (ElementContent model1).
Proof.
  split.
  - cbn. repeat constructor; cbn; intuition discriminate.
  - cbn. intuition discriminate.
Qed.
Example C91_ex_run :
  accepts (BuildModel (lit "e") (ElementContent model1)) [a; c'; b; a; a] /\
  ~ accepts (BuildModel (lit "e") (ElementContent model1)) [b; a].
Proof.
  split.
  - eexists. split; vm_compute; reflexivity.
  - intros (x & H & _). vm_compute in H. discriminate.
Qed.
Example C91_ex_allows : allows model1 [a; c'; b; a; a].
Proof.
  apply (C91_cursor_accepts_the_content_model (lit "e") (ElementContent model1) _ C91_ex_parsed).
  apply C91_ex_run.
Qed.

(** * C92 *)
(** The check for determinism answers exactly whether the model is unambiguous
    in the sense of the XML specification. *)
Theorem C92_deterministic_iff_unambiguous name c p :
  c = ElementContent p \/ c = Mixed p -> parsed p -> inhabited p -> is_group p ->
  exists r, IsDeterministic (BuildModel name c) = Ok r /\ (r = true <-> ~ ambiguous c).
Proof.
  intros Hc Hp Hi Hg. destruct (built_of name c p Hc Hp) as (m0 & HB).
  pose proof (content_of name c) as Ec.
  pose proof (is_deterministic_eq _ _ _ HB) as E. pose proof (built_det _ _ _ HB) as D.
  rewrite Ec in E, D. specialize (E Hc Hg). specialize (D Hc Hg Hi).
  rewrite E in *. eexists. split; [reflexivity|]. rewrite <- D. split; congruence.
Qed.

(** Mixed content is deterministic iff no name is listed twice. *)
Theorem C92_mixed_deterministic_iff_no_duplicates name l :
  NoDup (map fst l) -> ~ In [] (map snd l) ->
  (IsDeterministic (BuildModel name (Mixed (mixed_model l))) = Ok true <-> NoDup (map snd l)).
Proof. apply mixed_det. Qed.

(** While an unambiguous model is traversed, the cursor always knows the one
    particle that matches the last child. *)
Theorem C92_deterministic_cursor_has_one_particle name c p w l :
  c = ElementContent p \/ c = Mixed p -> parsed p ->
  IsDeterministic (BuildModel name c) = Ok true ->
  feed (BuildModel name c) StartState w = Some (ParticleState l) -> (length l <= 1)%nat.
Proof.
  intros Hc Hp Hd. destruct (built_of name c p Hc Hp) as (m0 & HB).
  pose proof (content_of name c) as Ec.
  apply (built_single _ p m0 HB); [rewrite Ec; exact Hc|exact Hd].
Qed.

(** ((a,b)|(a,c)) of the XML specification, and (a,(b|c)) which means the same. *)
Definition model2 : cp :=
  PChoice Once [PSeq Once [PName Once 0 a; PName Once 1 b];
                PSeq Once [PName Once 2 a; PName Once 3 c']].
Definition model3 : cp :=
  PSeq Once [PName Once 0 a; PChoice Once [PName Once 1 b; PName Once 2 c']].
Example C92_ex_hyps : parsed model2 /\ inhabited model2 /\ is_group model2.
Proof.
  repeat split; try discriminate.
  - cbn. repeat constructor; cbn; intuition discriminate.
  - cbn. intuition discriminate.
Qed.
Example C92_ex :
  IsDeterministic (BuildModel (lit "e") (ElementContent model2)) = Ok false /\
  IsDeterministic (BuildModel (lit "e") (ElementContent model3)) = Ok true.
Proof. split; vm_compute; reflexivity. Qed.
Example C92_ex_ambiguous : ambiguous (ElementContent model2).
Proof.
  exists [], a, 0%nat, 2%nat, [(b, 1%nat)], [(c', 3%nat)]. split; [discriminate|].
  cbn [marked_children marked words occurs model2]. unfold marked, model2. cbn [words occurs app]. split.
  - left. exists [(a, 0%nat)], [(b, 1%nat)]. repeat split. exists [(b, 1%nat)], []. repeat split.
  - right. left. exists [(a, 2%nat)], [(c', 3%nat)]. repeat split. exists [(c', 3%nat)], []. repeat split.
Qed.

(** * C93 *)
(** A name the cursor rejects leaves it where it is. *)
Theorem C93_rejected_name_leaves_cursor e c n :
  snd (Next e c n) = false -> fst (Next e c n) = c.
Proof. apply next_state. Qed.

(** For element and mixed content, the names offered after an error are exactly
    the names the cursor accepts at that point. *)
Theorem C93_expected_names_are_the_accepted_ones_partial name c p cur :
  c = ElementContent p \/ c = Mixed p -> parsed p ->
  exists ns e, Expected (BuildModel name c) cur = Ok (ns, e) /\
    (forall n, n <> [] -> (In n ns <-> snd (Next (BuildModel name c) cur n) = true)) /\
    (e = true <-> snd (Next (BuildModel name c) cur []) = true) /\ ~ In [] ns.
Proof.
  intros Hc Hp. destruct (built_of name c p Hc Hp) as (m0 & HB).
  exact (built_expected _ _ _ HB cur).
Qed.

(** And a validating parse of the element reports no error if the children are
    valid and exactly one if they are not. *)
Theorem C93_one_error_iff_invalid_partial name c p w :
  c = ElementContent p \/ c = Mixed p -> parsed p -> 
  exists k, CheckExpectedParticles (BuildModel name c) (Some StartState) (w ++ [[]]) = Ok k /\
    (k <= 1)%nat /\ (k = 0%nat <-> valid_children c w).
Proof.
  intros Hc Hp.
  assert (HE : forall cur, is_ok (Expected (BuildModel name c) cur) = true).
  { intros cur. destruct (C93_expected_names_are_the_accepted_ones_partial name c p cur Hc Hp)
      as (ns & e & E & _). now rewrite E. }
  assert (HV : reaches_end (BuildModel name c) StartState w <-> valid_children c w).
  { apply C91_cursor_accepts_the_content_model. destruct Hc; subst c; exact Hp. }
  destruct (check_count _ HE w StartState) as [[H1 H2]|[H1 H2]].
  - exists 0%nat. split; [exact H2|]. split; [lia|]. split; [intros _; apply HV, H1|trivial].
  - exists 1%nat. split; [exact H2|]. split; [lia|]. split; [discriminate|]. intros H. destruct H1. apply HV, H.
Qed.

(** But a child inside an element declared EMPTY is not reported as a validity
    error: composing the message fails on the missing particle map. *)
Theorem C93_child_of_empty_element_refuted name n w : n <> [] ->
  CheckExpectedParticles (BuildModel name Empty) (Some StartState) (n :: w) = Err AttributeError.
Proof. intros Hn. destruct n as [|z n]; [congruence|]. reflexivity. Qed.

Example C93_ex :
  CheckExpectedParticles (BuildModel (lit "e") (ElementContent model1)) (Some StartState)
    [a; b; lit "d"; a; b; []] = Ok 1%nat /\
  CheckExpectedParticles (BuildModel (lit "e") (ElementContent model1)) (Some StartState)
    [a; b; b; a; []] = Ok 0%nat /\
  Expected (BuildModel (lit "e") (ElementContent model1)) StartState = Ok ([a], false) /\
  valid_children Empty [] /\ lit "b" <> [].
Proof.
  split; [vm_compute; reflexivity|]. split; [vm_compute; reflexivity|].
  split; [vm_compute; reflexivity|]. split; [reflexivity|discriminate].
Qed.

Print Assumptions C91_cursor_accepts_the_content_model.
Print Assumptions C91_mixed_content.
Print Assumptions C92_deterministic_iff_unambiguous.
Print Assumptions C92_mixed_deterministic_iff_no_duplicates.
Print Assumptions C92_deterministic_cursor_has_one_particle.
Print Assumptions C93_rejected_name_leaves_cursor.
Print Assumptions C93_expected_names_are_the_accepted_ones_partial.
Print Assumptions C93_one_error_iff_invalid_partial.
Print Assumptions C93_child_of_empty_element_refuted.
