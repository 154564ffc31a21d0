(** Proofs about the placement of migrated response conditions. *)
From Coq Require Import QArith Qcanon Lia.
From Verif Require Import Py Dec XmlUtils XmlChars Xsd Shapes QtiValue QtiExpr QtiSpec QtiProc QtiProcSpec
  QtiProofs QtiProcProofs V1Mig V1MigSpec.
Open Scope Z_scope.
Open Scope list_scope.

Section Place.
Context {X : Ext}.
Notation rr := (run_rules setOutcome run_set_outcome).
Notation guarded := (option expr * list responseRule)%type.

Definition thn (r : state * flow) (k : state -> state * flow) : state * flow :=
  match r with (st, FNext) => k st | o => o end.
Fixpoint parts (ps : list guarded) (k : state -> state * flow) (st : state) : state * flow :=
  match ps with
  | [] => k st
  | (c, rs) :: ps' =>
      match condition st c with
      | Err e => (st, FErr e)
      | Ok true => rr rs st
      | Ok false => parts ps' k st
      end
  end.
Lemma parts_cond ps els st : run_rule setOutcome run_set_outcome (Cond ps els) st = parts ps (rr els) st.
Proof.
  rewrite run_cond. induction ps as [|[c rs] ps IH]; [reflexivity|]. cbn [run_parts parts].
  destruct (condition st c) as [[]|]; auto.
Qed.
Lemma parts_app ps qs k st : parts (ps ++ qs) k st = parts ps (parts qs k) st.
Proof.
  induction ps as [|[c rs] ps IH]; [reflexivity|]. cbn [parts app]. destruct (condition st c) as [[]|]; auto.
Qed.
Lemma parts_ext ps k k' st : (forall st, k st = k' st) -> parts ps k st = parts ps k' st.
Proof. intros H. induction ps as [|[c rs] ps IH]; cbn [parts]; [apply H|]. destruct (condition st c) as [[]|]; auto. Qed.
Lemma rr_app rs rs' st : rr (rs ++ rs') st = thn (rr rs st) (rr rs').
Proof.
  revert st; induction rs as [|r rs IH]; intros st; [reflexivity|]. cbn [run_rules app].
  destruct (run_rule _ _ r st) as [st1 []]; cbn [thn]; auto.
Qed.
Lemma rr_one r st : rr [r] st = run_rule setOutcome run_set_outcome r st.
Proof. cbn [run_rules]. destruct (run_rule _ _ r st) as [st1 []]; reflexivity. Qed.
Lemma thn_ext r k k' : (forall st, k st = k' st) -> thn r k = thn r k'.
Proof. intros H. destruct r as [st []]; cbn; auto. Qed.
Lemma thn_thn r k k' : thn (thn r k) k' = thn r (fun st => thn (k st) k').
Proof. destruct r as [st []]; reflexivity. Qed.

Definition open_last (rs : list responseRule) : Prop := exists init ps, rs = init ++ [Cond ps []].
Fixpoint path (Q : list responseRule -> Prop) (d : nat) (rs : list responseRule) : Prop :=
  match d with
  | O => Q rs
  | S d' => exists init ps els, rs = init ++ [Cond ps els] /\ path Q d' els
  end.
Definition good (cMode : bool) (c : container) (rs : list responseRule) : Prop :=
  match cMode, c with
  | true, InRules d => path (fun _ => True) d rs
  | false, InCond d => path open_last d rs
  | _, _ => False
  end.

(** Running the rules with [k] at the position of the container *)
Fixpoint at_depth (run0 : list responseRule -> (state -> state * flow) -> state -> state * flow)
    (d : nat) (rs : list responseRule) (k : state -> state * flow) (st : state) : state * flow :=
  match d with
  | O => run0 rs k st
  | S d' =>
      match rev rs with
      | Cond ps els :: rinit => thn (rr (rev rinit) st) (parts ps (at_depth run0 d' els k))
      | _ => (st, FNext)
      end
  end.
Definition in_rules (rs : list responseRule) (k : state -> state * flow) (st : state) := thn (rr rs st) k.
Definition in_cond (rs : list responseRule) (k : state -> state * flow) (st : state) :=
  match rev rs with
  | Cond ps els :: rinit => thn (rr (rev rinit) st) (parts ps k)
  | _ => (st, FNext)
  end.
Definition run_at (c : container) (rs : list responseRule) (k : state -> state * flow) (st : state) :=
  match c with
  | InRules d => at_depth in_rules d rs k st
  | InCond d => at_depth in_cond d rs k st
  end.

Lemma at_end (Q : list responseRule -> Prop) run0 : (forall rs st, Q rs -> run0 rs (fun st => (st, FNext)) st = rr rs st) ->
  forall d rs st, path Q d rs -> at_depth run0 d rs (fun st => (st, FNext)) st = rr rs st.
Proof.
  intros H0. induction d as [|d IH]; intros rs st Hp; cbn [at_depth path] in *; [apply H0, Hp|].
  destruct Hp as (init & ps & els & -> & Hp). rewrite rev_unit, rev_involutive, rr_app.
  apply thn_ext. intros st1. rewrite rr_one, parts_cond. apply parts_ext. intros st2. apply IH, Hp.
Qed.
Lemma run_at_end cMode c rs st : good cMode c rs -> run_at c rs (fun st => (st, FNext)) st = rr rs st.
Proof.
  destruct cMode, c as [d|d]; cbn [good run_at]; try contradiction; intros H; eapply at_end; try exact H.
  - intros rs' st' _. unfold in_rules. destruct (rr rs' st') as [st1 []]; reflexivity.
  - intros rs' st' (init & ps & ->). unfold in_cond. rewrite rev_unit, rev_involutive, rr_app.
    apply thn_ext. intros st1. rewrite rr_one, parts_cond. reflexivity.
Qed.

(** Adding a guarded rule at the position *)
Lemma at_rules_run (Q Q' : list responseRule -> Prop) f run0 run1 K k :
  (forall rs, Q rs -> exists rs', f rs = Ok rs' /\ Q' rs' /\ forall st, run1 rs' k st = run0 rs K st) ->
  forall d rs, path Q d rs -> exists rs', at_rules d f rs = Ok rs' /\ path Q' d rs' /\
    forall st, at_depth run1 d rs' k st = at_depth run0 d rs K st.
Proof.
  intros H0. induction d as [|d IH]; intros rs Hp; cbn [at_rules path at_depth] in *; [apply H0, Hp|].
  destruct Hp as (init & ps & els & -> & Hp). rewrite rev_unit.
  destruct (IH els Hp) as (els' & E & Hp' & Hr). rewrite E. cbn [bind]. rewrite rev_involutive.
  eexists. split; [reflexivity|]. split; [exists init, ps, els'; auto|].
  intros st. rewrite !rev_unit, rev_involutive. apply thn_ext. intros st1. apply parts_ext. exact Hr.
Qed.
Lemma path_S (Q : list responseRule -> Prop) d rs : path (fun rs => exists init ps els, rs = init ++ [Cond ps els] /\ Q els) d rs -> path Q (S d) rs.
Proof.
  revert rs; induction d as [|d IH]; intros rs H; [exact H|].
  cbn [path] in H. destruct H as (init & ps & els & -> & H). exists init, ps, els. split; [reflexivity|]. apply IH, H.
Qed.
Lemma path_weaken (Q Q' : list responseRule -> Prop) d : (forall rs, Q rs -> Q' rs) -> forall rs, path Q d rs -> path Q' d rs.
Proof.
  intros H. induction d as [|d IH]; intros rs; cbn [path]; [apply H|].
  intros (init & ps & els & -> & Hp). exists init, ps, els. auto.
Qed.
Lemma at_depth_S d rs k st : path open_last d rs ->
  at_depth in_rules (S d) rs k st = at_depth in_cond d rs k st.
Proof.
  revert rs k st; induction d as [|d IH]; intros rs k st Hp.
  - destruct Hp as (init & ps & ->). cbn [at_depth]. unfold in_cond. rewrite rev_unit. apply thn_ext. intros st1.
    apply parts_ext. intros st2. unfold in_rules. reflexivity.
  - destruct Hp as (init & ps & els & -> & Hp). remember (S d) as n. cbn [at_depth]. subst n. cbn [at_depth].
    rewrite !rev_unit. apply thn_ext. intros st1. apply parts_ext. intros st2. apply IH, Hp.
Qed.

(** One condition in front of [k] *)
Definition one (continue : bool) (p : guarded) (k : state -> state * flow) (st : state) : state * flow :=
  match condition st (fst p) with
  | Err e => (st, FErr e)
  | Ok false => k st
  | Ok true => thn (rr (snd p) st) (fun st' => if continue then k st' else (st', FNext))
  end.
Lemma one_continue p k st : thn (parts [p] (fun st => (st, FNext)) st) k = one true p k st.
Proof.
  destruct p as [c rs]. unfold one. cbn [parts fst snd]. destruct (condition st c) as [[]|]; reflexivity.
Qed.
Lemma one_stop p k st : parts [p] k st = one false p k st.
Proof.
  destruct p as [c rs]. unfold one. cbn [parts fst snd]. destruct (condition st c) as [[]|]; try reflexivity.
  destruct (rr rs st) as [st1 []]; reflexivity.
Qed.

Lemma add_if_rules p k rs : exists rs', add_if p rs = Ok rs' /\ True /\
  forall st, in_rules rs' k st = in_rules rs (one true p k) st.
Proof.
  eexists. split; [reflexivity|]. split; [exact I|]. intros st. unfold in_rules.
  rewrite rr_app, thn_thn. apply thn_ext. intros st1. rewrite rr_one, parts_cond. cbn [run_rules].
  apply one_continue.
Qed.
Lemma add_if_cond p k rs : exists rs', add_if p rs = Ok rs' /\ open_last rs' /\
  forall st, in_cond rs' k st = in_rules rs (one false p k) st.
Proof.
  eexists. split; [reflexivity|]. split; [exists rs, [p]; reflexivity|]. intros st. unfold in_rules, in_cond.
  rewrite rev_unit, rev_involutive. apply thn_ext. intros st1. apply one_stop.
Qed.
Lemma add_else_if_cond p k rs : open_last rs -> exists rs', add_else_if p rs = Ok rs' /\ open_last rs' /\
  forall st, in_cond rs' k st = in_cond rs (one false p k) st.
Proof.
  intros (init & ps & ->). unfold add_else_if. rewrite rev_unit, rev_involutive.
  eexists. split; [reflexivity|]. split; [exists init, (ps ++ [p]); reflexivity|].
  intros st. unfold in_cond. rewrite !rev_unit, rev_involutive. apply thn_ext. intros st1.
  rewrite parts_app. apply parts_ext. intros st2. apply one_stop.
Qed.

Lemma place_ok continue cMode c p rs : good cMode c rs ->
  exists rs' c', place continue cMode c p rs = Ok (rs', c') /\ good continue c' rs' /\
    forall k st, run_at c' rs' k st = run_at c rs (one continue p k) st.
Proof.
  intros Hg. unfold place. destruct continue.
  - assert (G : exists d, (if cMode then Ok c else match c with InCond d => Ok (InRules (S d)) | InRules _ => Err TypeError end) = Ok (InRules d)
              /\ path (fun _ => True) d rs /\ forall k st, at_depth in_rules d rs k st = run_at c rs k st).
    { destruct cMode, c as [d|d]; cbn [good] in Hg; try contradiction.
      - exists d. auto.
      - exists (S d). split; [reflexivity|]. split.
        + apply path_S. revert Hg. apply path_weaken. intros rs' (init & ps & ->). exists init, ps, []. auto.
        + intros k st. apply at_depth_S, Hg. }
    destruct G as (d & -> & Hp & Hr). cbn [bind].
    pose proof (fun k => at_rules_run (fun _ => True) (fun _ => True) (add_if p) in_rules in_rules (one true p k) k
      (fun rs _ => add_if_rules p k rs) d rs Hp) as G.
    destruct (G (fun st => (st, FNext))) as (rs' & E & Hp' & _). rewrite E. cbn [bind].
    exists rs', (InRules d). split; [reflexivity|]. split; [exact Hp'|]. intros k st.
    destruct (G k) as (rs2 & E2 & _ & H2). rewrite E in E2. injection E2 as <-. cbn [run_at]. rewrite H2. apply Hr.
  - destruct cMode, c as [d|d]; cbn [good] in Hg; try contradiction.
    + pose proof (fun k => at_rules_run (fun _ => True) open_last (add_if p) in_rules in_cond (one false p k) k
        (fun rs _ => add_if_cond p k rs) d rs Hg) as G.
      destruct (G (fun st => (st, FNext))) as (rs' & E & Hp' & _). rewrite E. cbn [bind].
      exists rs', (InCond d). split; [reflexivity|]. split; [exact Hp'|]. intros k st.
      destruct (G k) as (rs2 & E2 & _ & H2). rewrite E in E2. injection E2 as <-. apply H2.
    + pose proof (fun k => at_rules_run open_last open_last (add_else_if p) in_cond in_cond (one false p k) k
        (fun rs H => add_else_if_cond p k rs H) d rs Hg) as G.
      destruct (G (fun st => (st, FNext))) as (rs' & E & Hp' & _). rewrite E. cbn [bind].
      exists rs', (InCond d). split; [reflexivity|]. split; [exact Hp'|]. intros k st.
      destruct (G k) as (rs2 & E2 & _ & H2). rewrite E in E2. injection E2 as <-. apply H2.
Qed.

(** The whole list *)
Lemma in_sequence_one b p l st : in_sequence ((b, p) :: l) st = one b p (in_sequence l) st.
Proof.
  destruct p as [c rs]. unfold one. cbn [in_sequence fst snd]. destruct (condition st c) as [[]|]; try reflexivity.
  destruct (rr rs st) as [st1 []]; reflexivity.
Qed.
Lemma at_depth_ext run0 (H0 : forall rs k k' st, (forall st, k st = k' st) -> run0 rs k st = run0 rs k' st) :
  forall d rs k k' st, (forall st, k st = k' st) -> at_depth run0 d rs k st = at_depth run0 d rs k' st.
Proof.
  induction d as [|d IH]; intros rs k k' st H; cbn [at_depth]; [apply H0, H|].
  destruct (rev rs) as [|[ps els|a|] rinit]; try reflexivity.
  apply thn_ext. intros st1. apply parts_ext. intros st2. apply IH, H.
Qed.
Lemma run_at_ext c rs k k' st : (forall st, k st = k' st) -> run_at c rs k st = run_at c rs k' st.
Proof.
  intros H. destruct c; cbn [run_at]; apply at_depth_ext; try exact H; clear; intros rs k k' st H.
  - apply thn_ext, H.
  - unfold in_cond. destruct (rev rs) as [|[ps els|a|] rinit]; try reflexivity.
    apply thn_ext. intros st1. apply parts_ext, H.
Qed.

Lemma conditions_run l : forall i cMode c rp i' rp' w, good cMode c rp ->
  MigrateConditions i l cMode c rp = Ok ((i', rp'), w) ->
  exists ps, migrated i l i' ps w /\ forall st, rr rp' st = run_at c rp (in_sequence ps) st.
Proof.
  induction l as [|[r|] l IH]; intros i cMode c rp i' rp' w Hg H; cbn [MigrateConditions] in H.
  - injection H as <- <- <-. exists []. split; [constructor|]. intros st. symmetry.
    rewrite <- (run_at_end _ _ _ st Hg). apply run_at_ext. reflexivity.
  - unfold lbind, say in H. destruct (MigratePart i r) as [[[i1 p] w1]|] eqn:Ep; cbn [bind] in H; [|discriminate].
    destruct (place_ok (rc_continue r) cMode c p rp Hg) as (rp1 & c1 & Epl & Hg1 & Hr). rewrite Epl in H. cbn [bind] in H.
    destruct (MigrateConditions i1 l (rc_continue r) c1 rp1) as [[[i2 rp2] w2]|] eqn:E; cbn [bind] in H; [|discriminate].
    injection H as <- <- <-. destruct (IH _ _ _ _ _ _ _ Hg1 E) as (ps & Hm & Hrun).
    exists ((rc_continue r, p) :: ps). split; [econstructor; eassumption|]. intros st. rewrite Hrun, Hr.
    apply run_at_ext. intros st1. symmetry. apply in_sequence_one.
  - destruct (IH _ _ _ _ _ _ _ Hg H) as (ps & Hm & Hrun). exists ps. split; [constructor; exact Hm|exact Hrun].
Qed.
Lemma conditions_total l : forall i cMode c rp i' ps w, good cMode c rp -> migrated i l i' ps w ->
  exists rp', MigrateConditions i l cMode c rp = Ok ((i', rp'), w).
Proof.
  induction l as [|[r|] l IH]; intros i cMode c rp i' ps w Hg H; inversion H as [|? ? ? ? ? H1|? ? i1 p w1 ? ? ps1 w2 Hp H1]; subst;
    cbn [MigrateConditions].
  - eexists. reflexivity.
  - rewrite Hp. unfold lbind, say. cbn [bind].
    destruct (place_ok (rc_continue r) cMode c p rp Hg) as (rp1 & c1 & Epl & Hg1 & _). rewrite Epl. cbn [bind].
    destruct (IH _ _ _ _ _ _ _ Hg1 H1) as (rp' & ->). cbn [bind]. eexists. reflexivity.
  - destruct (IH _ _ _ _ _ _ _ Hg H1) as (rp' & ->). eexists. reflexivity.
Qed.
End Place.
