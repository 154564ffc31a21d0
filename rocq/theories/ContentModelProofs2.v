(** From the particle maps to the cursor, and determinism. *)
From Verif Require Import Py XmlUtils ContentModel ContentModelSpec ContentModelProofs.

(** ** The assignments made by BuildParticleMaps *)
Lemma build_fst p : forall exits, map fst (BuildParticleMaps p exits) = ids p.
Proof.
  induction p as [o i n|o l IH|o l IH] using cp_ind'; intros exits.
  - reflexivity.
  - cbn [BuildParticleMaps ids]. set (ne := new_exits _ _ _). clearbody ne.
    fold (build_choice ne). induction l as [|c l IHl]; [reflexivity|].
    apply Forall_cons_iff in IH as [Hc HF]. cbn [build_choice flat_map].
    rewrite map_app, Hc. f_equal. apply IHl, HF.
  - cbn [BuildParticleMaps ids]. set (ne := new_exits _ _ _). clearbody ne.
    fold (build_seq ne). induction l as [|c l IHl]; [reflexivity|].
    apply Forall_cons_iff in IH as [Hc HF]. cbn [build_seq flat_map].
    rewrite map_app, Hc. f_equal. apply IHl, HF.
Qed.

Lemma firsts_ids p : forall n i, In (n, i) (firsts p) -> In i (ids p).
Proof.
  induction p as [o i0 n0|o l IH|o l IH] using cp_ind'; intros n i.
  - cbn. intros [E|[]]. injection E as <- <-. now left.
  - cbn [firsts ids]. rewrite !in_flat_map. intros (c & Hc & Hi). exists c.
    split; [exact Hc|]. rewrite Forall_forall in IH. exact (IH c Hc n i Hi).
  - cbn [firsts ids]. fold firsts_seq. induction l as [|c l IHl]; [intros []|].
    apply Forall_cons_iff in IH as [Hc HF]. cbn [firsts_seq flat_map]. fold firsts_seq. rewrite !in_app_iff.
    intros [H|H]; [left; exact (Hc n i H)|]. destruct (nullable c); [|destruct H].
    right. apply IHl; assumption.
Qed.

Definition build_ok (p : cp) : Prop := ~ In [] (names p) -> forall exits, wf exits ->
  forall k m, In (k, m) (BuildParticleMaps p exits) ->
    wf m /\ forall n i, has m n i -> In i (ids p) \/ has exits n i.

Lemma build_spec p : build_ok p.
Proof.
  induction p as [o i0 n0|o l IH|o l IH] using cp_ind'; intros HN exits Hw k m.
  - cbn [BuildParticleMaps]. intros [E|[]]. injection E as <- <-.
    assert (Hn : n0 <> []) by (intros ->; apply HN; now left).
    assert (W1 : wf (if repeatable o then [(n0, Some [i0])] else [])).
    { destruct (repeatable o); [|apply wf_nil].
      split; [constructor; [intros []|constructor]|]. intros n' v. cbn.
      destruct (str_eqb n' n0) eqn:E; [|discriminate]. intros [= <-].
      apply str_eqb_eq in E; subst n'. repeat split; [exact Hn|discriminate|].
      constructor; [intros []|constructor]. }
    destruct (AddParticles_spec exits _ Hw W1) as (W & A & B). split; [exact W|].
    intros n i H. apply A in H as [H|(l & Hl & Hi)]; [now right|left].
    destruct (repeatable o); [|discriminate]. cbn in Hl.
    destruct (str_eqb n n0); [|discriminate]. injection Hl as <-. destruct Hi as [<-|[]]. now left.
  - cbn [BuildParticleMaps ids].
    destruct (new_exits_spec (PChoice o l) o exits HN Hw) as (W & A & B).
    set (ne := new_exits _ _ _) in *.
    assert (G : In (k, m) (build_choice ne l) -> wf m /\ forall n i, has m n i -> In i (flat_map ids l) \/ has ne n i).
    { clearbody ne. clear A B. cbn [names] in HN. revert HN. induction l as [|c l IHl]; intros HN; [intros []|].
      apply Forall_cons_iff in IH as [Hc HF]. cbn [flat_map] in HN. rewrite in_app_iff in HN.
      cbn [build_choice flat_map]. fold (build_choice ne). rewrite in_app_iff. intros [H|H].
      - destruct (Hc (fun H => HN (or_introl H)) ne W k m H) as [W1 H1]. split; [exact W1|].
        intros n i Hh. rewrite in_app_iff. destruct (H1 n i Hh); tauto.
      - destruct (IHl HF (fun H => HN (or_intror H)) H) as [W1 H1]. split; [exact W1|].
        intros n i Hh. rewrite in_app_iff. destruct (H1 n i Hh); tauto. }
    intros Hin. destruct (G Hin) as [W1 H1]. split; [exact W1|].
    intros n i Hh. destruct (H1 n i Hh) as [H|H]; [now left|].
    apply A in H as [[_ H]|H]; [|now right]. left. exact (firsts_ids (PChoice o l) n i H).
  - cbn [BuildParticleMaps ids].
    destruct (new_exits_spec (PSeq o l) o exits HN Hw) as (W & A & B).
    set (ne := new_exits _ _ _) in *.
    assert (G : In (k, m) (build_seq ne l) -> wf m /\ forall n i, has m n i -> In i (flat_map ids l) \/ has ne n i).
    { clearbody ne. clear A B. cbn [names] in HN. revert HN. induction l as [|c l IHl]; intros HN; [intros []|].
      apply Forall_cons_iff in IH as [Hc HF]. cbn [flat_map] in HN. rewrite in_app_iff in HN.
      cbn [build_seq flat_map]. fold (build_seq ne). rewrite in_app_iff. intros [H|H].
      - destruct (child_exits_spec l (fun H => HN (or_intror H)) ne [] W wf_nil) as (Wc & Ac & _).
        destruct (Hc (fun H => HN (or_introl H)) _ Wc k m H) as [W1 H1]. split; [exact W1|].
        intros n i Hh. rewrite in_app_iff. destruct (H1 n i Hh) as [H2|H2]; [tauto|].
        apply Ac in H2 as [H2|[H2|[_ H2]]].
        + destruct (has_nil _ _ H2).
        + left. right. exact (firsts_ids (PSeq Once l) n i H2).
        + now right.
      - destruct (IHl HF (fun H => HN (or_intror H)) H) as [W1 H1]. split; [exact W1|].
        intros n i Hh. rewrite in_app_iff. destruct (H1 n i Hh); tauto. }
    intros Hin. destruct (G Hin) as [W1 H1]. split; [exact W1|].
    intros n i Hh. destruct (H1 n i Hh) as [H|H]; [now left|].
    apply A in H as [[_ H]|H]; [|now right]. left. exact (firsts_ids (PSeq o l) n i H).
Qed.

Lemma run_other l : forall f i, ~ In i (map fst l) -> run_assignments l f i = f i.
Proof.
  induction l as [|[k m] l IH]; intros f i H; [reflexivity|].
  cbn [run_assignments map] in *. rewrite IH by (intros Hi; apply H; now right).
  destruct (Nat.eqb_spec i k) as [->|_]; [|reflexivity]. exfalso. apply H. now left.
Qed.

Lemma run_consistent l : forall f, NoDup (map fst l) -> consistent (run_assignments l f) l.
Proof.
  induction l as [|[k m] l IH]; intros f Hn i m' Hi; [destruct Hi|].
  cbn [map fst] in Hn. apply NoDup_cons_iff in Hn as [Hk Hn]. cbn [run_assignments].
  destruct Hi as [E|Hi]; [|exact (IH _ Hn i m' Hi)].
  injection E as -> ->. rewrite run_other by exact Hk. now rewrite Nat.eqb_refl.
Qed.

(** ** What is true of a built element type *)
Definition mc_model (c : content) (p : cp) : Prop := c = ElementContent p \/ c = Mixed p.

Record built (e : element_type) (p : cp) (m0 : pmap) : Prop := {
  b_map : et_map e = Some m0;
  b_wf0 : wf m0;
  b_wf : forall i, wf (et_maps e i);
  b_lang : forall w, macc (et_maps e) m0 w <-> marked_children (et_content e) w;
  b_ids0 : forall n i, has m0 n i -> In i (ids p);
  b_ids : forall k n i, has (et_maps e k) n i -> In k (ids p) /\ In i (ids p) }.

Definition end_map : pmap := [([], None)].
Lemma wf_end : wf end_map.
Proof.
  split; [constructor; [intros []|constructor]|]. intros n v. cbn.
  destruct (str_eqb n []) eqn:E; [|discriminate]. intros [= <-]. apply str_eqb_eq in E. exact E.
Qed.
Lemma has_end n i : ~ has end_map n i.
Proof. intros (l & H & _). cbn in H. destruct (str_eqb n []); discriminate. Qed.
Lemma macc_end M w : macc M end_map w <-> w = [].
Proof.
  destruct w as [|[n i] w]; cbn.
  - split; [trivial|]. intros _. reflexivity.
  - split; [intros [H _]; destruct (has_end _ _ H)|discriminate].
Qed.

Lemma maps_facts p exits : parsed p -> wf exits ->
  let M := run_assignments (BuildParticleMaps p exits) (fun _ => []) in
  consistent M (BuildParticleMaps p exits) /\ (forall i, wf (M i)) /\
  (forall k n i, has (M k) n i -> In k (ids p) /\ (In i (ids p) \/ has exits n i)).
Proof.
  intros [Hd HN] Hw M.
  assert (HC : consistent M (BuildParticleMaps p exits)) by (apply run_consistent; rewrite build_fst; exact Hd).
  assert (HK : forall k, (exists m, In (k, m) (BuildParticleMaps p exits) /\ M k = m) \/ M k = []).
  { intros k. destruct (in_dec Nat.eq_dec k (ids p)) as [Hk|Hk].
    - left. rewrite <- (build_fst p exits) in Hk. apply in_map_iff in Hk as ([k' m] & <- & Hi).
      exists m. split; [exact Hi|]. apply HC, Hi.
    - right. apply run_other. now rewrite build_fst. }
  split; [exact HC|]. split.
  - intros i. destruct (HK i) as [(m & Hi & ->)| ->]; [|apply wf_nil].
    apply (build_spec p HN exits Hw i m Hi).
  - intros k n i. destruct (HK k) as [(m & Hi & ->)| ->]; [|intros H; destruct (has_nil _ _ H)].
    intros H. split; [|exact (proj2 (build_spec p HN exits Hw k m Hi) n i H)].
    rewrite <- (build_fst p exits). apply in_map_iff. exists (k, m). split; [reflexivity|exact Hi].
Qed.

Lemma facc_iff M m fs w : (forall n i, has m n i <-> In (n, i) fs) ->
  (macc M m w <-> facc M fs w \/ (w = [] /\ ends m)).
Proof.
  intros A. destruct w as [|[n i] w]; cbn.
  - tauto.
  - rewrite A. split; [tauto|]. intros [H|[H _]]; [exact H|discriminate].
Qed.

Lemma build_element name p : parsed p ->
  exists m0, built (BuildModel name (ElementContent p)) p m0.
Proof.
  intros HP. pose proof HP as [Hd HN]. cbn [BuildModel].
  destruct (seek_spec p HN [] wf_nil) as (W & A & B & C).
  destruct (SeekParticles p []) as [m r] eqn:E. cbn [fst snd] in *. subst r.
  destruct (maps_facts p end_map HP wf_end) as (HC & HW & HI).
  destruct (main_ok p HN) as [Hn HL]. fold end_map.
  set (M := run_assignments (BuildParticleMaps p end_map) (fun _ => [])) in *.
  specialize (HL end_map M wf_end HC).
  exists (if negb (nullable p) then m else pset [] None m).
  assert (Hh : forall n i, has (if negb (nullable p) then m else pset [] None m) n i <-> In (n, i) (firsts p)).
  { intros n i. transitivity (has m n i).
    - destruct (negb (nullable p)); [reflexivity|]. unfold has. rewrite assoc_pset.
      destruct (str_eqb n []) eqn:En; [|reflexivity]. apply str_eqb_eq in En. subst n. split.
      + intros (l & Hl & _). discriminate.
      + intros (l & Hl & _). destruct W as [_ W]. apply W in Hl. destruct Hl as [Hl _]. congruence.
    - rewrite A. pose proof (has_nil n i). tauto. }
  assert (He : ends (if negb (nullable p) then m else pset [] None m) <-> nullable p = true).
  { destruct (nullable p); cbn [negb].
    - split; [trivial|]. intros _. unfold ends. now rewrite assoc_pset, str_eqb_refl.
    - rewrite B. split; [intros H; destruct (ends_nil H)|discriminate]. }
  constructor.
  - reflexivity.
  - destruct (negb (nullable p)); [exact W|]. apply wf_pset; [exact W|reflexivity].
  - exact HW.
  - intros w. cbn [et_maps et_content marked_children]. fold M.
    rewrite (facc_iff _ _ (firsts p) _ Hh), (HL w), He, Hn. split.
    + intros [(w1 & w2 & -> & _ & H1 & H2)|[-> H]]; [|exact H].
      apply macc_end in H2 as ->. now rewrite app_nil_r.
    + intros H. destruct w as [|x w]; [right; tauto|left].
      exists (x :: w), []. rewrite app_nil_r. repeat split; [discriminate|exact H].
  - intros n i H. apply Hh in H. exact (firsts_ids p n i H).
  - intros k n i H. destruct (HI k n i H) as [H1 [H2|H2]]; [tauto|]. destruct (has_end _ _ H2).
Qed.

Lemma build_mixed name p : parsed p ->
  exists m0, built (BuildModel name (Mixed p)) p m0.
Proof.
  intros HP. pose proof HP as [Hd HN]. cbn [BuildModel].
  destruct (seek_spec p HN [] wf_nil) as (W & A & B & C).
  set (m0 := pset [] None (fst (SeekParticles p []))).
  assert (W0 : wf m0) by (apply wf_pset; [exact W|reflexivity]).
  assert (Hh : forall n i, has m0 n i <-> In (n, i) (firsts p)).
  { intros n i. transitivity (has (fst (SeekParticles p [])) n i).
    - unfold m0, has. rewrite assoc_pset.
      destruct (str_eqb n []) eqn:En; [|reflexivity]. apply str_eqb_eq in En. subst n. split.
      + intros (l & Hl & _). discriminate.
      + intros (l & Hl & _). destruct W as [_ W]. apply W in Hl. destruct Hl as [Hl _]. congruence.
    - rewrite A. pose proof (has_nil n i). tauto. }
  assert (He : ends m0) by (unfold ends, m0; now rewrite assoc_pset, str_eqb_refl).
  destruct (maps_facts p m0 HP W0) as (HC & HW & HI).
  destruct (main_ok p HN) as [Hn HL].
  set (M := run_assignments (BuildParticleMaps p m0) (fun _ => [])) in *.
  specialize (HL m0 M W0 HC).
  assert (HR : links M (firsts p) (repeats (marked p)) end_map).
  { apply (occ_links M (firsts p) (marked p) end_map m0 ZeroOrMore).
    - intros n i. cbn [repeatable]. rewrite Hh. pose proof (has_end n i). tauto.
    - split; intros _; [reflexivity|exact He].
    - exact HL. }
  exists m0. constructor.
  - reflexivity.
  - exact W0.
  - exact HW.
  - intros w. cbn [et_maps et_content marked_children]. fold M.
    rewrite (facc_iff _ _ (firsts p) _ Hh), (HR w). split.
    + intros [(w1 & w2 & -> & _ & H1 & H2)|[-> H]]; [|constructor].
      apply macc_end in H2 as ->. now rewrite app_nil_r.
    + intros H. destruct w as [|x w]; [right; tauto|left].
      exists (x :: w), []. rewrite app_nil_r. repeat split; [discriminate|exact H].
  - intros n i H. apply Hh in H. exact (firsts_ids p n i H).
  - intros k n i H. destruct (HI k n i H) as [H1 [H2|H2]]; [tauto|].
    split; [exact H1|]. apply Hh in H2. exact (firsts_ids p n i H2).
Qed.

Lemma content_of name c : et_content (BuildModel name c) = c.
Proof. destruct c; try reflexivity. cbn [BuildModel]. destruct (SeekParticles model []); reflexivity. Qed.

Lemma built_of name c p : mc_model c p -> parsed p ->
  exists m0, built (BuildModel name c) p m0.
Proof. intros [-> | ->] H; [apply build_element, H|apply build_mixed, H]. Qed.

(** ** Forgetting the marks *)
Section Project.
  Context {A B : Type} (f : A -> B).
  Lemma repeats_map (L : list A -> Prop) (K : list B -> Prop) :
    (forall w, K w <-> exists v, L v /\ map f v = w) ->
    forall w, repeats K w <-> exists v, repeats L v /\ map f v = w.
  Proof.
    intros H w. split.
    - induction 1 as [|w1 w2 H1 _ (v2 & H2 & <-)].
      + exists []. split; [constructor|reflexivity].
      + apply H in H1 as (v1 & H1 & <-). exists (v1 ++ v2). split; [now constructor|apply map_app].
    - intros (v & Hv & <-). induction Hv as [|v1 v2 H1 _ IH]; [constructor|].
      rewrite map_app. constructor; [apply H; now exists v1|exact IH].
  Qed.
  Lemma occurs_map o (L : list A -> Prop) (K : list B -> Prop) :
    (forall w, K w <-> exists v, L v /\ map f v = w) ->
    forall w, occurs o K w <-> exists v, occurs o L v /\ map f v = w.
  Proof.
    intros H w. destruct o; cbn.
    - apply H.
    - rewrite H. split.
      + intros [->|(v & H1 & H2)]; [exists []|exists v]; tauto.
      + intros (v & [->|H1] & <-); [now left|right; now exists v].
    - now apply repeats_map.
    - split.
      + intros (w1 & w2 & -> & H1 & H2). apply H in H1 as (v1 & H1 & <-).
        apply (repeats_map L K H) in H2 as (v2 & H2 & <-).
        exists (v1 ++ v2). split; [now exists v1, v2|apply map_app].
      + intros (v & (v1 & v2 & -> & H1 & H2) & <-). exists (map f v1), (map f v2).
        split; [apply map_app|]. split; [apply H; now exists v1|].
        apply (repeats_map L K H). now exists v2.
  Qed.
  Lemma words_map (la : nat -> str -> A) (lb : nat -> str -> B) :
    (forall i n, f (la i n) = lb i n) ->
    forall p w, words lb p w <-> exists v, words la p v /\ map f v = w.
  Proof.
    intros Hf. induction p as [o i n|o l IH|o l IH] using cp_ind'.
    - cbn [words]. apply occurs_map. intros w. split.
      + intros ->. exists [la i n]. split; [reflexivity|cbn; now rewrite Hf].
      + intros (v & -> & <-). cbn. now rewrite Hf.
    - cbn [words]. apply occurs_map. fold (any_of la) (any_of lb).
      induction l as [|c l IHl]; intros w.
      + cbn. split; [tauto|intros (v & [] & _)].
      + apply Forall_cons_iff in IH as [Hc HF]. cbn [any_of]. rewrite (Hc w). fold (any_of la) (any_of lb).
        rewrite (IHl HF w). split.
        * intros [(v & H1 & H2)|(v & H1 & H2)]; exists v; tauto.
        * intros (v & [H1|H1] & H2); [left|right]; exists v; tauto.
    - cbn [words]. apply occurs_map. fold (all_of la) (all_of lb).
      induction l as [|c l IHl]; intros w.
      + cbn. split; [intros ->; exists []; tauto|intros (v & -> & <-); reflexivity].
      + apply Forall_cons_iff in IH as [Hc HF]. cbn [all_of]. fold (all_of la) (all_of lb). split.
        * intros (w1 & w2 & -> & H1 & H2). apply Hc in H1 as (v1 & H1 & <-).
          apply (IHl HF) in H2 as (v2 & H2 & <-). exists (v1 ++ v2).
          split; [now exists v1, v2|apply map_app].
        * intros (v & (v1 & v2 & -> & H1 & H2) & <-). exists (map f v1), (map f v2).
          split; [apply map_app|]. split; [apply Hc; now exists v1|apply (IHl HF); now exists v2].
  Qed.
End Project.

Lemma allows_marked p w : allows p w <-> exists v, marked p v /\ map fst v = w.
Proof. apply words_map. reflexivity. Qed.

Lemma children_marked c p w : mc_model c p ->
  (valid_children c w <-> exists v, marked_children c v /\ map fst v = w).
Proof.
  intros [-> | ->]; cbn.
  - apply allows_marked.
  - apply repeats_map. apply allows_marked.
Qed.

(** ** The cursor *)
Definition succs (M : nat -> pmap) (n : str) (p : nat) : list nat :=
  match assoc n (M p) with Some (Some ps) => ps | _ => [] end.

Lemma next_name M n : n <> [] -> (forall i, wf (M i)) -> forall l acc,
  next_particles M n l acc = Some (acc ++ flat_map (succs M n) l).
Proof.
  intros Hn HW. induction l as [|p l IH]; intros acc; cbn [next_particles flat_map].
  - now rewrite app_nil_r.
  - unfold succs at 1. destruct (assoc n (M p)) as [[ps|]|] eqn:E.
    + rewrite IH. now rewrite app_assoc.
    + apply (HW p) in E. cbn in E. congruence.
    + apply IH.
Qed.

Lemma next_end M : (forall i, wf (M i)) -> forall l acc,
  next_particles M [] l acc = if existsb (fun p => map_end (M p)) l then None else Some acc.
Proof.
  intros HW. induction l as [|p l IH]; intros acc; cbn [next_particles existsb]; [reflexivity|].
  destruct (assoc [] (M p)) as [[ps|]|] eqn:E.
  - apply (HW p) in E. destruct E as [E _]. congruence.
  - replace (map_end (M p)) with true; [reflexivity|]. symmetry. apply existsb_exists.
    exists []. split; [|reflexivity]. apply assoc_in in E. apply in_map_iff. now exists ([], None).
  - replace (map_end (M p)) with false; [apply IH|]. symmetry. apply not_true_iff_false.
    intros H. apply existsb_exists in H as (x & Hx & H). apply str_eqb_eq in H. subst x.
    apply in_map_iff in Hx as ([a b] & Ha & Hx). cbn in Ha. subst a.
    apply in_assoc in Hx; [congruence|apply (HW p)].
Qed.

Lemma map_end_iff m : wf m -> (map_end m = true <-> ends m).
Proof.
  intros [H1 H2]. unfold map_end. rewrite existsb_exists. split.
  - intros (x & Hx & E). apply str_eqb_eq in E; subst x.
    apply in_map_iff in Hx as ([a b] & Ha & Hx). cbn in Ha. subst a.
    apply in_assoc in Hx; [|exact H1]. pose proof (H2 _ _ Hx) as He. destruct b as [b|]; [|exact Hx].
    destruct He as [He _]. congruence.
  - intros E. exists []. split; [|reflexivity]. apply assoc_in in E. apply in_map_iff. now exists ([], None).
Qed.

Lemma map_names_iff m n : n <> [] -> wf m -> (In n (map_names m) <-> exists i, has m n i).
Proof.
  intros Hn [H1 H2]. unfold map_names. rewrite filter_In. split.
  - intros [Hi _]. apply in_map_iff in Hi as ([a b] & Ha & Hx). cbn in Ha. subst a.
    apply in_assoc in Hx; [|exact H1]. pose proof (H2 _ _ Hx) as He. destruct b as [b|]; [|cbn in He; congruence].
    destruct He as (_ & He & _). apply nonempty_in in He as (i & Hi). exists i. now exists b.
  - intros (i & l & Hl & _). split.
    + apply assoc_in in Hl. apply in_map_iff. now exists (n, Some l).
    + now rewrite str_eqb_neq.
Qed.

Lemma has_succs M p n i : has (M p) n i <-> In i (succs M n p).
Proof.
  unfold has, succs. destruct (assoc n (M p)) as [[l|]|]; split.
  - intros (l' & [= <-] & H). exact H.
  - intros H. now exists l.
  - intros (l & H & _). discriminate.
  - intros [].
  - intros (l & H & _). discriminate.
  - intros [].
Qed.

Lemma has_empty_name m i : wf m -> ~ has m [] i.
Proof. intros [_ H] (l & Hl & _). apply H in Hl as [Hl _]. congruence. Qed.

Definition reaches_end (e : element_type) (c : cursor) (w : list str) : Prop :=
  exists c', feed e c w = Some c' /\ snd (Next e c' []) = true.

Lemma reaches_end_state e w : ~ reaches_end e EndState w.
Proof. intros (c & Hf & Hn). destruct w; cbn in Hf; [|discriminate]. injection Hf as <-. discriminate Hn. Qed.

Lemma particle_end e l : (forall i, wf (et_maps e i)) ->
  (snd (Next e (ParticleState l) []) = true <-> exists i, In i l /\ ends (et_maps e i)).
Proof.
  intros HW. cbn [Next]. rewrite next_end by exact HW.
  destruct (existsb _ l) eqn:E.
  - cbn. split; [intros _|trivial]. apply existsb_exists in E as (i & Hi & E).
    exists i. split; [exact Hi|]. now apply map_end_iff.
  - cbn. split; [discriminate|]. intros (i & Hi & He). apply map_end_iff in He; [|apply HW].
    assert (existsb (fun p => map_end (et_maps e p)) l = true); [|congruence].
    apply existsb_exists. now exists i.
Qed.

Lemma particle_reaches e : (forall i, wf (et_maps e i)) -> forall w l,
  reaches_end e (ParticleState l) w <->
  exists i v, In i l /\ macc (et_maps e) (et_maps e i) v /\ map fst v = w.
Proof.
  intros HW. induction w as [|n w IH]; intros l.
  - split.
    + intros (c & Hf & Hn). cbn in Hf. injection Hf as <-. apply particle_end in Hn as (i & Hi & He); [|exact HW].
      exists i, []. tauto.
    + intros (i & v & Hi & Hm & Hv). destruct v; [|discriminate]. exists (ParticleState l). split; [reflexivity|].
      apply particle_end; [exact HW|]. now exists i.
  - destruct (list_eq_dec Z.eq_dec n []) as [->|Hn].
    + split.
      * intros (c & Hf & Hn). exfalso. cbn [feed Next] in Hf.
        rewrite next_end in Hf by exact HW. destruct (existsb _ l); [|discriminate].
        apply (reaches_end_state e w). now exists c.
      * intros (i & v & Hi & Hm & Hv). exfalso. destruct v as [|[a b] v]; [discriminate|].
        cbn in Hv. injection Hv as -> _. destruct Hm as [Hm _]. exact (has_empty_name _ _ (HW i) Hm).
    + unfold reaches_end. cbn [feed Next]. rewrite next_name by assumption. cbn [app].
      set (l' := flat_map (succs (et_maps e) n) l).
      assert (Hl' : forall j, In j l' <-> exists i, In i l /\ has (et_maps e i) n j).
      { intros j. unfold l'. rewrite in_flat_map. split; intros (i & H1 & H2); exists i; (split; [exact H1|]);
          apply has_succs; exact H2. }
      transitivity (reaches_end e (ParticleState l') w /\ l' <> []).
      * destruct l' as [|j l']; cbn [snd]; unfold reaches_end.
        -- split; [intros (c & H & _); discriminate|intros [_ H]; congruence].
        -- split; [intros H; split; [exact H|discriminate]|tauto].
      * rewrite IH. split.
        -- intros [(j & v & Hj & Hm & Hv) _]. apply Hl' in Hj as (i & Hi & Hh).
           exists i, ((n, j) :: v). cbn. rewrite Hv. tauto.
        -- intros (i & v & Hi & Hm & Hv). destruct v as [|[a j] v]; [discriminate|].
           cbn in Hv. injection Hv as -> <-. destruct Hm as [Hh Hm].
           assert (Hj : In j l') by (apply Hl'; now exists i).
           split; [now exists j, v|]. exact (in_nonempty j l' Hj).
Qed.

Lemma built_accepts e p m0 : built e p m0 -> forall w,
  accepts e w <-> exists v, marked_children (et_content e) v /\ map fst v = w.
Proof.
  intros [H1 H2 H3 H4 _ _] w.
  transitivity (exists v, macc (et_maps e) m0 v /\ map fst v = w);
    [|split; intros (v & Hv & E); exists v; (split; [apply H4; exact Hv|exact E])].
  change (accepts e w) with (reaches_end e StartState w). destruct w as [|n w].
  - unfold reaches_end. cbn [feed]. split.
    + intros (c & [= <-] & Hn). cbn [Next] in Hn. rewrite H1 in Hn.
      destruct (assoc [] m0) as [[l|]|] eqn:E; [|exists []; tauto|discriminate].
      apply H2 in E as [E _]. congruence.
    + intros (v & Hv & E). destruct v; [|discriminate]. exists StartState. split; [reflexivity|].
      cbn [Next]. rewrite H1. cbn in Hv. unfold ends in Hv. now rewrite Hv.
  - unfold reaches_end. cbn [feed Next]. rewrite H1.
    destruct (assoc n m0) as [[l|]|] eqn:E.
    + fold (reaches_end e (ParticleState l) w). rewrite (particle_reaches e H3). split.
      * intros (i & v & Hi & Hm & <-). exists ((n, i) :: v). cbn. repeat split; [now exists l|exact Hm].
      * intros (v & Hv & Ev). destruct v as [|[a i] v]; [discriminate|]. cbn in Ev. injection Ev as -> <-.
        destruct Hv as [(l' & El & Hi) Hv]. rewrite E in El. injection El as <-. now exists i, v.
    + split.
      * intros H. destruct (reaches_end_state e w H).
      * intros (v & Hv & Ev). destruct v as [|[a i] v]; [discriminate|]. cbn in Ev. injection Ev as -> <-.
        destruct Hv as [(l' & El & _) _]. congruence.
    + split.
      * intros (c & H & _). discriminate.
      * intros (v & Hv & Ev). destruct v as [|[a i] v]; [discriminate|]. cbn in Ev. injection Ev as -> <-.
        destruct Hv as [(l' & El & _) _]. congruence.
Qed.

Lemma any_accepts name w : accepts (BuildModel name AnyContent) w <-> ~ In [] w.
Proof.
  change (accepts _ w) with (reaches_end (BuildModel name AnyContent) StartState w).
  induction w as [|n w IH].
  - split; [intros _ []|]. intros _. exists StartState. split; reflexivity.
  - unfold reaches_end. cbn [feed Next BuildModel et_map et_content]. destruct n as [|z n].
    + split.
      * intros H. destruct (reaches_end_state _ w H).
      * intros H. exfalso. apply H. now left.
    + fold (reaches_end (BuildModel name AnyContent) StartState w). unfold reaches_end in IH. cbn [BuildModel] in IH.
      rewrite IH. cbn [In]. split; [intros H [E|H1]; [discriminate|tauto]|tauto].
Qed.

Lemma none_accepts name c w : c = Empty \/ c = SGMLCDATA ->
  (accepts (BuildModel name c) w <-> w = []).
Proof.
  intros Hc. split.
  - intros (c' & Hf & Hn). destruct w as [|n w]; [reflexivity|]. exfalso.
    cbn [feed] in Hf. destruct Hc; subst c; cbn [Next BuildModel et_map et_content] in Hf;
      (destruct n; [|discriminate]); match goal with H : feed ?e EndState w = Some _ |- _ =>
        apply (reaches_end_state e w); exists c'; split; [exact H|exact Hn] end.
  - intros ->. exists StartState. split; [reflexivity|]. destruct Hc; subst c; reflexivity.
Qed.

(** ** Expected *)
Lemma next_state e c n : snd (Next e c n) = false -> fst (Next e c n) = c.
Proof.
  destruct c as [|l|]; cbn [Next].
  - destruct (et_map e) as [m|].
    + destruct (assoc n m) as [[l|]|]; cbn; congruence.
    + destruct (et_content e), n; cbn; congruence.
  - destruct (next_particles (et_maps e) n l []) as [[|j l']|]; cbn; congruence.
  - reflexivity.
Qed.

Lemma built_expected e p m0 : built e p m0 -> forall c, exists ns b,
  Expected e c = Ok (ns, b) /\
  (forall n, n <> [] -> (In n ns <-> snd (Next e c n) = true)) /\
  (b = true <-> snd (Next e c []) = true) /\ ~ In [] ns.
Proof.
  intros [H1 H2 H3 _ _ _] c.
  assert (Hne : forall m, ~ In [] (map_names m)).
  { intros m H. unfold map_names in H. apply filter_In in H as [_ H]. discriminate. }
  destruct c as [|l|]; cbn [Expected Next].
  - rewrite H1. eexists _, _. split; [reflexivity|]. split; [|split; [|apply Hne]].
    + intros n Hn. rewrite map_names_iff by assumption. unfold has.
      destruct (assoc n m0) as [[l|]|] eqn:E; cbn [snd].
      * split; [trivial|]. intros _. apply H2 in E as (_ & E & _). apply nonempty_in in E as (i & Hi).
        exists i. now exists l.
      * apply H2 in E. cbn in E. congruence.
      * split; [intros (i & l & H & _); discriminate|discriminate].
    + rewrite map_end_iff by assumption. unfold ends. destruct (assoc [] m0) as [[l|]|] eqn:E; cbn [snd].
      * apply H2 in E as [E _]. congruence.
      * tauto.
      * split; discriminate.
  - eexists _, _. split; [reflexivity|]. split; [|split].
    + intros n Hn. rewrite next_name by assumption. cbn [app].
      transitivity (exists j, In j (flat_map (succs (et_maps e) n) l)).
      * split.
        -- intros H. apply in_flat_map in H as (i & Hi & H). apply map_names_iff in H as (j & H); [|assumption|apply H3].
           exists j. apply in_flat_map. exists i. split; [exact Hi|]. apply has_succs, H.
        -- intros (j & H). apply in_flat_map in H as (i & Hi & H). apply in_flat_map. exists i. split; [exact Hi|].
           apply map_names_iff; [assumption|apply H3|]. exists j. apply has_succs, H.
      * destruct (flat_map _ l) as [|j l']; cbn; split.
        -- intros (j & []).
        -- discriminate.
        -- trivial.
        -- intros _. exists j. now left.
    + rewrite next_end by exact H3. destruct (existsb _ l); cbn; split; congruence.
    + intros H. apply in_flat_map in H as (i & _ & H). exact (Hne _ H).
  - exists [], false. split; [reflexivity|]. split; [|split].
    + intros n _. cbn. split; [tauto|discriminate].
    + cbn. split; discriminate.
    + intros [].
Qed.

(** ** Determinism *)
Lemma particles_forall M p : particles_deterministic M p = forallb (fun i => map_deterministic (M i)) (ids p).
Proof.
  induction p as [o i n|o l IH|o l IH] using cp_ind'.
  - cbn. now rewrite andb_true_r.
  - cbn [particles_deterministic ids]. induction l as [|c l IHl]; [reflexivity|].
    apply Forall_cons_iff in IH as [Hc HF]. cbn [flat_map]. rewrite forallb_app, Hc, IHl by exact HF. reflexivity.
  - cbn [particles_deterministic ids]. induction l as [|c l IHl]; [reflexivity|].
    apply Forall_cons_iff in IH as [Hc HF]. cbn [flat_map]. rewrite forallb_app, Hc, IHl by exact HF. reflexivity.
Qed.

Lemma deterministic_iff m : wf m ->
  (map_deterministic m = true <-> forall n i j, has m n i -> has m n j -> i = j).
Proof.
  intros [Hd Hok]. unfold map_deterministic. rewrite forallb_forall. split.
  - intros H n i j (l & Hl & Hi) (l' & Hl' & Hj). rewrite Hl in Hl'. injection Hl' as <-.
    apply assoc_in in Hl. specialize (H _ Hl). cbn in H. apply Nat.leb_le in H.
    destruct l as [|a [|b l]]; [destruct Hi| |cbn in H; lia].
    destruct Hi as [<-|[]], Hj as [<-|[]]. reflexivity.
  - intros H [n [l|]] Hin; [|reflexivity]. cbn. apply Nat.leb_le.
    apply in_assoc in Hin; [|exact Hd]. pose proof (Hok _ _ Hin) as (_ & _ & Hn).
    destruct l as [|a [|b l]]; cbn; try lia. exfalso.
    apply NoDup_cons_iff in Hn as [Hn _]. apply Hn. left. symmetry.
    apply (H n); exists (a :: b :: l); split; try exact Hin; [now left|right; now left].
Qed.

Lemma some_word p : inhabited p -> exists w, marked p w.
Proof.
  unfold marked. assert (Ho : forall o (L : list (str * nat) -> Prop) w, L w -> exists w, occurs o L w).
  { intros o L w H. destruct o; [exists w; exact H|exists w; now right|exists []; constructor|].
    exists w. exists w, []. rewrite app_nil_r. repeat split; [exact H|constructor]. }
  induction p as [o i n|o l IH|o l IH] using cp_ind'; intros Hi; cbn [words].
  - now apply (Ho o _ [(n, i)]).
  - destruct Hi as [Hl Hi]. destruct l as [|c l]; [congruence|].
    apply Forall_cons_iff in IH as [Hc _]. destruct (Hc (proj1 Hi)) as (w & Hw).
    apply (Ho o _ w). now left.
  - destruct Hi as [_ Hi]. fold (all_of mk).
    assert (exists w, all_of mk l w) as (w & Hw); [|exact (Ho o _ w Hw)].
    induction l as [|c l IHl]; [exists []; reflexivity|].
    apply Forall_cons_iff in IH as [Hc HF]. destruct (Hc (proj1 Hi)) as (w1 & H1).
    destruct (IHl HF (proj2 Hi)) as (w2 & H2). exists (w1 ++ w2), w1, w2. repeat split; assumption.
Qed.

Lemma some_all l : (fix all l := match l with
                              | [] => True
                              | c :: l' => inhabited c /\ all l'
                              end) l -> exists w, all_of mk l w.
Proof.
  induction l as [|c l IHl]; intros H; [exists []; reflexivity|].
  destruct (some_word c (proj1 H)) as (w1 & H1). destruct (IHl (proj2 H)) as (w2 & H2).
  exists (w1 ++ w2), w1, w2. repeat split; assumption.
Qed.

Lemma word_through p : inhabited p -> forall i, In i (ids p) ->
  exists w n, marked p w /\ In (n, i) w.
Proof.
  unfold marked.
  assert (Ho : forall o (L : list (str * nat) -> Prop) i, (exists w n, L w /\ In (n, i) w) ->
     exists w n, occurs o L w /\ In (n, i) w).
  { intros o L i (w & n & H & Hin). exists w, n. split; [|exact Hin]. destruct o; cbn.
    - exact H.
    - now right.
    - rewrite <- (app_nil_r w). constructor; [exact H|constructor].
    - exists w, []. rewrite app_nil_r. repeat split; [exact H|constructor]. }
  induction p as [o i0 n0|o l IH|o l IH] using cp_ind'; intros Hp i Hin; cbn [words].
  - apply Ho. exists [(n0, i0)], n0. destruct Hin as [<-|[]]. split; [reflexivity|now left].
  - apply Ho. fold (any_of mk). destruct Hp as [_ Hp]. cbn [ids] in Hin.
    induction l as [|c l IHl]; [destruct Hin|].
    apply Forall_cons_iff in IH as [Hc HF]. cbn [flat_map] in Hin. apply in_app_iff in Hin as [Hin|Hin].
    + destruct (Hc (proj1 Hp) i Hin) as (w & n & H1 & H2). exists w, n. split; [now left|exact H2].
    + destruct (IHl HF (proj2 Hp) Hin) as (w & n & H1 & H2). exists w, n. split; [now right|exact H2].
  - apply Ho. fold (all_of mk). destruct Hp as [_ Hp]. cbn [ids] in Hin.
    induction l as [|c l IHl]; [destruct Hin|].
    apply Forall_cons_iff in IH as [Hc HF]. cbn [flat_map] in Hin. apply in_app_iff in Hin as [Hin|Hin].
    + destruct (Hc (proj1 Hp) i Hin) as (w & n & H1 & H2).
      destruct (some_all l (proj2 Hp)) as (w2 & Hw2).
      exists (w ++ w2), n. split; [|apply in_app_iff; now left]. exists w, w2. repeat split; assumption.
    + destruct (some_word c (proj1 Hp)) as (w1 & Hw1).
      destruct (IHl HF (proj2 Hp) Hin) as (w & n & H1 & H2). exists (w1 ++ w), n.
      split; [|apply in_app_iff; now right]. exists w1, w. repeat split; assumption.
Qed.

Fixpoint after (M : nat -> pmap) (m : pmap) (u : list (str * nat)) : pmap :=
  match u with [] => m | (_, i) :: u' => after M (M i) u' end.
Fixpoint path (M : nat -> pmap) (m : pmap) (u : list (str * nat)) : Prop :=
  match u with [] => True | (n, i) :: u' => has m n i /\ path M (M i) u' end.

Lemma macc_app M u : forall m v,
  macc M m (u ++ v) <-> path M m u /\ macc M (after M m u) v.
Proof.
  induction u as [|[n i] u IH]; intros m v; cbn.
  - tauto.
  - rewrite IH. tauto.
Qed.

Lemma after_cases M u : forall m, after M m u = m \/ exists i, after M m u = M i.
Proof.
  induction u as [|[n i] u IH]; intros m; cbn; [now left|].
  right. destruct (IH (M i)) as [->|(k & ->)]; [now exists i|now exists k].
Qed.

Lemma after_snoc M u n i : forall m, after M m (u ++ [(n, i)]) = M i.
Proof. induction u as [|[n' i'] u IH]; intros m; cbn; [reflexivity|apply IH]. Qed.

Lemma is_deterministic_eq e p m0 : built e p m0 -> mc_model (et_content e) p -> is_group p ->
  IsDeterministic e = Ok (map_deterministic m0 && forallb (fun i => map_deterministic (et_maps e i)) (ids p)).
Proof.
  intros HB Hc Hr. unfold IsDeterministic. rewrite (b_map _ _ _ HB), <- particles_forall.
  destruct Hc as [-> | ->]; destruct p; try destruct Hr; reflexivity.
Qed.

Lemma through_children c p i : mc_model c p -> inhabited p -> In i (ids p) ->
  exists w n, marked_children c w /\ In (n, i) w.
Proof.
  intros Hc Hp Hi. destruct (word_through p Hp i Hi) as (w & n & H1 & H2). exists w, n. split; [|exact H2].
  destruct Hc as [-> | ->]; cbn; [exact H1|]. rewrite <- (app_nil_r w). constructor; [exact H1|constructor].
Qed.

Lemma built_det e p m0 : built e p m0 -> mc_model (et_content e) p -> is_group p -> inhabited p ->
  (IsDeterministic e = Ok true <-> ~ ambiguous (et_content e)).
Proof.
  intros HB Hc Hr Hp. rewrite (is_deterministic_eq e p m0 HB Hc Hr).
  assert (E : forall b, @Ok bool b = Ok true <-> b = true) by (intros b; split; congruence). rewrite E. clear E.
  rewrite andb_true_iff, forallb_forall. rewrite (deterministic_iff m0 (b_wf0 _ _ _ HB)).
  pose proof (b_lang _ _ _ HB) as HL. pose proof (b_wf _ _ _ HB) as HW.
  split.
  - intros [H0 H1] (u & n & i & j & v & v' & Hij & Hi & Hj). apply Hij.
    apply HL in Hi. apply HL in Hj.
    apply macc_app in Hi as (_ & Hi & _). apply macc_app in Hj as (_ & Hj & _).
    destruct (after_cases (et_maps e) u m0) as [Ea|(k & Ea)]; rewrite Ea in Hi, Hj; [exact (H0 n i j Hi Hj)|].
    destruct (b_ids _ _ _ HB k n i Hi) as [Hkp _].
    specialize (H1 k Hkp). exact (proj1 (deterministic_iff _ (HW k)) H1 n i j Hi Hj).
  - intros HA.
    assert (Hcomp : forall i, In i (ids p) -> exists v, macc (et_maps e) (et_maps e i) v).
    { intros i Hi. destruct (through_children _ p i Hc Hp Hi) as (w & n & H1 & H2).
      apply HL in H1. apply in_split in H2 as (a & b & ->).
      apply macc_app in H1 as (_ & _ & H1). now exists b. }
    split.
    + intros n i j Hi Hj. destruct (Nat.eq_dec i j) as [|Hij]; [assumption|exfalso; apply HA].
      destruct (Hcomp i (b_ids0 _ _ _ HB n i Hi)) as (v & Hv).
      destruct (Hcomp j (b_ids0 _ _ _ HB n j Hj)) as (v' & Hv').
      exists [], n, i, j, v, v'. split; [exact Hij|]. split; apply HL; cbn; tauto.
    + intros k Hk. apply deterministic_iff; [apply HW|].
      intros n i j Hi Hj. destruct (Nat.eq_dec i j) as [|Hij]; [assumption|exfalso; apply HA].
      destruct (Hcomp i (proj2 (b_ids _ _ _ HB k n i Hi))) as (v & Hv).
      destruct (Hcomp j (proj2 (b_ids _ _ _ HB k n j Hj))) as (v' & Hv').
      destruct (through_children _ p k Hc Hp Hk) as (w & n' & H1 & H2).
      apply HL in H1. apply in_split in H2 as (a & b & ->).
      replace (a ++ (n', k) :: b) with ((a ++ [(n', k)]) ++ b) in H1 by now rewrite <- app_assoc.
      apply macc_app in H1 as (H1 & _).
      exists (a ++ [(n', k)]), n, i, j, v, v'. split; [exact Hij|].
      split; apply HL, macc_app; rewrite after_snoc; cbn; tauto.
Qed.

(** A deterministic cursor never has to guess. *)
Lemma built_single e p m0 : built e p m0 -> mc_model (et_content e) p -> IsDeterministic e = Ok true ->
  forall w l, feed e StartState w = Some (ParticleState l) -> (length l <= 1)%nat.
Proof.
  intros HB Hc Hd.
  assert (Hr : is_group p).
  { unfold IsDeterministic in Hd. destruct Hc as [E|E]; rewrite E in Hd; destruct p; [discriminate Hd|exact I|exact I|discriminate Hd|exact I|exact I]. }
  rewrite (is_deterministic_eq e p m0 HB Hc Hr) in Hd. injection Hd as Hd.
  apply andb_true_iff in Hd as [H0 H1]. rewrite forallb_forall in H1.
  assert (HM : forall k n l, assoc n (et_maps e k) = Some (Some l) -> (length l <= 1)%nat).
  { intros k n l E. pose proof (b_wf _ _ _ HB k) as [_ Hok]. pose proof (Hok _ _ E) as (_ & Hne & _).
    apply nonempty_in in Hne as (i & Hi).
    destruct (b_ids _ _ _ HB k n i) as [Hk _]; [now exists l|].
    specialize (H1 k Hk). unfold map_deterministic in H1. rewrite forallb_forall in H1.
    apply assoc_in in E. specialize (H1 _ E). now apply Nat.leb_le. }
  assert (HP : forall w l l', (length l <= 1)%nat -> feed e (ParticleState l) w = Some (ParticleState l') -> (length l' <= 1)%nat).
  { induction w as [|n w IH]; intros l l' Hl Hf; cbn [feed] in Hf; [injection Hf as <-; exact Hl|].
    destruct (list_eq_dec Z.eq_dec n []) as [->|Hn].
    - exfalso. cbn [Next] in Hf. rewrite next_end in Hf by apply (b_wf _ _ _ HB).
      destruct (existsb _ l); [|discriminate]. destruct w; discriminate.
    - cbn [Next] in Hf. rewrite next_name in Hf by (try assumption; apply (b_wf _ _ _ HB)). cbn [app] in Hf.
      destruct (flat_map _ l) as [|x l1] eqn:E; [discriminate|]. apply (IH _ _) in Hf; [exact Hf|].
      rewrite <- E. destruct l as [|k [|k' l]]; [cbn; lia| |cbn in Hl; lia].
      cbn [flat_map]. rewrite app_nil_r. unfold succs. destruct (assoc n (et_maps e k)) as [[ps|]|] eqn:E'; [|cbn; lia|cbn; lia].
      exact (HM k n ps E'). }
  intros w l Hf. destruct w as [|n w]; [discriminate|]. cbn [feed Next] in Hf.
  rewrite (b_map _ _ _ HB) in Hf. destruct (assoc n m0) as [[l0|]|] eqn:E; [|destruct w; discriminate|discriminate].
  apply (HP w l0 l); [|exact Hf]. unfold map_deterministic in H0. rewrite forallb_forall in H0.
  apply assoc_in in E. specialize (H0 _ E). now apply Nat.leb_le.
Qed.


(** ** Mixed content *)
Lemma mixed_letters l w : marked (mixed_model l) w -> Forall (fun x => In (snd x, fst x) l) w.
Proof.
  unfold marked, mixed_model. cbn [words occurs]. fold (any_of mk). intros H.
  induction H as [|w1 w2 H1 _ IH]; [constructor|]. apply Forall_app. split; [|exact IH]. clear IH.
  induction l as [|[i n] l IHl]; cbn in H1; [destruct H1|]. destruct H1 as [->|H1].
  - constructor; [now left|constructor].
  - apply (Forall_impl _ (P := fun x => In (snd x, fst x) l)); [|exact (IHl H1)]. intros x Hx. now right.
Qed.

Lemma mixed_word l w : Forall (fun x => In (snd x, fst x) l) w -> marked (mixed_model l) w.
Proof.
  unfold marked, mixed_model. cbn [words occurs]. fold (any_of mk).
  induction 1 as [|[n i] w H _ IH]; [constructor|]. change ((n, i) :: w) with ([(n, i)] ++ w). constructor; [|exact IH].
  cbn in H. clear IH. induction l as [|[i' n'] l IHl]; [destruct H|]. cbn.
  destruct H as [E|H]; [injection E as -> ->; now left|right; exact (IHl H)].
Qed.

Lemma mixed_children l w : marked_children (Mixed (mixed_model l)) w <-> Forall (fun x => In (snd x, fst x) l) w.
Proof.
  cbn. split.
  - induction 1 as [|w1 w2 H1 _ IH]; [constructor|]. apply Forall_app. split; [apply mixed_letters, H1|exact IH].
  - intros H. rewrite <- (app_nil_r w). constructor; [apply mixed_word, H|constructor].
Qed.

Lemma mixed_valid l w :
  valid_children (Mixed (mixed_model l)) w <-> Forall (fun n => In n (map snd l)) w.
Proof.
  rewrite (children_marked _ (mixed_model l)) by now right. split.
  - intros (v & Hv & <-). apply mixed_children in Hv. apply Forall_map.
    apply (Forall_impl _ (P := fun x => In (snd x, fst x) l)); [|exact Hv].
    intros [n i] H. cbn in *. apply in_map_iff. now exists (i, n).
  - intros H. assert (exists v, Forall (fun x => In (snd x, fst x) l) v /\ map fst v = w) as (v & Hv & E).
    + induction H as [|n w Hn _ (v & Hv & <-)]; [exists []; split; [constructor|reflexivity]|].
      apply in_map_iff in Hn as ([i n'] & E & Hi). cbn in E. subst n'.
      exists ((n, i) :: v). split; [constructor; assumption|reflexivity].
    + exists v. split; [|exact E]. now apply mixed_children.
Qed.

Lemma nodup_snd (l : list (nat * str)) : NoDup (map fst l) ->
  (NoDup (map snd l) <-> forall i j n, In (i, n) l -> In (j, n) l -> i = j).
Proof.
  induction l as [|[i n] l IH]; cbn [map fst snd]; intros Hd.
  - split; [intros _ i j n []|constructor].
  - apply NoDup_cons_iff in Hd as [Hi Hd]. rewrite NoDup_cons_iff, (IH Hd). split.
    + intros [H1 H2] a b m [E|Ha] [E'|Hb].
      * congruence.
      * injection E as -> ->. exfalso. apply H1. apply in_map_iff. now exists (b, m).
      * injection E' as -> ->. exfalso. apply H1. apply in_map_iff. now exists (a, m).
      * exact (H2 a b m Ha Hb).
    + intros H. split.
      * intros Hn. apply in_map_iff in Hn as ([j m] & E & Hj). cbn in E. subst m.
        assert (i = j) as ->; [exact (H i j n (or_introl eq_refl) (or_intror Hj))|].
        apply Hi. apply in_map_iff. now exists (j, n).
      * intros a b m Ha Hb. exact (H a b m (or_intror Ha) (or_intror Hb)).
Qed.

Lemma mixed_parsed l : NoDup (map fst l) -> ~ In [] (map snd l) -> parsed (mixed_model l).
Proof.
  intros H1 H2. unfold parsed, mixed_model. cbn [ids names].
  assert (E1 : flat_map ids (map (fun x : nat * str => PName Once (fst x) (snd x)) l) = map fst l)
    by (clear; induction l as [|x l IH]; [reflexivity|cbn; f_equal; exact IH]).
  assert (E2 : flat_map names (map (fun x : nat * str => PName Once (fst x) (snd x)) l) = map snd l)
    by (clear; induction l as [|x l IH]; [reflexivity|cbn; f_equal; exact IH]).
  rewrite E1, E2. tauto.
Qed.

Lemma mixed_ambiguous l : NoDup (map fst l) ->
  (~ ambiguous (Mixed (mixed_model l)) <-> NoDup (map snd l)).
Proof.
  intros Hd. rewrite (nodup_snd l Hd). split.
  - intros HA i j n Hi Hj. destruct (Nat.eq_dec i j) as [|Hij]; [assumption|]. exfalso. apply HA.
    exists [], n, i, j, [], []. split; [exact Hij|].
    split; apply mixed_children; (constructor; [assumption|constructor]).
  - intros H (u & n & i & j & v & v' & Hij & Hi & Hj). apply Hij.
    apply mixed_children in Hi. apply mixed_children in Hj.
    apply Forall_app in Hi as [_ Hi]. apply Forall_app in Hj as [_ Hj].
    apply Forall_cons_iff in Hi as [Hi _]. apply Forall_cons_iff in Hj as [Hj _]. exact (H i j n Hi Hj).
Qed.

Lemma mixed_det name l : NoDup (map fst l) -> ~ In [] (map snd l) ->
  (IsDeterministic (BuildModel name (Mixed (mixed_model l))) = Ok true <-> NoDup (map snd l)).
Proof.
  intros H1 H2. destruct l as [|x l]; [cbn; split; [constructor|reflexivity]|].
  pose proof (mixed_parsed _ H1 H2) as HP. destruct (build_mixed name _ HP) as (m0 & HB).
  rewrite (built_det _ _ _ HB); [|now right|exact I|].
  - apply mixed_ambiguous, H1.
  - cbn. split; [discriminate|]. split; [exact I|]. clear. induction l as [|y l IH]; cbn; tauto.
Qed.

(** ** Validity errors reported by the parser *)
Lemma check_none e tags : CheckExpectedParticles e None tags = Ok 0%nat.
Proof. induction tags as [|t tags IH]; [reflexivity|exact IH]. Qed.

Lemma check_count e : (forall c, is_ok (Expected e c) = true) -> forall w c,
  (reaches_end e c w /\ CheckExpectedParticles e (Some c) (w ++ [[]]) = Ok 0%nat) \/
  (~ reaches_end e c w /\ CheckExpectedParticles e (Some c) (w ++ [[]]) = Ok 1%nat).
Proof.
  intros HE. induction w as [|n w IH]; intros c.
  - cbn [app CheckExpectedParticles]. destruct (Next e c []) as [c1 [|]] eqn:E.
    + left. split; [|reflexivity]. exists c. split; [reflexivity|]. now rewrite E.
    + right. split.
      * intros (c' & [= <-] & H). rewrite E in H. discriminate.
      * specialize (HE c1). destruct (Expected e c1); [reflexivity|discriminate].
  - cbn [app CheckExpectedParticles]. unfold reaches_end. cbn [feed].
    destruct (Next e c n) as [c1 [|]] eqn:E.
    + exact (IH c1).
    + right. split; [intros (c' & H & _); discriminate|].
      specialize (HE c1). destruct (Expected e c1); [|discriminate]. cbn [bind].
      now rewrite check_none.
Qed.
