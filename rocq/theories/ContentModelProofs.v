(** Correctness of the particle maps and of the cursor. *)
From Verif Require Import Py XmlUtils ContentModel ContentModelSpec.

Lemma cp_ind' (P : cp -> Prop)
  (Hn : forall o i n, P (PName o i n))
  (Hc : forall o l, Forall P l -> P (PChoice o l))
  (Hs : forall o l, Forall P l -> P (PSeq o l)) : forall p, P p.
Proof.
  fix IH 1. intros [o i n|o l|o l].
  - apply Hn.
  - apply Hc. induction l as [|c l IHl]; constructor; [apply IH|exact IHl].
  - apply Hs. induction l as [|c l IHl]; constructor; [apply IH|exact IHl].
Qed.

(** ** Particle maps as sets *)
Definition has (m : pmap) (n : str) (i : nat) : Prop :=
  exists l, assoc n m = Some (Some l) /\ In i l.
Definition ends (m : pmap) : Prop := assoc [] m = Some None.
Definition entry_ok (n : str) (v : option (list nat)) : Prop :=
  match v with None => n = [] | Some l => n <> [] /\ l <> [] /\ NoDup l end.
Definition wf (m : pmap) : Prop :=
  NoDup (map fst m) /\ forall n v, assoc n m = Some v -> entry_ok n v.

Lemma str_eqb_neq s t : s <> t -> str_eqb s t = false.
Proof. destruct (str_eqb s t) eqn:E; [apply str_eqb_eq in E; congruence|reflexivity]. Qed.

Lemma assoc_pset k v m k' :
  assoc k' (pset k v m) = if str_eqb k' k then Some v else assoc k' m.
Proof.
  induction m as [|[a b] m IH]; cbn [pset assoc].
  - reflexivity.
  - destruct (str_eqb k a) eqn:E.
    + apply str_eqb_eq in E; subst a. cbn [assoc]. destruct (str_eqb k' k); reflexivity.
    + cbn [assoc]. rewrite IH. destruct (str_eqb k' a) eqn:E1; [|reflexivity].
      apply str_eqb_eq in E1; subst a.
      destruct (str_eqb k' k) eqn:E2; [|reflexivity].
      apply str_eqb_eq in E2; subst. rewrite str_eqb_refl in E. discriminate.
Qed.

Lemma keys_pset k v m x : In x (map fst (pset k v m)) -> x = k \/ In x (map fst m).
Proof.
  induction m as [|[a b] m IH]; cbn.
  - intros [<-|[]]. now left.
  - destruct (str_eqb k a) eqn:E; cbn.
    + intros [<-|H]; [now left|right; right; exact H].
    + intros [<-|H]; [right; now left|]. destruct (IH H) as [->|H1]; [now left|right; now right].
Qed.

Lemma nodup_pset k v m : NoDup (map fst m) -> NoDup (map fst (pset k v m)).
Proof.
  induction m as [|[a b] m IH]; cbn.
  - intros _. constructor; [intros []|constructor].
  - intros H. apply NoDup_cons_iff in H as [Ha H].
    destruct (str_eqb k a) eqn:E; cbn.
    + apply str_eqb_eq in E; subst a. now constructor.
    + constructor; [|apply IH, H]. intros Hin. apply keys_pset in Hin as [->|Hin]; [|tauto].
      rewrite str_eqb_refl in E. discriminate.
Qed.

Lemma assoc_in {A} k (v : A) m : assoc k m = Some v -> In (k, v) m.
Proof.
  induction m as [|[a b] m IH]; cbn; [discriminate|].
  destruct (str_eqb k a) eqn:E.
  - intros [= <-]. apply str_eqb_eq in E; subst. now left.
  - intros H. right. apply IH, H.
Qed.

Lemma in_assoc {A} k (v : A) m : NoDup (map fst m) -> In (k, v) m -> assoc k m = Some v.
Proof.
  induction m as [|[a b] m IH]; cbn; [intros _ []|].
  intros Hn. apply NoDup_cons_iff in Hn as [Ha Hn]. intros [[= -> ->]|H].
  - now rewrite str_eqb_refl.
  - destruct (str_eqb k a) eqn:E; [|apply IH; assumption].
    apply str_eqb_eq in E; subst. exfalso. apply Ha.
    apply in_map_iff. exists (a, v). now split.
Qed.

Lemma wf_pset k v m : wf m -> entry_ok k v -> wf (pset k v m).
Proof.
  intros [H1 H2] He. split; [apply nodup_pset, H1|].
  intros n x. rewrite assoc_pset. destruct (str_eqb n k) eqn:E; [|apply H2].
  intros [= <-]. apply str_eqb_eq in E; subst. exact He.
Qed.

Lemma add1_in l i x : In x (add1 l i) <-> In x l \/ x = i.
Proof.
  unfold add1. destruct (existsb (Nat.eqb i) l) eqn:E.
  - apply existsb_exists in E as (y & Hy & E). apply Nat.eqb_eq in E. subst y.
    split; [tauto|intros [H| ->]; assumption].
  - rewrite in_app_iff. cbn. split; intros [H|H]; auto.
    + destruct H as [<-|[]]. now right.
Qed.

Lemma NoDup_snoc {A} (l : list A) i : NoDup l -> ~ In i l -> NoDup (l ++ [i]).
Proof.
  induction l as [|a l IH]; cbn; intros H Hi.
  - constructor; [intros []|constructor].
  - apply NoDup_cons_iff in H as [Ha H]. constructor.
    + rewrite in_app_iff. cbn. intros [H1|[<-|[]]]; [tauto|]. apply Hi. now left.
    + apply IH; tauto.
Qed.

Lemma add1_nodup l i : NoDup l -> NoDup (add1 l i).
Proof.
  unfold add1. intros H. destruct (existsb (Nat.eqb i) l) eqn:E; [exact H|].
  apply NoDup_snoc; [exact H|]. intros Hi.
  assert (existsb (Nat.eqb i) l = true); [|congruence].
  apply existsb_exists. exists i. split; [exact Hi|apply Nat.eqb_refl].
Qed.

Lemma add1_fold s : forall t,
  (forall x, In x (fold_left add1 s t) <-> In x t \/ In x s) /\
  (NoDup t -> NoDup (fold_left add1 s t)).
Proof.
  induction s as [|a s IH]; cbn; intros t.
  - split; [intros x; tauto|tauto].
  - destruct (IH (add1 t a)) as [H1 H2]. split.
    + intros x. rewrite H1, add1_in. split; intros H; intuition.
    + intros Hn. apply H2, add1_nodup, Hn.
Qed.

Lemma in_nonempty {A} (x : A) l : In x l -> l <> [].
Proof. destruct l; [intros []|discriminate]. Qed.
Lemma nonempty_in {A} (l : list A) : l <> [] -> exists x, In x l.
Proof. destruct l as [|a l]; [congruence|]. exists a. now left. Qed.

Lemma add_entry_spec n0 v0 m : wf m -> entry_ok n0 v0 ->
  wf (add_entry (n0, v0) m) /\
  (forall n i, has (add_entry (n0, v0) m) n i <->
     has m n i \/ (n = n0 /\ exists l, v0 = Some l /\ In i l)) /\
  (ends (add_entry (n0, v0) m) <-> ends m \/ v0 = None).
Proof.
  intros Hw He. pose proof Hw as [Hnd Hok]. unfold add_entry.
  destruct (assoc n0 m) as [t|] eqn:Ea.
  - pose proof (Hok _ _ Ea) as Ht. destruct t as [t|].
    + destruct v0 as [s|]; cbn in He, Ht; [|tauto].
      destruct Ht as (Hne & Htn & Htd). destruct He as (_ & Hsn & Hsd).
      destruct (add1_fold s t) as [Hf1 Hf2].
      repeat split.
      * apply nodup_pset, Hnd.
      * intros n v. rewrite assoc_pset. destruct (str_eqb n n0) eqn:E; [|apply Hok].
        intros [= <-]. apply str_eqb_eq in E; subst n0. repeat split; [exact Hne| |apply Hf2, Htd].
        destruct (nonempty_in _ Hsn) as [x Hx]. apply (in_nonempty x). apply Hf1. now right.
      * intros (l & Hl & Hi). rewrite assoc_pset in Hl. destruct (str_eqb n n0) eqn:E.
        -- apply str_eqb_eq in E; subst n0. injection Hl as <-. apply Hf1 in Hi as [Hi|Hi].
           ++ left. now exists t.
           ++ right. split; [reflexivity|]. now exists s.
        -- left. now exists l.
      * intros [(l & Hl & Hi)|(-> & l & [= <-] & Hi)].
        -- unfold has. rewrite assoc_pset. destruct (str_eqb n n0) eqn:E.
           ++ apply str_eqb_eq in E; subst n0. eexists; split; [reflexivity|].
              apply Hf1. left. congruence.
           ++ now exists l.
        -- unfold has. rewrite assoc_pset, str_eqb_refl. eexists; split; [reflexivity|].
           apply Hf1. now right.
      * unfold ends. rewrite assoc_pset. rewrite str_eqb_neq by congruence. tauto.
      * unfold ends. rewrite assoc_pset. rewrite str_eqb_neq by congruence. intros [H|H]; [exact H|discriminate].
    + cbn in Ht. subst n0. destruct v0 as [s|]; cbn in He; [tauto|].
      split; [exact Hw|]. split.
      * intros n i. split; [now left|]. intros [H|(_ & l & H & _)]; [exact H|discriminate].
      * split; [now left|]. intros _. exact Ea.
  - destruct v0 as [s|]; cbn in He.
    + destruct He as (Hne & Hsn & Hsd). destruct n0 as [|z n0]; [congruence|].
      destruct (add1_fold s []) as [Hf1 Hf2].
      repeat split.
      * apply nodup_pset, nodup_pset, Hnd.
      * intros n v. rewrite !assoc_pset. destruct (str_eqb n (z :: n0)) eqn:E; [|apply Hok].
        intros [= <-]. apply str_eqb_eq in E; subst n. repeat split; [exact Hne| |apply Hf2; constructor].
        destruct (nonempty_in _ Hsn) as [x Hx]. apply (in_nonempty x). apply Hf1. now right.
      * intros (l & Hl & Hi). rewrite !assoc_pset in Hl. destruct (str_eqb n (z :: n0)) eqn:E.
        -- apply str_eqb_eq in E; subst n. injection Hl as <-. apply Hf1 in Hi as [[]|Hi].
           right. split; [reflexivity|]. now exists s.
        -- left. now exists l.
      * intros [(l & Hl & Hi)|(-> & l & [= <-] & Hi)].
        -- unfold has. rewrite !assoc_pset. destruct (str_eqb n (z :: n0)) eqn:E.
           ++ apply str_eqb_eq in E; subst n. congruence.
           ++ now exists l.
        -- unfold has. rewrite assoc_pset, str_eqb_refl. eexists; split; [reflexivity|].
           apply Hf1. now right.
      * unfold ends. rewrite !assoc_pset. cbn [str_eqb]. tauto.
      * unfold ends. rewrite !assoc_pset. cbn [str_eqb]. intros [H|H]; [exact H|discriminate].
    + subst n0. repeat split.
      * apply nodup_pset, Hnd.
      * intros n v. rewrite assoc_pset. destruct (str_eqb n []) eqn:E; [|apply Hok].
        intros [= <-]. apply str_eqb_eq in E. exact E.
      * intros (l & Hl & Hi). rewrite assoc_pset in Hl. destruct (str_eqb n []) eqn:E; [discriminate|].
        left. now exists l.
      * intros [(l & Hl & Hi)|(_ & l & H & _)]; [|discriminate].
        unfold has. rewrite assoc_pset. destruct (str_eqb n []) eqn:E.
        -- apply str_eqb_eq in E; subst n. congruence.
        -- now exists l.
      * intros _. now right.
      * intros _. unfold ends. now rewrite assoc_pset, str_eqb_refl.
Qed.

Lemma AddParticles_gen src : forall m, wf m ->
  (forall n v, In (n, v) src -> entry_ok n v) ->
  wf (AddParticles src m) /\
  (forall n i, has (AddParticles src m) n i <->
     has m n i \/ exists l, In (n, Some l) src /\ In i l) /\
  (ends (AddParticles src m) <-> ends m \/ In ([], None) src).
Proof.
  unfold AddParticles. induction src as [|[n0 v0] src IH]; cbn [fold_left]; intros m Hw He.
  - split; [exact Hw|]. split.
    + intros n i. split; [tauto|intros [H|(l & [] & _)]; exact H].
    + split; [tauto|intros [H|[]]; exact H].
  - destruct (add_entry_spec n0 v0 m Hw (He _ _ (or_introl eq_refl))) as (W & Ha & Hb).
    destruct (IH _ W (fun n v H => He n v (or_intror H))) as (W' & Ha' & Hb').
    split; [exact W'|]. split.
    + intros n i. rewrite Ha', Ha. split.
      * intros [[H|(-> & l & -> & Hi)]|(l & Hl & Hi)].
        -- now left.
        -- right. exists l. split; [now left|exact Hi].
        -- right. exists l. split; [now right|exact Hi].
      * intros [H|(l & [[= <- ->]|Hl] & Hi)].
        -- left. now left.
        -- left. right. split; [reflexivity|]. now exists l.
        -- right. now exists l.
    + rewrite Hb', Hb. split.
      * intros [[H|H]|H]; [now left| |right; now right].
        subst v0. right. left. f_equal. exact (He n0 None (or_introl eq_refl)).
      * intros [H|[[= _ H]|H]]; [left; now left|left; now right|now right].
Qed.

Lemma AddParticles_spec src m : wf src -> wf m ->
  wf (AddParticles src m) /\
  (forall n i, has (AddParticles src m) n i <-> has src n i \/ has m n i) /\
  (ends (AddParticles src m) <-> ends src \/ ends m).
Proof.
  intros [Sn So] Hm. destruct (AddParticles_gen src m Hm) as (W & A & B).
  - intros n v H. apply So. now apply in_assoc.
  - split; [exact W|]. split.
    + intros n i. rewrite A. split.
      * intros [H|(l & H1 & H2)]; [now right|]. left. exists l. split; [|exact H2]. now apply in_assoc.
      * intros [(l & H1 & H2)|H]; [|now left]. right. exists l. split; [|exact H2]. now apply assoc_in.
    + rewrite B. split.
      * intros [H|H]; [now right|left]. now apply in_assoc.
      * intros [H|H]; [right|now left]. now apply assoc_in.
Qed.

Lemma seek_name_spec id name m : wf m -> name <> [] ->
  wf (seek_name id name m) /\
  (forall n i, has (seek_name id name m) n i <-> has m n i \/ (n = name /\ i = id)) /\
  (ends (seek_name id name m) <-> ends m).
Proof.
  intros Hw Hn. pose proof Hw as [Hnd Hok]. unfold seek_name.
  destruct (assoc name m) as [[t|]|] eqn:Ea.
  - pose proof (Hok _ _ Ea) as (_ & Htn & Htd).
    split; [|split].
    + apply wf_pset; [exact Hw|]. split; [exact Hn|]. split; [|apply add1_nodup, Htd].
      apply (in_nonempty id). apply add1_in. now right.
    + intros n i. unfold has. rewrite assoc_pset. destruct (str_eqb n name) eqn:E.
      * apply str_eqb_eq in E; subst n. split.
        -- intros (l & [= <-] & Hi). apply add1_in in Hi as [Hi| ->]; [left; now exists t|now right].
        -- intros [(l & Hl & Hi)|(_ & ->)]; eexists; (split; [reflexivity|]); apply add1_in;
             [left; congruence|now right].
      * split; [intros H; now left|]. intros [H|(-> & _)]; [exact H|].
        rewrite str_eqb_refl in E. discriminate.
    + unfold ends. rewrite assoc_pset, str_eqb_neq by congruence. tauto.
  - pose proof (Hok _ _ Ea) as H. cbn in H. congruence.
  - split; [|split].
    + apply wf_pset; [exact Hw|]. repeat split; [exact Hn|discriminate|].
      constructor; [intros []|constructor].
    + intros n i. unfold has. rewrite assoc_pset. destruct (str_eqb n name) eqn:E.
      * apply str_eqb_eq in E; subst n. split.
        -- intros (l & [= <-] & [<-|[]]). now right.
        -- intros [(l & Hl & Hi)|(_ & ->)]; [congruence|]. eexists; split; [reflexivity|now left].
      * split; [intros H; now left|]. intros [H|(-> & _)]; [exact H|].
        rewrite str_eqb_refl in E. discriminate.
    + unfold ends. rewrite assoc_pset, str_eqb_neq by congruence. tauto.
Qed.

(** ** Entry particles *)
Fixpoint nullable (p : cp) : bool :=
  match p with
  | PName o _ _ => negb (required o)
  | PChoice o l => negb (required o) || existsb nullable l
  | PSeq o l => negb (required o) || forallb nullable l
  end.

Fixpoint firsts (p : cp) : list (str * nat) :=
  match p with
  | PName _ i n => [(n, i)]
  | PChoice _ l => flat_map firsts l
  | PSeq _ l =>
      (fix go l := match l with
                   | [] => []
                   | c :: l' => firsts c ++ (if nullable c then go l' else [])
                   end) l
  end.
Definition firsts_seq := fix go l := match l with
                   | [] => []
                   | c :: l' => firsts c ++ (if nullable c then go l' else [])
                   end.

Definition seek_choice := fix go l (m : pmap) req :=
         match l with
         | [] => (m, req)
         | c :: l' => let '(m', r) := SeekParticles c m in go l' m' (req && r)
         end.
Definition seek_seq := fix go l (m : pmap) :=
           match l with
           | [] => (m, false)
           | c :: l' =>
               let '(m', r) := SeekParticles c m in
               if r then (m', true) else go l' m'
           end.

Definition seek_ok (p : cp) : Prop :=
  ~ In [] (names p) -> forall m, wf m ->
    wf (fst (SeekParticles p m)) /\
    (forall n i, has (fst (SeekParticles p m)) n i <-> has m n i \/ In (n, i) (firsts p)) /\
    (ends (fst (SeekParticles p m)) <-> ends m) /\
    snd (SeekParticles p m) = negb (nullable p).

Lemma seek_choice_ok l : Forall seek_ok l -> ~ In [] (flat_map names l) ->
  forall m req, wf m ->
    wf (fst (seek_choice l m req)) /\
    (forall n i, has (fst (seek_choice l m req)) n i <-> has m n i \/ In (n, i) (flat_map firsts l)) /\
    (ends (fst (seek_choice l m req)) <-> ends m) /\
    snd (seek_choice l m req) = req && negb (existsb nullable l).
Proof.
  induction l as [|c l IH]; cbn [seek_choice flat_map existsb]; intros HF HN m req Hw.
  - cbn [fst snd negb]. split; [exact Hw|]. split; [|split; [reflexivity|now rewrite andb_true_r]].
    intros n i. cbn. tauto.
  - apply Forall_cons_iff in HF as [Hc HF]. rewrite in_app_iff in HN.
    destruct (Hc (fun H => HN (or_introl H)) m Hw) as (W & A & B & C).
    destruct (SeekParticles c m) as [m1 r]. cbn [fst snd] in *.
    destruct (IH HF (fun H => HN (or_intror H)) m1 (req && r) W) as (W' & A' & B' & C').
    split; [exact W'|]. split; [|split].
    + intros n i. rewrite A', A, in_app_iff. tauto.
    + rewrite B'. exact B.
    + rewrite C', C, negb_orb. now rewrite andb_assoc.
Qed.

Lemma seek_seq_ok l : Forall seek_ok l -> ~ In [] (flat_map names l) ->
  forall m, wf m ->
    wf (fst (seek_seq l m)) /\
    (forall n i, has (fst (seek_seq l m)) n i <-> has m n i \/ In (n, i) (firsts_seq l)) /\
    (ends (fst (seek_seq l m)) <-> ends m) /\
    snd (seek_seq l m) = negb (forallb nullable l).
Proof.
  induction l as [|c l IH]; cbn [seek_seq flat_map forallb firsts_seq]; intros HF HN m Hw.
  - cbn [fst snd negb]. split; [exact Hw|]. split; [|split; reflexivity].
    intros n i. cbn. tauto.
  - apply Forall_cons_iff in HF as [Hc HF]. rewrite in_app_iff in HN.
    destruct (Hc (fun H => HN (or_introl H)) m Hw) as (W & A & B & C).
    destruct (SeekParticles c m) as [m1 r]. cbn [fst snd] in *. subst r.
    destruct (nullable c); cbn [negb andb].
    + destruct (IH HF (fun H => HN (or_intror H)) m1 W) as (W' & A' & B' & C').
      split; [exact W'|]. split; [|split].
      * intros n i. rewrite A', A, in_app_iff. tauto.
      * rewrite B'. exact B.
      * exact C'.
    + cbn [fst snd]. split; [exact W|]. split; [|split]; [|exact B|reflexivity].
      intros n i. rewrite A, app_nil_r. tauto.
Qed.

Lemma seek_spec p : seek_ok p.
Proof.
  induction p as [o i n|o l IH|o l IH] using cp_ind'; intros HN m Hw.
  - cbn [SeekParticles fst snd nullable firsts]. cbn in HN.
    destruct (seek_name_spec i n m Hw) as (W & A & B); [intros ->; apply HN; now left|].
    split; [exact W|]. split; [|split]; [|exact B|now rewrite negb_involutive].
    intros n' i'. rewrite A. cbn. split.
    + intros [H|(-> & ->)]; [now left|right; now left].
    + intros [H|[[= -> ->]|[]]]; [now left|now right].
  - destruct (seek_choice_ok l IH HN m (required o) Hw) as (W & A & B & C).
    cbn [SeekParticles]. fold seek_choice.
    split; [exact W|]. split; [exact A|]. split; [exact B|].
    rewrite C. cbn [nullable]. now rewrite negb_orb, negb_involutive.
  - destruct (seek_seq_ok l IH HN m Hw) as (W & A & B & C).
    cbn [SeekParticles firsts nullable]. fold seek_seq firsts_seq.
    destruct (seek_seq l m) as [m' r]. cbn [fst snd] in *.
    split; [exact W|]. split; [exact A|]. split; [exact B|].
    rewrite C. rewrite negb_orb, negb_involutive. apply andb_comm.
Qed.

Lemma wf_nil : wf [].
Proof. split; [constructor|]. intros n v H. discriminate H. Qed.
Lemma has_nil n i : ~ has [] n i.
Proof. intros (l & H & _). discriminate H. Qed.
Lemma ends_nil : ~ ends [].
Proof. unfold ends. cbn. discriminate. Qed.

Lemma new_exits_spec p o exits : ~ In [] (names p) -> wf exits ->
  wf (new_exits p o exits) /\
  (forall n i, has (new_exits p o exits) n i <->
     (repeatable o = true /\ In (n, i) (firsts p)) \/ has exits n i) /\
  (ends (new_exits p o exits) <-> ends exits).
Proof.
  intros HN Hw. unfold new_exits. destruct (repeatable o).
  - destruct (seek_spec p HN [] wf_nil) as (W & A & B & _).
    destruct (AddParticles_spec exits _ Hw W) as (W' & A' & B').
    split; [exact W'|]. split.
    + intros n i. rewrite A', A. pose proof (has_nil n i). tauto.
    + rewrite B', B. pose proof ends_nil. tauto.
  - destruct (AddParticles_spec exits [] Hw wf_nil) as (W' & A' & B').
    split; [exact W'|]. split.
    + intros n i. rewrite A'. pose proof (has_nil n i). split; [tauto|]. intros [(H1 & _)|H1]; [discriminate|tauto].
    + rewrite B'. pose proof ends_nil. tauto.
Qed.

Lemma child_exits_spec l : ~ In [] (flat_map names l) ->
  forall ne m, wf ne -> wf m ->
    wf (child_exits l ne m) /\
    (forall n i, has (child_exits l ne m) n i <->
       has m n i \/ In (n, i) (firsts_seq l) \/ (forallb nullable l = true /\ has ne n i)) /\
    (ends (child_exits l ne m) <-> ends m \/ (forallb nullable l = true /\ ends ne)).
Proof.
  induction l as [|c l IH]; cbn [child_exits flat_map forallb firsts_seq]; intros HN ne m Hne Hm.
  - destruct (AddParticles_spec ne m Hne Hm) as (W & A & B).
    split; [exact W|]. split.
    + intros n i. rewrite A. cbn. tauto.
    + rewrite B. tauto.
  - rewrite in_app_iff in HN.
    destruct (seek_spec c (fun H => HN (or_introl H)) m Hm) as (W & A & B & C).
    destruct (SeekParticles c m) as [m1 r]. cbn [fst snd] in *. subst r.
    destruct (nullable c); cbn [negb andb].
    + destruct (IH (fun H => HN (or_intror H)) ne m1 Hne W) as (W' & A' & B').
      split; [exact W'|]. split.
      * intros n i. rewrite A', A, in_app_iff. tauto.
      * rewrite B', B. tauto.
    + split; [exact W|]. split.
      * intros n i. rewrite A, app_nil_r. split; [tauto|]. intros [H|[H|(H & _)]]; [tauto|tauto|discriminate].
      * rewrite B. split; [tauto|]. intros [H|(H & _)]; [exact H|discriminate].
Qed.

(** ** Marked words and the maps *)
Fixpoint macc (M : nat -> pmap) (m : pmap) (w : list (str * nat)) : Prop :=
  match w with
  | [] => ends m
  | (n, i) :: w' => has m n i /\ macc M (M i) w'
  end.
Definition facc (M : nat -> pmap) (fs : list (str * nat)) (w : list (str * nat)) : Prop :=
  match w with
  | [] => False
  | (n, i) :: w' => In (n, i) fs /\ macc M (M i) w'
  end.

Lemma macc_union M m' fs m (R : Prop) w :
  (forall n i, has m' n i <-> (R /\ In (n, i) fs) \/ has m n i) ->
  (ends m' <-> ends m) ->
  (macc M m' w <-> (R /\ facc M fs w) \/ macc M m w).
Proof.
  intros A B. destruct w as [|[n i] w]; cbn.
  - rewrite B. tauto.
  - rewrite A. tauto.
Qed.

Definition links (M : nat -> pmap) (fs : list (str * nat)) (L : list (str * nat) -> Prop)
  (exits : pmap) : Prop :=
  forall w, facc M fs w <->
    exists w1 w2, w = w1 ++ w2 /\ w1 <> [] /\ L w1 /\ macc M exits w2.

(** The occurrence operators, given the corresponding fact for their body. *)
Lemma occ_links M fs L exits ne o :
  (forall n i, has ne n i <-> (repeatable o = true /\ In (n, i) fs) \/ has exits n i) ->
  (ends ne <-> ends exits) ->
  links M fs L ne -> links M fs (occurs o L) exits.
Proof.
  intros A B HL.
  assert (U : forall w, macc M ne w <-> (repeatable o = true /\ facc M fs w) \/ macc M exits w)
    by (intros w; apply macc_union; assumption).
  assert (Kf : repeatable o = true -> forall k w, (length w <= k)%nat -> facc M fs w ->
    exists a b w2, w = a ++ b ++ w2 /\ a <> [] /\ L a /\ repeats L b /\ macc M exits w2).
  { intros Hr. induction k as [|k IH]; intros w Hk Hf.
    - destruct w; [destruct Hf|cbn in Hk; lia].
    - apply HL in Hf as (w1 & w2 & -> & Hne & H1 & H2).
      apply U in H2 as [[_ H2]|H2].
      + destruct (IH w2) as (a & b & w3 & -> & Ha & La & Rb & Hm).
        * rewrite app_length in Hk. destruct w1; [congruence|cbn in Hk; lia].
        * exact H2.
        * exists w1, (a ++ b), w3. rewrite <- app_assoc. split; [reflexivity|].
          split; [exact Hne|]. split; [exact H1|]. split; [|exact Hm]. now constructor.
      + exists w1, [], w2. cbn. split; [reflexivity|].
        split; [exact Hne|]. split; [exact H1|]. split; [constructor|exact H2]. }
  assert (Kb : repeatable o = true -> forall w1 w2, repeats L w1 -> w1 <> [] ->
    macc M exits w2 -> facc M fs (w1 ++ w2)).
  { intros Hr w1 w2 Hrep. induction Hrep as [|a b La Rb IH]; intros Hne Hm; [congruence|].
    destruct a as [|x a]; [cbn in *; apply IH; assumption|].
    apply HL. exists (x :: a), (b ++ w2). split; [now rewrite app_assoc|].
    split; [discriminate|]. split; [exact La|]. apply U.
    destruct b as [|y b]; [right; exact Hm|left]. split; [exact Hr|]. apply IH; [discriminate|exact Hm]. }
  intros w. destruct o; cbn [occurs repeatable] in *.
  - rewrite (HL w). split; intros (w1 & w2 & E & Hne & H1 & H2); exists w1, w2; repeat split; try assumption.
    + apply U in H2 as [[? _]|H2]; [discriminate|exact H2].
    + apply U. now right.
  - rewrite (HL w). split; intros (w1 & w2 & E & Hne & H1 & H2); exists w1, w2; repeat split; try assumption.
    + now right.
    + apply U in H2 as [[? _]|H2]; [discriminate|exact H2].
    + destruct H1 as [H1|H1]; [congruence|exact H1].
    + apply U. now right.
  - split.
    + intros Hf. destruct (Kf eq_refl (length w) w (Nat.le_refl _) Hf) as (a & b & w2 & -> & Ha & La & Rb & Hm).
      exists (a ++ b), w2. split; [now rewrite app_assoc|]. split; [destruct a; [congruence|discriminate]|].
      split; [now constructor|exact Hm].
    + intros (w1 & w2 & -> & Hne & Hrep & Hm). apply Kb; trivial.
  - split.
    + intros Hf. destruct (Kf eq_refl (length w) w (Nat.le_refl _) Hf) as (a & b & w2 & -> & Ha & La & Rb & Hm).
      exists (a ++ b), w2. split; [now rewrite app_assoc|]. split; [destruct a; [congruence|discriminate]|].
      split; [exists a, b; repeat split; assumption|exact Hm].
    + intros (w1 & w2 & -> & Hne & (a & b & -> & La & Rb) & Hm). apply Kb; trivial. now constructor.
Qed.

Lemma occ_empty {A} o (L : list A -> Prop) (b : bool) : (b = true <-> L []) ->
  (negb (required o) || b = true <-> occurs o L []).
Proof.
  intros H. destruct o; cbn.
  - exact H.
  - split; [now left|trivial].
  - split; [constructor|trivial].
  - rewrite H. split.
    + intros HL. exists [], []. repeat split; [exact HL|constructor].
    + intros (w1 & w2 & E & HL & _). symmetry in E. apply app_eq_nil in E as [-> _]. exact HL.
Qed.

(** [consistent M l]: the particle maps [M] are the assigned ones. *)
Definition consistent (M : nat -> pmap) (l : list (nat * pmap)) : Prop :=
  forall i m, In (i, m) l -> M i = m.
Lemma consistent_app M l1 l2 : consistent M (l1 ++ l2) <-> consistent M l1 /\ consistent M l2.
Proof.
  unfold consistent. split.
  - intros H. split; intros i m Hi; apply H, in_app_iff; tauto.
  - intros [H1 H2] i m Hi. apply in_app_iff in Hi as [Hi|Hi]; auto.
Qed.

Definition mk (i : nat) (n : str) : str * nat := (n, i).
Definition any_of {A} (letter : nat -> str -> A) := fix any l w := match l with
                                | [] => False
                                | c :: l' => words letter c w \/ any l' w
                                end.
Definition all_of {A} (letter : nat -> str -> A) := fix all l w := match l with
                                | [] => w = []
                                | c :: l' => exists w1 w2, w = w1 ++ w2 /\
                                               words letter c w1 /\ all l' w2
                                end.
Definition build_choice ne := fix go l :=
         match l with
         | [] => []
         | c :: l' => BuildParticleMaps c ne ++ go l'
         end.
Definition build_seq ne := fix go l :=
         match l with
         | [] => []
         | c :: l' => BuildParticleMaps c (child_exits l' ne []) ++ go l'
         end.

Definition main (p : cp) : Prop :=
  ~ In [] (names p) ->
  (nullable p = true <-> marked p []) /\
  forall exits M, wf exits -> consistent M (BuildParticleMaps p exits) ->
    links M (firsts p) (marked p) exits.

Lemma choice_main l : Forall main l -> ~ In [] (flat_map names l) ->
  (existsb nullable l = true <-> any_of mk l []) /\
  forall ne M, wf ne -> consistent M (build_choice ne l) ->
    links M (flat_map firsts l) (any_of mk l) ne.
Proof.
  induction l as [|c l IH]; intros HF HN.
  - split; [cbn; split; [discriminate|tauto]|]. intros ne M _ _ w. cbn. split.
    + destruct w as [|[n i] w]; cbn; tauto.
    + intros (w1 & w2 & _ & _ & [] & _).
  - apply Forall_cons_iff in HF as [Hc HF]. cbn [flat_map] in HN. rewrite in_app_iff in HN.
    destruct (Hc (fun H => HN (or_introl H))) as [Hn HL].
    destruct (IH HF (fun H => HN (or_intror H))) as [Hn' HL'].
    split.
    + cbn [existsb any_of]. rewrite orb_true_iff, Hn, Hn'. reflexivity.
    + intros ne M Hw HM w. cbn [build_choice] in HM. apply consistent_app in HM as [HM1 HM2].
      specialize (HL ne M Hw HM1 w). specialize (HL' ne M Hw HM2 w).
      assert (E : facc M (flat_map firsts (c :: l)) w <->
                  facc M (firsts c) w \/ facc M (flat_map firsts l) w).
      { destruct w as [|[n i] w]; cbn; [tauto|]. rewrite in_app_iff. tauto. }
      rewrite E, HL, HL'. cbn [any_of]. split.
      * intros [(w1 & w2 & H1 & H2 & H3 & H4)|(w1 & w2 & H1 & H2 & H3 & H4)]; exists w1, w2; tauto.
      * intros (w1 & w2 & H1 & H2 & [H3|H3] & H4); [left|right]; exists w1, w2; tauto.
Qed.

Lemma seq_main l : Forall main l -> ~ In [] (flat_map names l) ->
  (forallb nullable l = true <-> all_of mk l []) /\
  forall ne M, wf ne -> consistent M (build_seq ne l) ->
    links M (firsts_seq l) (all_of mk l) ne.
Proof.
  induction l as [|c l IH]; intros HF HN.
  - split; [cbn; tauto|]. intros ne M _ _ w. cbn. split.
    + destruct w as [|[n i] w]; cbn; tauto.
    + intros (w1 & w2 & _ & H1 & H2 & _). congruence.
  - apply Forall_cons_iff in HF as [Hc HF]. cbn [flat_map] in HN. rewrite in_app_iff in HN.
    destruct (Hc (fun H => HN (or_introl H))) as [Hn HL].
    assert (HN' : ~ In [] (flat_map names l)) by tauto.
    destruct (IH HF HN') as [Hn' HL'].
    split.
    + cbn [forallb all_of]. rewrite andb_true_iff, Hn, Hn'. split.
      * intros [H1 H2]. exists [], []. tauto.
      * intros (w1 & w2 & E & H1 & H2). symmetry in E. apply app_eq_nil in E as [-> ->]. tauto.
    + intros ne M Hw HM. cbn [build_seq] in HM. apply consistent_app in HM as [HM1 HM2].
      destruct (child_exits_spec l HN' ne [] Hw wf_nil) as (W & A & B).
      specialize (HL _ M W HM1). specialize (HL' ne M Hw HM2).
      assert (Ex : forall w, macc M (child_exits l ne []) w <->
                 exists u1 u2, w = u1 ++ u2 /\ all_of mk l u1 /\ macc M ne u2).
      { intros w. transitivity (facc M (firsts_seq l) w \/ (forallb nullable l = true /\ macc M ne w)).
        - destruct w as [|[n i] w]; cbn [macc facc].
          + rewrite B. pose proof ends_nil. tauto.
          + rewrite A. pose proof (has_nil n i). tauto.
        - rewrite (HL' w), Hn'. split.
          + intros [(u1 & u2 & H1 & H2 & H3 & H4)|[H1 H2]].
            * exists u1, u2. tauto.
            * exists [], w. tauto.
          + intros (u1 & u2 & H1 & H2 & H3). destruct u1 as [|x u1].
            * right. cbn in H1. subst. tauto.
            * left. exists (x :: u1), u2. repeat split; try assumption. discriminate. }
      intros w.
      assert (E : facc M (firsts_seq (c :: l)) w <->
                  facc M (firsts c) w \/ (nullable c = true /\ facc M (firsts_seq l) w)).
      { cbn [firsts_seq]. fold firsts_seq. destruct w as [|[n i] w]; cbn [facc]; [tauto|].
        rewrite in_app_iff. destruct (nullable c); cbn; intuition congruence. }
      rewrite E, (HL w), (HL' w), Hn. cbn [all_of]. fold (all_of mk). split.
      * intros [(w1 & w2 & H1 & H2 & H3 & H4)|(H0 & w1 & w2 & H1 & H2 & H3 & H4)].
        -- apply Ex in H4 as (u1 & u2 & -> & H5 & H6). exists (w1 ++ u1), u2.
           split; [subst; now rewrite app_assoc|]. split; [destruct w1; [congruence|discriminate]|].
           split; [|exact H6]. exists w1, u1. tauto.
        -- exists w1, w2. repeat split; try assumption. exists [], w1. tauto.
      * intros (w1 & w2 & H1 & H2 & (a & b & -> & H3 & H4) & H5). destruct a as [|x a].
        -- right. split; [exact H3|]. exists b, w2. tauto.
        -- left. exists (x :: a), (b ++ w2). split; [subst; now rewrite app_assoc|].
           split; [discriminate|]. split; [exact H3|]. apply Ex. exists b, w2. tauto.
Qed.

Lemma main_ok p : main p.
Proof.
  induction p as [o i n|o l IH|o l IH] using cp_ind'; intros HN.
  - split.
    + unfold marked. cbn [words nullable]. rewrite <- (orb_false_r (negb (required o))).
      apply (occ_empty o (fun w : list (str * nat) => w = [(n, i)]) false). split; discriminate.
    + intros exits M Hw HM. unfold marked. cbn [words firsts].
      assert (Hn : n <> []) by (intros ->; apply HN; now left).
      set (m := AddParticles exits (if repeatable o then [(n, Some [i])] else [])).
      assert (Em : M i = m) by (apply HM; now left).
      assert (Hs : wf m /\ (forall n' i', has m n' i' <->
                 (repeatable o = true /\ In (n', i') [(n, i)]) \/ has exits n' i') /\
                 (ends m <-> ends exits)).
      { assert (W1 : wf [(n, Some [i])]).
        { split; [constructor; [intros []|constructor]|]. intros n' v. cbn.
          destruct (str_eqb n' n) eqn:E; [|discriminate]. intros [= <-].
          apply str_eqb_eq in E; subst n'. repeat split; [exact Hn|discriminate|].
          constructor; [intros []|constructor]. }
        unfold m. destruct (repeatable o).
        - destruct (AddParticles_spec exits _ Hw W1) as (W & A & B). split; [exact W|]. split.
          + intros n' i'. rewrite A. unfold has at 2. cbn [assoc].
            destruct (str_eqb n' n) eqn:E.
            * apply str_eqb_eq in E; subst n'. cbn. split.
              -- intros [H|(l & E & Hi)]; [now right|left]. injection E as <-. destruct Hi as [<-|[]]. tauto.
              -- intros [(_ & [E|[]])|H]; [right|now left]. injection E as ->. exists [i']. cbn. tauto.
            * cbn. split.
              -- intros [H|(l & H & _)]; [now right|discriminate].
              -- intros [(_ & [E'|[]])|H]; [|now left]. injection E' as -> _. rewrite str_eqb_refl in E. discriminate.
          + rewrite B. unfold ends at 2. cbn [assoc]. rewrite str_eqb_neq by congruence.
            split; [intros [H|H]; [exact H|discriminate]|tauto].
        - destruct (AddParticles_spec exits [] Hw wf_nil) as (W & A & B). split; [exact W|]. split.
          + intros n' i'. rewrite A. pose proof (has_nil n' i'). split; [tauto|].
            intros [(H1 & _)|H1]; [discriminate|tauto].
          + rewrite B. pose proof ends_nil. tauto. }
      destruct Hs as (W & A & B).
      apply (occ_links M [(n, i)] _ exits m o A B).
      intros w. destruct w as [|[n' i'] w]; cbn.
      * split; [tauto|]. intros (w1 & w2 & E & H1 & _). symmetry in E. apply app_eq_nil in E as [-> _]. congruence.
      * split.
        -- intros [[E|[]] H]. injection E as <- <-. exists [(n, i)], w. rewrite <- Em. repeat split; [discriminate|exact H].
        -- intros (w1 & w2 & E & _ & -> & H). cbn in E. injection E as -> -> ->.
           split; [now left|]. rewrite Em. exact H.
  - destruct (choice_main l IH HN) as [Hn HL]. unfold marked. cbn [words]. fold (any_of mk). split.
    + cbn [nullable]. apply occ_empty. exact Hn.
    + intros exits M Hw HM.
      destruct (new_exits_spec (PChoice o l) o exits HN Hw) as (W & A & B).
      apply (occ_links M _ _ exits _ o A B). apply HL; [exact W|exact HM].
  - destruct (seq_main l IH HN) as [Hn HL]. unfold marked. cbn [words]. fold (all_of mk). split.
    + cbn [nullable]. apply occ_empty. exact Hn.
    + intros exits M Hw HM.
      destruct (new_exits_spec (PSeq o l) o exits HN Hw) as (W & A & B).
      apply (occ_links M _ _ exits _ o A B). apply HL; [exact W|exact HM].
Qed.
