(** The table of files of a package. *)
From Verif Require Import Py.
From Verif Require Import Cpkg CpkgSpec CpkgProofs CpkgProofs2 CpkgProofs3.

(** ** Texts of relative places *)

Lemma relative_inj a b : Forall entry_name a -> Forall entry_name b -> relative a = relative b -> a = b.
Proof.
  intros Ha Hb E. apply absp_inj; auto. unfold absp. unfold relative in E. now rewrite E.
Qed.

Lemma join_relative a n : a <> [] -> Forall entry_name a -> entry_name n ->
  join (relative a) n = relative (a ++ [n]).
Proof.
  intros N H Hn. unfold relative. rewrite join_snoc by exact N.
  unfold join. rewrite starts_noslash by now apply entry_noslash.
  destruct (join_last a N H) as (s & x & E & Hx).
  rewrite E, ends_slash_snoc. apply Z.eqb_neq in Hx. rewrite Hx.
  destruct (s ++ [x]) eqn:Es; [destruct s; discriminate|reflexivity].
Qed.

Lemma os_path_relative r : Forall entry_name r -> os_path r = relative r.
Proof. exact (os_path_names r). Qed.

(** ** Tables *)

Lemma tget_tset t k v k' : tget (tset t k v) k' = if str_eqb k' k then Some v else tget t k'.
Proof.
  induction t as [|[a w] t IH]; cbn [tset tget]; [reflexivity|].
  destruct (str_eqb k a) eqn:E; cbn [tget].
  - apply str_eqb_eq in E. subst a. now destruct (str_eqb k' k).
  - rewrite IH. destruct (str_eqb k' a) eqn:E'; [|reflexivity].
    apply str_eqb_eq in E'. subst a. apply Py.str_eqb_neq in E.
    assert (str_eqb k' k = false) as ->; [|reflexivity].
    apply Py.str_eqb_neq. congruence.
Qed.
Lemma tget_tadd t k i k' : tget (tadd t k i) k' =
  if str_eqb k' k then Some (match tget t k with Some l => l ++ [i] | None => [i] end)
  else tget t k'.
Proof. apply tget_tset. Qed.
Lemma tget_tdel t k k' : tget (tdel t k) k' = if str_eqb k' k then None else tget t k'.
Proof.
  induction t as [|[a w] t IH]; cbn [tdel filter tget fst]; [now destruct (str_eqb k' k)|].
  fold (tdel t k). destruct (str_eqb k a) eqn:E; cbn [negb].
  - rewrite IH. apply str_eqb_eq in E. subst a. now destruct (str_eqb k' k).
  - cbn [tget]. rewrite IH. destruct (str_eqb k' a) eqn:E'; [|reflexivity].
    apply str_eqb_eq in E'. subst a. apply Py.str_eqb_neq in E.
    assert (str_eqb k' k = false) as ->; [|reflexivity].
    apply Py.str_eqb_neq. congruence.
Qed.

(** ** Scanning *)

Definition has (t : table) (k : str) : Prop := exists l, tget t k = Some l.
Definition empties (t : table) : Prop := forall k l, tget t k = Some l -> l = [].

Lemma has_tset t k v k' : has (tset t k v) k' <-> has t k' \/ k' = k.
Proof.
  unfold has. rewrite tget_tset. destruct (str_eqb k' k) eqn:E.
  - apply str_eqb_eq in E. split; [now right|]. intros _. now exists v.
  - apply Py.str_eqb_neq in E. split; [now left|]. intros [H|H]; [exact H|congruence].
Qed.
Lemma empties_tset t k : empties t -> empties (tset t k []).
Proof.
  intros H k' l. rewrite tget_tset. destruct (str_eqb k' k); [now intros [= <-]|apply H].
Qed.

Section Scan.
  Variable ign : str -> bool.

  Fixpoint scan_children (fPath : str) (l : list (str * tree)) (tab : table) : table :=
    match l with
    | [] => tab
    | (n, t') :: l' =>
        scan_children fPath l' (if ign n then tab else scan ign (join fPath n) t' tab)
    end.
  Lemma scan_dir fPath l tab : scan ign fPath (TDir l) tab = scan_children fPath l tab.
  Proof.
    cbn [scan]. revert tab. induction l as [|[n t] l IH]; intros tab; [reflexivity|].
    cbn [scan_children]. apply IH.
  Qed.

  Definition file_at (t : tree) (r : list str) : Prop := exists dd, node_at ign t r = Some (File dd).

  Lemma scan_spec t : forall a tab, a <> [] -> Forall entry_name a -> good_tree t ->
    (forall k, has (scan ign (relative a) t tab) k <->
       has tab k \/ exists r, file_at t r /\ k = relative (a ++ r)) /\
    (empties tab -> empties (scan ign (relative a) t tab)).
  Proof.
    induction t as [dd|l IH] using tree_induct; intros a tab Na Ha Hg.
    - cbn [scan]. split; [|apply empties_tset]. intros k. rewrite has_tset. split.
      + intros [H| ->]; [now left|]. right. exists []. rewrite app_nil_r.
        split; [now exists dd|reflexivity].
      + intros [H|(r & (x & Hr) & ->)]; [now left|]. right.
        destruct r as [|m r]; [now rewrite app_nil_r|discriminate].
    - rewrite scan_dir. inversion Hg as [|? Hc]; subst.
      apply good_children_forall in Hc as [Hc Hn].
      assert (S : forall l', (forall x, In x l' -> In x l) -> forall tab,
        (forall k, has (scan_children (relative a) l' tab) k <->
           has tab k \/ exists m t r, In (m, t) l' /\ ign m = false /\ file_at t r /\
                                      k = relative (a ++ m :: r)) /\
        (empties tab -> empties (scan_children (relative a) l' tab))).
      { clear tab. rewrite Forall_forall in IH, Hc.
        induction l' as [|[m t] l' IHl]; intros Hin tab; cbn [scan_children].
        - split; [|auto]. intros k. split; [now left|]. intros [H|(m & t & r & [] & _)]; exact H.
        - assert (Hi : In (m, t) l) by (apply Hin; now left).
          destruct (Hc _ Hi) as [Hm Hgt]. cbn [fst snd] in *.
          destruct (IHl (fun x Hx => Hin x (or_intror Hx)) (if ign m then tab else scan ign (join (relative a) m) t tab)) as [A B].
          destruct (ign m) eqn:I.
          + split; [|exact B]. intros k. rewrite A. split.
            * intros [H|(m' & t' & r & Hr & R)]; [now left|]. right. exists m', t', r. split; [now right|exact R].
            * intros [H|(m' & t' & r & [E|Hr] & I' & R)]; [now left| |].
              -- injection E as <- <-. congruence.
              -- right. exists m', t', r. auto.
          + rewrite join_relative in * by auto.
            destruct (IH _ Hi (a ++ [m]) tab) as [C D].
            { destruct a; discriminate. }
            { apply Forall_app; split; [exact Ha|]. constructor; [exact Hm|constructor]. }
            { exact Hgt. }
            split; [|auto]. intros k. rewrite A, C. split.
            * intros [[H|(r & Hr & ->)]|(m' & t' & r & Hr & R)]; [now left| |].
              -- right. exists m, t, r. rewrite <- app_assoc. cbn [snd] in Hr. repeat split; auto. now left.
              -- right. exists m', t', r. split; [now right|exact R].
            * intros [H|(m' & t' & r & [E|Hr] & I' & F & ->)]; [left; now left| |].
              -- injection E as <- <-. left. right. exists r. cbn [snd]. rewrite <- app_assoc. now split.
              -- right. exists m', t', r. auto. }
      destruct (S l (fun x H => H) tab) as [A B]. split; [|exact B].
      intros k. rewrite A. split; (intros [H|H]; [now left|right]).
      + destruct H as (m & t & r & Hi & I & (x & F) & ->). exists (m :: r). split; [|reflexivity].
        exists x. cbn [node_at]. rewrite I. now rewrite (dir_get_in _ _ _ Hn Hi).
      + destruct H as (r & (x & F) & ->). destruct r as [|m r]; [discriminate|].
        cbn [node_at] in F. destruct (ign m) eqn:I; [discriminate|].
        destruct (dir_get l m) as [t|] eqn:G; [|discriminate]. apply dir_get_some in G.
        exists m, t, r. repeat split; auto. now exists x.
  Qed.

  Lemma scan_root_spec l : good_children l ->
    (forall k, has (scan_root ign l []) k <->
       exists q dd, here ign l q (File dd) /\ hd [] q <> lit "imsmanifest.xml" /\ k = relative q) /\
    empties (scan_root ign l []).
  Proof.
    intros Hg. pose proof (good_children_forall _ Hg) as [Hc Hn]. rewrite Forall_forall in Hc.
    assert (S : forall l', (forall x, In x l' -> In x l) -> forall tab,
        (forall k, has (scan_root ign l' tab) k <->
           has tab k \/ exists m t r, In (m, t) l' /\ ign m = false /\ m <> lit "imsmanifest.xml" /\
                                      file_at t r /\ k = relative (m :: r)) /\
        (empties tab -> empties (scan_root ign l' tab))).
    { induction l' as [|[m t] l' IHl]; intros Hin tab; cbn [scan_root].
      - split; [|auto]. intros k. split; [now left|]. intros [H|(m & t & r & [] & _)]; exact H.
      - assert (Hi : In (m, t) l) by (apply Hin; now left).
        destruct (Hc _ Hi) as [Hm Hgt]. cbn [fst snd] in *.
        match goal with |- context [scan_root ign l' ?x] =>
          destruct (IHl (fun y Hy => Hin y (or_intror Hy)) x) as [A B] end.
        destruct (ign m) eqn:I; [|destruct (str_eqb m manifest_name) eqn:M].
        + split; [|exact B]. intros k. rewrite A. split.
          * intros [H|(m' & t' & r & Hr & R)]; [now left|]. right. exists m', t', r. split; [now right|exact R].
          * intros [H|(m' & t' & r & [E|Hr] & I' & R)]; [now left| |].
            -- injection E as <- <-. congruence.
            -- right. exists m', t', r. auto.
        + apply str_eqb_eq in M. split; [|exact B]. intros k. rewrite A. split.
          * intros [H|(m' & t' & r & Hr & R)]; [now left|]. right. exists m', t', r. split; [now right|exact R].
          * intros [H|(m' & t' & r & [E|Hr] & I' & M' & R)]; [now left| |].
            -- apply (f_equal fst) in E. cbn [fst] in E. subst m'. now elim M'.
            -- right. exists m', t', r. auto.
        + apply Py.str_eqb_neq in M.
          destruct (scan_spec t [m] tab) as [C D]; [discriminate|repeat constructor; apply Hm|exact Hgt|].
          change (relative [m]) with m in *.
          split; [|auto]. intros k. rewrite A, C. split.
          * intros [[H|(r & Hr & ->)]|(m' & t' & r & Hr & R)]; [now left| |].
            -- right. exists m, t, r. repeat split; auto. now left.
            -- right. exists m', t', r. split; [now right|exact R].
          * intros [H|(m' & t' & r & [E|Hr] & I' & M' & F & ->)]; [left; now left| |].
            -- injection E as <- <-. left. right. exists r. now split.
            -- right. exists m', t', r. auto. }
    destruct (S l (fun x H => H) []) as [A B]. split; [|apply B; discriminate].
    intros k. rewrite A. split.
    - intros [(v & H)|(m & t & r & Hi & I & M & (x & F) & ->)]; [discriminate|].
      exists (m :: r), x. split; [|split; [exact M|reflexivity]].
      apply node_here; [discriminate|]. cbn [node_at]. rewrite I. now rewrite (dir_get_in _ _ _ Hn Hi).
    - intros (q & dd & H & M & ->). right. apply here_node in H; [|exact Hg].
      destruct q as [|m q]; [discriminate|]. cbn [node_at] in H.
      destruct (ign m) eqn:I; [discriminate|].
      destruct (dir_get l m) as [t|] eqn:G; [|discriminate]. apply dir_get_some in G.
      exists m, t, q. repeat split; auto. now exists dd.
  Qed.

  (** ** The references *)

  Variable d : list str.
  Hypothesis Hd : Forall entry_name d.
  Notation dp := (absp d).

  Lemma written_dp d' : written dp d' -> d' = d.
  Proof. intros [H E]. apply absp_inj; auto. Qed.

  Lemma direct_path f : direct f ->
    exists o, file_path dp f = Done o /\ forall k, o = Some k <-> refers dp f k.
  Proof.
    intros H. unfold file_path, refers. destruct (f_target f) as [p|] eqn:T.
    - destruct (H p T) as (cs & Hc & ->). fold (absp cs) in *.
      destruct (within_dec d cs) as [(r & ->)|F].
      + rewrite PackagePath_in by exact Hc. eexists. split; [reflexivity|].
        intros k. split.
        * intros [= <-]. exists (absp (d ++ r)), d, r. repeat split; auto.
        * intros (p & d' & r' & [= <-] & Wd & [Hw E] & ->).
          apply written_dp in Wd. subst d'. apply absp_inj in E; auto.
          apply app_inv_head in E. now subst.
      + rewrite PackagePath_out; auto. eexists. split; [reflexivity|].
        intros k. split; [discriminate|].
        intros (p & d' & r' & [= <-] & Wd & [Hw E] & ->).
        apply written_dp in Wd. subst d'. apply absp_inj in E; auto. now apply F in E.
    - eexists. split; [reflexivity|]. intros k. split; [discriminate|].
      intros (p & d' & r' & E & _). discriminate.
  Qed.

  Lemma refs_spec l : Forall direct l -> forall tab,
    exists tab', scan_refs dp l tab = Done tab' /\
      (forall k, has tab' k <-> has tab k \/ exists f, In f l /\ refers dp f k) /\
      (forall k v, tget tab' k = Some v -> forall i,
         In i v <-> (exists w, tget tab k = Some w /\ In i w) \/
                    exists f, In f l /\ f_id f = i /\ refers dp f k).
  Proof.
    induction 1 as [|f l Hf Hl IH]; intros tab; cbn [scan_refs].
    - exists tab. split; [reflexivity|]. split.
      + intros k. split; [now left|]. intros [H|(f & [] & _)]; exact H.
      + intros k v Hv i. split; [left; now exists v|].
        intros [(w & Hw & Hi)|(f & [] & _)]. congruence.
    - destruct (direct_path f Hf) as (o & -> & Ho). destruct o as [k0|].
      + destruct (IH (tadd tab k0 (f_id f))) as (tab' & E & A & B). exists tab'.
        split; [exact E|].
        assert (R0 : refers dp f k0) by now apply Ho.
        assert (R1 : forall k, refers dp f k -> k = k0).
        { intros k Hk. apply Ho in Hk. congruence. }
        split.
        * intros k. rewrite A. unfold tadd. rewrite has_tset. split.
          -- intros [[H| ->]|(g & Hg & R)]; [now left| |].
             ++ right. exists f. split; [now left|exact R0].
             ++ right. exists g. split; [now right|exact R].
          -- intros [H|(g & [<-|Hg] & R)]; [left; now left| |].
             ++ left. right. now apply R1.
             ++ right. now exists g.
        * intros k v Hv i. rewrite (B k v Hv i). rewrite tget_tadd.
          destruct (str_eqb k k0) eqn:Ek.
          -- apply str_eqb_eq in Ek. subst k0. split.
             ++ intros [(w & [= <-] & Hi)|(g & Hg & R)].
                ** destruct (tget tab k) as [w|] eqn:T.
                   { apply in_app_iff in Hi as [Hi|[<-|[]]]; [left; now exists w|].
                     right. exists f. split; [now left|]. now split. }
                   { destruct Hi as [<-|[]]. right. exists f. split; [now left|]. now split. }
                ** right. exists g. split; [now right|exact R].
             ++ intros [(w & Hw & Hi)|(g & [<-|Hg] & <- & R)].
                ** left. rewrite Hw. eexists. split; [reflexivity|]. apply in_or_app. now left.
                ** left. eexists. split; [reflexivity|].
                   destruct (tget tab k); [apply in_or_app; right|]; now left.
                ** right. exists g. auto.
          -- apply Py.str_eqb_neq in Ek. split.
             ++ intros [H|(g & Hg & R)]; [now left|]. right. exists g. split; [now right|exact R].
             ++ intros [H|(g & [<-|Hg] & E' & R)]; [now left| |].
                ** apply R1 in R. congruence.
                ** right. exists g. auto.
      + assert (R0 : forall k, ~ refers dp f k).
        { intros k Hk. apply Ho in Hk. discriminate. }
        destruct (IH tab) as (tab' & E & A & B). exists tab'. split; [exact E|]. split.
        * intros k. rewrite A. split.
          -- intros [H|(g & Hg & R)]; [now left|]. right. exists g. split; [now right|exact R].
          -- intros [H|(g & [<-|Hg] & R)]; [now left|now apply R0 in R|]. right. now exists g.
        * intros k v Hv i. rewrite (B k v Hv i). split.
          -- intros [H|(g & Hg & R)]; [now left|]. right. exists g. split; [now right|exact R].
          -- intros [H|(g & [<-|Hg] & E' & R)]; [now left|now apply R0 in R|]. right. exists g. auto.
  Qed.

  Lemma rebuild_right p : p_dPath p = dp -> good_children (p_tree p) ->
    Forall direct (concat (p_resources p)) ->
    exists p', RebuildFileTable ign p = Done p' /\ p_dPath p' = p_dPath p /\
      p_tree p' = p_tree p /\ p_resources p' = p_resources p /\ right_table ign p'.
  Proof.
    intros Ed Hg Hf. unfold RebuildFileTable. rewrite Ed.
    destruct (scan_root_spec (p_tree p) Hg) as [S Em].
    destruct (refs_spec (concat (p_resources p)) Hf (scan_root ign (p_tree p) [])) as (tab & -> & A & B).
    eexists. split; [reflexivity|]. split; [reflexivity|]. split; [reflexivity|]. split; [reflexivity|].
    split; cbn [p_dPath p_tree p_resources p_table].
    - intros k. unfold listed. cbn [p_dPath p_tree p_resources p_table].
      rewrite <- S. symmetry. apply A.
    - intros k l i Hk. rewrite (B k l Hk i). split.
      + intros [(w & Hw & Hi)|(f & R)]; [|now exists f].
        apply Em in Hw. subst w. destruct Hi.
      + intros (f & R). right. now exists f.
  Qed.

  (** ** A new File element *)

  Lemma add_ref_in i f : forall l g, (i < length l)%nat ->
    In g (concat (add_ref i f l)) <-> In g (concat l) \/ g = f.
  Proof.
    induction i as [|i IH]; intros l g H; (destruct l as [|r l]; [cbn in H; lia|]); cbn [add_ref concat].
    - rewrite !in_app_iff. cbn [In]. intuition.
    - rewrite !in_app_iff, IH by (cbn in H; lia). intuition.
  Qed.

  Lemma file_right p i f p' : p_dPath p = dp -> direct f ->
    (i < length (p_resources p))%nat ->
    right_table ign p -> cp_file ign p i f = Done p' ->
    right_table ign p' /\ p_tree p' = p_tree p /\ p_dPath p' = p_dPath p /\
    (forall g, In g (concat (p_resources p')) <-> In g (concat (p_resources p)) \/ g = f).
  Proof.
    intros Ed Hf Hi [A B]. unfold cp_file. destruct (f_target f) as [p0|] eqn:T.
    - destruct (Hf p0 T) as (cs & Hc & ->). fold (absp cs) in *.
      destruct (split (absp cs)) as [head tail]. destruct (ign tail); [discriminate|].
      rewrite Ed.
      destruct (within_dec d cs) as [(r & ->)|F].
      + rewrite (PathInPath_in (absp (d ++ r)) dp r)
        by (try (now apply absolute_absp); now rewrite !resolve_absp).
        assert (Hr : Forall entry_name r) by now apply Forall_app in Hc as [_ Hc].
        destruct r as [|x r]; [discriminate|]. set (rr := x :: r) in *.
        rewrite (os_path_relative rr) by exact Hr.
        intros [= <-]. cbn [p_dPath p_tree p_resources p_table].
        assert (R0 : refers dp f (relative rr)).
        { exists (absp (d ++ rr)), d, rr. repeat split; auto. }
        assert (R1 : forall k, refers dp f k -> k = relative rr).
        { intros k (p1 & d' & r' & E & Wd & [Hw E'] & ->). apply written_dp in Wd. subst d'.
          rewrite T in E. injection E as <-. apply absp_inj in E'; auto. apply app_inv_head in E'. now subst. }
        split; [|split; [reflexivity|split; [now symmetry|intros g; now apply add_ref_in]]].
        split; cbn [p_dPath p_tree p_resources p_table].
        * intros k. specialize (A k). unfold listed in *. cbn [p_dPath p_tree p_resources p_table] in *.
          rewrite tget_tadd. destruct (str_eqb k (relative rr)) eqn:Ek.
          -- apply str_eqb_eq in Ek. subst k. split; [eexists; reflexivity|]. intros _. right. exists f.
             split; [apply add_ref_in; auto|exact R0].
          -- apply Py.str_eqb_neq in Ek. rewrite <- A. rewrite Ed. split.
             ++ intros [H|(g & Hg & R)]; [now left|]. apply add_ref_in in Hg as [Hg| ->]; auto.
                ** right. now exists g.
                ** apply R1 in R. congruence.
             ++ intros [H|(g & Hg & R)]; [now left|]. right. exists g.
                split; [apply add_ref_in; auto|exact R].
        * intros k l j Hk. rewrite tget_tadd in Hk. destruct (str_eqb k (relative rr)) eqn:Ek.
          -- apply str_eqb_eq in Ek. subst k. injection Hk as <-.
             destruct (tget (p_table p) (relative rr)) as [l|] eqn:Tl.
             ++ rewrite in_app_iff. rewrite (B _ _ j Tl). rewrite Ed. split.
                ** intros [(g & Hg & R)|[<-|[]]].
                   { exists g. split; [apply add_ref_in; auto|exact R]. }
                   { exists f. split; [apply add_ref_in; auto|now split]. }
                ** intros (g & Hg & <- & R). apply add_ref_in in Hg as [Hg| ->]; auto.
                   { left. exists g. auto. }
                   { right. now left. }
             ++ split.
                ** intros [<-|[]]. exists f. split; [apply add_ref_in; auto|now split].
                ** intros (g & Hg & <- & R). apply add_ref_in in Hg as [Hg| ->]; auto; [|now left].
                   exfalso. assert (L : listed ign p (relative rr)).
                   { right. exists g. rewrite Ed. now split. }
                   apply A in L as (l & L). congruence.
          -- apply Py.str_eqb_neq in Ek. rewrite (B _ _ j Hk). rewrite Ed. split.
             ++ intros (g & Hg & R). exists g. split; [apply add_ref_in; auto|exact R].
             ++ intros (g & Hg & E & R). apply add_ref_in in Hg as [Hg| ->]; auto.
                ** exists g. auto.
                ** apply R1 in R. congruence.
      + rewrite PathInPath_out; [discriminate|now apply absolute_absp|now apply absolute_absp|].
        intros r. now rewrite !resolve_absp.
    - intros [= <-]. cbn [p_dPath p_tree p_resources p_table].
      assert (R0 : forall dq k, ~ refers dq f k).
      { intros dq k (p1 & d' & r' & E & _). congruence. }
      split; [|split; [reflexivity|split; [reflexivity|intros g; now apply add_ref_in]]].
      split; cbn [p_dPath p_tree p_resources p_table].
      + intros k. rewrite <- (A k). unfold listed. cbn [p_dPath p_tree p_resources p_table]. split.
        * intros [H|(g & Hg & R)]; [now left|]. apply add_ref_in in Hg as [Hg| ->]; auto.
          -- right. now exists g.
          -- now apply R0 in R.
        * intros [H|(g & Hg & R)]; [now left|]. right. exists g.
          split; [apply add_ref_in; auto|exact R].
      + intros k l j Hk. rewrite (B _ _ j Hk). split.
        * intros (g & Hg & R). exists g. split; [apply add_ref_in; auto|exact R].
        * intros (g & Hg & E & R). apply add_ref_in in Hg as [Hg| ->]; auto.
          -- exists g. auto.
          -- now apply R0 in R.
  Qed.

  (** which new elements are accepted *)
  Lemma file_total p i f cs : p_dPath p = dp -> f_target f = Some (absp cs) ->
    Forall entry_name cs ->
    cp_file ign p i f =
    (let (head, tail) := split (absp cs) in
     if ign tail then Raise CPFilePathError
     else match within_dec d cs with
          | inleft (exist _ r _) =>
              match r with
              | [] => Raise CPAttributeError
              | _ => Done (mkPackage dp (p_tree p) (add_ref i f (p_resources p))
                             (tadd (p_table p) (relative r) (f_id f)))
              end
          | inright _ => Raise CPNameError
          end).
  Proof.
    intros Ed T Hc. unfold cp_file. rewrite T. destruct (split (absp cs)) as [head tail].
    destruct (ign tail); [reflexivity|]. rewrite Ed.
    destruct (within_dec d cs) as [(r & ->)|F].
    - rewrite (PathInPath_in (absp (d ++ r)) dp r)
        by (try (now apply absolute_absp); now rewrite !resolve_absp).
      destruct r as [|x r]; [reflexivity|].
      apply Forall_app in Hc as [_ Hc]. now rewrite os_path_relative.
    - rewrite PathInPath_out; [reflexivity|now apply absolute_absp|now apply absolute_absp|].
      intros r. now rewrite !resolve_absp.
  Qed.
End Scan.
