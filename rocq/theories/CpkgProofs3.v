(** A package that is packed and unpacked again. *)
From Verif Require Import Py.
From Verif Require Import Cpkg CpkgSpec CpkgProofs CpkgProofs2.

Section TreeInd.
  Variable P : tree -> Prop.
  Hypothesis HF : forall d, P (TFile d).
  Hypothesis HD : forall l, Forall (fun nt => P (snd nt)) l -> P (TDir l).
  Fixpoint tree_induct (t : tree) : P t :=
    match t with
    | TFile d => HF d
    | TDir l => HD l ((fix go (l : list (str * tree)) : Forall (fun nt => P (snd nt)) l :=
                         match l with
                         | [] => Forall_nil _
                         | nt :: l' => Forall_cons nt (tree_induct (snd nt)) (go l')
                         end) l)
    end.
End TreeInd.

Section Pack.
  Variable utf8 : str -> bool.
  Variable ign : str -> bool.
  Hypothesis utf8_nil : utf8 [] = true.

  (** the loop over the entries of a directory *)
  Fixpoint pack (zbase : str) (l : list (str * tree)) : res (list entry) :=
    match l with
    | [] => Done []
    | (n, t) :: l' =>
        if negb (utf8 n) then Raise UnicodeDecodeError
        else if ign n then pack zbase l'
        else match add_to_zip utf8 ign zbase n t with
             | Raise e => Raise e
             | Done a => match pack zbase l' with
                         | Raise e => Raise e
                         | Done b => Done (a ++ b)
                         end
             end
    end.

  Lemma add_dir zbase n l : add_to_zip utf8 ign zbase n (TDir l) =
    if negb (utf8 n) then Raise UnicodeDecodeError else
    let zpath := zbase ++ map (fun c => if c =? slash then 58 else c) n ++ [slash] in
    match pack zpath l with
    | Raise e => Raise e
    | Done a => Done (stored zpath [] :: a)
    end.
  Proof.
    cbn [add_to_zip]. destruct (negb (utf8 n)); [reflexivity|]. cbn zeta.
    rewrite <- app_assoc. set (zp := zbase ++ _).
    match goal with |- match ?a with _ => _ end = match ?b with _ => _ end =>
      assert (E : a = b); [|now rewrite E] end.
    induction l as [|[m t] l IH]; [reflexivity|]. cbn [pack].
    destruct (negb (utf8 m)); [reflexivity|]. destruct (ign m); [exact IH|].
    destruct (add_to_zip utf8 ign zp m t); [|reflexivity]. now rewrite IH.
  Qed.

  Lemma export_pack l : ExportToPIF utf8 ign l = pack [] l.
  Proof.
    induction l as [|[m t] l IH]; [reflexivity|]. cbn [ExportToPIF pack].
    destruct (negb (utf8 m)); [reflexivity|]. destruct (ign m); [exact IH|].
    destruct (add_to_zip utf8 ign [] m t); [|reflexivity]. now rewrite IH.
  Qed.

  (** ** The entries, written down *)

  Definition base (q : list str) : str :=
    match q with [] => [] | _ => join_with slash q ++ [slash] end.

  Lemma base_name q n : base q ++ n = join_with slash (q ++ [n]).
  Proof.
    destruct q as [|a q]; [reflexivity|]. cbn [base].
    rewrite join_snoc by discriminate. now rewrite <- app_assoc.
  Qed.
  Lemma base_snoc q n : base (q ++ [n]) = join_with slash (q ++ [n]) ++ [slash].
  Proof. destruct q; reflexivity. Qed.

  Fixpoint ents (q : list str) (n : str) (t : tree) : list entry :=
    match t with
    | TFile d => [stored (join_with slash (q ++ [n])) d]
    | TDir l =>
        stored (join_with slash (q ++ [n]) ++ [slash]) [] ::
        flat_map (fun mt => if ign (fst mt) then [] else ents (q ++ [n]) (fst mt) (snd mt)) l
    end.
  Definition ents_of (q : list str) (l : list (str * tree)) : list entry :=
    flat_map (fun mt => if ign (fst mt) then [] else ents q (fst mt) (snd mt)) l.

  Lemma map_noslash n : noslash n -> map (fun c => if c =? slash then 58 else c) n = n.
  Proof.
    induction n as [|c n IH]; intros H; [reflexivity|]. cbn [map].
    destruct (Z.eqb_spec c slash) as [->|]; [exfalso; apply H; now left|].
    f_equal. apply IH. intros Hi; apply H; now right.
  Qed.

  Lemma join_head a q : entry_name a ->
    exists x s, join_with slash (a :: q) = x :: s /\ x <> slash.
  Proof.
    intros H. destruct a as [|x a]; [now apply entry_nonempty in H|].
    assert (x <> slash) by (intros ->; apply (entry_noslash _ H); now left).
    destruct q as [|b q]; [exists x, a|rewrite join_cons2; exists x, (a ++ slash :: join_with slash (b :: q))];
      now split.
  Qed.

  Lemma arcname_names q : q <> [] -> Forall entry_name q ->
    arcname (join_with slash q) = join_with slash q.
  Proof.
    intros N H. destruct q as [|a q]; [congruence|]. inversion H as [|? ? Ha Hq]; subst.
    destruct (join_head a q Ha) as (x & s & E & Hx).
    unfold arcname, normpath. rewrite E.
    assert (initial_slashes (x :: s) = 0%nat) as ->.
    { apply Z.eqb_neq in Hx. unfold initial_slashes. destruct s as [|? [|? ?]]; now rewrite Hx. }
    rewrite <- E. cbn [Nat.eqb negb repeat app].
    rewrite split_join by (auto; now apply names_noslash).
    rewrite <- (app_nil_r (a :: q)) at 1. rewrite norm_names by exact H. cbn [app norm_comps].
    rewrite E. cbn [lstrip_slash]. apply Z.eqb_neq in Hx. now rewrite Hx.
  Qed.

  Inductive good_names : tree -> Prop :=
  | GN_file d : good_names (TFile d)
  | GN_dir l : Forall (fun nt => utf8 (fst nt) = true /\ good_names (snd nt)) l ->
      good_names (TDir l).

  Lemma all_good_names l : all_names (fun n => utf8 n = true) l -> good_names (TDir l).
  Proof.
    induction 1 as [|n d l Hn Hl IH|n c l Hn Hc IHc Hl IH]; constructor; [constructor| |].
    - constructor; [split; [exact Hn|constructor]|]. now inversion IH.
    - constructor; [split; [exact Hn|exact IHc]|]. now inversion IH.
  Qed.

  Lemma good_children_forall l : good_children l ->
    Forall (fun nt => entry_name (fst nt) /\ good_tree (snd nt)) l /\ NoDup (map fst l).
  Proof.
    induction l as [|[n t] l IH]; intros H; inversion H; subst; [split; constructor|].
    destruct IH as [A B]; [assumption|]. split; constructor; auto.
  Qed.

  Lemma add_ents t : forall q n, Forall entry_name q -> entry_name n -> utf8 n = true ->
    good_tree t -> good_names t -> add_to_zip utf8 ign (base q) n t = Done (ents q n t).
  Proof.
    induction t as [d|l IH] using tree_induct; intros q n Hq Hn Hu Hg Hg'.
    - cbn [add_to_zip ents]. rewrite Hu. cbn [negb].
      rewrite map_noslash by now apply entry_noslash. rewrite base_name.
      rewrite arcname_names; [reflexivity|destruct q; discriminate|].
      apply Forall_app; split; [exact Hq|]. constructor; [exact Hn|constructor].
    - rewrite add_dir, Hu. cbn [negb]. rewrite map_noslash by now apply entry_noslash.
      rewrite app_assoc, base_name. cbn zeta.
      rewrite <- base_snoc.
      assert (pack (base (q ++ [n])) l = Done (ents_of (q ++ [n]) l)) as ->;
        [|cbn [ents]; now rewrite base_snoc].
      inversion Hg as [|? Hc]; subst. apply good_children_forall in Hc as [Hc _].
      inversion Hg' as [|? Hc']; subst.
      assert (Hqn : Forall entry_name (q ++ [n])).
      { apply Forall_app; split; [exact Hq|]. constructor; [exact Hn|constructor]. }
      clear Hg Hg'. induction l as [|[m t] l IHl]; [reflexivity|].
      inversion_clear IH as [|? ? It Il]. inversion_clear Hc as [|? ? [Ct Ct2] Cl].
      inversion_clear Hc' as [|? ? [Dt Dt2] Dl]. cbn [fst snd] in *.
      cbn [pack]. rewrite Dt. cbn [negb]. unfold ents_of. cbn [flat_map fst snd].
      destruct (ign m); [now apply IHl|].
      rewrite It by auto. rewrite IHl by auto. reflexivity.
  Qed.

  Lemma pack_ents l q : Forall entry_name q -> good_children l -> good_names (TDir l) ->
    pack (base q) l = Done (ents_of q l).
  Proof.
    intros Hq Hg Hg'. apply good_children_forall in Hg as [Hc _].
    inversion Hg' as [|? Hc']; subst. clear Hg'.
    induction l as [|[m t] l IHl]; [reflexivity|].
    inversion_clear Hc as [|? ? [Ct Ct2] Cl]. inversion_clear Hc' as [|? ? [Dt Dt2] Dl].
    cbn [fst snd] in *. cbn [pack]. rewrite Dt. cbn [negb]. unfold ents_of. cbn [flat_map fst snd].
    destruct (ign m); [now apply IHl|].
    rewrite add_ents by auto. rewrite IHl by auto. reflexivity.
  Qed.

  (** ** The names are different *)

  Lemma ents_below t : forall q n e, Forall entry_name q -> entry_name n -> good_tree t ->
    In e (ents q n t) -> exists r, split_on slash (z_name e) = q ++ n :: r.
  Proof.
    induction t as [d|l IH] using tree_induct; intros q n e Hq Hn Hg.
    - intros [<-|[]]. exists []. cbn [z_name stored]. apply split_join; [destruct q; discriminate|].
      apply names_noslash. apply Forall_app; split; [exact Hq|]. constructor; [exact Hn|constructor].
    - cbn [ents]. intros [<-|Hi].
      + exists [[]]. cbn [z_name stored]. rewrite split_on_app.
        rewrite split_join; [|destruct q; discriminate|].
        * now rewrite <- app_assoc.
        * apply names_noslash. apply Forall_app; split; [exact Hq|]. constructor; [exact Hn|constructor].
      + apply in_flat_map in Hi as ([m t] & Hm & Hi). cbn [fst snd] in Hi.
        destruct (ign m); [destruct Hi|]. rewrite Forall_forall in IH. specialize (IH _ Hm).
        inversion Hg as [|? Hc]; subst. apply good_children_forall in Hc as [Hc _].
        rewrite Forall_forall in Hc. destruct (Hc _ Hm) as [Nm Gt]. cbn [fst snd] in *.
        destruct (IH (q ++ [n]) m e) as (r & E); auto.
        { apply Forall_app; split; [exact Hq|]. constructor; [exact Hn|constructor]. }
        exists (m :: r). rewrite E. now rewrite <- app_assoc.
  Qed.

  Lemma NoDup_app_intro {A} (a b : list A) : NoDup a -> NoDup b ->
    (forall x, In x a -> In x b -> False) -> NoDup (a ++ b).
  Proof.
    induction a as [|x a IH]; intros Ha Hb H; [exact Hb|]. inversion_clear Ha. cbn [app].
    constructor.
    - intros Hi. apply in_app_iff in Hi as [Hi|Hi]; [auto|]. apply (H x); [now left|exact Hi].
    - apply IH; auto. intros y Hy Hy'. apply (H y); [now right|exact Hy'].
  Qed.

  Lemma ents_of_nodup l q : Forall entry_name q -> good_children l ->
    Forall (fun nt => NoDup (map z_name (ents q (fst nt) (snd nt)))) l ->
    NoDup (map z_name (ents_of q l)).
  Proof.
    intros Hq Hg H. apply good_children_forall in Hg as [Hc Hd].
    induction l as [|[m t] l IH]; [constructor|].
    inversion_clear H as [|? ? H1 H2]. inversion_clear Hc as [|? ? [C1 C2] C3].
    inversion_clear Hd as [|? ? D1 D2]. cbn [fst snd] in *.
    unfold ents_of. cbn [flat_map fst snd]. destruct (ign m); [now apply IH|].
    rewrite map_app. apply NoDup_app_intro; [exact H1|now apply IH|].
    intros y Hx Hy. apply in_map_iff in Hx as (e & Ey & He). apply in_map_iff in Hy as (e' & E & He').
    rewrite <- Ey in E. destruct (ents_below t q m e) as (r & Er); auto.
    apply in_flat_map in He' as ([m' t'] & Hm & Hi). cbn [fst snd] in Hi.
    destruct (ign m'); [destruct Hi|].
    rewrite Forall_forall in C3. destruct (C3 _ Hm) as [Nm Gt]. cbn [fst snd] in *.
    destruct (ents_below t' q m' e') as (r' & Er'); auto.
    rewrite E, Er in Er'. apply app_inv_head in Er'. injection Er' as -> _.
    apply D1. now apply (in_map fst) in Hm.
  Qed.

  Lemma ents_nodup t : forall q n, Forall entry_name q -> entry_name n -> good_tree t ->
    NoDup (map z_name (ents q n t)).
  Proof.
    induction t as [d|l IH] using tree_induct; intros q n Hq Hn Hg.
    - constructor; [intros []|constructor].
    - inversion Hg as [|? Hc]; subst.
      assert (Hqn : Forall entry_name (q ++ [n])).
      { apply Forall_app; split; [exact Hq|]. constructor; [exact Hn|constructor]. }
      cbn [ents map]. fold (ents_of (q ++ [n]) l). constructor.
      + cbn [z_name stored]. intros Hi. apply in_map_iff in Hi as (e & E & He).
        apply in_flat_map in He as ([m t] & Hm & He). cbn [fst snd] in He.
        destruct (ign m); [destruct He|]. pose proof Hc as Hc'.
        apply good_children_forall in Hc' as [Hf _].
        rewrite Forall_forall in Hf. destruct (Hf _ Hm) as [Nm Gt]. cbn [fst snd] in *.
        destruct (ents_below t (q ++ [n]) m e) as (r & Er); auto.
        rewrite E, split_on_app, (split_join (q ++ [n])) in Er;
          [|destruct q; discriminate|now apply names_noslash].
        apply app_inv_head in Er. injection Er as Em _. now apply (entry_nonempty _ Nm).
      + apply ents_of_nodup; auto. pose proof Hc as Hc'.
        apply good_children_forall in Hc' as [Hf _].
        rewrite Forall_forall in IH, Hf. apply Forall_forall. intros [m t] Hm. destruct (Hf _ Hm). apply (IH _ Hm); auto.
  Qed.

  Lemma read_nodup z e : NoDup (map z_name z) -> In e z -> read_entry z (z_name e) = z_data e.
  Proof.
    intros N Hi. unfold read_entry.
    destruct (find (fun x => str_eqb (z_name x) (z_name e)) (rev z)) as [e'|] eqn:F.
    - apply find_some in F as [Hi' E]. apply in_rev in Hi'. apply str_eqb_eq in E.
      assert (e' = e) as ->; [|reflexivity].
      clear -N Hi Hi' E. induction z as [|x z IH]; [destruct Hi|].
      inversion_clear N as [|? ? N1 N2]. destruct Hi as [->|Hi], Hi' as [->|Hi']; auto.
      + exfalso. apply N1. rewrite <- E. now apply in_map.
      + exfalso. apply N1. rewrite E. now apply in_map.
    - exfalso. pose proof (find_none _ _ F e (proj1 (in_rev _ _) Hi)) as X. cbn beta in X.
      rewrite str_eqb_refl in X. discriminate.
  Qed.

  (** ** Unpacking them *)

  (** what is at a place of a tree, without what is ignored *)
  Fixpoint node_at (t : tree) (r : list str) : option node :=
    match r with
    | [] => Some (match t with TFile d => File d | TDir _ => Dir end)
    | m :: r' =>
        match t with
        | TFile _ => None
        | TDir l => if ign m then None
                    else match dir_get l m with Some t' => node_at t' r' | None => None end
        end
    end.

  Variable denied : list str -> bool.
  Variable d : list str.
  Hypothesis Hd : Forall entry_name d.
  Hypothesis Hfree : forall q, denied (d ++ q) = false.
  Variable z : list entry.
  Hypothesis Hz : NoDup (map z_name z).
  Notation dp := (absp d).

  Definition all_dirs (f : filesys) (q : list str) : Prop :=
    forall a b, q = a ++ b -> f (d ++ a) = Some Dir.

  Lemma go_name q n : entry_name n -> hop q n = q ++ [n].
  Proof.
    intros (A & B & C & D). unfold hop. apply Py.str_eqb_neq in A, C, D.
    change (lit "") with (@nil Z). now rewrite A, C, D.
  Qed.

  Lemma walk_down f rest : forall q p, Forall entry_name (d ++ p ++ q) ->
    Forall (fun n => utf8 n = true) q -> all_dirs f (p ++ q) ->
    walk utf8 denied dp false f (absp (d ++ p)) (q ++ rest) =
    walk utf8 denied dp false f (absp (d ++ p ++ q)) rest.
  Proof.
    induction q as [|n q IH]; intros p H Hu Ha.
    - now rewrite app_nil_r.
    - cbn [app walk]. inversion_clear Hu as [|? ? U1 U2].
      assert (Hp : Forall entry_name (d ++ p)).
      { rewrite app_assoc in H. now apply Forall_app in H as [H _]. }
      assert (Hn : entry_name n).
      { rewrite app_assoc in H. apply Forall_app in H as [_ H]. now inversion H. }
      assert (isdir f (absp (d ++ p)) = true) as ->.
      { apply isdir_dir; [exact Hp|]. now apply (Ha p (n :: q)). }
      rewrite U1. cbn [negb]. rewrite normpath_join by (auto; now apply entry_noslash).
      rewrite go_name by exact Hn. rewrite <- app_assoc.
      assert (Hpn : Forall entry_name (d ++ p ++ [n])).
      { rewrite app_assoc. apply Forall_app; split; [exact Hp|]. constructor; [exact Hn|constructor]. }
      rewrite PackagePath_in by exact Hpn.
      rewrite IH.
      + now rewrite <- app_assoc.
      + now rewrite <- !app_assoc.
      + exact U2.
      + now rewrite <- app_assoc.
  Qed.

  Lemma removelast_snoc3 (a b : list str) n : removelast (a ++ b ++ [n]) = a ++ b.
  Proof. now rewrite app_assoc, removelast_last. Qed.

  Lemma all_dirs_self f q : all_dirs f q -> f (d ++ q) = Some Dir.
  Proof. intros H. apply (H q []). now rewrite app_nil_r. Qed.

  Lemma app_cons_neq (a : list str) n : a <> a ++ [n].
  Proof. intros E. apply (f_equal (@length str)) in E. rewrite app_length in E. cbn in E. lia. Qed.

  Lemma unpack_file f q n data : Forall entry_name (d ++ q) -> entry_name n ->
    Forall (fun m => utf8 m = true) (q ++ [n]) -> all_dirs f q -> f (d ++ q ++ [n]) = None ->
    In (stored (join_with slash (q ++ [n])) data) z ->
    unpack_entry utf8 denied dp z f (stored (join_with slash (q ++ [n])) data) =
    (put (put f (d ++ q ++ [n]) (File [])) (d ++ q ++ [n]) (File data), Done tt).
  Proof.
    intros H Hn Hu Ha N Hi. unfold unpack_entry. cbn [z_name z_unicode z_size stored].
    assert (Hqn : Forall entry_name (q ++ [n])).
    { apply Forall_app in H as [_ H]. apply Forall_app; split; [exact H|]. constructor; [exact Hn|constructor]. }
    assert (Hdqn : Forall entry_name (d ++ q ++ [n])) by (apply Forall_app; now split).
    rewrite split_join by (try (now apply names_noslash); destruct q; discriminate).
    apply Forall_app in Hu as [Hu1 Hu2]. inversion_clear Hu2 as [|? ? Hu _].
    pose proof (walk_down f [n] q []) as W. cbn [app] in W. rewrite app_nil_r in W.
    rewrite W by assumption. clear W. cbn [walk].
    assert (isdir f (absp (d ++ q)) = true) as ->.
    { apply isdir_dir; [exact H|]. now apply all_dirs_self. }
    rewrite Hu. cbn [negb]. rewrite normpath_join by (auto; now apply entry_noslash).
    rewrite go_name by exact Hn. rewrite <- app_assoc. rewrite PackagePath_in by exact Hdqn.
    assert (isdir f (absp (d ++ q ++ [n])) = false) as I.
    { unfold isdir. rewrite place_absp by exact Hdqn. now rewrite N. }
    rewrite I. rewrite exists_some by exact Hdqn. rewrite N.
    unfold open_wb. rewrite I. rewrite place_absp by exact Hdqn.
    unfold parent_is_dir. rewrite removelast_snoc3.
    rewrite (all_dirs_self f q Ha). rewrite Hfree. cbn [negb orb].
    pose proof (read_nodup z _ Hz Hi) as R. cbn [z_name z_data stored] in R. rewrite R. reflexivity.
  Qed.

  Lemma unpack_dir f q n : Forall entry_name (d ++ q) -> entry_name n ->
    Forall (fun m => utf8 m = true) (q ++ [n]) -> all_dirs f q -> f (d ++ q ++ [n]) = None ->
    unpack_entry utf8 denied dp z f (stored (join_with slash (q ++ [n]) ++ [slash]) []) =
    (put f (d ++ q ++ [n]) Dir, Done tt).
  Proof.
    intros H Hn Hu Ha N. unfold unpack_entry. cbn [z_name z_unicode z_size stored].
    assert (Hqn : Forall entry_name (q ++ [n])).
    { apply Forall_app in H as [_ H]. apply Forall_app; split; [exact H|]. constructor; [exact Hn|constructor]. }
    assert (Hdqn : Forall entry_name (d ++ q ++ [n])) by (apply Forall_app; now split).
    rewrite split_on_app. rewrite split_join by (try (now apply names_noslash); destruct q; discriminate).
    cbn [split_on]. rewrite <- app_assoc. cbn [app].
    apply Forall_app in Hu as [Hu1 Hu2]. inversion_clear Hu2 as [|? ? Hu _].
    pose proof (walk_down f [n; []] q []) as W. cbn [app] in W. rewrite app_nil_r in W.
    rewrite W by assumption. clear W. cbn [walk].
    assert (isdir f (absp (d ++ q)) = true) as ->.
    { apply isdir_dir; [exact H|]. now apply all_dirs_self. }
    rewrite Hu, utf8_nil. cbn [negb]. rewrite normpath_join by (auto; now apply entry_noslash).
    rewrite go_name by exact Hn. rewrite <- app_assoc. rewrite PackagePath_in by exact Hdqn.
    assert (isdir f (absp (d ++ q ++ [n])) = false) as I.
    { unfold isdir. rewrite place_absp by exact Hdqn. now rewrite N. }
    rewrite I. unfold mkdir. rewrite exists_some by exact Hdqn. rewrite N.
    rewrite place_absp by exact Hdqn.
    unfold parent_is_dir. rewrite removelast_snoc3.
    rewrite (all_dirs_self f q Ha). rewrite Hfree. cbn [negb orb].
    rewrite normpath_join by (auto; intros []).
    change (hop (d ++ q ++ [n]) []) with (d ++ q ++ [n]).
    rewrite PackagePath_in by exact Hdqn.
    assert (isdir (put f (d ++ q ++ [n]) Dir) (absp (d ++ q ++ [n])) = true) as ->.
    { apply isdir_dir; [exact Hdqn|]. apply put_same. }
    reflexivity.
  Qed.

  Lemma unpack_entries_app l1 l2 f g : unpack_entries utf8 denied dp z f l1 = (g, Done tt) ->
    unpack_entries utf8 denied dp z f (l1 ++ l2) = unpack_entries utf8 denied dp z g l2.
  Proof.
    revert f. induction l1 as [|e l1 IH]; intros f; cbn [app unpack_entries].
    - now intros [= <-].
    - destruct (unpack_entry utf8 denied dp z f e) as [f1 [u|x]]; [apply IH|discriminate].
  Qed.

  Lemma unpack_one f e g : unpack_entry utf8 denied dp z f e = (g, Done tt) ->
    unpack_entries utf8 denied dp z f [e] = (g, Done tt).
  Proof. intros H. cbn [unpack_entries]. now rewrite H. Qed.

  (** the result for one name n at q with what is below it *)
  Definition became (f f' : filesys) (q : list str) (n : str) (t : tree) : Prop :=
    (forall r, f' (d ++ q ++ n :: r) = node_at t r) /\
    (forall y, (forall r, y <> d ++ q ++ n :: r) -> f' y = f y).

  Lemma app_inv3 (q : list str) a b : d ++ q ++ a = d ++ q ++ b -> a = b.
  Proof. intros E. apply app_inv_head in E. now apply app_inv_head in E. Qed.

  Lemma became_other f f' q n t m r : became f f' q n t -> n <> m ->
    f' (d ++ q ++ m :: r) = f (d ++ q ++ m :: r).
  Proof.
    intros [_ B] N. apply B. intros r' E. apply app_inv3 in E. injection E as -> _. congruence.
  Qed.
  Lemma became_dirs f f' q n t : became f f' q n t -> all_dirs f q -> all_dirs f' q.
  Proof.
    intros [_ B] H a b E. rewrite B; [now apply (H a b)|].
    intros r Er. apply app_inv_head in Er. apply (f_equal (@length str)) in Er.
    rewrite app_length in Er. cbn in Er. apply (f_equal (@length str)) in E. rewrite app_length in E. lia.
  Qed.

  Lemma dir_get_in l m t : NoDup (map fst l) -> In (m, t) l -> dir_get l m = Some t.
  Proof.
    induction l as [|[a u] l IH]; [intros _ []|].
    intros N [E|Hi]; inversion_clear N as [|? ? N1 N2]; cbn [dir_get].
    - injection E as -> ->. now rewrite str_eqb_refl.
    - destruct (str_eqb m a) eqn:X; [|now apply IH].
      apply str_eqb_eq in X. subst. exfalso. apply N1. now apply (in_map fst) in Hi.
  Qed.
  Lemma dir_get_some l m t : dir_get l m = Some t -> In (m, t) l.
  Proof.
    induction l as [|[a u] l IH]; cbn [dir_get]; [discriminate|].
    destruct (str_eqb m a) eqn:X; [|intros H; right; auto].
    apply str_eqb_eq in X. subst. intros [= <-]. now left.
  Qed.

  (** the entries of a directory one after the other *)
  Lemma unpack_children l q : Forall entry_name (d ++ q) ->
    (forall e, In e (ents_of q l) -> In e z) ->
    Forall (fun nt => entry_name (fst nt) /\ utf8 (fst nt) = true) l -> NoDup (map fst l) ->
    Forall (fun nt => forall f, all_dirs f q ->
              (forall r, f (d ++ q ++ fst nt :: r) = None) ->
              (forall e, In e (ents q (fst nt) (snd nt)) -> In e z) ->
              exists f', unpack_entries utf8 denied dp z f (ents q (fst nt) (snd nt)) = (f', Done tt) /\
                         became f f' q (fst nt) (snd nt)) l ->
    forall f, all_dirs f q -> (forall m r, In m (map fst l) -> f (d ++ q ++ m :: r) = None) ->
    exists f', unpack_entries utf8 denied dp z f (ents_of q l) = (f', Done tt) /\
      (forall m t r, In (m, t) l -> f' (d ++ q ++ m :: r) = if ign m then None else node_at t r) /\
      (forall y, (forall m r, In m (map fst l) -> y <> d ++ q ++ m :: r) -> f' y = f y).
  Proof.
    intros Hq. induction l as [|[n t] l IH]; intros Hz' Hn Hnd Hc f Ha Hf.
    - exists f. split; [reflexivity|]. split; [intros ? ? ? []|auto].
    - inversion_clear Hn as [|? ? [N1 N2] N3]. inversion_clear Hnd as [|? ? D1 D2].
      inversion_clear Hc as [|? ? C1 C2]. cbn [fst snd] in *.
      assert (Hl : forall e, In e (ents_of q l) -> In e z).
      { intros e He. apply Hz'. unfold ents_of. cbn [flat_map]. apply in_or_app. now right. }
      destruct (ign n) eqn:I.
      + destruct (IH Hl N3 D2 C2 f Ha) as (f' & U & A & B).
        { intros m r Hm. apply Hf. now right. }
        exists f'. split; [unfold ents_of; cbn [flat_map fst]; rewrite I; exact U|]. split.
        * intros m u r [E|Hi]; [|now apply A]. injection E as <- <-. rewrite I.
          rewrite B; [apply Hf; now left|]. intros m' r' Hm' E'.
          apply app_inv3 in E'. injection E' as <- _. contradiction.
        * intros y Hy. apply B. intros m r Hm. apply Hy. now right.
      + destruct (C1 f Ha) as (g & U & G).
        { intros r. apply Hf. now left. }
        { intros e He. apply Hz'. unfold ents_of. cbn [flat_map fst snd]. rewrite I.
          apply in_or_app. now left. }
        destruct (IH Hl N3 D2 C2 g) as (f' & U' & A & B).
        { eapply became_dirs; eauto. }
        { intros m r Hm. rewrite (became_other _ _ _ _ _ _ _ G).
          - apply Hf. now right.
          - intros ->. contradiction. }
        exists f'. split.
        { unfold ents_of. cbn [flat_map fst snd]. rewrite I.
          now rewrite (unpack_entries_app _ _ _ _ U). }
        split.
        * intros m u r [E|Hi]; [|now apply A]. injection E as <- <-. rewrite I.
          rewrite B; [apply G|]. intros m' r' Hm' E'.
          apply app_inv3 in E'. injection E' as <- _. contradiction.
        * intros y Hy. rewrite B.
          -- apply G. intros r. apply Hy. now left.
          -- intros m r Hm. apply Hy. now right.
  Qed.

  Lemma unpack_tree t : forall q n, Forall entry_name (d ++ q) -> entry_name n ->
    Forall (fun m => utf8 m = true) (q ++ [n]) -> good_tree t -> good_names t ->
    forall f, all_dirs f q -> (forall r, f (d ++ q ++ n :: r) = None) ->
    (forall e, In e (ents q n t) -> In e z) ->
    exists f', unpack_entries utf8 denied dp z f (ents q n t) = (f', Done tt) /\ became f f' q n t.
  Proof.
    induction t as [data|l IH] using tree_induct; intros q n Hq Hn Hu Hg Hg' f Ha Hf Hz'.
    - eexists. split.
      + apply unpack_one. apply unpack_file; auto. apply Hz'. now left.
      + split.
        * intros r. destruct r as [|m r].
          -- now rewrite put_same.
          -- rewrite !put_other; [apply Hf| |]; intros E; apply app_inv3 in E; discriminate.
        * intros y Hy. rewrite !put_other; auto; intros E; now apply (Hy []).
    - inversion Hg as [|? Hc]; subst. apply good_children_forall in Hc as [Hc Hnd].
      inversion Hg' as [|? Hc']; subst.
      assert (Hqn : Forall entry_name (d ++ q ++ [n])).
      { rewrite app_assoc. apply Forall_app; split; [exact Hq|]. constructor; [exact Hn|constructor]. }
      pose proof (unpack_dir f q n Hq Hn Hu Ha (Hf [])) as U.
      set (g := put f (d ++ q ++ [n]) Dir) in *.
      assert (Ga : all_dirs g (q ++ [n])).
      { intros a b E. destruct b as [|x b] using rev_ind.
        - rewrite app_nil_r in E. subst a. unfold g. apply put_same.
        - rewrite app_assoc in E. apply app_inj_tail in E as [E _]. unfold g.
          rewrite put_other; [now apply (Ha a b)|].
          intros E'. apply app_inv_head in E'. apply (f_equal (@length str)) in E', E.
          rewrite app_length in E', E. cbn in E'. lia. }
      assert (Gn : forall m r, In m (map fst l) -> g (d ++ (q ++ [n]) ++ m :: r) = None).
      { intros m r _. rewrite <- app_assoc. cbn [app]. unfold g. rewrite put_other; [apply Hf|].
        intros E. apply app_inv3 in E. discriminate. }
      destruct (unpack_children l (q ++ [n])) with (f := g) as (f' & U' & A & B); auto.
      + intros e He. apply Hz'. now right.
      + rewrite Forall_forall in Hc, Hc'. apply Forall_forall. intros mt Hm.
        destruct (Hc _ Hm), (Hc' _ Hm). now split.
      + rewrite Forall_forall in IH, Hc, Hc'. apply Forall_forall. intros mt Hm.
        destruct (Hc _ Hm), (Hc' _ Hm). intros f0 A0 N0 Z0. apply (IH _ Hm); auto.
        apply Forall_app; split; [exact Hu|]. constructor; [auto|constructor].
      + exists f'. split.
        { cbn [ents]. fold (ents_of (q ++ [n]) l). cbn [unpack_entries]. now rewrite U. }
        split.
        * intros r. destruct r as [|m r].
          -- rewrite B; [apply put_same|]. intros m r _ E. rewrite <- app_assoc in E.
             apply app_inv3 in E. discriminate.
          -- cbn [node_at]. destruct (dir_get l m) as [t|] eqn:G.
             ++ apply dir_get_some in G. specialize (A m t r G). rewrite <- app_assoc in A. exact A.
             ++ destruct (ign m);
                  (rewrite B; [unfold g; rewrite put_other; [apply Hf|intros E; apply app_inv3 in E; discriminate]|]);
                  intros m' r' Hm E; rewrite <- app_assoc in E; apply app_inv3 in E; injection E as -> ->;
                  apply in_map_iff in Hm as ([m'' t''] & Em & Hm); cbn in Em; subst m'';
                  rewrite (dir_get_in _ _ _ Hnd Hm) in G; discriminate.
        * intros y Hy. rewrite B.
          -- unfold g. apply put_other. intros E. now apply (Hy []).
          -- intros m r _ E. apply (Hy (m :: r)). rewrite E. now rewrite <- app_assoc.
  Qed.
End Pack.

(** ** The places of a tree *)

Lemma here_node ign l q x : here ign l q x -> good_children l -> node_at ign (TDir l) q = Some x.
Proof.
  induction 1 as [l n dd Hi I|l n c Hi I|l n c q x Hi I H IH]; intros Hg;
    pose proof (good_children_forall _ Hg) as [Hf Hn]; cbn [node_at]; rewrite I.
  - now rewrite (dir_get_in _ _ _ Hn Hi).
  - now rewrite (dir_get_in _ _ _ Hn Hi).
  - rewrite (dir_get_in _ _ _ Hn Hi). apply IH.
    rewrite Forall_forall in Hf. destruct (Hf _ Hi) as [_ Hg']. now inversion Hg'.
Qed.

Lemma node_here ign q : forall l x, q <> [] -> node_at ign (TDir l) q = Some x -> here ign l q x.
Proof.
  induction q as [|m q IH]; intros l x N H; [congruence|]. cbn [node_at] in H.
  destruct (ign m) eqn:I; [discriminate|]. destruct (dir_get l m) as [t|] eqn:G; [|discriminate].
  apply dir_get_some in G. destruct q as [|a q].
  - cbn [node_at] in H. destruct t; injection H as <-; [now apply Here_file|now apply Here_dir with (c := children)].
  - destruct t as [dd|c]; [discriminate|]. eapply Here_in; eauto. apply IH; [discriminate|exact H].
Qed.

Lemma roundtrip utf8 ign denied d f l : utf8 [] = true ->
  Forall entry_name d -> d <> [] -> (forall q, denied (d ++ q) = false) ->
  f d = Some Dir -> (forall q, q <> [] -> f (d ++ q) = None) ->
  good_children l -> all_names (fun n => utf8 n = true) l ->
  exists z f', ExportToPIF utf8 ign l = Done z /\ NoDup (map z_name z) /\
    ExpandZip utf8 denied (absp d) z f = (f', Done tt) /\
    forall q, q <> [] -> f' (d ++ q) = node_at ign (TDir l) q.
Proof.
  intros U0 Hd Hne Hden Hf0 Hf Hg Hu. apply all_good_names in Hu.
  assert (Nd : NoDup (map z_name (ents_of ign [] l))).
  { apply ents_of_nodup; [constructor|exact Hg|].
    pose proof (good_children_forall _ Hg) as [Hc _]. rewrite Forall_forall in *.
    intros nt Hi. destruct (Hc _ Hi). apply ents_nodup; auto. }
  exists (ents_of ign [] l).
  pose proof (good_children_forall _ Hg) as [Hc Hnd]. inversion Hu as [|? Hc']; subst.
  destruct (unpack_children utf8 ign U0 denied d Hden (ents_of ign [] l) l []) with (f := f)
    as (f' & E & A & B).
  - now rewrite app_nil_r.
  - auto.
  - rewrite Forall_forall in Hc, Hc'. apply Forall_forall. intros nt Hi.
    destruct (Hc _ Hi), (Hc' _ Hi). now split.
  - exact Hnd.
  - rewrite Forall_forall in Hc, Hc'. apply Forall_forall. intros nt Hi.
    destruct (Hc _ Hi), (Hc' _ Hi). intros g Ga Gn Gz.
    apply unpack_tree; auto; [now rewrite app_nil_r|]. constructor; [assumption|constructor].
  - intros a b Eab. destruct a; [now rewrite app_nil_r|discriminate].
  - intros m r _. apply Hf. discriminate.
  - exists f'. split; [rewrite export_pack; apply (pack_ents utf8 ign l []); auto; constructor|].
    split; [exact Nd|]. split; [exact E|].
    intros q Nq. destruct q as [|m q]; [congruence|]. cbn [node_at].
    destruct (dir_get l m) as [t|] eqn:G.
    + apply dir_get_some in G. exact (A m t q G).
    + assert (f' (d ++ m :: q) = None) as ->; [|now destruct (ign m)].
      rewrite B; [now apply Hf|]. intros m' r Hm Em. cbn [app] in Em. apply app_inv_head in Em.
      injection Em as -> _. apply in_map_iff in Hm as ([a t] & Ea & Hm). cbn in Ea. subst a.
      rewrite (dir_get_in _ _ _ Hnd Hm) in G. discriminate.
Qed.
