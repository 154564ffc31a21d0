(** Which paths are ignored. *)
From Verif Require Import Py.
From Verif Require Import Cpkg CpkgSpec CpkgProofs CpkgProofs2 CpkgProofs3 CpkgProofs4 CpkgProofs5.

Lemma pardir_entry n : entry_name n -> str_eqb n pardir = false.
Proof. intros (_ & _ & _ & H). now apply Py.str_eqb_neq. Qed.
Lemma entry_not_nil n : entry_name n -> is_nil n = false.
Proof. intros (H & _). now destruct n. Qed.

Lemma ignore_absp ign fuel : forall cs, Forall entry_name cs -> (length (absp cs) < fuel)%nat ->
  ignore_path_loop fuel ign (absp cs) = Done (existsb ign cs).
Proof.
  induction fuel as [|fuel IH]; intros cs H L; [lia|]. cbn [ignore_path_loop].
  destruct cs as [|c cs _] using rev_ind.
  - rewrite split_root. cbn [is_nil negb andb]. rewrite str_eqb_refl. now rewrite orb_true_r.
  - apply Forall_app in H as [H Hc]. inversion_clear Hc as [|? ? Hc' _].
    rewrite (split_snoc cs c H Hc'). rewrite (entry_not_nil c Hc'), (pardir_entry c Hc').
    cbn [negb andb]. rewrite existsb_app. cbn [existsb].
    destruct (ign c); [now rewrite orb_true_r|]. rewrite !orb_false_r.
    assert (str_eqb (absp cs) (absp (cs ++ [c])) = false) as ->.
    { apply Py.str_eqb_neq. intros E. pose proof (absp_length_snoc_lt cs c) as X.
      rewrite <- E in X. destruct Hc' as (N & _). specialize (X N). lia. }
    cbn [is_nil orb absp]. fold (absp cs). apply IH; [exact H|].
    pose proof (absp_length_snoc_lt cs c (proj1 Hc')). lia.
Qed.

Lemma split_relative cs c : cs <> [] -> Forall entry_name cs -> entry_name c ->
  split (join_with slash (cs ++ [c])) = (join_with slash cs, c).
Proof.
  intros N H Hc. unfold split. rewrite join_snoc by exact N.
  rewrite cut_last_app by now apply entry_noslash.
  destruct (join_last cs N H) as (s & x & E & Nx). rewrite E.
  assert (forallb (Z.eqb slash) ((s ++ [x]) ++ [slash]) = false) as ->.
  { rewrite !forallb_app. cbn [forallb]. destruct (Z.eqb_spec slash x); [congruence|].
    cbn. now rewrite andb_false_r. }
  rewrite rstrip_snoc_slash. now rewrite rstrip_snoc_other.
Qed.

Lemma ignore_relative ign fuel : forall cs, cs <> [] -> Forall entry_name cs ->
  (length (join_with slash cs) < fuel)%nat ->
  ignore_path_loop fuel ign (join_with slash cs) = Done (existsb ign cs).
Proof.
  induction fuel as [|fuel IH]; intros cs N H L; [lia|]. cbn [ignore_path_loop].
  destruct (exists_last N) as (cs' & c & ->).
  apply Forall_app in H as [H Hc]. inversion_clear Hc as [|? ? Hc' _].
  destruct cs' as [|a cs'].
  - cbn [app join_with]. unfold split. rewrite cut_last_noslash by now apply entry_noslash.
    cbn [forallb existsb]. rewrite (entry_not_nil c Hc'), (pardir_entry c Hc'). cbn [negb andb is_nil orb].
    now destruct (ign c).
  - set (q := a :: cs') in *. assert (Nq : q <> []) by discriminate.
    rewrite (split_relative q c Nq H Hc'). rewrite (entry_not_nil c Hc'), (pardir_entry c Hc').
    cbn [negb andb]. rewrite existsb_app. cbn [existsb].
    destruct (ign c); [now rewrite orb_true_r|]. rewrite !orb_false_r.
    rewrite join_snoc in L by exact Nq. rewrite app_length in L. cbn [length] in L.
    assert (str_eqb (join_with slash q) (join_with slash (q ++ [c])) = false) as ->.
    { apply Py.str_eqb_neq. intros E. rewrite join_snoc in E by exact Nq.
      apply (f_equal (@length Z)) in E. rewrite app_length in E. cbn [length] in E. lia. }
    assert (is_nil (join_with slash q) = false) as ->.
    { destruct (join_last q Nq H) as (s & x & E & _). rewrite E. now destruct s. }
    cbn [orb]. apply IH; [exact Nq|exact H|lia].
Qed.

(** relative paths *)
Lemma norm_trail segs : forall q l, Forall entry_name q -> Forall noslash segs ->
  trail q segs l -> norm_comps false q segs = last l [] /\ Forall entry_name (last l []).
Proof.
  induction segs as [|s segs IH]; intros q l Hq Hs H; inversion H; subst; [now split|].
  inversion_clear Hs as [|? ? Hs1 Hs2].
  match goal with X : go q s = Some ?a, Y : trail ?a segs ?b |- _ => rename a into q'; rename b into l';
    rename X into G; rename Y into T end.
  assert (Hq' : Forall entry_name q').
  { rewrite <- (app_nil_l q'). rewrite <- (hop_go_some [] q s q' G). apply hop_names; assumption. }
  assert (E : norm_comps false q (s :: segs) = norm_comps false q' segs).
  { unfold go in G. cbn [norm_comps]. rewrite is_nil_lit. unfold curdir, pardir.
    destruct (str_eqb s (lit "") || str_eqb s (lit ".")) eqn:E0; [now injection G as <-|].
    destruct (str_eqb s (lit "..")) eqn:E1.
    - destruct q as [|x q]; [discriminate|]. injection G as <-.
      cbn [negb andb orb is_nil]. rewrite last_name by (try assumption; reflexivity). reflexivity.
    - injection G as <-. reflexivity. }
  rewrite E. destruct (IH q' l' Hq' Hs2 T) as [A B].
  assert (L : last (q :: l') [] = last l' []) by (destruct l'; [inversion T|reflexivity]).
  rewrite L. now split.
Qed.

Lemma ignore_rel ign p dirs q : starts_slash p = false ->
  trail [] (split_on slash p) (dirs ++ [q]) ->
  IgnoreFilePath ign p = Done (match q with [] => ign (lit ".") | _ => existsb ign q end).
Proof.
  intros Hs T. unfold IgnoreFilePath.
  destruct (norm_trail _ [] _ (Forall_nil _) (split_on_segments slash p) T) as [E H].
  rewrite last_last in E, H.
  assert (K : initial_slashes p = 0%nat).
  { destruct p as [|a [|b [|c p]]]; cbn in Hs |- *; rewrite ?Hs; reflexivity. }
  assert (En : normpath p = match join_with slash q with [] => curdir | r => r end).
  { unfold normpath. destruct p as [|c p].
    - cbn in E. subst q. reflexivity.
    - rewrite K. cbn [Nat.eqb negb]. rewrite E. reflexivity. }
  destruct q as [|a q'].
  - rewrite En. change (ignore_path_loop 2 ign [46] = Done (ign [46])).
    cbn [ignore_path_loop]. change (split [46]) with (@nil Z, [46]).
    cbv beta iota zeta.
    change (negb (is_nil [46]) && negb (str_eqb [46] pardir) && ign [46]) with (ign [46]).
    now destruct (ign [46]).
  - set (q := a :: q') in *. assert (Nq : q <> []) by discriminate.
    destruct (join_last q Nq H) as (s & x & Es & _).
    assert (normpath p = join_with slash q) as ->.
    { rewrite En, Es. now destruct s. }
    rewrite ignore_relative; [reflexivity|assumption|assumption|lia].
Qed.
