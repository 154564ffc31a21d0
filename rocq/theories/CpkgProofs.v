(** Facts about the path functions of the model. *)
From Verif Require Import Py.
From Verif Require Import Cpkg CpkgSpec.

Definition noslash (s : str) : Prop := ~ In slash s.

Lemma entry_noslash n : entry_name n -> noslash n.
Proof. intros (_ & H & _); exact H. Qed.
Lemma entry_nonempty n : entry_name n -> n <> [].
Proof. intros (H & _); exact H. Qed.

(** ** Splitting and joining *)

Lemma split_on_noslash s : noslash s -> split_on slash s = [s].
Proof.
  induction s as [|c s IH]; intros H; [reflexivity|].
  cbn [split_on].
  destruct (Z.eqb_spec c slash) as [->|N]; [exfalso; apply H; now left|].
  rewrite IH; [reflexivity|]. intros Hi; apply H; now right.
Qed.

Lemma split_on_nonnil x s : split_on x s <> [].
Proof.
  induction s as [|c s IH]; cbn [split_on]; [discriminate|].
  destruct (c =? x); [discriminate|]. destruct (split_on x s); discriminate.
Qed.

Lemma split_on_app x a b : split_on x (a ++ x :: b) = split_on x a ++ split_on x b.
Proof.
  induction a as [|c a IH]; cbn [app split_on].
  - rewrite Z.eqb_refl. reflexivity.
  - destruct (c =? x); [rewrite IH; reflexivity|].
    rewrite IH. destruct (split_on x a) as [|p ps] eqn:E;
      [now apply split_on_nonnil in E|]. reflexivity.
Qed.

Lemma split_on_segments x s : Forall (fun p => ~ In x p) (split_on x s).
Proof.
  induction s as [|c s IH]; cbn [split_on]; [constructor; [intros []|constructor]|].
  destruct (Z.eqb_spec c x) as [E|N]; [constructor; [intros []|exact IH]|].
  destruct (split_on x s) as [|p ps]; constructor; auto.
  - intros [E|[]]; congruence.
  - inversion IH; subst. intros [E|Hi]; [congruence|auto].
  - now inversion IH.
Qed.

Lemma join_cons2 x (a b : str) l : join_with x (a :: b :: l) = a ++ x :: join_with x (b :: l).
Proof. reflexivity. Qed.

Lemma join_snoc x l (c : str) : l <> [] -> join_with x (l ++ [c]) = join_with x l ++ x :: c.
Proof.
  induction l as [|a l IH]; [congruence|intros _].
  destruct l as [|b l]; [reflexivity|].
  change ((a :: b :: l) ++ [c]) with (a :: b :: (l ++ [c])).
  rewrite !join_cons2. rewrite <- app_assoc. f_equal. cbn [app]. f_equal.
  apply IH. discriminate.
Qed.

Lemma join_app x l m : l <> [] -> m <> [] ->
  join_with x (l ++ m) = join_with x l ++ x :: join_with x m.
Proof.
  induction l as [|a l IH]; [congruence|intros _ Hm].
  destruct l as [|b l].
  - cbn [app]. destruct m; [congruence|reflexivity].
  - change ((a :: b :: l) ++ m) with (a :: b :: (l ++ m)).
    rewrite !join_cons2. rewrite <- app_assoc. f_equal. cbn [app]. f_equal.
    apply IH; [discriminate|exact Hm].
Qed.

Lemma split_join l : l <> [] -> Forall noslash l -> split_on slash (join_with slash l) = l.
Proof.
  induction l as [|a l IH]; [congruence|intros _ H]. inversion_clear H.
  destruct l as [|b l]; [now apply split_on_noslash|].
  rewrite join_cons2, split_on_app, split_on_noslash, IH; auto; discriminate.
Qed.

Lemma names_noslash l : Forall entry_name l -> Forall noslash l.
Proof. intros H; eapply Forall_impl; [|exact H]. exact entry_noslash. Qed.

(** ** Absolute texts *)

Definition absp (cs : list str) : str := slash :: join_with slash cs.

Lemma written_absp p cs : written p cs <-> Forall entry_name cs /\ p = absp cs.
Proof. reflexivity. Qed.

Lemma split_absp cs : Forall entry_name cs ->
  filter (fun c => negb (is_nil c)) (split_on slash (absp cs)) = cs.
Proof.
  intros H. unfold absp. cbn [split_on]. rewrite Z.eqb_refl. cbn [filter is_nil negb].
  destruct cs as [|c cs]; [reflexivity|].
  rewrite split_join by (try discriminate; now apply names_noslash).
  clear -H. induction H as [|n l Hn Hl IH]; [reflexivity|].
  cbn [filter]. destruct n; [now apply entry_nonempty in Hn|]. cbn [is_nil negb]. now f_equal.
Qed.

Lemma place_absp cs : Forall entry_name cs -> place (absp cs) = cs.
Proof. exact (split_absp cs). Qed.

Lemma absp_inj a b : Forall entry_name a -> Forall entry_name b -> absp a = absp b -> a = b.
Proof. intros Ha Hb E. rewrite <- (place_absp a Ha), <- (place_absp b Hb). now rewrite E. Qed.

Lemma last_cons_app (a : Z) s t : rev (s ++ a :: t) = rev t ++ a :: rev s.
Proof. rewrite rev_app_distr. cbn [rev]. now rewrite <- app_assoc. Qed.

Lemma name_snoc n : entry_name n -> exists n' c, n = n' ++ [c] /\ c <> slash.
Proof.
  intros H. destruct (exists_last (entry_nonempty _ H)) as (n' & c & ->).
  exists n', c; split; [reflexivity|]. intros ->. apply (entry_noslash _ H).
  apply in_or_app; right; now left.
Qed.

Lemma join_last l : l <> [] -> Forall entry_name l ->
  exists s c, join_with slash l = s ++ [c] /\ c <> slash.
Proof.
  intros N H. destruct (exists_last N) as (l' & n & ->).
  apply Forall_app in H as [H1 H2]. inversion_clear H2 as [|? ? Hn _].
  destruct (name_snoc n Hn) as (n' & c & -> & Hc).
  destruct l' as [|a l'].
  - exists n', c. now cbn.
  - rewrite join_snoc by discriminate. exists (join_with slash (a :: l') ++ slash :: n'), c.
    split; [|exact Hc]. now rewrite <- app_assoc.
Qed.

Lemma ends_slash_snoc s c : ends_slash (s ++ [c]) = (c =? slash).
Proof. unfold ends_slash. rewrite rev_app_distr. reflexivity. Qed.

Lemma ends_slash_absp cs : cs <> [] -> Forall entry_name cs -> ends_slash (absp cs) = false.
Proof.
  intros N H. destruct (join_last cs N H) as (s & c & E & Hc).
  unfold absp. rewrite E. change (slash :: s ++ [c]) with ((slash :: s) ++ [c]).
  rewrite ends_slash_snoc. now apply Z.eqb_neq.
Qed.

Lemma starts_noslash s : noslash s -> starts_slash s = false.
Proof.
  destruct s as [|c s]; [reflexivity|intros H; cbn]. apply Z.eqb_neq.
  intros ->; apply H; now left.
Qed.

Lemma join_absp cs s : Forall entry_name cs -> noslash s ->
  join (absp cs) s = slash :: join_with slash (cs ++ [s]).
Proof.
  intros H Hs. unfold join. rewrite starts_noslash by exact Hs.
  unfold absp at 1. destruct cs as [|c cs].
  - reflexivity.
  - rewrite ends_slash_absp by (try discriminate; exact H).
    rewrite join_snoc by discriminate. reflexivity.
Qed.

(** ** normpath *)

Lemma norm_names init acc cs rest : Forall entry_name cs ->
  norm_comps init acc (cs ++ rest) = norm_comps init (acc ++ cs) rest.
Proof.
  intros H. revert acc. induction H as [|n l (H1 & H2 & H3 & H4) Hl IH]; intros acc.
  - now rewrite app_nil_r.
  - cbn [app norm_comps].
    assert (is_nil n = false) as -> by (destruct n; [congruence|reflexivity]).
    assert (str_eqb n curdir = false) as -> by now apply Py.str_eqb_neq.
    assert (str_eqb n pardir = false) as -> by now apply Py.str_eqb_neq.
    cbn [orb negb]. rewrite IH, <- app_assoc. reflexivity.
Qed.

(** one segment more *)
Definition hop (q : list str) (seg : str) : list str :=
  if str_eqb seg (lit "") || str_eqb seg (lit ".") then q
  else if str_eqb seg (lit "..") then removelast q
  else q ++ [seg].

Lemma is_nil_lit s : is_nil s = str_eqb s (lit "").
Proof. destruct s; reflexivity. Qed.

Lemma last_name q : Forall entry_name q -> is_nil q = false -> str_eqb (last q []) pardir = false.
Proof.
  intros H N. apply Py.str_eqb_neq. destruct (exists_last (l:=q)) as (q' & n & E);
    [destruct q; discriminate || congruence|].
  subst q. rewrite last_last. apply Forall_app in H as [_ H]. inversion_clear H as [|? ? (_&_&_&H4) _].
  exact H4.
Qed.

Lemma norm_hop q seg rest : Forall entry_name q ->
  norm_comps true q (seg :: rest) = norm_comps true (hop q seg) rest.
Proof.
  intros H. cbn [norm_comps]. unfold hop. rewrite is_nil_lit. fold curdir pardir.
  destruct (str_eqb seg (lit "") || str_eqb seg curdir); [reflexivity|].
  destruct (str_eqb seg pardir) eqn:E; cbn [negb andb orb]; [|reflexivity].
  destruct (is_nil q) eqn:N; cbn [negb andb]; [reflexivity|].
  now rewrite last_name.
Qed.

Lemma hop_names q seg : Forall entry_name q -> noslash seg -> Forall entry_name (hop q seg).
Proof.
  intros H Hs. unfold hop.
  destruct (str_eqb seg (lit "")) eqn:E0; cbn [orb]; [exact H|].
  destruct (str_eqb seg (lit ".")) eqn:E1; [exact H|].
  destruct (str_eqb seg (lit "..")) eqn:E2.
  - destruct q as [|a q]; [exact H|]. destruct (exists_last (l:=a::q)) as (q' & n & E); [discriminate|].
    rewrite E in *. rewrite removelast_last. now apply Forall_app in H as [H _].
  - apply Forall_app; split; [exact H|]. constructor; [|constructor].
    apply Py.str_eqb_neq in E0, E1, E2. repeat split; auto.
Qed.

Lemma norm_fold segs : forall q, Forall entry_name q -> Forall noslash segs ->
  norm_comps true q segs = fold_left hop segs q.
Proof.
  induction segs as [|s segs IH]; intros q H Hs; [reflexivity|].
  inversion_clear Hs. rewrite norm_hop by exact H. cbn [fold_left]. apply IH; auto.
  now apply hop_names.
Qed.

Lemma fold_names segs : forall q, Forall entry_name q -> Forall noslash segs ->
  Forall entry_name (fold_left hop segs q).
Proof.
  induction segs as [|s segs IH]; intros q H Hs; [exact H|].
  inversion_clear Hs. cbn [fold_left]. apply IH; auto. now apply hop_names.
Qed.

Lemma resolve_fold p : resolve p = fold_left hop (split_on slash p) [].
Proof. reflexivity. Qed.

Lemma resolve_names p : Forall entry_name (resolve p).
Proof. rewrite resolve_fold. apply fold_names; [constructor|apply split_on_segments]. Qed.

Lemma absolute_initial p : absolute p -> initial_slashes p = 1%nat /\ p <> [].
Proof.
  intros ((r & ->) & H). split; [|discriminate].
  unfold initial_slashes. destruct r as [|b r].
  - now rewrite Z.eqb_refl.
  - destruct r as [|c r].
    + rewrite Z.eqb_refl. destruct (Z.eqb_spec b slash) as [->|]; [|reflexivity].
      exfalso. apply H. exists []. split; [reflexivity|discriminate].
    + rewrite Z.eqb_refl. destruct (Z.eqb_spec b slash) as [->|]; cbn [andb]; [|reflexivity].
      destruct (Z.eqb_spec c slash) as [->|N]; [reflexivity|].
      exfalso. apply H. exists (c :: r). split; [reflexivity|]. intros ? ? [= <- <-]. exact N.
Qed.

Lemma normpath_absolute p : absolute p -> normpath p = absp (resolve p).
Proof.
  intros H. apply absolute_initial in H as [E N]. unfold normpath.
  destruct p as [|x p]; [congruence|]. rewrite E. cbn [Nat.eqb negb repeat app].
  rewrite norm_fold by (constructor || apply split_on_segments). reflexivity.
Qed.

Lemma absolute_absp cs : Forall entry_name cs -> absolute (absp cs).
Proof.
  intros H. split; [eexists; reflexivity|]. intros (r & E & _).
  unfold absp in E. destruct cs as [|c cs]; [discriminate|].
  inversion_clear H as [|? ? Hc _].
  assert (exists r', join_with slash (c :: cs) = slash :: r') as (r' & E')
    by (eexists; injection E; intros E'; exact E').
  destruct c as [|x c]; [now apply entry_nonempty in Hc|].
  assert (x = slash).
  { destruct cs; [cbn in E'|rewrite join_cons2 in E'; cbn in E']; injection E'; auto. }
  subst. apply (entry_noslash _ Hc). now left.
Qed.

Lemma resolve_absp_app cs s : Forall entry_name cs -> noslash s ->
  resolve (slash :: join_with slash (cs ++ [s])) = hop cs s.
Proof.
  intros H Hs. rewrite resolve_fold. cbn [split_on]. rewrite Z.eqb_refl.
  rewrite split_join.
  - cbn [fold_left]. change (hop [] []) with (@nil str). rewrite fold_left_app.
    cbn [fold_left]. f_equal.
    rewrite <- (norm_fold cs []) by (constructor || now apply names_noslash).
    rewrite <- (app_nil_r cs) at 1. rewrite norm_names by exact H. reflexivity.
  - destruct cs; discriminate.
  - apply Forall_app; split; [now apply names_noslash|]. constructor; [exact Hs|constructor].
Qed.

Lemma resolve_absp cs : Forall entry_name cs -> resolve (absp cs) = cs.
Proof.
  intros H. destruct cs as [|c cs]; [reflexivity|].
  destruct (exists_last (l:=c::cs)) as (l & n & E); [discriminate|]. rewrite E in *.
  apply Forall_app in H as [H1 H2]. inversion_clear H2 as [|? ? Hn _].
  unfold absp. rewrite resolve_absp_app by (auto; now apply entry_noslash).
  destruct Hn as (A & B & C & D). unfold hop.
  apply Py.str_eqb_neq in A, C, D. change (lit "") with (@nil Z). now rewrite A, C, D.
Qed.

Lemma normpath_absp cs : Forall entry_name cs -> normpath (absp cs) = absp cs.
Proof. intros H. rewrite normpath_absolute by now apply absolute_absp. now rewrite resolve_absp. Qed.

Lemma absolute_join cs s : Forall entry_name cs -> noslash s ->
  absolute (slash :: join_with slash (cs ++ [s])).
Proof.
  intros H Hs. split; [eexists; reflexivity|]. intros (r & E & _).
  assert (E' : join_with slash (cs ++ [s]) = slash :: r) by (injection E; auto).
  destruct cs as [|c cs].
  - cbn in E'. subst s. apply Hs; now left.
  - inversion_clear H as [|? ? Hc _]. destruct c as [|x c]; [now apply entry_nonempty in Hc|].
    assert (x = slash).
    { cbn [app] in E'. destruct (cs ++ [s]) eqn:Ec; [destruct cs; discriminate|].
      rewrite join_cons2 in E'. cbn in E'. injection E'; auto. }
    subst. apply (entry_noslash _ Hc). now left.
Qed.

Lemma normpath_join cs s : Forall entry_name cs -> noslash s ->
  normpath (join (absp cs) s) = absp (hop cs s).
Proof.
  intros H Hs. rewrite join_absp by auto. rewrite normpath_absolute by now apply absolute_join.
  now rewrite resolve_absp_app.
Qed.

(** ** split *)

Lemma cut_last_noslash x s : ~ In x s -> cut_last x s = ([], s).
Proof.
  induction s as [|c s IH]; intros H; [reflexivity|]. cbn [cut_last].
  rewrite IH by (intros Hi; apply H; now right).
  destruct (Z.eqb_spec c x) as [->|]; [exfalso; apply H; now left|reflexivity].
Qed.

Lemma cut_last_app x h t : ~ In x t -> cut_last x (h ++ x :: t) = (h ++ [x], t).
Proof.
  intros H. induction h as [|c h IH]; cbn [app cut_last].
  - rewrite cut_last_noslash by exact H. now rewrite Z.eqb_refl.
  - rewrite IH. destruct h; reflexivity.
Qed.

Lemma rstrip_snoc_other s c : c <> slash -> rstrip_slash (s ++ [c]) = s ++ [c].
Proof.
  intros H. induction s as [|a s IH]; cbn [app rstrip_slash].
  - apply Z.eqb_neq in H. now rewrite H.
  - rewrite IH. destruct (s ++ [c]) eqn:E; [destruct s; discriminate|reflexivity].
Qed.

Lemma rstrip_snoc_slash s : rstrip_slash (s ++ [slash]) = rstrip_slash s.
Proof.
  induction s as [|a s IH]; cbn [app rstrip_slash].
  - now rewrite Z.eqb_refl.
  - now rewrite IH.
Qed.

Lemma split_snoc cs c : Forall entry_name cs -> entry_name c ->
  split (absp (cs ++ [c])) = (absp cs, c).
Proof.
  intros H Hc. unfold split.
  assert (absp (cs ++ [c]) = (if is_nil cs then [] else absp cs) ++ slash :: c) as ->.
  { unfold absp. destruct cs as [|a cs]; [reflexivity|].
    rewrite join_snoc by discriminate. reflexivity. }
  rewrite cut_last_app by now apply entry_noslash.
  destruct cs as [|a cs]; [reflexivity|]. cbn [is_nil].
  destruct (join_last (a :: cs)) as (s & x & E & Hx); [discriminate|exact H|].
  assert (forallb (Z.eqb slash) (absp (a :: cs) ++ [slash]) = false) as ->.
  { unfold absp. rewrite E. apply not_true_iff_false. intros Hf.
    rewrite forallb_forall in Hf. specialize (Hf x).
    apply Hx. symmetry. apply Z.eqb_eq. apply Hf. apply in_or_app; left. right.
    apply in_or_app; right; now left. }
  rewrite rstrip_snoc_slash. unfold absp. rewrite E.
  change (slash :: s ++ [x]) with ((slash :: s) ++ [x]).
  now rewrite rstrip_snoc_other.
Qed.

Lemma split_root : split (absp []) = (absp [], []).
Proof. reflexivity. Qed.

(** ** The loop of PathInPath and PackagePath *)

Lemma absp_length_snoc cs c : (length (absp cs) <= length (absp (cs ++ [c])))%nat.
Proof.
  unfold absp. cbn [length]. destruct cs as [|a cs]; [cbn; lia|].
  rewrite join_snoc by discriminate. rewrite app_length. lia.
Qed.

Lemma absp_length_snoc_lt cs c : c <> [] -> (length (absp cs) < length (absp (cs ++ [c])))%nat.
Proof.
  intros N. unfold absp. cbn [length]. destruct cs as [|a cs].
  - cbn. destruct c; [congruence|cbn; lia].
  - rewrite join_snoc by discriminate. rewrite app_length. cbn [length]. lia.
Qed.

Lemma names_dec (a b : list str) : {a = b} + {a <> b}.
Proof. exact (list_eq_dec str_eq_dec a b). Qed.

Lemma loop_spec fuel : forall cs ds rel,
  Forall entry_name cs -> Forall entry_name ds -> (length (absp cs) < fuel)%nat ->
  (forall r, cs = ds ++ r ->
     path_in_path_loop fuel (absp cs) (absp ds) rel = Done (Some (r ++ rel))) /\
  ((forall r, cs <> ds ++ r) -> path_in_path_loop fuel (absp cs) (absp ds) rel = Done None).
Proof.
  induction fuel as [|fuel IH]; intros cs ds rel Hc Hd L; [lia|].
  cbn [path_in_path_loop].
  destruct (names_dec cs ds) as [->|N].
  - rewrite str_eqb_refl. split.
    + intros r E. assert (r = []) as ->; [|reflexivity].
      apply (app_inv_head ds). now rewrite app_nil_r.
    + intros F. destruct (F []). now rewrite app_nil_r.
  - assert (str_eqb (absp cs) (absp ds) = false) as ->.
    { apply Py.str_eqb_neq. intros E. apply N. now apply absp_inj. }
    destruct cs as [|a cs0] eqn:Ecs.
    + rewrite split_root. cbn [is_nil orb]. split; [|reflexivity].
      intros r E. destruct ds; [congruence|discriminate].
    + destruct (exists_last (l:=cs)) as (l & n & E); [subst; discriminate|].
      rewrite <- Ecs in *. clear Ecs. subst cs.
      apply Forall_app in Hc as [Hl Hn]. inversion_clear Hn as [|? ? Hn' _].
      rewrite split_snoc by auto.
      assert (is_nil (absp l) = false) as -> by reflexivity.
      assert (is_nil n = false) as -> by (destruct n; [now apply entry_nonempty in Hn'|reflexivity]).
      cbn [orb].
      pose proof (absp_length_snoc_lt l n (entry_nonempty _ Hn')).
      destruct (IH l ds (n :: rel) Hl Hd ltac:(lia)) as [IH1 IH2]. split.
      * intros r E. destruct r as [|x r] using rev_ind; [rewrite app_nil_r in E; congruence|].
        rewrite app_assoc in E. apply app_inj_tail in E as [E ->].
        rewrite (IH1 r E). now rewrite <- app_assoc.
      * intros F. apply IH2. intros r ->. apply (F (r ++ [n])). now rewrite app_assoc.
Qed.

Lemma within_dec (d q : list str) : {r : list str | q = d ++ r} + {forall r : list str, q <> d ++ r}.
Proof.
  revert q. induction d as [|a d IH]; intros q.
  - left. exists q. reflexivity.
  - destruct q as [|b q]; [right; intros r; discriminate|].
    destruct (str_eq_dec a b) as [->|N].
    + destruct (IH q) as [(r & ->)|F].
      * left. now exists r.
      * right. intros r E. apply (F r). now injection E.
    + right. intros r E. apply N. now injection E.
Qed.

Lemma os_path_snoc l n : l <> [] -> os_path (l ++ [n]) = join (os_path l) n.
Proof.
  destruct l as [|a l]; [congruence|intros _]. cbn [app os_path].
  now rewrite fold_left_app.
Qed.

Lemma os_path_names r : Forall entry_name r -> os_path r = join_with slash r.
Proof.
  induction r as [|n r IH] using rev_ind; intros H; [reflexivity|].
  apply Forall_app in H as [H1 H2]. inversion_clear H2 as [|? ? Hn _].
  destruct r as [|a r]; [reflexivity|].
  rewrite os_path_snoc, IH, join_snoc by (auto; discriminate).
  unfold join. rewrite starts_noslash by now apply entry_noslash.
  destruct (join_last (a :: r)) as (s & x & E & Hx); [discriminate|exact H1|].
  rewrite E, ends_slash_snoc. apply Z.eqb_neq in Hx. rewrite Hx.
  destruct (s ++ [x]) eqn:Es; [destruct s; discriminate|reflexivity].
Qed.

(** The result of PathInPath for absolute paths *)
Lemma PathInPath_in child parent r : absolute child -> absolute parent ->
  resolve child = resolve parent ++ r -> PathInPath child parent = Done (Some r).
Proof.
  intros Hc Hp E. unfold PathInPath. rewrite !normpath_absolute by assumption.
  destruct (loop_spec (S (length (absp (resolve child)))) (resolve child) (resolve parent) []
              (resolve_names _) (resolve_names _) ltac:(lia)) as [H _].
  rewrite (H r E). now rewrite app_nil_r.
Qed.
Lemma PathInPath_out child parent : absolute child -> absolute parent ->
  (forall r, resolve child <> resolve parent ++ r) -> PathInPath child parent = Done None.
Proof.
  intros Hc Hp F. unfold PathInPath. rewrite !normpath_absolute by assumption.
  now apply (loop_spec (S (length (absp (resolve child)))) (resolve child) (resolve parent) []
              (resolve_names _) (resolve_names _) ltac:(lia)).
Qed.

(** The result of PackagePath for paths without detours *)
Lemma PackagePath_in d r : Forall entry_name (d ++ r) ->
  PackagePath (absp d) (absp (d ++ r)) = Done (Some (join_with slash r)).
Proof.
  intros H. pose proof H as H'. apply Forall_app in H' as [Hd Hr]. unfold PackagePath.
  destruct (loop_spec (S (length (absp (d ++ r)))) (d ++ r) d [] H Hd ltac:(lia)) as [L _].
  rewrite (L r eq_refl), app_nil_r. now rewrite os_path_names.
Qed.
Lemma PackagePath_out d cs : Forall entry_name d -> Forall entry_name cs ->
  (forall r, cs <> d ++ r) -> PackagePath (absp d) (absp cs) = Done None.
Proof.
  intros Hd Hc F. unfold PackagePath.
  destruct (loop_spec (S (length (absp cs))) cs d [] Hc Hd ltac:(lia)) as [_ L].
  now rewrite (L F).
Qed.
