(** Writing $expand and $select. *)
From Coq Require Import Permutation.
From Verif Require Import Py Iso Dec Shapes XmlChars Xsd Imscp Uri OdExpr OdExprSpec OdExprProofs OdUri OdUriSpec OdUriProofs OdUriProofs2.
Open Scope Z_scope.
Open Scope list_scope.

Fixpoint sel_ind2 (P : sel -> Prop) (HL : P Leaf) (HB : forall l, Forall (fun p => P (snd p)) l -> P (Branch l)) (v : sel) : P v :=
  match v with
  | Leaf => HL
  | Branch l => HB l ((fix go (l : list (str * sel)) : Forall (fun p => P (snd p)) l :=
                         match l with [] => Forall_nil _ | p :: l' => Forall_cons p (sel_ind2 P HL HB (snd p)) (go l') end) l)
  end.

(** ** Order of strings *)
Lemma leb_refl a : str_leb a a = true.
Proof. induction a as [|x a IH]; [reflexivity|]. cbn [str_leb]. rewrite IH, Z.eqb_refl. apply orb_true_r. Qed.
Lemma leb_total a : forall b, str_leb a b = true \/ str_leb b a = true.
Proof.
  induction a as [|x a IH]; intros [|y b]; cbn [str_leb]; auto. destruct (Z.lt_trichotomy x y) as [H|[->|H]].
  - left. replace (x <? y) with true by lia. reflexivity.
  - rewrite Z.eqb_refl. destruct (IH b) as [->| ->]; rewrite !orb_true_r; auto.
  - right. replace (y <? x) with true by lia. reflexivity.
Qed.
Lemma leb_anti a : forall b, str_leb a b = true -> str_leb b a = true -> a = b.
Proof.
  induction a as [|x a IH]; intros [|y b]; cbn [str_leb]; try easy. intros H1 H2.
  assert (x = y) as -> by lia. rewrite Z.ltb_irrefl, Z.eqb_refl in *. f_equal. auto.
Qed.
Lemma leb_trans a : forall b c, str_leb a b = true -> str_leb b c = true -> str_leb a c = true.
Proof.
  induction a as [|x a IH]; intros [|y b] [|z c]; cbn [str_leb]; try easy. intros H1 H2.
  destruct (x <? y) eqn:E1; destruct (y <? z) eqn:E2; cbn [orb] in *.
  - replace (x <? z) with true by lia. reflexivity.
  - replace (x <? z) with true by lia. reflexivity.
  - replace (x <? z) with true by lia. reflexivity.
  - apply andb_prop in H1, H2. destruct H1 as [A B], H2 as [C D]. replace (x =? z) with true by lia. rewrite (IH b c B D). apply orb_true_r.
Qed.
Lemma leb_flip a b : str_leb a b = false -> str_leb b a = true.
Proof. intros H. destruct (leb_total a b); congruence. Qed.
Lemma insert_comm a b l : insert_str a (insert_str b l) = insert_str b (insert_str a l).
Proof.
  assert (forall a b, str_leb a b = true -> insert_str a (insert_str b l) = insert_str b (insert_str a l)) as K.
  2: { destruct (leb_total a b); [now apply K|symmetry; now apply K]. }
  clear a b. intros a b H. induction l as [|c l IH]; cbn [insert_str].
  - rewrite H. destruct (str_leb b a) eqn:E; [|reflexivity]. now rewrite (leb_anti a b H E).
  - destruct (str_leb b c) eqn:E1; cbn [insert_str].
    + rewrite H, (leb_trans a b c H E1). cbn [insert_str]. destruct (str_leb b a) eqn:E; [now rewrite (leb_anti a b H E)|]. now rewrite E1.
    + destruct (str_leb a c) eqn:E2; cbn [insert_str].
      * destruct (str_leb b a) eqn:E; [now rewrite (leb_trans b a c E E2) in E1|]. now rewrite E1.
      * rewrite E1, IH. reflexivity.
Qed.
Lemma sort_perm l l' : Permutation l l' -> sort_str l = sort_str l'.
Proof.
  unfold sort_str. induction 1; cbn [fold_right]; [reflexivity|now rewrite IHPermutation|apply insert_comm|congruence].
Qed.
Lemma insert_permutes a l : Permutation (a :: l) (insert_str a l).
Proof.
  induction l as [|b l IH]; cbn [insert_str]; [apply Permutation_refl|]. destruct (str_leb a b); [apply Permutation_refl|].
  transitivity (b :: a :: l); [constructor|now constructor].
Qed.
Lemma sort_permutes l : Permutation l (sort_str l).
Proof. induction l as [|a l IH]; cbn; [constructor|]. etransitivity; [|apply insert_permutes]. now constructor. Qed.

(** ** The longest paths of a dictionary *)
Fixpoint leaves1 (n : str) (v : sel) : list (list str) :=
  match v with
  | Leaf | Branch [] => [[n]]
  | Branch l => map (cons n) (flat_map (fun p => leaves1 (fst p) (snd p)) l)
  end.
Definition leaves (d : list (str * sel)) : list (list str) := flat_map (fun p => leaves1 (fst p) (snd p)) d.
Definition slash (p : list str) : str := match p with [] => [] | n :: p' => n ++ more_text p' end.
Lemma slash_cons n p : p <> [] -> slash (n :: p) = n ++ 47 :: slash p.
Proof. destruct p as [|m p]; [contradiction|]. reflexivity. Qed.
Lemma leaves1_nonempty v : forall n, leaves1 n v <> [] /\ Forall (fun p => exists q, p = n :: q) (leaves1 n v).
Proof.
  induction v as [|l IH] using sel_ind2; intros n; [split; [discriminate|repeat constructor; now exists []]|].
  destruct l as [|[m s] l]; [split; [discriminate|repeat constructor; now exists []]|]. cbn [leaves1]. split.
  - cbn [flat_map fst snd]. inversion IH; subst. destruct (H1 m) as [H _]. cbn [snd] in H. destruct (leaves1 m s); [contradiction|discriminate].
  - apply Forall_forall. intros p H. apply in_map_iff in H. destruct H as (q & <- & _). now exists q.
Qed.
Lemma leaves_nonempty_paths d p : In p (leaves d) -> p <> [].
Proof.
  unfold leaves. rewrite in_flat_map. intros ([n v] & _ & H). destruct (leaves1_nonempty v n) as [_ F]. rewrite Forall_forall in F.
  destruct (F p H) as (q & ->). discriminate.
Qed.
Lemma texts_leaves v : forall n, sel_texts n v = map slash (leaves1 n v).
Proof.
  induction v as [|l IH] using sel_ind2; intros n; [cbn; now rewrite app_nil_r|].
  destruct l as [|x l]; [cbn; now rewrite app_nil_r|]. cbn [sel_texts leaves1]. rewrite map_map.
  assert (flat_map (fun p => sel_texts (fst p) (snd p)) (x :: l) = map slash (leaves (x :: l))) as ->.
  { unfold leaves. revert IH. generalize (x :: l). intros k IH. induction IH as [|[m s] k H IH' IH]; [reflexivity|].
    cbn [flat_map fst snd]. rewrite map_app. f_equal; [apply H|exact IH]. }
  rewrite map_map. fold (leaves (x :: l)). apply map_ext_in. intros p H. now rewrite slash_cons by (now apply leaves_nonempty_paths with (x :: l)).
Qed.
Lemma format_leaves d : FormatExpandList d = map slash (leaves d).
Proof.
  unfold FormatExpandList, leaves. induction d as [|[m s] d IH]; [reflexivity|]. cbn [flat_map fst snd]. rewrite map_app. f_equal; [apply texts_leaves|exact IH].
Qed.

Lemma leaves1_holds v : forall n p, (exists q, p = n :: q /\ (q = [] \/ holds (sub_dict v) q)) <-> exists q, In q (leaves1 n v) /\ begins p q.
Proof.
  induction v as [|l IH] using sel_ind2; intros n p.
  - cbn. split.
    + intros (q & -> & [-> |H]); [|now apply holds_nil in H]. exists [n]. split; [now left|]. split; [discriminate|now exists []].
    + intros (q & [<- |[]] & H). apply begins_cons in H. destruct H as (q & -> & [-> |H]); [|now apply begins_nil in H]. exists []. tauto.
  - destruct l as [|x l].
    { cbn. split.
      + intros (q & -> & [-> |H]); [|now apply holds_nil in H]. exists [n]. split; [now left|]. split; [discriminate|now exists []].
      + intros (q & [<- |[]] & H). apply begins_cons in H. destruct H as (q & -> & [-> |H]); [|now apply begins_nil in H]. exists []. tauto. }
    assert (forall p, holds (x :: l) p <-> exists q, In q (leaves (x :: l)) /\ begins p q) as K.
    { clear n p. intros p. unfold leaves. setoid_rewrite in_flat_map. rewrite Forall_forall in IH. split.
      - intros H. assert (exists n s, In (n, s) (x :: l) /\ exists q, p = n :: q /\ (q = [] \/ holds (sub_dict s) q)) as (n & s & I & H').
        { inversion H; subst; [exists n, s; split; [assumption|exists []; tauto]|exists n, (Branch l0); split; [assumption|exists p0; tauto]]. }
        apply (IH (n, s) I) in H'. destruct H' as (q & Iq & B). exists q. split; [|exact B]. now exists (n, s).
      - intros (q & ([n s] & I & Iq) & B). assert (exists q, p = n :: q /\ (q = [] \/ holds (sub_dict s) q)) as (q' & -> & [-> |H]).
        { apply (IH (n, s) I). now exists q. }
        + now apply Holds1 with s.
        + destruct s as [|l0]; [now apply holds_nil in H|]. now apply HoldsSub with l0. }
    cbn [sub_dict]. setoid_rewrite K. cbn [leaves1]. fold (leaves (x :: l)). setoid_rewrite in_map_iff. split.
    + intros (q & -> & [-> |(q' & I & B)]).
      * destruct (leaves (x :: l)) as [|y k] eqn:E.
        { exfalso. unfold leaves in E. cbn [flat_map] in E. destruct (leaves1_nonempty (snd x) (fst x)) as [H _]. destruct (leaves1 (fst x) (snd x)); [contradiction|discriminate]. }
        exists (n :: y). split; [exists y; split; [reflexivity|now left]|]. split; [discriminate|now exists y].
      * exists (n :: q'). split; [now exists q'|]. apply begins_cons. exists q. tauto.
    + intros (q & (q' & <- & I) & B). apply begins_cons in B. destruct B as (q'' & -> & [-> |B]); [exists []; tauto|].
      exists q''. split; [reflexivity|]. right. now exists q'.
Qed.
Lemma leaves_holds d : holds_just d (leaves d).
Proof.
  intros p. unfold leaves. setoid_rewrite in_flat_map. split.
  - intros H. assert (exists n s, In (n, s) d /\ exists q, p = n :: q /\ (q = [] \/ holds (sub_dict s) q)) as (n & s & I & H').
    { inversion H; subst; [exists n, s; split; [assumption|exists []; tauto]|exists n, (Branch l); split; [assumption|exists p0; tauto]]. }
    apply leaves1_holds in H'. destruct H' as (q & Iq & B). exists q. split; [|exact B]. now exists (n, s).
  - intros (q & ([n s] & I & Iq) & B). assert (exists q, p = n :: q /\ (q = [] \/ holds (sub_dict s) q)) as (q' & -> & [-> |H]).
    { apply leaves1_holds. now exists q. }
    + now apply Holds1 with s.
    + destruct s as [|l0]; [now apply holds_nil in H|]. now apply HoldsSub with l0.
Qed.

(** ** Writing and reading *)
Lemma map_perm_inv {A B} (f : A -> B) l : forall m, Permutation (map f l) m -> exists l', Permutation l l' /\ m = map f l'.
Proof.
  intros m H. apply Permutation_sym in H. apply Permutation_map_inv in H. destruct H as (l' & -> & H). exists l'. split; [exact H|reflexivity].
Qed.
Section Write.
Variable start id : Z -> bool.
Hypothesis Hcl : classes start id.
Lemma join_expand ps : ps <> [] -> Forall (fun p => p <> [] /\ Forall (identifier start id) p) ps -> expand_text start id ps (join [44] (map slash ps)).
Proof.
  intros Hn H. induction H as [|p ps [Hp F] H IH]; [contradiction|].
  assert (path_text start id p (slash p)) as T. { apply path_text_more. destruct p as [|n p]; [contradiction|]. exists n, p. auto. }
  destruct ps as [|q ps]; [now constructor|]. cbn [map join]. constructor; [exact T|]. apply IH. discriminate.
Qed.
Lemma join_select ps : ps <> [] -> Forall (fun p => exists q n, p = q ++ [n] /\ Forall (identifier start id) q /\ (identifier start id n \/ n = [42])) ps ->
  select_text start id ps (join [44] (map slash ps)).
Proof.
  intros Hn H. induction H as [|p ps (q & n & -> & F & Hl) H IH]; [contradiction|].
  assert (item_text start id (q ++ [n]) (slash (q ++ [n]))) as T.
  { clear IH H Hn. induction F as [|m q Hm F IH]; cbn [app].
    - cbn. rewrite app_nil_r. destruct Hl as [Hl| ->]; [apply (IT1 start id n []); [exact Hl|constructor]|apply (ITs start id []); constructor].
    - rewrite slash_cons by (destruct q; discriminate). apply (ITn start id m _ []); [exact Hm|constructor|exact IH]. }
  destruct ps as [|q' ps]; cbn [map join].
  - rewrite <- (app_nil_r (slash (q ++ [n]))). constructor; [exact T|constructor].
  - apply (STn start id (q ++ [n]) _ []); [exact T|constructor|]. apply IH. discriminate.
Qed.
Lemma leaves_nil d : leaves d = [] -> d = [].
Proof.
  destruct d as [|[n v] d]; [reflexivity|]. unfold leaves. cbn [flat_map fst snd]. intros H. destruct (leaves1_nonempty v n) as [K _].
  destruct (leaves1 n v); [contradiction|discriminate].
Qed.
Lemma leaf_holds d p : In p (leaves d) -> holds d p.
Proof. intros H. apply leaves_holds. exists p. split; [exact H|]. split; [now apply leaves_nonempty_paths with d|]. exists []. now rewrite app_nil_r. Qed.
Lemma written d : exists ps, FormatExpand d = join [44] (map slash ps) /\ Permutation (leaves d) ps.
Proof.
  unfold FormatExpand. rewrite format_leaves. destruct (map_perm_inv slash (leaves d) _ (sort_permutes _)) as (ps & P & E).
  exists ps. split; [now rewrite E|exact P].
Qed.
Lemma same_perm d d' ps : Permutation (leaves d) ps -> holds_just d' ps -> forall p, holds d' p <-> holds d p.
Proof.
  intros P H p. rewrite (H p), (leaves_holds d p). split; intros (q & I & B); exists q; (split; [|exact B]).
  - now apply Permutation_in with ps; [apply Permutation_sym|].
  - now apply Permutation_in with (leaves d).
Qed.
Theorem expand_round d : d <> [] -> (forall p n, holds d p -> In n p -> identifier start id n) ->
  exists d', ParseExpandOption start id (FormatExpand d) = Ok d' /\ tidy d' /\ forall p, holds d' p <-> holds d p.
Proof.
  intros Hd Hn. destruct (written d) as (ps & E & P). rewrite E.
  assert (expand_text start id ps (join [44] (map slash ps))) as T.
  { apply join_expand.
    - intros ->. apply Permutation_sym, Permutation_nil in P. now apply leaves_nil in P.
    - apply Forall_forall. intros p I. apply (Permutation_in p (Permutation_sym P)) in I. split; [now apply leaves_nonempty_paths with d|].
      apply Forall_forall. intros n In. apply (Hn p); [now apply leaf_holds|exact In]. }
  destruct (expand_reads start id Hcl ps _ T) as (d' & R & Td & H). exists d'. split; [exact R|]. split; [exact Td|]. now apply (same_perm d d' ps).
Qed.
Theorem select_round d : start 42 = false -> d <> [] ->
  (forall p, holds d p -> exists q n, p = q ++ [n] /\ Forall (identifier start id) q /\ (identifier start id n \/ n = [42])) ->
  exists d', ParseSelectOption start id (FormatSelect d) = Ok d' /\ tidy d' /\ forall p, holds d' p <-> holds d p.
Proof.
  intros Hs Hd Hn. unfold FormatSelect. destruct (written d) as (ps & E & P). rewrite E.
  assert (select_text start id ps (join [44] (map slash ps))) as T.
  { apply join_select.
    - intros ->. apply Permutation_sym, Permutation_nil in P. now apply leaves_nil in P.
    - apply Forall_forall. intros p I. apply (Permutation_in p (Permutation_sym P)) in I. apply Hn. now apply leaf_holds. }
  destruct (select_reads start id Hcl Hs ps _ T) as (d' & R & Td & H). exists d'. split; [exact R|]. split; [exact Td|]. now apply (same_perm d d' ps).
Qed.
End Write.

(** ** One text for one set of paths *)
Lemma leaves1_max v : tidy (sub_dict v) -> forall n p, In p (leaves1 n v) <-> exists q, p = n :: q /\
  (q = [] \/ holds (sub_dict v) q) /\ (forall m, ~ holds (sub_dict v) (q ++ [m])).
Proof.
  induction v as [|l IH] using sel_ind2; intros T n p.
  - cbn. split.
    + intros [<- |[]]. exists []. repeat split; [now left|]. intros m H. now apply holds_nil in H.
    + intros (q & -> & [-> |H] & _); [now left|now apply holds_nil in H].
  - destruct l as [|x l].
    { cbn. split.
      + intros [<- |[]]. exists []. repeat split; [now left|]. intros m H. now apply holds_nil in H.
      + intros (q & -> & [-> |H] & _); [now left|now apply holds_nil in H]. }
    cbn [sub_dict] in *. inversion T as [d N Ts]; subst. rewrite Forall_forall in IH.
    assert (forall q, In q (leaves (x :: l)) <-> holds (x :: l) q /\ forall m, ~ holds (x :: l) (q ++ [m])) as K.
    { intros q. unfold leaves. rewrite in_flat_map. split.
      - intros ([k s] & I & Iq). cbn [fst snd] in Iq.
        assert (tidy (sub_dict s)) as Tk by (destruct s; [apply tidy_nil|now apply (Ts k)]).
        apply (IH (k, s) I Tk) in Iq. destruct Iq as (q' & -> & H & M). cbn [snd] in H, M. split.
        + apply holds_get; [exact T|]. exists s. split; [now apply in_get|exact H].
        + intros m Hm. cbn [app] in Hm. apply holds_get in Hm; [|exact T]. destruct Hm as (s' & G & Hm). rewrite (in_get k s) in G by assumption. injection G as <-.
          destruct Hm as [Hm|Hm]; [destruct q'; discriminate|now apply (M m)].
      - intros [H M]. destruct q as [|k q]; [now apply holds_nil_path in H|]. apply holds_get in H; [|exact T]. destruct H as (s & G & H).
        pose proof (get_in _ _ _ G) as I. assert (tidy (sub_dict s)) as Tk by (now apply (tidy_get (x :: l) k)).
        exists (k, s). split; [exact I|]. apply (IH (k, s) I Tk). exists q. split; [reflexivity|]. split; [exact H|]. intros m Hm. apply (M m).
        cbn [app]. apply holds_get; [exact T|]. exists s. split; [exact G|now right]. }
    cbn [leaves1]. fold (leaves (x :: l)). rewrite in_map_iff. split.
    + intros (q & <- & I). apply K in I. exists q. split; [reflexivity|]. destruct I as [H M]. split; [now right|exact M].
    + intros (q & -> & H & M). exists q. split; [reflexivity|]. apply K. split; [|exact M]. destruct H as [-> |H]; [|exact H].
      exfalso. apply (M (fst x)). apply Holds1 with (snd x). destruct x. now left.
Qed.
Lemma leaves_max d : tidy d -> forall q, In q (leaves d) <-> holds d q /\ forall m, ~ holds d (q ++ [m]).
Proof.
  intros T q. destruct d as [|x l].
  - cbn. split; [easy|]. intros [H _]. now apply holds_nil in H.
  - assert (tidy (sub_dict (Branch (x :: l)))) as T' by exact T. pose proof (leaves1_max _ T' [] ([] :: q)) as K. cbn [leaves1 sub_dict] in K.
    fold (leaves (x :: l)) in K. rewrite in_map_iff in K. split.
    + intros I. destruct K as [K _]. destruct K as (q' & [= <-] & H & M); [now exists q|]. split; [|exact M]. destruct H as [-> |H]; [|exact H].
      now apply leaves_nonempty_paths in I.
    + intros [H M]. destruct K as [_ K]. destruct K as (q' & [= ->] & I); [|exact I]. exists q. tauto.
Qed.
Lemma leaves_nodup_flat l : NoDup (map fst l) -> (forall n s, In (n, s) l -> NoDup (leaves1 n s)) -> NoDup (leaves l).
Proof.
  unfold leaves. induction l as [|[n s] l IH]; cbn [map fst flat_map snd]; intros N H; [constructor|]. inversion N; subst.
  assert (NoDup (leaves1 n s)) as H1 by (apply H; now left). assert (NoDup (leaves l)) as H4 by (apply IH; [assumption|intros; apply H; now right]).
  fold (leaves l). revert H1.
  assert (forall p, In p (leaves1 n s) -> ~ In p (leaves l)) as D.
  { intros p I1 I2. destruct (leaves1_nonempty s n) as [_ F]. rewrite Forall_forall in F. destruct (F p I1) as (q & ->).
    unfold leaves in I2. rewrite in_flat_map in I2. destruct I2 as ([m v] & I3 & I4). destruct (leaves1_nonempty v m) as [_ F']. rewrite Forall_forall in F'.
    destruct (F' _ I4) as (q' & [= <- _]). apply H2. apply in_map_iff. now exists (n, v). }
  revert D. induction (leaves1 n s) as [|p k IHk]; intros D H1; [exact H4|]. inversion H1; subst. cbn [app]. constructor.
  - rewrite in_app_iff. intros [I|I]; [contradiction|]. apply (D p); [now left|exact I].
  - apply IHk; [intros; apply D; now right|assumption].
Qed.
Lemma leaves1_nodup v : tidy (sub_dict v) -> forall n, NoDup (leaves1 n v).
Proof.
  induction v as [|l IH] using sel_ind2; intros T n; [repeat constructor; easy|].
  destruct l as [|x l]; [repeat constructor; easy|]. cbn [leaves1 sub_dict] in *. fold (leaves (x :: l)).
  apply FinFun.Injective_map_NoDup; [congruence|]. inversion T as [d N Ts]; subst. apply leaves_nodup_flat; [exact N|].
  intros m s I. rewrite Forall_forall in IH. apply (IH (m, s) I). destruct s; [apply tidy_nil|now apply (Ts m)].
Qed.
Theorem format_canonical d d' : tidy d -> tidy d' -> (forall p, holds d p <-> holds d' p) -> FormatExpand d = FormatExpand d'.
Proof.
  intros T T' H. unfold FormatExpand. rewrite !format_leaves. f_equal. apply sort_perm. apply Permutation_map.
  assert (forall d, tidy d -> NoDup (leaves d)) as K.
  { intros e Te. inversion Te; subst. apply leaves_nodup_flat; [assumption|]. intros n s I. apply leaves1_nodup. destruct s; [apply tidy_nil|eauto]. }
  apply NoDup_Permutation; auto. intros q. rewrite !leaves_max by assumption. rewrite H. setoid_rewrite H. reflexivity.
Qed.
