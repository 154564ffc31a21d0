(** Deleting files, new names, and names that are ignored. *)
From Verif Require Import Py.
From Verif Require Import Cpkg CpkgSpec CpkgProofs CpkgProofs2 CpkgProofs3 CpkgProofs4.

(** ** Removing a file from the tree *)

Lemma dir_get_filter l n m : dir_get (filter (fun nt => negb (str_eqb n (fst nt))) l) m =
  if str_eqb m n then None else dir_get l m.
Proof.
  induction l as [|[a t] l IH]; cbn [filter dir_get fst]; [now destruct (str_eqb m n)|].
  destruct (str_eqb n a) eqn:E; cbn [negb].
  - apply str_eqb_eq in E. subst a. rewrite IH. now destruct (str_eqb m n).
  - cbn [dir_get]. rewrite IH. destruct (str_eqb m a) eqn:E'; [|reflexivity].
    apply str_eqb_eq in E'. subst a. apply Py.str_eqb_neq in E.
    assert (str_eqb m n = false) as ->; [|reflexivity]. apply Py.str_eqb_neq. congruence.
Qed.

Lemma dir_get_map (g : tree -> tree) l n m :
  dir_get (map (fun nt => if str_eqb n (fst nt) then (fst nt, g (snd nt)) else nt) l) m =
  if str_eqb m n then option_map g (dir_get l m) else dir_get l m.
Proof.
  induction l as [|[a t] l IH]; cbn [map dir_get fst snd]; [now destruct (str_eqb m n)|].
  destruct (str_eqb n a) eqn:E; cbn [dir_get fst].
  - apply str_eqb_eq in E. subst a. rewrite IH. destruct (str_eqb m n); reflexivity.
  - rewrite IH. destruct (str_eqb m a) eqn:E'; [|reflexivity].
    apply str_eqb_eq in E'. subst a. apply Py.str_eqb_neq in E.
    assert (str_eqb m n = false) as ->; [|reflexivity]. apply Py.str_eqb_neq. congruence.
Qed.

Lemma tree_get_file l q dd : here (fun _ => false) l q (File dd) -> good_children l ->
  tree_get l q = Some (TFile dd) /\ q <> [].
Proof.
  intros H. remember (File dd) as x eqn:Ex. revert Ex.
  induction H as [l n d0 Hi I|l n c Hi I|l n c q x Hi I H IH]; intros Ex Hg;
    pose proof (good_children_forall _ Hg) as [Hf Hn].
  - injection Ex as ->. cbn [tree_get]. rewrite (dir_get_in _ _ _ Hn Hi). split; [reflexivity|discriminate].
  - discriminate.
  - cbn [tree_get]. rewrite (dir_get_in _ _ _ Hn Hi). split; [|discriminate].
    destruct (IH Ex) as [E Nq].
    { rewrite Forall_forall in Hf. destruct (Hf _ Hi) as [_ Hg']. now inversion Hg'. }
    destruct q; [congruence|exact E].
Qed.

Definition cut (q : list str) (t : tree) : tree :=
  match t with TDir l => TDir (tree_remove l q) | u => u end.

Lemma tree_remove_cons l n m q : tree_remove l (n :: m :: q) =
  map (fun nt => if str_eqb n (fst nt) then (fst nt, cut (m :: q) (snd nt)) else nt) l.
Proof. cbn [tree_remove]. apply map_ext. intros [a [x|c]]; reflexivity. Qed.

Lemma node_remove ign q : forall l q' dd, tree_get l q = Some (TFile dd) -> q <> [] ->
  node_at ign (TDir (tree_remove l q)) q' =
  if names_dec q' q then None else node_at ign (TDir l) q'.
Proof.
  induction q as [|n q IH]; intros l q' dd H N; [congruence|]. clear N.
  destruct q' as [|m r].
  - destruct (names_dec [] (n :: q)); [discriminate|reflexivity].
  - destruct q as [|b q].
    + cbn [tree_get] in H. destruct (dir_get l n) as [t|] eqn:G; [|discriminate].
      assert (t = TFile dd) as -> by (destruct t; congruence).
      cbn [tree_remove node_at]. rewrite dir_get_filter.
      destruct (str_eqb m n) eqn:E.
      * apply str_eqb_eq in E. subst m. rewrite G. destruct (names_dec (n :: r) [n]) as [E|E].
        -- now destruct (ign n).
        -- destruct r as [|x r]; [congruence|]. now destruct (ign n).
      * apply Py.str_eqb_neq in E. destruct (names_dec (m :: r) [n]); [congruence|reflexivity].
    + cbn [tree_get] in H. destruct (dir_get l n) as [t|] eqn:G; [|discriminate].
      destruct t as [x|c]; [discriminate|].
      rewrite tree_remove_cons. cbn [node_at]. rewrite dir_get_map.
      destruct (str_eqb m n) eqn:E.
      * apply str_eqb_eq in E. subst m. rewrite G. cbn [option_map cut].
        pose proof (IH c r dd H ltac:(discriminate)) as IHc. rewrite IHc.
        destruct (names_dec r (b :: q)) as [->|Nr].
        -- destruct (names_dec (n :: b :: q) (n :: b :: q)); [now destruct (ign n)|congruence].
        -- destruct (names_dec (n :: r) (n :: b :: q)); [congruence|reflexivity].
      * apply Py.str_eqb_neq in E. destruct (names_dec (m :: r) (n :: b :: q)); [congruence|reflexivity].
Qed.

Lemma remove_good q : forall l, good_children l -> good_children (tree_remove l q).
Proof.
  induction q as [|n q IH]; intros l H; [exact H|].
  destruct q as [|b q].
  - cbn [tree_remove]. induction l as [|[m t] l IHl]; [constructor|]. inversion H; subst.
    cbn [filter fst]. destruct (negb (str_eqb n m)); [|auto]. constructor; auto.
    intros Hi. apply in_map_iff in Hi as (x & <- & Hx). apply filter_In in Hx as [Hx _].
    match goal with X : ~ In _ (map fst l) |- _ => apply X end. now apply in_map.
  - rewrite tree_remove_cons. induction l as [|[m t] l IHl]; [constructor|]. inversion H; subst.
    cbn [map fst snd]. set (g := fun nt : str * tree => _).
    assert (E : map fst (map g l) = map fst l).
    { rewrite map_map. apply map_ext. intros [a u]. unfold g. cbn [fst snd]. now destruct (str_eqb n a). }
    destruct (str_eqb n m).
    + constructor; auto; [now rewrite E|]. destruct t as [x|c]; cbn [cut]; [constructor|].
      constructor. apply IH. match goal with X : good_tree (TDir c) |- _ => now inversion X end.
    + constructor; auto. now rewrite E.
Qed.

Lemma here_names ign l q x : here ign l q x -> good_children l -> Forall entry_name q /\ q <> [].
Proof.
  induction 1 as [l n d0 Hi I|l n c Hi I|l n c q x Hi I H IH]; intros Hg;
    pose proof (good_children_forall _ Hg) as [Hf Hn]; rewrite Forall_forall in Hf;
    destruct (Hf _ Hi) as [Nn Gt]; (split; [|discriminate]); constructor; try exact Nn; try constructor.
  cbn in Gt. inversion Gt; subst. now destruct (IH ltac:(assumption)).
Qed.

Lemma here_remove ign l q dd q' x : good_children l -> here (fun _ => false) l q (File dd) ->
  here ign (tree_remove l q) q' x <-> here ign l q' x /\ q' <> q.
Proof.
  intros Hg Hf. destruct (tree_get_file _ _ _ Hf Hg) as [T N].
  pose proof (remove_good q l Hg) as Hg'. split.
  - intros H. pose proof (here_names _ _ _ _ H Hg') as [_ Nq].
    apply here_node in H; [|exact Hg']. rewrite (node_remove ign q l q' dd T N) in H.
    destruct (names_dec q' q); [discriminate|]. split; [|assumption]. now apply node_here.
  - intros [H Ne]. pose proof (here_names _ _ _ _ H Hg) as [_ Nq].
    apply here_node in H; [|exact Hg]. apply node_here; [exact Nq|].
    rewrite (node_remove ign q l q' dd T N). destruct (names_dec q' q); [congruence|exact H].
Qed.

(** ** Deleting *)

Section Delete.
  Variable ign : str -> bool.
  Variable d : list str.
  Hypothesis Hd : Forall entry_name d.
  Notation dp := (absp d).

  Lemma refers_fun f k k' : refers dp f k -> refers dp f k' -> k = k'.
  Proof.
    intros (p & d1 & r & T & W & [H1 E] & ->) (p' & d2 & r' & T' & W' & [H2 E'] & ->).
    apply (written_dp d Hd) in W, W'. subst d1 d2. rewrite T in T'. injection T' as <-.
    assert (d ++ r = d ++ r') by (apply absp_inj; auto; unfold absp; now rewrite <- E, <- E').
    apply app_inv_head in H. now subst.
  Qed.

  Lemma refers_direct f k : refers dp f k -> direct f.
  Proof.
    intros (p & d1 & r & T & W & [H1 E] & ->) p' Hp. rewrite T in Hp. injection Hp as <-.
    now exists (d1 ++ r).
  Qed.

  Lemma refers_path f k : refers dp f k -> file_path dp f = Done (Some k).
  Proof.
    intros H. destruct (direct_path d Hd f (refers_direct _ _ H)) as (o & E & Ho).
    apply Ho in H. now subst o.
  Qed.

  Lemma same_path_spec k l : Forall (fun f => exists k', refers dp f k') l ->
    exists ds, same_path dp k l = Done ds /\ forall f, In f ds <-> In f l /\ refers dp f k.
  Proof.
    induction 1 as [|f l (k' & Hf) Hl (ds & E & IH)]; cbn [same_path].
    - exists []. split; [reflexivity|]. intros f. split; [intros []|intros [[] _]].
    - rewrite (refers_path _ _ Hf), E. eexists. split; [reflexivity|].
      intros g. destruct (str_eqb k' k) eqn:Ek.
      + apply str_eqb_eq in Ek. subst k'. cbn [In]. rewrite IH. split.
        * intros [<-|[A B]]; auto.
        * intros [[<-|A] B]; auto.
      + apply Py.str_eqb_neq in Ek. rewrite IH. cbn [In]. split.
        * intros [A B]; auto.
        * intros [[<-|A] B]; auto. now elim Ek; apply (refers_fun f).
  Qed.

  Lemma NoDup_ids_eq (l : list fileobj) f g : NoDup (map f_id l) -> In f l -> In g l ->
    f_id f = f_id g -> f = g.
  Proof.
    induction l as [|x l IH]; [intros ? []|].
    intros N [->|Hf] [->|Hg] E; auto; inversion_clear N as [|? ? N1 N2].
    - exfalso. apply N1. rewrite E. now apply in_map.
    - exfalso. apply N1. rewrite <- E. now apply in_map.
    - now apply IH.
  Qed.

  Lemma drop_files_spec k ds r : NoDup (map f_id r) ->
    (forall f, In f ds <-> In f r /\ refers dp f k) ->
    forall f, In f (drop_files ds r) <-> In f r /\ ~ refers dp f k.
  Proof.
    intros N H f. unfold drop_files. rewrite filter_In. split; intros [Hi X]; (split; [exact Hi|]).
    - intros R. apply negb_true_iff in X. rewrite <- not_true_iff_false in X. apply X.
      apply existsb_exists. exists f. split; [now apply H|]. apply Nat.eqb_refl.
    - apply negb_true_iff. apply not_true_iff_false. intros E.
      apply existsb_exists in E as (g & Hg & E). apply Nat.eqb_eq in E. apply H in Hg as [Hg R].
      rewrite (NoDup_ids_eq r f g N Hi Hg E) in X. now apply X.
  Qed.

  Lemma NoDup_app_l {A} (a b : list A) : NoDup (a ++ b) -> NoDup a /\ NoDup b.
  Proof.
    induction a as [|x a IH]; [now split; [constructor|]|]. cbn [app]. intros H.
    inversion_clear H as [|? ? H1 H2]. destruct (IH H2). split; [|assumption].
    constructor; auto. intros Hi. apply H1. apply in_or_app. now left.
  Qed.

  Lemma delete_refs_spec k l : forall done,
    Forall (fun f => exists k', refers dp f k') (concat l) ->
    NoDup (map f_id (concat l)) ->
    exists rs, delete_refs dp k done l = (done ++ rs, Done tt) /\ length rs = length l /\
      forall f, In f (concat rs) <-> In f (concat l) /\ ~ refers dp f k.
  Proof.
    induction l as [|r l IH]; intros done H N; cbn [delete_refs].
    - exists []. rewrite app_nil_r. split; [reflexivity|]. split; [reflexivity|].
      intros f. split; [intros []|intros [[] _]].
    - cbn [concat] in *. apply Forall_app in H as [H1 H2]. rewrite map_app in N.
      apply NoDup_app_l in N as [N1 N2].
      destruct (same_path_spec k r H1) as (ds & -> & Hds).
      destruct (IH (done ++ [drop_files ds r]) H2 N2) as (rs & -> & L & R).
      exists (drop_files ds r :: rs). rewrite <- app_assoc. split; [reflexivity|].
      split; [cbn; now rewrite L|]. intros f. cbn [concat]. rewrite !in_app_iff.
      rewrite (drop_files_spec k ds r N1 Hds f), R. intuition.
  Qed.

  Lemma delete_spec outside p q dd : p_dPath p = dp -> good_children (p_tree p) ->
    here (fun _ => false) (p_tree p) q (File dd) -> ign (last q []) = false ->
    distinct_files p ->
    (forall f, In f (concat (p_resources p)) -> exists k, refers dp f k) ->
    exists p', DeleteFile ign outside p (Some (absp (d ++ q))) = (p', Done true) /\
      p_dPath p' = p_dPath p /\ good_children (p_tree p') /\
      (forall g q' x, here g (p_tree p') q' x <-> here g (p_tree p) q' x /\ q' <> q) /\
      (forall f, In f (concat (p_resources p')) <->
         In f (concat (p_resources p)) /\ ~ refers dp f (relative q)) /\
      (right_table ign p -> right_table ign p').
  Proof.
    intros Ed Hg Hh Hi Hn Hr. destruct (here_names _ _ _ _ Hh Hg) as [Hq Nq].
    assert (Hdq : Forall entry_name (d ++ q)) by (apply Forall_app; now split).
    destruct (tree_get_file _ _ _ Hh Hg) as [T _].
    unfold DeleteFile. rewrite Ed.
    rewrite (PathInPath_in (absp (d ++ q)) dp q)
      by (try (now apply absolute_absp); now rewrite !resolve_absp).
    assert (Ndq : d ++ q <> []) by (intros X; apply app_eq_nil in X as [_ X]; congruence).
    unfold isfile. rewrite ends_slash_absp by assumption.
    rewrite T. cbn [negb andb].
    destruct (exists_last Nq) as (q0 & n & Eq). rewrite Eq in Hi. rewrite last_last in Hi.
    assert (Sp : split (absp (d ++ q)) = (absp (d ++ q0), n)).
    { rewrite Eq, app_assoc. apply split_snoc; rewrite Eq, app_assoc in Hdq;
        apply Forall_app in Hdq as [X Y]; auto. now inversion Y. }
    rewrite Sp, Hi. rewrite os_path_relative by exact Hq.
    assert (Hr' : Forall (fun f => exists k', refers dp f k') (concat (p_resources p)))
      by now apply Forall_forall.
    destruct (delete_refs_spec (relative q) (p_resources p) [] Hr' Hn) as (rs & -> & L & R).
    cbn [app]. eexists. split; [reflexivity|]. split; [now symmetry|].
    cbn [p_dPath p_tree p_resources p_table]. split; [now apply remove_good|].
    split; [intros g q' x; now apply (here_remove g _ q dd)|]. split; [exact R|].
    intros [A B]. split; cbn [p_dPath p_tree p_resources p_table].
    - intros k. rewrite tget_tdel. specialize (A k). unfold listed in *.
      cbn [p_dPath p_tree p_resources p_table] in *. rewrite Ed in A.
      destruct (str_eqb k (relative q)) eqn:Ek.
      + apply str_eqb_eq in Ek. subst k. split; [|intros (l & X); discriminate].
        intros [(q' & d0 & H & _ & E)|(f & Hf & Rf)]; exfalso.
        * apply (here_remove ign _ q dd) in H as [H Ne]; auto. apply Ne.
          apply relative_inj; auto. now destruct (here_names _ _ _ _ H Hg).
        * apply R in Hf as [_ Hf]. contradiction.
      + apply Py.str_eqb_neq in Ek. rewrite <- A. split.
        * intros [(q' & d0 & H & M & E)|(f & Hf & Rf)].
          -- apply (here_remove ign _ q dd) in H as [H Ne]; auto. left. now exists q', d0.
          -- right. exists f. apply R in Hf as [Hf _]. now split.
        * intros [(q' & d0 & H & M & E)|(f & Hf & Rf)].
          -- left. exists q', d0. split; [|now split]. apply (here_remove ign _ q dd); auto.
             split; [exact H|]. intros ->. congruence.
          -- right. exists f. split; [|exact Rf]. apply R. split; [exact Hf|].
             intros Rf'. apply Ek. now apply (refers_fun f).
    - intros k l i Hk. rewrite tget_tdel in Hk. destruct (str_eqb k (relative q)) eqn:Ek; [discriminate|].
      apply Py.str_eqb_neq in Ek. rewrite (B k l i Hk). rewrite Ed. split.
      + intros (f & Hf & E & Rf). exists f. split; [|now split]. apply R. split; [exact Hf|].
        intros Rf'. apply Ek. now apply (refers_fun f).
      + intros (f & Hf & E & Rf). exists f. apply R in Hf as [Hf _]. now split.
  Qed.
End Delete.

(** ** New names *)

Definition hex_value (s : str) : Z :=
  fold_left (fun a c => a * 16 + (if c <? 58 then c - 48 else c - 55)) s 0.

Lemma hex_value_loop fuel : forall n acc, 0 <= n -> (Z.to_nat n < fuel)%nat ->
  forall a, fold_left (fun a c => a * 16 + (if c <? 58 then c - 48 else c - 55))
              (hex_loop fuel n acc) a =
            fold_left (fun a c => a * 16 + (if c <? 58 then c - 48 else c - 55)) acc
              (a * 16 ^ Z.of_nat (length (hex_loop fuel n []) ) + n).
Proof.
  induction fuel as [|fuel IH]; intros n acc Hn L a; [lia|]. cbn [hex_loop].
  assert (D : (if hex_digit (n mod 16) <? 58 then hex_digit (n mod 16) - 48
               else hex_digit (n mod 16) - 55) = n mod 16).
  { unfold hex_digit. pose proof (Z.mod_pos_bound n 16 ltac:(lia)).
    destruct (n mod 16 <? 10) eqn:E.
    - destruct (48 + n mod 16 <? 58) eqn:E'; lia.
    - destruct (55 + n mod 16 <? 58) eqn:E'; lia. }
  destruct (n <? 16) eqn:E.
  - cbn [fold_left length Z.of_nat]. rewrite D. f_equal.
    rewrite Z.mod_small by lia. change (16 ^ Z.pos (Pos.of_succ_nat 0)) with 16. lia.
  - assert (0 <= n / 16) by (apply Z.div_pos; lia).
    assert (n / 16 < n) by (apply Z.div_lt; lia).
    rewrite IH by lia. cbn [fold_left]. rewrite D. f_equal.
    rewrite IH with (acc := [hex_digit (n mod 16)]) || idtac.
    assert (LL : forall f m ac, length (hex_loop f m ac) = (length (hex_loop f m []) + length ac)%nat).
    { clear. induction f as [|f IHf]; intros m ac; [reflexivity|]. cbn [hex_loop].
      destruct (m <? 16); [reflexivity|]. rewrite IHf, (IHf _ [_]). cbn [length]. lia. }
    rewrite (LL fuel (n / 16) [hex_digit (n mod 16)]). cbn [length].
    rewrite Nat2Z.inj_add, Z.pow_add_r by lia. change (16 ^ Z.of_nat 1) with 16.
    pose proof (Z.div_mod n 16 ltac:(lia)). nia.
Qed.

Lemma hexX_value n : 0 <= n -> hex_value (hexX n) = n.
Proof.
  intros H. unfold hex_value, hexX. rewrite hex_value_loop by lia. cbn [fold_left]. lia.
Qed.
Lemma hexX_inj a b : 0 <= a -> 0 <= b -> hexX a = hexX b -> a = b.
Proof. intros Ha Hb E. rewrite <- (hexX_value a), <- (hexX_value b) by assumption. now rewrite E. Qed.

Lemma hex_loop_chars fuel : forall n acc, 0 <= n -> ~ In slash acc -> ~ In slash (hex_loop fuel n acc).
Proof.
  induction fuel as [|fuel IH]; intros n acc Hn H; [exact H|]. cbn [hex_loop].
  assert (~ In slash (hex_digit (n mod 16) :: acc)).
  { intros [E|E]; [|contradiction]. unfold hex_digit, slash in E.
    pose proof (Z.mod_pos_bound n 16 ltac:(lia)). destruct (n mod 16 <? 10) eqn:X; lia. }
  destruct (n <? 16); [assumption|]. apply IH; [apply Z.div_pos; lia|assumption].
Qed.
Lemma hexX_noslash n : 0 <= n -> noslash (hexX n).
Proof. intros H. apply hex_loop_chars; [exact H|intros []]. Qed.

Section Unique.
  Variable lower : str -> str.
  Variable hash_hit : str -> bool.

  Lemma has_path_in t k : has_path t k = true <-> In k (map fst t).
  Proof.
    unfold has_path. induction t as [|[a v] t IH]; cbn [tget map fst In]; [split; [discriminate|intros []]|].
    destruct (str_eqb k a) eqn:E.
    - apply str_eqb_eq in E. subst. split; auto.
    - apply Py.str_eqb_neq in E. rewrite IH. split; [now right|]. intros [X|X]; [congruence|exact X].
  Qed.

  Definition cand (fPath : str) (i : Z) : str :=
    let (fName, fExt) := splitext fPath in fName ++ lit "_" ++ hexX i ++ fExt.

  Lemma cand_inj fPath i j : 0 <= i -> 0 <= j -> cand fPath i = cand fPath j -> i = j.
  Proof.
    intros Hi Hj. unfold cand. destruct (splitext fPath) as [a b]. intros E.
    apply app_inv_head in E. apply app_inv_head in E. apply app_inv_tail in E. now apply hexX_inj.
  Qed.

  (** the loop ends: there are more candidates than entries *)
  Lemma loop_ends t fPath : forall fuel i seen, 0 <= i ->
    NoDup seen -> incl seen (map fst t) ->
    (forall k, In k seen -> exists j, 0 <= j < i /\ k = cand fPath j) ->
    (length t < fuel + length seen)%nat ->
    exists j, i <= j /\ unique_loop hash_hit fuel t fPath (cand fPath i) (i + 1) = Done (cand fPath j) /\
      has_text hash_hit t (cand fPath j) = false.
  Proof.
    induction fuel as [|fuel IH]; intros i seen Hi N I C L.
    - exfalso. pose proof (NoDup_incl_length N I) as X. rewrite map_length in X. lia.
    - cbn [unique_loop]. destruct (has_text hash_hit t (cand fPath i)) eqn:E.
      + destruct (IH (i + 1) (cand fPath i :: seen)) as (j & Hj & U & F).
        * lia.
        * constructor; [|exact N]. intros X. destruct (C _ X) as (j & Hj & Ej).
          apply cand_inj in Ej; lia.
        * intros k [<-|X]; [|now apply I]. unfold has_text in E. apply andb_true_iff in E as [_ E].
          now apply has_path_in.
        * intros k [<-|X]; [exists i; split; [lia|reflexivity]|]. destruct (C _ X) as (j & Hj & ->).
          exists j. split; [lia|reflexivity].
        * cbn [length]. lia.
        * exists j. split; [lia|]. split; [|exact F]. rewrite <- U. clear.
          unfold cand. destruct (splitext fPath); reflexivity.
      + exists i. split; [lia|]. now split.
  Qed.

  (** what a candidate is *)
  Lemma cut_last_spec x s : let (h, t) := cut_last x s in
    s = h ++ t /\ ~ In x t /\ (h = [] \/ exists h', h = h' ++ [x]).
  Proof.
    induction s as [|c s IH]; cbn [cut_last]; [split; [reflexivity|split; [intros []|now left]]|].
    destruct (cut_last x s) as [h t]. destruct IH as (E & N & H).
    destruct h as [|a h].
    - destruct (Z.eqb_spec c x) as [->|Nc].
      + split; [now rewrite E|]. split; [exact N|]. right. now exists [].
      + split; [now rewrite E|]. split; [|now left]. intros [X|X]; [congruence|contradiction].
    - split; [now rewrite E|]. split; [exact N|]. right.
      destruct H as [H|(h' & H)]; [discriminate|]. exists (c :: h'). now rewrite H.
  Qed.

  Lemma splitext_parts h n : noslash n -> (h = [] \/ exists h', h = h' ++ [slash]) ->
    exists a b, splitext (h ++ n) = (h ++ a, b) /\ n = a ++ b.
  Proof.
    intros Hn Hh. unfold splitext.
    assert (cut_last slash (h ++ n) = (h, n)) as ->.
    { destruct Hh as [->|(h' & ->)]; [now apply cut_last_noslash|].
      rewrite <- app_assoc. now apply cut_last_app. }
    pose proof (cut_last_spec dot n) as S. destruct (cut_last dot n) as [stem ext].
    destruct S as (E & N & H). destruct H as [->|(s' & ->)].
    - exists n, []. split; [reflexivity|now rewrite app_nil_r].
    - rewrite rev_app_distr. cbn [rev app]. rewrite rev_involutive.
      destruct (existsb _ s').
      + exists s', (dot :: ext). split; [reflexivity|]. rewrite E. now rewrite <- app_assoc.
      + exists n, []. split; [reflexivity|now rewrite app_nil_r].
  Qed.

  Lemma cand_place q i : q <> [] -> Forall entry_name q -> 0 <= i ->
    exists a b, last q [] = a ++ b /\
      cand (relative q) i = relative (removelast q ++ [a ++ lit "_" ++ hexX i ++ b]) /\
      entry_name (a ++ lit "_" ++ hexX i ++ b).
  Proof.
    intros N H Hi. destruct (exists_last N) as (q0 & n & ->). rewrite last_last, removelast_last.
    apply Forall_app in H as [H0 Hn]. inversion_clear Hn as [|? ? Hn' _].
    assert (E : relative (q0 ++ [n]) = base q0 ++ n) by (unfold relative; now rewrite <- base_name).
    destruct (splitext_parts (base q0) n (entry_noslash _ Hn')) as (a & b & S & En).
    { destruct q0 as [|x q0]; [now left|right]. eexists. reflexivity. }
    exists a, b. split; [exact En|]. split.
    - unfold cand. rewrite E, S. unfold relative. rewrite <- base_name. now rewrite <- app_assoc.
    - assert (In 95 (a ++ lit "_" ++ hexX i ++ b)).
      { apply in_or_app. right. apply in_or_app. left. now left. }
      repeat split.
      + intros X. rewrite X in *. destruct H.
      + rewrite !in_app_iff. pose proof (entry_noslash _ Hn') as Hs. rewrite En in Hs.
        intros [X|[X|[X|X]]].
        * apply Hs. apply in_or_app. now left.
        * destruct X as [X|[]]. discriminate.
        * now apply (hexX_noslash i Hi) in X.
        * apply Hs. apply in_or_app. now right.
      + intros X. rewrite X in *. destruct H as [X'|[]]. discriminate.
      + intros X. rewrite X in *. destruct H as [X'|[X'|[]]]; discriminate.
  Qed.

  Lemma unique_spec d t random s q : Forall entry_name d -> 0 <= random ->
    let full := if isabs s then s else join (absp d) (lower s) in
    absolute full -> resolve full = d ++ q -> q <> [] ->
    exists k, GetUniqueFile lower hash_hit (absp d) t random s = Done k /\
      (has_path t (relative q) = false -> k = relative q) /\
      (has_path t (relative q) = true -> exists j, random <= j /\ k = cand (relative q) j /\
         has_text hash_hit t k = false).
  Proof.
    intros Hd Hr full Ha E N. unfold GetUniqueFile. fold full.
    rewrite (PathInPath_in full (absp d) q)
      by (try assumption; try (now apply absolute_absp); now rewrite resolve_absp).
    assert (Hq : Forall entry_name q).
    { pose proof (resolve_names full) as X. rewrite E in X. now apply Forall_app in X as [_ X]. }
    destruct q as [|a q]; [congruence|]. set (qq := a :: q) in *.
    rewrite (os_path_relative qq) by exact Hq.
    destruct (has_path t (relative qq)) eqn:Hp.
    - destruct (loop_ends t (relative qq) (S (length t)) random [] Hr) as (j & Hj & U & F).
      + constructor.
      + intros x [].
      + intros k [].
      + cbn. lia.
      + exists (cand (relative qq) j). split; [|split; [discriminate|]].
        * rewrite <- U. unfold cand. destruct (splitext (relative qq)); reflexivity.
        * intros _. exists j. now repeat split.
    - eexists. split; [reflexivity|]. split; [reflexivity|discriminate].
  Qed.

  Lemma unique_outside d t random s : Forall entry_name d ->
    let full := if isabs s then s else join (absp d) (lower s) in
    absolute full -> (forall q, resolve full <> d ++ q) ->
    GetUniqueFile lower hash_hit (absp d) t random s = Raise CPFilePathError.
  Proof.
    intros Hd full Ha F. unfold GetUniqueFile. fold full.
    rewrite PathInPath_out; [reflexivity|exact Ha|now apply absolute_absp|].
    intros r. rewrite resolve_absp by exact Hd. apply F.
  Qed.
End Unique.
