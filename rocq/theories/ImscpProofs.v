(** Proofs about Imscp.v. *)
From Coq Require FinFun.
From Verif Require Import Py Iso Dec XmlUtils XmlSpec XmlProofs2 ImscpSpec Imscp.

Lemma has_key_In k l : has_key k l = true <-> In k l.
Proof.
  unfold has_key. rewrite existsb_exists. split.
  - intros (x & Hx & E). apply str_eqb_eq in E. subst; exact Hx.
  - intros H. exists k. split; [exact H|apply str_eqb_refl].
Qed.
Lemma has_key_not k l : has_key k l = false <-> ~ In k l.
Proof. rewrite <- has_key_In. destruct (has_key k l); intuition congruence. Qed.

(** Among more distinct candidates than there are keys one is not a key *)
Lemma pigeon (g : nat -> str) ks n : (forall i j, g i = g j -> i = j) ->
  (forall i, (i < n)%nat -> In (g i) ks) -> (n <= length ks)%nat.
Proof.
  intros Hinj H.
  assert (NoDup (map g (seq 0 n))) as N.
  { apply FinFun.Injective_map_NoDup; [intros i j; apply Hinj|apply seq_NoDup]. }
  rewrite <- (seq_length n 0), <- (map_length g). apply NoDup_incl_length; [exact N|].
  intros x Hx. apply in_map_iff in Hx as (i & <- & Hi). apply in_seq in Hi. apply H. lia.
Qed.

(** *** Identifiers *)
Definition id_cand (base : str) (k : nat) : str :=
  match k with O => base | S _ => base ++ [45] ++ pystr (Z.of_nat k) end.

Lemma id_cand_inj base i j : id_cand base i = id_cand base j -> i = j.
Proof.
  assert (forall t, base = base ++ 45 :: t -> False) as N.
  { intros t E. apply (f_equal (@length Z)) in E. rewrite app_length in E. cbn [length] in E. lia. }
  destruct i as [|i], j as [|j]; cbn [id_cand]; intros E; try reflexivity.
  - destruct (N _ E).
  - symmetry in E. destruct (N _ E).
  - apply app_inv_head in E. cbn [app] in E. injection E as E. apply pystr_inj in E. lia.
Qed.

Lemma unique_id_loop_spec ids base : forall fuel k,
  match unique_id_loop fuel ids base (id_cand base k) (Z.of_nat k + 1) with
  | Ok id => ~ In id ids /\ exists j, id = id_cand base j
  | Err e => e = OutOfFuel /\ forall i, (k <= i < k + fuel)%nat -> In (id_cand base i) ids
  end.
Proof.
  induction fuel as [|f IH]; intros k; cbn [unique_id_loop].
  - split; [reflexivity|]. intros i Hi. lia.
  - destruct (has_key _ _) eqn:E.
    + specialize (IH (S k)). cbn [id_cand] in IH.
      replace (Z.of_nat (S k)) with (Z.of_nat k + 1) in IH by lia.
      replace (base ++ [45] ++ pystr (Z.of_nat k + 1)) with (base ++ [45] ++ pystr (Z.of_nat k + 1)) in IH by reflexivity.
      destruct (unique_id_loop f _ _ _ _); [exact IH|]. destruct IH as [-> IH]. split; [reflexivity|].
      intros i Hi. destruct (Nat.eq_dec i k) as [->|]; [apply has_key_In, E|]. apply IH. lia.
    + split; [apply has_key_not, E|]. exists k. reflexivity.
Qed.

Lemma GetUniqueID_spec cp base : exists id j, GetUniqueID cp base = Ok id /\
  ~ In id (cp_ids cp) /\ id = id_cand base j.
Proof.
  unfold GetUniqueID. pose proof (unique_id_loop_spec (cp_ids cp) base (S (S (length (cp_ids cp)))) 0) as H.
  cbn [id_cand] in H. change (Z.of_nat 0 + 1) with 1 in H.
  destruct (unique_id_loop _ _ _ _ _) as [id|e].
  - destruct H as [H [j Hj]]. exists id, j. auto.
  - exfalso. destruct H as [_ H].
    pose proof (pigeon (id_cand base) (cp_ids cp) (S (S (length (cp_ids cp)))) (id_cand_inj base)) as P.
    assert (S (S (length (cp_ids cp))) <= length (cp_ids cp))%nat; [|lia].
    apply P. intros i Hi. apply H. lia.
Qed.

Definition cp_inv (cp : package) : Prop :=
  NoDup (cp_resources cp) /\ (forall i, In i (cp_resources cp) <-> In i (cp_ids cp)).

Lemma AddResource_spec cp r id cp' : AddResource cp r = Ok (id, cp') ->
  ~ In id (cp_ids cp) /\ cp_ids cp' = id :: cp_ids cp /\ cp_files cp' = cp_files cp /\
  cp_resources cp' = cp_resources cp ++ [id].
Proof.
  unfold AddResource. intros H.
  assert (forall i, AutoSetID cp r = Ok i -> ~ In i (cp_ids cp)) as A.
  { intros i. unfold AutoSetID. destruct (match r_lom r with None => _ | _ => _ end) as [b|]; [|discriminate].
    cbn [bind]. destruct (GetUniqueID_spec cp b) as (j & k & -> & Hj & _). intros [= ->]. exact Hj. }
  destruct (match r_id r with Some _ => _ | _ => _ end) as [i|] eqn:E; [|discriminate H].
  cbn [bind] in H. injection H as <- <-. cbn. split; [|auto].
  destruct (r_id r) as [[|c s]|]; try (apply A; exact E).
  destruct (has_key _ _) eqn:K; [apply A, E|]. injection E as <-. apply has_key_not, K.
Qed.

(** *** File names *)
Lemma assoc_set_file k v m k' : assoc k' (set_file k v m) = if str_eqb k' k then Some v else assoc k' m.
Proof.
  induction m as [|[a b] m IH]; cbn [set_file assoc].
  - destruct (str_eqb k' k); reflexivity.
  - destruct (str_eqb k a) eqn:E; cbn [assoc].
    + apply str_eqb_eq in E as <-. destruct (str_eqb k' k); reflexivity.
    + rewrite IH. destruct (str_eqb k' a) eqn:F; [|reflexivity].
      apply str_eqb_eq in F as ->. rewrite (proj2 (str_eqb_neq a k)); [reflexivity|].
      apply str_eqb_neq in E. congruence.
Qed.

Lemma assoc_In {A} k (m : list (str * A)) v : assoc k m = Some v -> In k (map fst m).
Proof.
  induction m as [|[a b] m IH]; cbn [assoc map fst In]; [discriminate|].
  destruct (str_eqb k a) eqn:E; [|auto]. apply str_eqb_eq in E as ->. auto.
Qed.

Lemma join_with_cons p ps : join_with 46 (p :: ps) = p ++ match ps with [] => [] | _ => 46 :: join_with 46 ps end.
Proof. destruct ps; cbn [join_with]; [rewrite app_nil_r|]; reflexivity. Qed.

Definition name_cand (stem : str) (rest : list str) (k : nat) : str := file_name stem rest (Z.of_nat k).

Lemma name_cand_inj stem rest i j : name_cand stem rest i = name_cand stem rest j -> i = j.
Proof.
  unfold name_cand, file_name. rewrite !join_with_cons. intros E. apply app_inv_tail in E.
  assert (forall t, stem = stem ++ 45 :: t -> False) as N.
  { intros t Q. apply (f_equal (@length Z)) in Q. rewrite app_length in Q. cbn [length] in Q. lia. }
  destruct (Z.of_nat i =? 0) eqn:Ei, (Z.of_nat j =? 0) eqn:Ej.
  - lia.
  - destruct (N _ E).
  - symmetry in E. destruct (N _ E).
  - apply app_inv_head in E. injection E as E. apply pystr_inj in E. lia.
Qed.

Lemma unique_name_loop_spec files stem rest h : forall fuel k,
  match unique_name_loop fuel files stem rest h (Z.of_nat k) with
  | Ok n => (assoc n files = None \/ (assoc n files = Some h /\ hash_true h = true)) /\ exists j, n = name_cand stem rest j
  | Err e => e = OutOfFuel /\ forall i, (k <= i < k + fuel)%nat -> In (name_cand stem rest i) (map fst files)
  end.
Proof.
  induction fuel as [|f IH]; intros k; cbn [unique_name_loop].
  - split; [reflexivity|]. intros i Hi. lia.
  - destruct (assoc _ files) as [v|] eqn:E.
    + destruct (hash_true h && hash_eqb v h) eqn:B.
      * apply andb_true_iff in B as [B1 B2]. split; [|exists k; reflexivity]. right. split; [|exact B1].
        rewrite E. f_equal. destruct v as [v|], h as [w|]; cbn [hash_eqb] in B2; try discriminate; try reflexivity.
        apply str_eqb_eq in B2. congruence.
      * specialize (IH (S k)). replace (Z.of_nat (S k)) with (Z.of_nat k + 1) in IH by lia.
        destruct (unique_name_loop f _ _ _ _ _); [exact IH|]. destruct IH as [-> IH]. split; [reflexivity|].
        intros i Hi. destruct (Nat.eq_dec i k) as [->|]; [eapply assoc_In, E|]. apply IH. lia.
    + split; [left; exact E|]. exists k. reflexivity.
Qed.

Lemma split_on_cons x s : exists p ps, split_on x s = p :: ps.
Proof.
  destruct s as [|c s]; cbn [split_on]; [eauto|]. destruct (c =? x); [eauto|].
  destruct (split_on x s); eauto.
Qed.

Lemma join_split x s : join_with x (split_on x s) = s.
Proof.
  induction s as [|c s IH]; [reflexivity|]. cbn [split_on]. destruct (c =? x) eqn:E.
  - assert (c = x) as -> by lia. destruct (split_on_cons x s) as (p & ps & Q). rewrite Q in *.
    change (join_with x ([] :: p :: ps)) with ([] ++ x :: join_with x (p :: ps)). rewrite IH. reflexivity.
  - destruct (split_on_cons x s) as (p & ps & Q). rewrite Q in *.
    destruct ps; [cbn [join_with] in *; congruence|].
    change (c :: (p ++ x :: join_with x (l :: ps)) = c :: s). f_equal. exact IH.
Qed.

(** The stem and the rest of a file name *)
Definition stem_of (n : str) : str := match split_on 46 n with [] => [] | [] :: _ => lit "file" | s :: _ => s end.
Definition rest_of (n : str) : list str := match split_on 46 n with [] => [] | _ :: r => r end.

Lemma GetUniqueFileName_spec cp n h : exists m cp' j, GetUniqueFileName cp n h = Ok (m, cp') /\
  (assoc m (cp_files cp) = None \/ (assoc m (cp_files cp) = Some h /\ hash_true h = true)) /\
  m = name_cand (stem_of n) (rest_of n) j /\
  cp_ids cp' = cp_ids cp /\ cp_resources cp' = cp_resources cp /\
  (forall k, assoc k (cp_files cp') = if str_eqb k m then Some h else assoc k (cp_files cp)).
Proof.
  unfold GetUniqueFileName, stem_of, rest_of. destruct (split_on_cons 46 n) as (p & ps & ->).
  set (stem := match p with [] => lit "file" | _ => p end).
  replace (match p with [] => lit "file" | z :: l => p end) with stem by (destruct p; reflexivity).
  pose proof (unique_name_loop_spec (cp_files cp) stem ps h (S (S (length (cp_files cp)))) 0) as H.
  change (Z.of_nat 0) with 0 in H.
  destruct (unique_name_loop _ _ _ _ _ _) as [m|e].
  - destruct H as [H [j Hj]]. cbn [bind]. eexists m, _, j. split; [reflexivity|]. cbn.
    split; [exact H|]. split; [exact Hj|]. split; [reflexivity|]. split; [reflexivity|].
    intros k. apply assoc_set_file.
  - exfalso. destruct H as [_ H].
    pose proof (pigeon (name_cand stem ps) (map fst (cp_files cp)) (S (S (length (cp_files cp)))) (name_cand_inj stem ps)) as P.
    rewrite map_length in P. assert (S (S (length (cp_files cp))) <= length (cp_files cp))%nat; [|lia].
    apply P. intros i Hi. apply H. lia.
Qed.

(** A returned name is the requested one, or the requested one with a number added to its
    stem *)
Lemma name_cand_0 n : stem_of n <> lit "file" \/ (exists c s, n = c :: s /\ c <> 46) ->
  name_cand (stem_of n) (rest_of n) 0 = n.
Proof.
  intros H. unfold name_cand, file_name. cbn [Z.of_nat Z.eqb].
  unfold stem_of, rest_of in *. pose proof (join_split 46 n) as J.
  destruct (split_on_cons 46 n) as (p & ps & Q). rewrite Q in *.
  destruct p as [|c p]; [|exact J]. exfalso. destruct H as [H|(c & s & -> & Hc)].
  - apply H. reflexivity.
  - cbn [split_on] in Q. destruct (c =? 46) eqn:E; [lia|]. destruct (split_on 46 s); discriminate Q.
Qed.

(** *** Histories *)
Lemma run_inv ops : cp_inv (cp_run ops).
Proof.
  unfold cp_run. assert (cp_inv new_package) as H.
  { split; [apply NoDup_nil|]. intros i. reflexivity. }
  revert H. generalize new_package. induction ops as [|op ops IH]; intros cp H; [exact H|].
  cbn [fold_left]. apply IH. unfold cp_step. destruct (cp_call cp op) as [[i cp']|] eqn:E; [|exact H].
  destruct H as [H1 H2]. destruct op as [r|n h]; cbn [cp_call] in E.
  - apply AddResource_spec in E as (A & B & C & D). unfold cp_inv. rewrite B, D. split.
    + apply NoDup_app_intro || idtac.
      rewrite <- H2 in A. clear - H1 A. induction (cp_resources cp) as [|x l IH]; cbn [app].
      * constructor; [intros []|constructor].
      * inversion_clear H1. constructor.
        -- rewrite in_app_iff. intros [K|[K|[]]]; [auto|]. subst. apply A. left. reflexivity.
        -- apply IH; [assumption|]. intros K. apply A. right. exact K.
    + intros x. rewrite in_app_iff, H2. cbn [In]. intuition.
  - destruct (GetUniqueFileName_spec cp n h) as (m & cp2 & j & F & _ & _ & G1 & G2 & _).
    rewrite E in F. injection F as -> ->. unfold cp_inv. rewrite G1, G2. auto.
Qed.

Lemma run_app ops ops' : cp_run (ops ++ ops') = fold_left cp_step ops' (cp_run ops).
Proof. unfold cp_run. apply fold_left_app. Qed.

(** A file name keeps its hash from the first time it is returned unless it has none *)
Lemma step_files cp op n v : assoc n (cp_files cp) = Some v -> assoc n (cp_files (cp_step cp op)) = Some v.
Proof.
  intros H. unfold cp_step. destruct (cp_call cp op) as [[i cp']|] eqn:E; [|exact H].
  destruct op as [r|m h]; cbn [cp_call] in E.
  - apply AddResource_spec in E as (_ & _ & -> & _). exact H.
  - destruct (GetUniqueFileName_spec cp m h) as (k & cp2 & j & F & G & _ & _ & _ & K).
    rewrite E in F. injection F as -> ->. rewrite K. destruct (str_eqb n k) eqn:Q; [|exact H].
    apply str_eqb_eq in Q as ->. rewrite H in G. destruct G as [G|[G _]]; [discriminate|congruence].
Qed.
Lemma steps_files ops : forall cp n v, assoc n (cp_files cp) = Some v ->
  assoc n (cp_files (fold_left cp_step ops cp)) = Some v.
Proof. induction ops as [|op ops IH]; intros cp n v H; [exact H|]. apply IH, step_files, H. Qed.

Lemma file_names_history ops1 n1 h1 ops2 n2 h2 m cp1 cp2 :
  cp_call (cp_run ops1) (OpUniqueFileName n1 h1) = Ok (m, cp1) ->
  cp_call (cp_run (ops1 ++ OpUniqueFileName n1 h1 :: ops2)) (OpUniqueFileName n2 h2) = Ok (m, cp2) ->
  h1 = h2 /\ exists c s, h1 = Some (c :: s).
Proof.
  intros H1 H2. rewrite run_app in H2. cbn [fold_left] in H2.
  unfold cp_step at 2 in H2. rewrite H1 in H2. cbn [cp_call] in *.
  destruct (GetUniqueFileName_spec (cp_run ops1) n1 h1) as (m' & c' & j & F & _ & _ & _ & _ & K).
  rewrite H1 in F. injection F as <- <-.
  assert (assoc m (cp_files cp1) = Some h1) as A by (rewrite K, str_eqb_refl; reflexivity).
  apply (steps_files ops2) in A.
  destruct (GetUniqueFileName_spec (fold_left cp_step ops2 cp1) n2 h2) as (m'' & c'' & j' & F & G & _).
  rewrite H2 in F. injection F as <- <-. rewrite A in G. destruct G as [G|[G Q]]; [discriminate|].
  injection G as <-. split; [reflexivity|]. destruct h1 as [[|c s]|]; try discriminate. eauto.
Qed.

(** The name of the manifest is only ever returned when it is asked for *)
Lemma split_head_no46 s p ps : split_on 46 s = p :: ps -> ~ In 46 p.
Proof.
  revert p ps. induction s as [|c s IH]; intros p ps; cbn [split_on].
  - intros [= <- <-] [].
  - destruct (c =? 46) eqn:E; [intros [= <- <-] []|].
    destruct (split_on_cons 46 s) as (q & qs & Q). rewrite Q. intros [= <- <-]. cbn [In].
    specialize (IH _ _ Q). intros [K|K]; [lia|auto].
Qed.

Lemma split_app_no x p s : ~ In x p -> split_on x (p ++ x :: s) = p :: split_on x s.
Proof.
  induction p as [|c p IH]; intros H; cbn [app split_on].
  - rewrite Z.eqb_refl. reflexivity.
  - destruct (c =? x) eqn:E; [exfalso; apply H; left; lia|]. rewrite IH; [reflexivity|].
    intros K. apply H. right. exact K.
Qed.
Lemma split_no x p : ~ In x p -> split_on x p = [p].
Proof.
  induction p as [|c p IH]; intros H; [reflexivity|]. cbn [split_on].
  destruct (c =? x) eqn:E; [exfalso; apply H; left; lia|]. rewrite IH; [reflexivity|].
  intros K. apply H. right. exact K.
Qed.
Lemma split_parts_no s : Forall (fun p => ~ In 46 p) (split_on 46 s).
Proof.
  induction s as [|c s IH]; cbn [split_on].
  - constructor; [intros []|constructor].
  - destruct (c =? 46) eqn:E; [constructor; [intros []|exact IH]|].
    destruct (split_on_cons 46 s) as (q & qs & Q). rewrite Q in *. inversion_clear IH. constructor; [|assumption].
    intros [K|K]; [lia|auto].
Qed.
Lemma split_join l : l <> [] -> Forall (fun p => ~ In 46 p) l -> split_on 46 (join_with 46 l) = l.
Proof.
  intros Hn H. induction H as [|p ps Hp Hps IH]; [congruence|]. destruct ps as [|q qs].
  - cbn [join_with]. apply split_no, Hp.
  - change (join_with 46 (p :: q :: qs)) with (p ++ 46 :: join_with 46 (q :: qs)).
    rewrite split_app_no by exact Hp. rewrite IH by discriminate. reflexivity.
Qed.
Lemma pystr_no46 n : 0 <= n -> ~ In 46 (pystr n).
Proof.
  intros Hn. unfold pystr. destruct (n <? 0) eqn:E; [lia|]. intros H.
  pose proof (fmt_digits n Hn) as F. rewrite Forall_forall in F. specialize (F _ H). unfold is_dec in F. lia.
Qed.

Lemma manifest_name cp n h m cp' : GetUniqueFileName cp n h = Ok (m, cp') ->
  m = lit "imsmanifest.xml" -> n = lit "imsmanifest.xml".
Proof.
  intros H Hm. destruct (GetUniqueFileName_spec cp n h) as (m' & c' & j & F & _ & Hj & _).
  rewrite H in F. injection F as <- <-. rewrite Hm in Hj. clear H Hm.
  assert (~ In 46 (stem_of n)) as S1.
  { unfold stem_of. destruct (split_on_cons 46 n) as (p & ps & Q). rewrite Q. apply split_head_no46 in Q.
    destruct p; [|exact Q]. vm_compute. intuition congruence. }
  assert (Forall (fun p => ~ In 46 p) (rest_of n)) as S2.
  { unfold rest_of. pose proof (split_parts_no n) as S. destruct (split_on_cons 46 n) as (p & ps & Q).
    rewrite Q in *. inversion_clear S. assumption. }
  unfold name_cand, file_name in Hj. apply (f_equal (split_on 46)) in Hj.
  rewrite split_join in Hj; [|discriminate|].
  - change (split_on 46 (lit "imsmanifest.xml")) with [lit "imsmanifest"; lit "xml"] in Hj.
    injection Hj as H1 H2. destruct (Z.of_nat j =? 0) eqn:E.
    + unfold stem_of, rest_of in H1, H2. pose proof (join_split 46 n) as J.
      destruct (split_on_cons 46 n) as (p & ps & Q). rewrite Q in *. rewrite <- J, <- H2.
      destruct p; [discriminate H1|]. rewrite <- H1. reflexivity.
    + exfalso. assert (In 45 (lit "imsmanifest")) as K.
      { change (lit "imsmanifest") with [105; 109; 115; 109; 97; 110; 105; 102; 101; 115; 116]. rewrite H1. apply in_app_iff. right. left. reflexivity. }
      vm_compute in K. intuition congruence.
  - constructor; [|exact S2]. destruct (Z.of_nat j =? 0); [exact S1|].
    rewrite in_app_iff. cbn [app In]. intros [K|[K|K]]; [auto|lia|]. revert K. apply pystr_no46. lia.
Qed.

(** *** FixIdentifier *)
Lemma nmtoken_spec c : nmtoken_char c = true <-> id_char c.
Proof.
  unfold nmtoken_char, id_char. rewrite !orb_true_iff, is_letter_iff, mem_In.
  unfold letter, is_dec, is_digit. intuition lia.
Qed.
Lemma nmstart_spec c : nmstart_char c = true <-> letter c \/ c = 95.
Proof. unfold nmstart_char. rewrite orb_true_iff, is_letter_iff. unfold letter. lia. Qed.

Definition id_fix (c : Z) : Z := if nmtoken_char c then c else 95.

Lemma fix_loop_nonempty s : forall acc, acc <> [] -> fix_identifier_loop acc s = acc ++ map id_fix s.
Proof.
  induction s as [|c s IH]; intros acc H; cbn [fix_identifier_loop map]; [symmetry; apply app_nil_r|].
  destruct acc as [|a acc]; [congruence|]. rewrite IH by (destruct acc; discriminate).
  rewrite <- app_assoc. reflexivity.
Qed.
Lemma FixIdentifier_eq c s : FixIdentifier (c :: s) =
  (if nmstart_char (id_fix c) then [] else lit "ID_") ++ map id_fix (c :: s).
Proof.
  unfold FixIdentifier. cbn [fix_identifier_loop]. fold (id_fix c).
  destruct (nmstart_char (id_fix c)); rewrite fix_loop_nonempty by discriminate; reflexivity.
Qed.
Lemma id_fix_char c : id_char (id_fix c).
Proof.
  unfold id_fix. destruct (nmtoken_char c) eqn:E; [apply nmtoken_spec, E|].
  right. right. left. reflexivity.
Qed.
Lemma id_fix_same c : id_char c -> id_fix c = c.
Proof. intros H. unfold id_fix. rewrite (proj2 (nmtoken_spec c) H). reflexivity. Qed.
Lemma id_fix_other c : ~ id_char c -> id_fix c = 95.
Proof. intros H. unfold id_fix. destruct (nmtoken_char c) eqn:E; [|reflexivity]. apply nmtoken_spec in E. contradiction. Qed.

Lemma FixIdentifier_name s : s <> [] -> xml_name (FixIdentifier s).
Proof.
  destruct s as [|c s]; [congruence|]. intros _. rewrite FixIdentifier_eq.
  assert (Forall id_char (map id_fix s)) as H.
  { apply Forall_map, Forall_forall. intros x _. apply id_fix_char. }
  destruct (nmstart_char _) eqn:E; cbn [app map].
  - split; [apply nmstart_spec, E|exact H].
  - change (lit "ID_") with [73; 68; 95]. cbn [app]. split; [left; unfold letter; lia|].
    constructor; [left; unfold letter; lia|]. constructor; [right; right; left; reflexivity|].
    constructor; [apply id_fix_char|exact H].
Qed.
Lemma map_id_fix s : Forall id_char s -> map id_fix s = s.
Proof. induction 1 as [|c s Hc Hs IH]; cbn [map]; [reflexivity|]. rewrite IH, id_fix_same by assumption. reflexivity. Qed.
Lemma FixIdentifier_same s : xml_name s -> FixIdentifier s = s.
Proof.
  destruct s as [|c s]; [intros []|]. intros [H1 H2]. rewrite FixIdentifier_eq.
  assert (id_char c) as Hc by (destruct H1; [left; assumption|right; right; left; symmetry; assumption]).
  rewrite (id_fix_same c Hc). rewrite (proj2 (nmstart_spec c) H1). cbn [app map].
  rewrite (id_fix_same c Hc), map_id_fix by exact H2. reflexivity.
Qed.
Lemma xml_name_cand base k : xml_name base -> xml_name (id_cand base k).
Proof.
  intros H. destruct k as [|k]; [exact H|]. destruct base as [|a t]; [destruct H|]. destruct H as [H1 H2].
  cbn [id_cand app]. split; [exact H1|]. apply Forall_app. split; [exact H2|].
  constructor; [right; right; right; left; reflexivity|].
  unfold pystr. destruct (Z.of_nat (S k) <? 0) eqn:E; [lia|].
  eapply Forall_impl; [|apply fmt_digits; lia]. intros c Hc. right. left. exact Hc.
Qed.

Lemma suggest_some es : forall d, (exists e c, In e es /\ In c e /\ id_char c /\ c <> 58) ->
  exists c s, suggest_general d es = Some (c :: s).
Proof.
  induction es as [|e es IH]; intros d (e0 & c & He & Hc & H1 & H2); [destruct He|].
  cbn [suggest_general]. destruct (suggest_entry e) as [|c' s'] eqn:E; [|eauto].
  apply IH. destruct He as [->|He]; [|exists e0, c; auto].
  assert (In c (suggest_entry e0)) as K.
  { apply filter_In. split; [exact Hc|]. rewrite (proj2 (nmtoken_spec c) H1).
    replace (c =? 58) with false by lia. reflexivity. }
  rewrite E in K. destruct K.
Qed.

Lemma AddResource_name cp r id cp' : fresh_id_ok r -> AddResource cp r = Ok (id, cp') -> xml_name id.
Proof.
  intros [H1 H2] H. unfold AddResource in H.
  destruct (match r_id r with Some _ => _ | _ => _ end) as [i|] eqn:E; [|discriminate H].
  cbn [bind] in H. injection H as <- _.
  assert (AutoSetID cp r = Ok i -> xml_name i) as A.
  { unfold AutoSetID. destruct (r_lom r) as [[es|]|].
    - destruct (suggest_some es None H2) as (c & s & ->). cbn [bind].
      destruct (GetUniqueID_spec cp (FixIdentifier (c :: s))) as (i' & j & -> & _ & Q). intros [= <-]. rewrite Q.
      apply xml_name_cand, FixIdentifier_name. discriminate.
    - discriminate.
    - cbn [bind]. destruct (GetUniqueID_spec cp (lit "resource")) as (i' & j & -> & _ & Q). intros [= <-]. rewrite Q.
      apply xml_name_cand. change (lit "resource") with [114; 101; 115; 111; 117; 114; 99; 101].
      split; [left; unfold letter; lia|]. repeat (apply Forall_cons; [left; unfold letter; lia|]). apply Forall_nil. }
  destruct (r_id r) as [[|c s]|]; try (apply A; exact E).
  destruct (has_key _ _); [apply A, E|]. injection E as <-. exact H1.
Qed.

Lemma run_names ops : (forall r, In (OpAddResource r) ops -> fresh_id_ok r) ->
  Forall xml_name (cp_resources (cp_run ops)).
Proof.
  intros H. unfold cp_run. assert (Forall xml_name (cp_resources new_package)) as I by constructor.
  revert I. generalize new_package. induction ops as [|op ops IH]; intros cp I; [exact I|].
  cbn [fold_left]. apply IH; [intros r Hr; apply H; right; exact Hr|].
  unfold cp_step. destruct (cp_call cp op) as [[i cp']|] eqn:E; [|exact I]. destruct op as [r|n h]; cbn [cp_call] in E.
  - pose proof (AddResource_name cp r i cp' (H r (or_introl eq_refl)) E) as N.
    apply AddResource_spec in E as (_ & _ & _ & ->). apply Forall_app. split; [exact I|]. constructor; [exact N|constructor].
  - destruct (GetUniqueFileName_spec cp n h) as (m & cp2 & j & F & _ & _ & _ & G & _).
    rewrite E in F. injection F as -> ->. rewrite G. exact I.
Qed.

(** *** Paths *)
Definition below (dir : str) (stack : list str) : str := dir ++ List.concat (map (cons 47) stack).

Lemma below_snoc dir st s : below dir (st ++ [s]) = below dir st ++ 47 :: s.
Proof. unfold below. rewrite map_app, concat_app. cbn [map List.concat]. rewrite app_nil_r, app_assoc. reflexivity. Qed.

Definition plain_seg (s : str) : Prop := s <> [] /\ ~ In 47 s.

Lemma below_plain dir st : plain_dir dir -> Forall plain_seg st -> plain_dir (below dir st).
Proof.
  intros Hd. induction st as [|s st IH] using rev_ind; intros H.
  - unfold below. cbn. rewrite app_nil_r. exact Hd.
  - apply Forall_app in H as [H1 H2]. inversion_clear H2 as [|? ? [N S] _]. rewrite below_snoc.
    destruct s as [|c s _] using rev_ind; [congruence|]. exists (below dir st ++ 47 :: s), c.
    split; [rewrite <- app_assoc; reflexivity|]. intros ->. apply S. apply in_app_iff. right. left. reflexivity.
Qed.

Lemma drop_to_slash_app p r : ~ In 47 p -> drop_to_slash (p ++ 47 :: r) = 47 :: r.
Proof.
  induction p as [|c p IH]; intros H; cbn [app drop_to_slash].
  - reflexivity.
  - destruct (c =? 47) eqn:E; [exfalso; apply H; left; lia|]. apply IH. intros K. apply H. right. exact K.
Qed.

Lemma head_below dir st s : plain_dir dir -> Forall plain_seg st -> plain_seg s ->
  path_head (below dir (st ++ [s])) = below dir st.
Proof.
  intros Hd Hst [Hs1 Hs2]. rewrite below_snoc. unfold path_head.
  rewrite rev_app_distr. cbn [rev]. rewrite <- app_assoc. cbn [app].
  rewrite drop_to_slash_app by (rewrite <- in_rev; exact Hs2).
  destruct (below_plain dir st Hd Hst) as (d & c & -> & Hc).
  rewrite rev_app_distr. cbn [rev app strip_slashes].
  replace (47 =? 47) with true by reflexivity. destruct (c =? 47) eqn:E; [lia|].
  cbn [rev]. rewrite rev_involutive. reflexivity.
Qed.

Lemma join_below dir st s : plain_dir dir -> Forall plain_seg st -> ~ In 47 s ->
  path_join (below dir st) s = below dir (st ++ [s]).
Proof.
  intros Hd Hst Hs. rewrite below_snoc. unfold path_join.
  replace (starts_slash s) with false.
  2:{ destruct s as [|c s]; [reflexivity|]. cbn [starts_slash]. destruct (c =? 47) eqn:E; [|reflexivity].
      exfalso. apply Hs. left. lia. }
  destruct (below_plain dir st Hd Hst) as (d & c & -> & Hc).
  unfold ends_slash. rewrite rev_app_distr. cbn [rev app starts_slash].
  destruct (c =? 47) eqn:E; [lia|]. destruct (d ++ [c]) eqn:Q; [destruct d; discriminate|]. reflexivity.
Qed.

Lemma resolve_loop_inside dir : plain_dir dir -> forall segs last st,
  Forall plain_seg st -> Forall (fun s => s <> lit "..") st ->
  Forall good_seg segs -> good_seg last \/ last = [] ->
  exists st', resolve_loop (Z.of_nat (length st)) (below dir st) (segs ++ [last]) = below dir st' /\
    Forall (fun s => s <> lit ".." /\ ~ In 47 s) st'.
Proof.
  intros Hd.
  assert (forall st, Forall plain_seg st -> Forall (fun s => s <> lit "..") st ->
    Forall (fun s => s <> lit ".." /\ ~ In 47 s) st) as C.
  { intros st H1 H2. rewrite Forall_forall in *. intros s Hs. split; [auto|]. apply H1, Hs. }
  assert (forall seg st, Forall plain_seg st -> Forall (fun s => s <> lit "..") st -> good_seg seg ->
    exists st', Forall plain_seg st' /\ Forall (fun s => s <> lit "..") st' /\
      forall rest, resolve_loop (Z.of_nat (length st)) (below dir st) (seg :: rest) =
                   resolve_loop (Z.of_nat (length st')) (below dir st') rest) as Step.
  { intros seg st H1 H2 G. unfold good_seg in G.
    destruct (str_eq_dec seg (lit ".")) as [->|N1]; [|destruct (str_eq_dec seg (lit "..")) as [->|N2]].
    - exists st. split; [exact H1|]. split; [exact H2|]. reflexivity.
    - destruct st as [|s st _] using rev_ind.
      + exists []. split; [exact H1|]. split; [exact H2|]. reflexivity.
      + apply Forall_app in H1 as [H1 H1']. apply Forall_app in H2 as [H2 _]. inversion_clear H1'.
        exists st. split; [exact H1|]. split; [exact H2|]. intros rest. cbn [resolve_loop].
        rewrite (proj2 (str_eqb_neq (lit "..") (lit "."))) by discriminate. rewrite str_eqb_refl.
        rewrite app_length. cbn [length]. replace (negb (Z.of_nat (length st + 1) =? 0)) with true by lia.
        rewrite head_below by assumption. f_equal. lia.
    - destruct G as [G|[G|(t & Hr & Ht1 & Ht2 & Ht3)]]; try contradiction.
      exists (st ++ [t]). split; [apply Forall_app; split; [exact H1|constructor; [split; assumption|constructor]]|].
      split; [apply Forall_app; split; [exact H2|constructor; [assumption|constructor]]|].
      intros rest. cbn [resolve_loop]. rewrite (proj2 (str_eqb_neq _ _) N1), (proj2 (str_eqb_neq _ _) N2).
      rewrite (decode_reads _ _ Hr), join_below by assumption. f_equal. rewrite app_length. cbn [length]. lia. }
  induction segs as [|seg segs IH]; intros last st H1 H2 H3 H4.
  - cbn [app]. destruct H4 as [H4| ->].
    + destruct (Step last st H1 H2 H4) as (st' & S1 & S2 & ->). exists st'. split; [reflexivity|]. apply C; assumption.
    + exists (st ++ [[]]). split.
      * cbn [resolve_loop str_eqb lit]. rewrite (decode_reads [] [] pr_nil).
        apply join_below; [assumption..|intros []].
      * apply Forall_app. split; [apply C; assumption|]. constructor; [|constructor]. split; [discriminate|intros []].
  - inversion_clear H3 as [|? ? G Gs]. destruct (Step seg st H1 H2 G) as (st' & S1 & S2 & S3).
    cbn [app]. rewrite S3. apply IH; assumption.
Qed.

Lemma split_on_join x l : l <> [] -> Forall (fun p => ~ In x p) l -> split_on x (join_with x l) = l.
Proof.
  intros Hn H. induction H as [|p ps Hp Hps IH]; [congruence|]. destruct ps as [|q qs].
  - cbn [join_with]. apply split_no, Hp.
  - change (join_with x (p :: q :: qs)) with (p ++ x :: join_with x (q :: qs)).
    rewrite split_app_no by exact Hp. rewrite IH by discriminate. reflexivity.
Qed.

Lemma good_no47 s : good_seg s -> ~ In 47 s.
Proof.
  intros [->|[->|(t & H & _ & _ & N)]]; try (vm_compute; intuition congruence).
  intros K. apply N. clear N. induction H as [|c s t Hc H IH|a b x y s t Ha Hb H IH]; [exact K| |].
  - cbn [In] in *. intuition.
  - cbn [In] in *. unfold hex_of in *. destruct K as [K|[K|[K|K]]]; try lia. right. auto.
Qed.

Lemma slashed_join l : slashed l = join_with 47 l.
Proof. induction l as [|p [|q l] IH]; [reflexivity..|]. change (p ++ 47 :: slashed (q :: l) = p ++ 47 :: join_with 47 (q :: l)). rewrite IH. reflexivity. Qed.

Lemma resolve_inside dir segs last : plain_dir dir -> Forall good_seg segs -> good_seg last \/ last = [] ->
  inside dir (ResolveCPURI dir (slashed (segs ++ [last]))).
Proof.
  intros Hd H1 H2. rewrite slashed_join. unfold ResolveCPURI. rewrite split_on_join.
  - destruct (resolve_loop_inside dir Hd segs last [] (Forall_nil _) (Forall_nil _) H1 H2) as (st & E & F).
    unfold below in E at 1. cbn [map List.concat length] in E. rewrite app_nil_r in E. change (Z.of_nat 0) with 0 in E.
    rewrite E. exists st. split; [reflexivity|exact F].
  - destruct segs; discriminate.
  - apply Forall_app. split; [eapply Forall_impl; [|exact H1]; apply good_no47|].
    constructor; [|constructor]. destruct H2 as [H2| ->]; [apply good_no47, H2|intros []].
Qed.

Lemma inside_split dir p segs : Forall (fun s => ~ In 47 s) segs -> p = below dir segs ->
  split_on 47 p = split_on 47 dir ++ segs.
Proof.
  intros H ->. unfold below. revert dir. induction segs as [|s segs IH] using rev_ind; intros dir.
  - cbn. rewrite !app_nil_r. reflexivity.
  - apply Forall_app in H as [H1 H2]. inversion_clear H2.
    rewrite map_app, concat_app. cbn [map List.concat]. rewrite app_nil_r, app_assoc.
    assert (forall d x, ~ In 47 x -> split_on 47 (d ++ 47 :: x) = split_on 47 d ++ [x]) as G.
    { intros d x Hx. induction d as [|c d IHd]; cbn [app split_on].
      - cbn [Z.eqb]. rewrite split_no by exact Hx. reflexivity.
      - rewrite IHd. destruct (c =? 47); [reflexivity|]. destruct (split_on_cons 47 d) as (a & b & ->). reflexivity. }
    rewrite G by assumption. rewrite IH by assumption. rewrite <- app_assoc. reflexivity.
Qed.
