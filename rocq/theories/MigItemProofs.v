(** Proofs about the variables of an item being converted. *)
From Coq Require Import Lia.
From Verif Require Import Py Iso Dec XmlUtils XmlChars Shapes MigWrite MigItem.
Open Scope Z_scope.
Open Scope list_scope.

(** ** Dictionaries *)
Lemma dget_none {A} k (d : list (str * A)) : dget k d = None <-> ~ In k (map fst d).
Proof.
  induction d as [|[k' v] d IH]; cbn [dget map fst In]; [tauto|]. destruct (str_eqb k k') eqn:E.
  - apply str_eqb_eq in E as ->. split; [discriminate|tauto].
  - rewrite IH. assert (k' <> k) by (intros ->; rewrite str_eqb_refl in E; discriminate). tauto.
Qed.
Lemma dget_in {A} k v (d : list (str * A)) : dget k d = Some v -> In (k, v) d.
Proof.
  induction d as [|[k' v'] d IH]; cbn [dget]; [discriminate|]. destruct (str_eqb k k') eqn:E.
  - apply str_eqb_eq in E as ->. intros [= ->]. now left.
  - intros H. right. auto.
Qed.
Lemma in_dget {A} k v (d : list (str * A)) : NoDup (map fst d) -> In (k, v) d -> dget k d = Some v.
Proof.
  induction d as [|[k' v'] d IH]; cbn [dget map fst]; [intros _ []|]. intros HN. inversion HN as [|? ? Hn HN']; subst. intros [[= -> ->]|H].
  - rewrite str_eqb_refl. reflexivity.
  - destruct (str_eqb k k') eqn:E; [|auto]. apply str_eqb_eq in E as ->. exfalso. apply Hn, in_map_iff. exists (k', v). auto.
Qed.
Lemma dset_fresh {A} k (v : A) d : dget k d = None -> dset k v d = d ++ [(k, v)].
Proof.
  induction d as [|[k' v'] d IH]; cbn [dget dset]; [reflexivity|]. destruct (str_eqb k k'); [discriminate|]. intros H. rewrite IH by exact H. reflexivity.
Qed.
Lemma dget_app {A} k (d d' : list (str * A)) : dget k (d ++ d') = match dget k d with Some v => Some v | None => dget k d' end.
Proof. induction d as [|[k' v'] d IH]; [reflexivity|]. cbn [dget app]. destruct (str_eqb k k'); [reflexivity|exact IH]. Qed.
Lemma has_key_false {A} k (d : list (str * A)) : has_key k d = false <-> dget k d = None.
Proof. unfold has_key. destruct (dget k d); split; congruence. Qed.
Lemma dget_snoc {A} k k' (v v' : A) d : dget k d = Some v -> dget k (d ++ [(k', v')]) = Some v.
Proof. intros H. rewrite dget_app, H. reflexivity. Qed.
Lemma dget_last {A} k (v : A) d : dget k d = None -> dget k (d ++ [(k, v)]) = Some v.
Proof. intros H. rewrite dget_app, H. cbn. rewrite str_eqb_refl. reflexivity. Qed.
Lemma dget_ddel {A} k k' (d : list (str * A)) : NoDup (map fst d) ->
  dget k (ddel k' d) = (if str_eqb k k' then None else dget k d) /\ NoDup (map fst (ddel k' d)) /\
  (forall x, In x (map fst (ddel k' d)) <-> In x (map fst d) /\ x <> k').
Proof.
  induction d as [|[k1 v1] d IH]; intros HN; cbn [ddel dget map fst].
  - destruct (str_eqb k k'); repeat split; try assumption; cbn; tauto.
  - inversion HN as [|? ? Hn HN']; subst. destruct (IH HN') as (H1 & H2 & H3). destruct (str_eqb k' k1) eqn:E.
    + apply str_eqb_eq in E as ->. split; [|split; [exact HN'|]].
      * destruct (str_eqb k k1) eqn:E1; [|reflexivity]. apply str_eqb_eq in E1 as ->. apply dget_none, Hn.
      * intros x. cbn. split; [|intros [[->|H] K]; [congruence|exact H]]. intros H. split; [auto|]. intros ->. contradiction.
    + cbn [dget map fst]. assert (k1 <> k') by (intros ->; rewrite str_eqb_refl in E; discriminate). split; [|split].
      * destruct (str_eqb k k1) eqn:E1; [|exact H1]. apply str_eqb_eq in E1 as ->.
        destruct (str_eqb k1 k') eqn:E2; [apply str_eqb_eq in E2; congruence|reflexivity].
      * constructor; [|exact H2]. rewrite H3. tauto.
      * intros x. cbn. rewrite H3. split; [intros [<-|[]]; auto|]. intros [[->|H4] H5]; auto.
Qed.
Lemma dget_ddels {A} (l : list (str * str)) : forall (d : list (str * A)), NoDup (map fst d) ->
  let d' := fold_left (fun vs o => ddel (snd o) vs) l d in
  NoDup (map fst d') /\ (forall x, In x (map fst d') <-> In x (map fst d) /\ ~ In x (map snd l)) /\
  (forall k, ~ In k (map snd l) -> dget k d' = dget k d).
Proof.
  induction l as [|[i n] l IH]; intros d HN; cbn [fold_left map snd]; [repeat split; auto; cbn in *; tauto|].
  destruct (dget_ddel n n d HN) as (_ & H2 & H3). destruct (IH _ H2) as (G1 & G2 & G3). split; [exact G1|]. split.
  - intros x. rewrite G2, H3. cbn. intuition congruence.
  - intros k Hk. cbn in Hk. rewrite G3 by tauto. destruct (dget_ddel k n d HN) as (H1 & _ & _). rewrite H1.
    destruct (str_eqb k n) eqn:E; [|reflexivity]. apply str_eqb_eq in E as ->. tauto.
Qed.
Lemma NoDup_snoc {A} (l : list A) x : NoDup l -> ~ In x l -> NoDup (l ++ [x]).
Proof.
  intros H Hx. induction H as [|y l Hy H IH]; cbn; [constructor; [auto|constructor]|]. constructor.
  - rewrite in_app_iff. cbn. intros [K|[->|[]]]; [contradiction|]. apply Hx. now left.
  - apply IH. intros K. apply Hx. now right.
Qed.

Lemma NoDup_prefix {A} (l l' : list A) : NoDup (l ++ l') -> NoDup l.
Proof.
  induction l as [|x l IH]; intros H; [constructor|]. inversion H as [|? ? Hx H']; subst. constructor; [|auto].
  intros K. apply Hx, in_app_iff. auto.
Qed.

(** ** The invariant *)
Definition names (s : state) : list str := FEEDBACK :: map snd (responses s) ++ map snd (outcomes s).
Definition renamed (id n : str) : Prop := n = id \/ exists k, 1 <= k <= 99 /\ n = numbered id k.
Record inv (s : state) : Prop := {
  i_origin : forall id n, In (id, n) (responses s) \/ In (id, n) (outcomes s) -> renamed id n;
  i_vars : NoDup (map fst (variables s));
  i_resp : NoDup (map fst (responses s));
  i_outs : NoDup (map fst (outcomes s));
  i_names : NoDup (names s);
  i_keys : forall k, In k (map fst (variables s)) <-> In k (names s);
  i_feedback : dget FEEDBACK (variables s) = Some Reserved;
  i_response : forall id n, In (id, n) (responses s) -> exists d, dget n (variables s) = Some (Declared d) /\
    decl_identifier d = n /\ (is_response d = true -> In (n, d) (declared s));
  i_outcome : forall id n, In (id, n) (outcomes s) -> exists d v, dget n (variables s) = Some (Outcome d v) /\
    decl_identifier d = n /\ is_response d = false /\ In (n, d) (declared s);
  i_decls : NoDup (map fst (declared s));
  i_declared : forall n d, In (n, d) (declared s) -> decl_identifier d = n /\
    (n = FEEDBACK /\ declareFeedback s = true /\ d = feedback_declaration \/
     dget n (variables s) = Some (Declared d) \/
     is_response d = false /\ exists v, dget n (variables s) = Some (Outcome d v)) }.

Lemma inv_new : inv new_item.
Proof.
  constructor; cbn; try (intros ? ? [[]|[]]); try constructor; auto; try constructor; try (intros ? ? []); try tauto.
Qed.

Lemma unique_fresh vs base k : forall n m, unique_from vs base n k = Ok m -> dget m vs = None.
Proof.
  induction k as [|k IH]; intros n m; cbn [unique_from]; [discriminate|]. destruct (has_key (numbered base n) vs) eqn:E; [apply IH|].
  intros [= <-]. apply has_key_false, E.
Qed.
Lemma unique_renamed vs base k : forall n m, 1 <= n -> n + Z.of_nat k <= 100 -> unique_from vs base n k = Ok m -> renamed base m.
Proof.
  induction k as [|k IH]; intros n m H1 H2; cbn [unique_from]; [discriminate|]. destruct (has_key (numbered base n) vs) eqn:E; [apply IH; lia|].
  intros [= <-]. right. exists n. split; [lia|reflexivity].
Qed.
Lemma new_name_fresh s id n : new_name s id = Ok n -> dget n (variables s) = None /\ (dget id (variables s) = None -> n = id) /\ renamed id n.
Proof.
  unfold new_name, UniqueVarName. destruct (has_key id (variables s)) eqn:E.
  - intros H. assert (K1 : renamed id n) by (apply (unique_renamed (variables s) id 99 1); [lia|lia|exact H]). apply unique_fresh in H. split; [exact H|].
    split; [|exact K1]. intros K. apply has_key_false in K. congruence.
  - intros [= <-]. split; [apply has_key_false, E|]. split; [reflexivity|left; reflexivity].
Qed.
Lemma fresh_undeclared s n : inv s -> dget n (variables s) = None -> dget n (declared s) = None.
Proof.
  intros I Hn. apply dget_none. intros H. apply in_map_iff in H as ([k d] & <- & H). cbn [fst] in *.
  destruct (i_declared s I _ _ H) as (_ & [(-> & _)|[K|(_ & v & K)]]); [|congruence|congruence].
  rewrite (i_feedback s I) in Hn. discriminate.
Qed.

(** ** Adding variables *)
Definition with_response (s : state) (id n : str) (d : declaration) : state :=
  mkState (variables s ++ [(n, Declared d)]) (responses s ++ [(id, n)]) (outcomes s) (declareFeedback s)
    (declared s ++ [(n, d)]) (rules s).
Definition with_outcome (s : state) (id n : str) (d : declaration) (v : option decvar) : state :=
  mkState (variables s ++ [(n, Outcome d v)]) (responses s) (outcomes s ++ [(id, n)]) (declareFeedback s)
    (declared s ++ [(n, d)]) (rules s).

Lemma declare_response_eq mk s id s' n : inv s -> (forall n, decl_identifier (mk n) = n) ->
  declare_response mk s id = Ok (s', n) ->
  s' = with_response s id n (mk n) /\ dget n (variables s) = None /\ dget id (responses s) = None /\
  (dget id (variables s) = None -> n = id) /\ renamed id n.
Proof.
  intros I Hmk H. unfold declare_response in H. destruct (has_key id (responses s)) eqn:E1; [discriminate|].
  destruct (new_name s id) as [m|] eqn:E2; cbn [bind] in H; [|discriminate]. destruct (new_name_fresh _ _ _ E2) as (Hf & Hk & Ho).
  unfold DeclareVariable in H. rewrite Hmk in H. pose proof (fresh_undeclared s m I Hf) as Hd.
  rewrite (proj2 (has_key_false _ _) Hd) in H. cbn [bind] in H. injection H as <- <-.
  apply has_key_false in E1. rewrite !dset_fresh by assumption. auto.
Qed.
Lemma with_response_inv s id n d : inv s -> decl_identifier d = n -> dget n (variables s) = None -> dget id (responses s) = None ->
  renamed id n -> inv (with_response s id n d).
Proof.
  intros I Hd Hn Hid Horig. pose proof (fresh_undeclared s n I Hn) as Hnd. apply dget_none in Hid. apply dget_none in Hn as Hn'. apply dget_none in Hnd as Hnd'.
  assert (Hnn : ~ In n (names s)) by (rewrite <- (i_keys s I); exact Hn').
  constructor; unfold with_response, names; cbn [variables responses outcomes declareFeedback declared rules]; rewrite ?map_app; cbn [map fst snd].
  - intros i m H. rewrite in_app_iff in H. destruct (list_eq_dec Z.eq_dec i id) as [->|Hi]; [destruct (list_eq_dec Z.eq_dec m n) as [->|Hm]; [exact Horig|]|];
      (apply (i_origin s I); cbn [In] in H; intuition congruence).
  - apply NoDup_snoc; [apply I|exact Hn'].
  - apply NoDup_snoc; [apply I|exact Hid].
  - apply I.
  - pose proof (i_names s I) as HN. unfold names in *. rewrite <- app_assoc. cbn [app].
    apply NoDup_Add with (a := n) (l := FEEDBACK :: map snd (responses s) ++ map snd (outcomes s)).
    + constructor. apply Add_app.
    + split; assumption.
  - intros k. rewrite in_app_iff, (i_keys s I). unfold names. cbn. rewrite !in_app_iff. cbn. tauto.
  - apply dget_snoc, I.
  - intros id' n' H. apply in_app_iff in H as [H|[[= <- <-]|[]]].
    + destruct (i_response s I _ _ H) as (d' & H1 & H2 & H3). exists d'. split; [apply dget_snoc, H1|]. split; [exact H2|].
      intros K. apply in_app_iff. auto.
    + exists d. split; [apply dget_last, Hn|]. split; [exact Hd|]. intros _. apply in_app_iff. right. now left.
  - intros id' n' H. destruct (i_outcome s I _ _ H) as (d' & v & H1 & H2 & H3 & H4). exists d', v.
    split; [apply dget_snoc, H1|]. split; [exact H2|]. split; [exact H3|]. apply in_app_iff. auto.
  - apply NoDup_snoc; [apply I|exact Hnd'].
  - intros n' d' H. apply in_app_iff in H as [H|[[= <- <-]|[]]].
    + destruct (i_declared s I _ _ H) as (H1 & [H2|[H2|(H2 & v & H3)]]); (split; [exact H1|]); [auto| |].
      * right. left. apply dget_snoc, H2.
      * right. right. split; [exact H2|]. exists v. apply dget_snoc, H3.
    + split; [exact Hd|]. right. left. apply dget_last, Hn.
Qed.

Lemma declare_outcome_eq s id t df v s' d : inv s -> declare_outcome s id t df v = Ok (s', d) -> exists n,
  d = OutcomeDeclaration n (lit "single") t (set_default df) None None /\
  s' = mkState (variables s ++ [(n, Outcome d v)]) (responses s) (dset id n (outcomes s)) (declareFeedback s) (declared s ++ [(n, d)]) (rules s) /\
  dget n (variables s) = None /\ (dget id (variables s) = None -> n = id) /\ renamed id n.
Proof.
  intros I H. unfold declare_outcome in H.
  destruct (new_name s id) as [m|] eqn:E2; cbn [bind] in H; [|discriminate]. destruct (new_name_fresh _ _ _ E2) as (Hf & Hk & Ho).
  unfold DeclareVariable in H. cbn [decl_identifier] in H. pose proof (fresh_undeclared s m I Hf) as Hd.
  rewrite (proj2 (has_key_false _ _) Hd) in H. cbn [bind] in H. injection H as <- <-. exists m.
  rewrite !(dset_fresh m) by assumption. auto.
Qed.
Lemma with_outcome_inv s id n d v : inv s -> decl_identifier d = n -> is_response d = false ->
  dget n (variables s) = None -> dget id (outcomes s) = None -> renamed id n -> inv (with_outcome s id n d v).
Proof.
  intros I Hd Hr Hn Hid Horig. pose proof (fresh_undeclared s n I Hn) as Hnd. apply dget_none in Hid. apply dget_none in Hn as Hn'. apply dget_none in Hnd as Hnd'.
  assert (Hnn : ~ In n (names s)) by (rewrite <- (i_keys s I); exact Hn').
  constructor; unfold with_outcome, names; cbn [variables responses outcomes declareFeedback declared rules]; rewrite ?map_app; cbn [map fst snd].
  - intros i m H. rewrite in_app_iff in H. destruct (list_eq_dec Z.eq_dec i id) as [->|Hi]; [destruct (list_eq_dec Z.eq_dec m n) as [->|Hm]; [exact Horig|]|];
      (apply (i_origin s I); cbn [In] in H; intuition congruence).
  - apply NoDup_snoc; [apply I|exact Hn'].
  - apply I.
  - apply NoDup_snoc; [apply I|exact Hid].
  - pose proof (i_names s I) as HN. unfold names in *. rewrite app_assoc.
    apply (NoDup_snoc (FEEDBACK :: map snd (responses s) ++ map snd (outcomes s)) n); assumption.
  - intros k. rewrite in_app_iff, (i_keys s I). unfold names. cbn. rewrite !in_app_iff. cbn. tauto.
  - apply dget_snoc, I.
  - intros id' n' H. destruct (i_response s I _ _ H) as (d' & H1 & H2 & H3). exists d'. split; [apply dget_snoc, H1|]. split; [exact H2|].
    intros K. apply in_app_iff. auto.
  - intros id' n' H. apply in_app_iff in H as [H|[[= <- <-]|[]]].
    + destruct (i_outcome s I _ _ H) as (d' & v' & H1 & H2 & H3 & H4). exists d', v'.
      split; [apply dget_snoc, H1|]. split; [exact H2|]. split; [exact H3|]. apply in_app_iff. auto.
    + exists d, v. split; [apply dget_last, Hn|]. split; [exact Hd|]. split; [exact Hr|]. apply in_app_iff. right. now left.
  - apply NoDup_snoc; [apply I|exact Hnd'].
  - intros n' d' H. apply in_app_iff in H as [H|[[= <- <-]|[]]].
    + destruct (i_declared s I _ _ H) as (H1 & [H2|[H2|(H2 & w & H3)]]); (split; [exact H1|]); [auto| |].
      * right. left. apply dget_snoc, H2.
      * right. right. split; [exact H2|]. exists w. apply dget_snoc, H3.
    + split; [exact Hd|]. right. right. split; [exact Hr|]. exists v. apply dget_last, Hn.
Qed.

(** ** FEEDBACK *)
Lemma DeclareFeedback_eq s : inv s -> exists s', DeclareFeedback s = Ok s' /\ inv s' /\ declareFeedback s' = true /\
  variables s' = variables s /\ responses s' = responses s /\ outcomes s' = outcomes s /\ rules s' = rules s /\
  (forall x, In x (declared s) -> In x (declared s')) /\
  (declareFeedback s = false -> In (FEEDBACK, feedback_declaration) (declared s')) /\
  (declareFeedback s = true -> s' = s).
Proof.
  intros I. unfold DeclareFeedback. destruct (declareFeedback s) eqn:Ef.
  { exists s. split; [reflexivity|]. split; [exact I|]. split; [exact Ef|]. do 4 (split; [reflexivity|]). split; [auto|]. split; [discriminate|reflexivity]. }
  assert (Hd : dget FEEDBACK (declared s) = None).
  { apply dget_none. intros H. apply in_map_iff in H as ([k d] & Hk & H). cbn [fst] in Hk. subst k.
    pose proof (i_feedback s I) as HF. destruct (i_declared s I _ _ H) as (_ & [(_ & K & _)|[K|(_ & v & K)]]); [congruence|rewrite HF in K; discriminate|rewrite HF in K; discriminate]. }
  unfold DeclareVariable. change (decl_identifier feedback_declaration) with FEEDBACK. rewrite (proj2 (has_key_false _ _) Hd). cbn [bind].
  eexists. split; [reflexivity|]. rewrite dset_fresh by exact Hd. apply dget_none in Hd.
  split; [|do 5 (split; [reflexivity|]); cbn; split; [intros x Hx; apply in_app_iff; auto|]; split; [intros _; apply in_app_iff; right; now left|discriminate]].
  constructor; unfold names; cbn [variables responses outcomes declareFeedback declared rules]; try apply I.
  - intros id' n' H. destruct (i_response s I _ _ H) as (d' & H1 & H2 & H3). exists d'. split; [exact H1|]. split; [exact H2|].
    intros K. apply in_app_iff. auto.
  - intros id' n' H. destruct (i_outcome s I _ _ H) as (d' & v' & H1 & H2 & H3 & H4). exists d', v'. rewrite in_app_iff. auto.
  - rewrite map_app. apply NoDup_snoc; [apply I|exact Hd].
  - intros n' d' H. apply in_app_iff in H as [H|[[= <- <-]|[]]].
    + destruct (i_declared s I _ _ H) as (H1 & [(H2 & H3 & H4)|H2]); (split; [exact H1|]); [|auto]. left. auto.
    + split; [reflexivity|]. left. auto.
Qed.

(** ** Starting again *)
Lemma Reset_ok s : inv s -> let s' := ResetResprocessing s in
  inv s' /\ responses s' = responses s /\ outcomes s' = [] /\ rules s' = None /\ declareFeedback s' = declareFeedback s /\
  (forall id n, In (id, n) (responses s) -> dget n (variables s') = dget n (variables s)) /\
  (forall n d, In (n, d) (declared s') <-> In (n, d) (declared s) /\ is_response d = true).
Proof.
  intros I. unfold ResetResprocessing. cbn zeta. destruct (dget_ddels (outcomes s) (variables s) (i_vars s I)) as (G1 & G2 & G3).
  set (vs := fold_left _ (outcomes s) (variables s)) in *.
  assert (Hdis : forall id n, In (id, n) (responses s) -> ~ In n (map snd (outcomes s))).
  { intros id n H K. apply in_map_iff in K as ([id' n'] & <- & K). cbn in *.
    destruct (i_response s I _ _ H) as (d & H1 & _). destruct (i_outcome s I _ _ K) as (d' & v & H2 & _). congruence. }
  assert (Hfb : ~ In FEEDBACK (map snd (outcomes s))).
  { pose proof (i_names s I) as HN. unfold names in HN. inversion HN as [|? ? Hn _]; subst. intros K. apply Hn, in_app_iff. auto. }
  assert (Hdecl : forall n d, In (n, d) (filter (fun d => is_response (snd d)) (declared s)) <-> In (n, d) (declared s) /\ is_response d = true).
  { intros n d. rewrite filter_In. cbn. tauto. }
  split; [|do 4 (split; [reflexivity|]); split; [intros id n H; apply G3; exact (Hdis _ _ H)|exact Hdecl]].
  constructor; unfold names; cbn [variables responses outcomes declareFeedback declared rules map].
  - intros id n [H|[]]. apply (i_origin s I). auto.
  - exact G1.
  - apply I.
  - constructor.
  - pose proof (i_names s I) as HN. unfold names in HN. rewrite app_nil_r. inversion HN as [|? ? Hn HN']; subst. constructor.
    + intros K. apply Hn, in_app_iff. auto.
    + exact (NoDup_prefix _ _ HN').
  - intros k. rewrite G2, (i_keys s I). unfold names. cbn. rewrite !in_app_iff. cbn. split.
    + tauto.
    + intros [<-|[H|[]]]; [auto|]. split; [auto|]. apply in_map_iff in H as ([id n] & <- & H). exact (Hdis _ _ H).
  - rewrite G3 by exact Hfb. apply I.
  - intros id n H. destruct (i_response s I _ _ H) as (d & H1 & H2 & H3). exists d. rewrite G3 by exact (Hdis _ _ H).
    split; [exact H1|]. split; [exact H2|]. intros K. apply Hdecl. auto.
  - intros ? ? [].
  - assert (K : forall l : list (str * declaration), NoDup (map fst l) -> NoDup (map fst (filter (fun d => is_response (snd d)) l))).
    { clear. intros l. induction l as [|[n d] l IH]; intros HN; [constructor|]. inversion HN as [|? ? Hn HN']; subst. cbn. destruct (is_response d); [|auto].
      cbn. constructor; [|auto]. intros K. apply Hn. apply in_map_iff in K as (x & <- & K). apply filter_In in K as [K _]. apply in_map, K. }
    apply K, I.
  - intros n d H. apply Hdecl in H as [H Hr]. destruct (i_declared s I _ _ H) as (H1 & [(-> & _ & ->)|[H2|(H2 & _)]]);
      [discriminate Hr| |congruence]. split; [exact H1|]. right. left. rewrite G3; [exact H2|].
    intros K. apply in_map_iff in K as ([id n'] & <- & K). cbn in *. destruct (i_outcome s I _ _ K) as (d' & v & H3 & _). congruence.
Qed.
