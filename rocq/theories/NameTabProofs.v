(** Proofs about nested scopes. *)
From Coq Require Import List Arith Bool ZArith Lia FinFun.
From Verif Require Import Py NameTab NameTabSpec.
Import ListNotations.
Open Scope nat_scope.

Lemma value_ind2 (P : value -> Prop) : (forall t, P (Leaf t)) -> (forall t tab, Forall (fun p => P (snd p)) tab -> P (Scope t tab)) -> forall v, P v.
Proof.
  intros HL HS. fix IH 1. intros [t|t tab]; [apply HL|]. apply HS. induction tab as [|[n v] tab IHt]; constructor; [apply IH | exact IHt].
Qed.

Lemma NoDup_app_intro {A} (a b : list A) : NoDup a -> NoDup b -> (forall x, In x a -> ~ In x b) -> NoDup (a ++ b).
Proof.
  intros NA NB D. induction NA as [|x a NI NA IH]; [exact NB|]. cbn. constructor.
  - rewrite in_app_iff. intros [I|I]; [exact (NI I) | exact (D x (or_introl eq_refl) I)].
  - apply IH. intros y I. apply D. right. exact I.
Qed.

(** ** split and join *)
Lemma split_cons k : exists w ws, split k = w :: ws.
Proof. induction k as [|c k (w & ws & IH)]; cbn; [eauto|]. rewrite IH. destruct (c =? dot)%Z; eauto. Qed.
Lemma join_split : forall k, join (split k) = k.
Proof.
  induction k as [|c k IH]; [reflexivity|]. cbn [split]. destruct (split_cons k) as (w & ws & E). rewrite E in *.
  destruct (Z.eqb_spec c dot) as [->|NE]; [cbn [join app]; cbn [join] in IH; rewrite IH; reflexivity|].
  destruct ws as [|w' ws]; cbn [join] in *; [rewrite IH; reflexivity | cbn [app]; rewrite IH; reflexivity].
Qed.
Lemma split_dot : forall a b, split (a ++ dot :: b) = split a ++ split b.
Proof.
  induction a as [|c a IH]; intro b.
  - cbn [app split]. destruct (split_cons b) as (w & ws & E). rewrite E. cbn. reflexivity.
  - cbn [app split]. rewrite IH. destruct (split_cons a) as (w & ws & E). rewrite E. cbn [app]. destruct (c =? dot)%Z; reflexivity.
Qed.
Lemma join_app : forall a b, a <> [] -> b <> [] -> join (a ++ b) = join a ++ dot :: join b.
Proof.
  induction a as [|w a IH]; intros b NA NB; [congruence|]. destruct a as [|w' a].
  - cbn [app]. destruct b as [|x b]; [congruence|]. reflexivity.
  - change ((w :: w' :: a) ++ b) with (w :: ((w' :: a) ++ b)). cbn [app] in *. change (join (w :: w' :: a)) with (w ++ dot :: join (w' :: a)).
    rewrite <- app_assoc. cbn [app]. rewrite <- IH by (congruence || exact NB). reflexivity.
Qed.
Lemma split_at k i : 1 <= i -> i < length (split k) -> k = join (firstn i (split k)) ++ dot :: join (skipn i (split k)).
Proof.
  intros L1 L2. rewrite <- (join_split k) at 1. rewrite <- (firstn_skipn i (split k)) at 1. apply join_app.
  - intro E. apply (f_equal (@length str)) in E. rewrite firstn_length in E. cbn in E. lia.
  - intro E. apply (f_equal (@length str)) in E. rewrite skipn_length in E. cbn in E. lia.
Qed.

(** ** Tables as Declare leaves them *)
Definition names (tab : table) : list str := map fst tab.
Definition free (tab : table) : Prop := NoDup (names tab) /\ forall a b, In a (names tab) -> In b (names tab) -> ~ extends a b.
Inductive wf : value -> Prop :=
| wf_leaf t : wf (Leaf t)
| wf_scope t tab : free tab -> (forall n v, In (n, v) tab -> wf v) -> wf (Scope t tab).

Lemma existsb_name n (tab : table) : existsb (fun p => str_eqb (fst p) n) tab = true <-> In n (names tab).
Proof.
  rewrite existsb_exists. unfold names. rewrite in_map_iff. split; intros (p & A & B).
  - exists p. split; [apply Py.str_eqb_eq; exact B | exact A].
  - exists p. split; [exact B | apply Py.str_eqb_eq; exact A].
Qed.
Lemma starts_dot a b : starts (a ++ [dot]) b = true <-> extends b a.
Proof.
  unfold starts, extends. rewrite Py.str_eqb_eq. split.
  - intro E. exists (skipn (length (a ++ [dot])) b). rewrite <- (firstn_skipn (length (a ++ [dot])) b) at 1. rewrite E, <- app_assoc. reflexivity.
  - intros (k & ->). replace (a ++ dot :: k) with ((a ++ [dot]) ++ k) by (rewrite <- app_assoc; reflexivity).
    rewrite firstn_app, Nat.sub_diag, firstn_O, app_nil_r, firstn_all. reflexivity.
Qed.
Lemma existsb_compat n (tab : table) :
  existsb (fun p => starts (n ++ [dot]) (fst p) || starts (fst p ++ [dot]) n) tab = true <-> exists m, In m (names tab) /\ (extends m n \/ extends n m).
Proof.
  rewrite existsb_exists. unfold names. split.
  - intros (p & I & E). exists (fst p). split; [apply in_map; exact I|]. apply orb_true_iff in E. rewrite !starts_dot in E. exact E.
  - intros (m & I & E). apply in_map_iff in I. destruct I as (p & <- & I). exists p. split; [exact I|]. apply orb_true_iff. rewrite !starts_dot. exact E.
Qed.
Lemma not_extends_self a : ~ extends a a.
Proof. intros (k & E). apply (f_equal (@length Z)) in E. rewrite app_length in E. cbn in E. lia. Qed.
Lemma declare_cases n v tab : 
  (In n (names tab) /\ Declare n v tab = inr DuplicateName) \/
  (~ In n (names tab) /\ (exists m, In m (names tab) /\ (extends m n \/ extends n m)) /\ Declare n v tab = inr IncompatibleNames) \/
  (~ In n (names tab) /\ (forall m, In m (names tab) -> ~ extends m n /\ ~ extends n m) /\ Declare n v tab = inl (tab ++ [(n, v)])).
Proof.
  unfold Declare. destruct (existsb (fun p => str_eqb (fst p) n) tab) eqn:E1.
  - left. split; [apply existsb_name; exact E1 | reflexivity].
  - right. assert (NI : ~ In n (names tab)) by (intro H; apply existsb_name in H; congruence).
    destruct (existsb (fun p => starts (n ++ [dot]) (fst p) || starts (fst p ++ [dot]) n) tab) eqn:E2.
    + left. split; [exact NI|]. split; [apply existsb_compat; exact E2 | reflexivity].
    + right. split; [exact NI|]. split; [|reflexivity]. intros m I.
      assert (N : ~ exists m, In m (names tab) /\ (extends m n \/ extends n m)) by (intro H; apply existsb_compat in H; congruence).
      split; intro X; apply N; exists m; auto.
Qed.
Lemma free_declare tab n v tab' : free tab -> Declare n v tab = inl tab' -> free tab'.
Proof.
  intros [ND PF] D. destruct (declare_cases n v tab) as [(_ & E)|[(_ & _ & E)|(NI & C & E)]]; rewrite E in D; try discriminate D. injection D as <-.
  unfold free, names. rewrite map_app. cbn [map fst]. split.
  - apply NoDup_app_intro; [exact ND | constructor; [intros [] | constructor] | intros x I [<-|[]]; exact (NI I)].
  - intros a b IA IB. apply in_app_iff in IA, IB. cbn [In] in IA, IB.
    destruct IA as [IA|[<-|[]]], IB as [IB|[<-|[]]]; [apply PF; assumption | apply C; exact IA | apply C; exact IB | apply not_extends_self].
Qed.
Lemma free_undeclare tab n tab' : free tab -> Undeclare n tab = inl tab' -> free tab' /\ forall p, In p tab' -> In p tab.
Proof.
  intros [ND PF] D. unfold Undeclare in D. destruct (existsb _ tab); [|discriminate D]. injection D as <-.
  assert (SUB : forall p, In p (filter (fun p : str * value => negb (str_eqb (fst p) n)) tab) -> In p tab) by (intros p I; apply filter_In in I; exact (proj1 I)).
  split; [|exact SUB]. split.
  - unfold names in *. clear - ND. induction tab as [|p tab IH]; [constructor|]. cbn [map] in ND. inversion ND as [|? ? NI ND']; subst. cbn [filter].
    destruct (negb _); [|exact (IH ND')]. cbn [map]. constructor; [|exact (IH ND')]. intro I. apply NI. apply in_map_iff in I. destruct I as (q & E & I).
    apply filter_In in I. rewrite <- E. apply in_map. exact (proj1 I).
  - intros a b IA IB. apply PF; unfold names in *; [apply in_map_iff in IA; destruct IA as (p & <- & I) | apply in_map_iff in IB; destruct IB as (p & <- & I)]; apply in_map, SUB; exact I.
Qed.
Lemma built_wf v : built v -> wf v.
Proof.
  induction 1 as [t|t|t tab n v tab' B IH BV IHV D|t tab n tab' B IH D|t a n s sub sub' b B IH BS IHS].
  - constructor.
  - constructor; [split; [constructor | intros ? ? []] | intros ? ? []].
  - inversion IH as [|? ? F W]; subst. constructor; [eapply free_declare; eassumption|].
    destruct (declare_cases n v tab) as [(_ & E)|[(_ & _ & E)|(NI & C & E)]]; rewrite E in D; try discriminate D. injection D as <-.
    intros m u I. apply in_app_iff in I. destruct I as [I|[I|[]]]; [eapply W; exact I | injection I as <- <-; exact IHV].
  - inversion IH as [|? ? F W]; subst. destruct (free_undeclare _ _ _ F D) as [F' S]. constructor; [exact F'|]. intros m u I. eapply W, S, I.
  - inversion IH as [|? ? F W]; subst. constructor.
    + unfold free, names in *. rewrite map_app in *. exact F.
    + intros m u I. apply in_app_iff in I. cbn [In] in I. destruct I as [I|[I|I]].
      * eapply W. apply in_app_iff. left. exact I.
      * injection I as <- <-. exact IHS.
      * eapply W. apply in_app_iff. right; right. exact I.
Qed.

(** ** Looking up *)
Lemma get_some key tab v : get key tab = Some v -> In (key, v) tab.
Proof.
  unfold get. destruct (find _ tab) as [[n u]|] eqn:F; [|discriminate]. intros [= <-]. apply find_some in F. destruct F as [I E].
  apply Py.str_eqb_eq in E. cbn in E. subst. exact I.
Qed.
Lemma get_none key tab : get key tab = None -> ~ In key (names tab).
Proof.
  unfold get. destruct (find _ tab) as [[n u]|] eqn:F; [discriminate|]. intros _ I. unfold names in I. apply in_map_iff in I. destruct I as (p & <- & I).
  pose proof (find_none _ _ F p I) as E. cbn in E. rewrite (proj2 (Py.str_eqb_eq _ _) eq_refl) in E. discriminate E.
Qed.
Lemma names_in (tab : table) n v : In (n, v) tab -> In n (names tab).
Proof. intro I. unfold names. apply in_map_iff. exists (n, v). auto. Qed.
Lemma nodup_same (tab : table) n v u : NoDup (names tab) -> In (n, v) tab -> In (n, u) tab -> v = u.
Proof.
  unfold names. induction tab as [|[m w] tab IH]; intros ND I J; [destruct I|]. cbn [map fst] in ND. inversion ND as [|? ? NI ND']; subst.
  destruct I as [I|I], J as [J|J].
  - congruence.
  - injection I as -> ->. destruct NI. apply (names_in tab n u J).
  - injection J as -> ->. destruct NI. apply (names_in tab n v I).
  - exact (IH ND' I J).
Qed.
Lemma get_in key (tab : table) v : NoDup (names tab) -> In (key, v) tab -> get key tab = Some v.
Proof.
  intros ND I. destruct (get key tab) as [u|] eqn:G; [apply get_some in G; f_equal; eapply nodup_same; eassumption|].
  destruct (get_none _ _ G (names_in _ _ _ I)).
Qed.
Lemma splitkey_some key tab sub rest : SplitKey key tab = Some (sub, rest) -> exists n t, In (n, Scope t sub) tab /\ key = n ++ dot :: rest.
Proof.
  unfold SplitKey. assert (G : forall n i, 1 <= i -> SplitKey_from n i (split key) tab = Some (sub, rest) -> exists m t, In (m, Scope t sub) tab /\ key = m ++ dot :: rest).
  { induction n as [|n IH]; intros i L H; [discriminate H|]. cbn [SplitKey_from] in H. destruct (Nat.ltb_spec i (length (split key))) as [LT|]; [|discriminate H].
    destruct (get _ tab) as [[t|t s]|] eqn:E; [exact (IH (S i) ltac:(lia) H)| |exact (IH (S i) ltac:(lia) H)].
    injection H as <- <-. apply get_some in E. exists (join (firstn i (split key))), t. split; [exact E | apply split_at; assumption]. }
  apply G. lia.
Qed.
Lemma splitkey_none key tab n t sub rest : NoDup (names tab) -> In (n, Scope t sub) tab -> key = n ++ dot :: rest -> SplitKey key tab <> None.
Proof.
  intros ND I ->. unfold SplitKey. set (K := n ++ dot :: rest).
  assert (LN : 1 <= length (split n)) by (destruct (split_cons n) as (w & ws & ->); cbn; lia).
  assert (LR : 1 <= length (split rest)) by (destruct (split_cons rest) as (w & ws & ->); cbn; lia).
  assert (LK : length (split K) = length (split n) + length (split rest)) by (unfold K; rewrite split_dot, app_length; reflexivity).
  assert (G : forall m i, 1 <= i -> i <= length (split n) -> length (split K) <= m + i -> SplitKey_from m i (split K) tab <> None).
  { induction m as [|m IH]; intros i L1 L2 L3; [lia|]. cbn [SplitKey_from]. destruct (Nat.ltb_spec i (length (split K))); [|lia].
    destruct (get (join (firstn i (split K))) tab) as [[u|u s]|] eqn:E; [| discriminate |].
    - destruct (Nat.eq_dec i (length (split n))) as [->|NE]; [|apply IH; lia]. exfalso. unfold K in E. rewrite split_dot, firstn_app, Nat.sub_diag, firstn_O, app_nil_r, firstn_all, join_split in E.
      rewrite (get_in _ _ _ ND I) in E. discriminate E.
    - destruct (Nat.eq_dec i (length (split n))) as [->|NE]; [|apply IH; lia]. exfalso. unfold K in E. rewrite split_dot, firstn_app, Nat.sub_diag, firstn_O, app_nil_r, firstn_all, join_split in E.
      rewrite (get_in _ _ _ ND I) in E. discriminate E. }
  apply G; lia.
Qed.
(** two names that both begin a key are the same *)
Lemma begin_same (tab : table) n m j k : free tab -> In n (names tab) -> In m (names tab) -> n ++ dot :: j = m ++ dot :: k -> n = m /\ j = k.
Proof.
  intros [_ PF] IN IM E.
  assert (L : n = m \/ extends n m \/ extends m n).
  { clear - E. revert m E. induction n as [|c n IH]; intros [|d m] E; [left; reflexivity| | |].
    - right; right. cbn in E. injection E as <- _. exists m. reflexivity.
    - right; left. cbn in E. injection E as -> _. exists n. reflexivity.
    - cbn in E. injection E as <- E. destruct (IH m E) as [->|[(x & ->)|(x & ->)]]; [left; reflexivity | right; left; exists x; reflexivity | right; right; exists x; reflexivity]. }
  destruct L as [->|[L|L]]; [|destruct (PF _ _ IN IM L) | destruct (PF _ _ IM IN L)].
  split; [reflexivity|]. apply app_inv_head in E. injection E as ->. reflexivity.
Qed.
Lemma at_key_extends tab key v : at_key tab key v -> exists n, In n (names tab) /\ (key = n \/ extends key n).
Proof. intros [tab' n u I|tab' n t sub k u I _]; exists n; (split; [eapply names_in; exact I|]); [left; reflexivity | right; exists k; reflexivity]. Qed.
Lemma getitem_spec : forall fuel t tab key, wf (Scope t tab) -> length key < fuel ->
  (exists v, getitem fuel key tab = Some (inl v) /\ forall u, at_key tab key u <-> u = v) \/
  (getitem fuel key tab = Some (inr KeyError) /\ forall u, ~ at_key tab key u).
Proof.
  induction fuel as [|fuel IH]; intros t tab key W L; [lia|]. inversion W as [|? ? F WC]; subst. cbn [getitem].
  destruct (get key tab) as [v|] eqn:G.
  - left. exists v. split; [reflexivity|]. apply get_some in G. intro u. split; [|intros ->; apply at_name; exact G].
    intro A. inversion A as [tab' n w I|tab' n s sub k w I A']; subst.
    + eapply nodup_same; [exact (proj1 F) | exact I | exact G].
    + destruct (proj2 F _ _ (names_in _ _ _ G) (names_in _ _ _ I)). exists k. reflexivity.
  - destruct (SplitKey key tab) as [[sub rest]|] eqn:S.
    + destruct (splitkey_some _ _ _ _ S) as (n & s & I & ->).
      assert (EQ : forall u, at_key tab (n ++ dot :: rest) u <-> at_key sub rest u).
      { intro u. split; [|intro A; eapply at_nested; eassumption]. intro A. inversion A as [tab' m w J|tab' m r sub' k w J A' E1 E2]; subst.
        - destruct (get_none _ _ G (names_in _ _ _ J)).
        - destruct (begin_same tab m n k rest F (names_in _ _ _ J) (names_in _ _ _ I) E2) as [-> ->].
          pose proof (nodup_same _ _ _ _ (proj1 F) I J) as X. injection X as -> ->. exact A'. }
      rewrite app_length in L. cbn [length] in L. destruct (IH s sub rest (WC _ _ I) ltac:(lia)) as [(v & E & A)|(E & A)].
      * left. exists v. split; [exact E|]. intro u. rewrite EQ. apply A.
      * right. split; [exact E|]. intros u H. apply EQ in H. exact (A u H).
    + right. split; [reflexivity|]. intros u A. inversion A as [tab' m w J|tab' m r sub' k w J A' E1 E2]; subst.
      * destruct (get_none _ _ G (names_in _ _ _ J)).
      * exact (splitkey_none _ _ _ _ _ _ (proj1 F) J eq_refl S).
Qed.

(** ** The keys *)
Lemma keys_at : forall v t tab, v = Scope t tab -> forall k, In k (keys_of v) <-> exists u, at_key tab k u.
Proof.
  induction v as [t0|t0 tab0 IH] using value_ind2; intros t tab E k; [discriminate E|]. injection E as -> ->.
  cbn [keys_of]. rewrite in_app_iff, in_map_iff, in_flat_map. rewrite Forall_forall in IH. split.
  - intros [((n, v) & <- & I)|((n, v) & I & J)]; [exists v; apply at_name; exact I|]. apply in_map_iff in J. destruct J as (j & <- & J).
    destruct v as [s|s sub]; [destruct J|]. apply (IH _ I s sub eq_refl) in J. destruct J as (u & A). exists u. eapply at_nested; eassumption.
  - intros (u & A). inversion A as [tab' n w I|tab' n s sub j w I A']; subst.
    + left. exists (k, u). auto.
    + right. exists (n, Scope s sub). split; [exact I|]. apply in_map_iff. exists j. split; [reflexivity|]. apply (IH _ I s sub eq_refl). eauto.
Qed.
Lemma keys_nodup v : wf v -> NoDup (keys_of v).
Proof.
  induction v as [t|t tab IH] using value_ind2; intro W; [constructor|]. inversion W as [|? ? F WC]; subst. cbn [keys_of].
  apply NoDup_app_intro; [exact (proj1 F)| |].
  - assert (SUB : forall l, (forall p, In p l -> In p tab) -> NoDup (map fst l) ->
      NoDup (flat_map (fun p => match p with (n, v) => map (fun k => n ++ dot :: k) (keys_of v) end) l)).
    { induction l as [|[n v] l IHl]; intros S ND; [constructor|]. cbn [flat_map]. cbn [map fst] in ND. inversion ND as [|? ? NI ND']; subst.
      apply NoDup_app_intro.
      - apply FinFun.Injective_map_NoDup; [intros a b E; apply app_inv_head in E; injection E as ->; reflexivity|].
        rewrite Forall_forall in IH. apply (IH (n, v)); [apply S; left; reflexivity | eapply WC; apply S; left; reflexivity].
      - apply IHl; [intros p I; apply S; right; exact I | exact ND'].
      - intros x I J. apply in_map_iff in I. destruct I as (j & <- & I). apply in_flat_map in J. destruct J as ((m, u) & J & K). apply in_map_iff in K.
        destruct K as (k & E & K).
        destruct (begin_same tab m n k j F (names_in _ _ _ (S _ (or_intror J))) (names_in _ _ _ (S _ (or_introl eq_refl))) E) as [-> ->].
        apply NI. apply in_map_iff. exists (n, u). auto. }
    apply SUB; [auto | exact (proj1 F)].
  - intros x I J. apply in_flat_map in J. destruct J as ((m, u) & J & K). apply in_map_iff in K. destruct K as (k & <- & K).
    destruct (proj2 F _ _ I (names_in _ _ _ J)). exists k. reflexivity.
Qed.
