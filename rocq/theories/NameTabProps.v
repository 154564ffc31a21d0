(** The theorems about named scopes (C237-C239). *)
From Coq Require Import List Arith Bool ZArith Lia.
From Verif Require Import Py NameTab NameTabSpec NameTabProofs.
Import ListNotations.
Open Scope nat_scope.

(** ** An example: the scopes "My.Schema" with "Type" and "Other" with "My.Box", which holds "Set" *)
Definition demo_box : value := Scope 4 [(lit "Set", Leaf 5)].
Definition demo : table := [(lit "My.Schema", Scope 1 [(lit "Type", Leaf 2)]); (lit "Other", Scope 3 [(lit "My.Box", demo_box)])].
Example demo_built : built (Scope 0 demo).
Proof.
  assert (D : forall t tab n v tab', built (Scope t tab) -> built v -> Declare n v tab = inl tab' -> built (Scope t tab')) by exact built_declare.
  assert (B1 : built (Scope 1 [(lit "Type", Leaf 2)])) by (apply (D 1 [] (lit "Type") (Leaf 2)); [apply built_empty | apply built_leaf | reflexivity]).
  assert (B4 : built demo_box) by (apply (D 4 [] (lit "Set") (Leaf 5)); [apply built_empty | apply built_leaf | reflexivity]).
  assert (B3 : built (Scope 3 [(lit "My.Box", demo_box)])) by (apply (D 3 [] (lit "My.Box") demo_box); [apply built_empty | exact B4 | reflexivity]).
  apply (built_inside 0 [(lit "My.Schema", Scope 1 [(lit "Type", Leaf 2)])] (lit "Other") 3 []); [|exact B3].
  apply (D 0 [(lit "My.Schema", Scope 1 [(lit "Type", Leaf 2)])] (lit "Other") (Scope 3 [])); [|apply built_empty | reflexivity].
  apply (D 0 [] (lit "My.Schema") (Scope 1 [(lit "Type", Leaf 2)])); [apply built_empty | exact B1 | reflexivity].
Qed.

(** ** C237: declaring and undeclaring *)
Theorem C237_declare t tab n v : built (Scope t tab) ->
  match Declare n v tab with
  | inl tab' =>
      ~ In n (map fst tab) /\ (forall m, In m (map fst tab) -> ~ extends m n /\ ~ extends n m) /\
      forall k u, at_key tab' k u <->
        at_key tab k u \/ (k = n /\ u = v) \/ exists s sub j, v = Scope s sub /\ k = n ++ dot :: j /\ at_key sub j u
  | inr e =>
      (e = DuplicateName /\ In n (map fst tab)) \/
      (e = IncompatibleNames /\ ~ In n (map fst tab) /\ exists m, In m (map fst tab) /\ (extends m n \/ extends n m))
  end.
Proof.
  intro B. destruct (declare_cases n v tab) as [(I & ->)|[(NI & X & ->)|(NI & C & ->)]]; [left; auto | right; auto|].
  split; [exact NI|]. split; [exact C|]. intros k u. split.
  - intro A. inversion A as [tab' m w I|tab' m s sub j w I A']; subst; apply in_app_iff in I; cbn [In] in I.
    + destruct I as [I|[I|[]]]; [left; apply at_name; exact I | injection I as <- <-; auto].
    + destruct I as [I|[I|[]]]; [left; eapply at_nested; eassumption|]. injection I as -> ->. right; right. exists s, sub, j. auto.
  - intros [A|[(-> & ->)|(s & sub & j & -> & -> & A)]].
    + inversion A as [tab' m w I|tab' m s sub j w I A']; subst; [apply at_name; apply in_app_iff; left; exact I|].
      eapply at_nested; [apply in_app_iff; left; exact I | exact A'].
    + apply at_name. apply in_app_iff. right; left; reflexivity.
    + eapply at_nested; [apply in_app_iff; right; left; reflexivity | exact A].
Qed.
Theorem C237_undeclare t tab n : built (Scope t tab) ->
  match Undeclare n tab with
  | inl tab' => In n (map fst tab) /\ forall k u, at_key tab' k u <-> at_key tab k u /\ k <> n /\ ~ extends k n
  | inr e => e = KeyError /\ ~ In n (map fst tab)
  end.
Proof.
  intro B. apply built_wf in B. inversion B as [|? ? [ND PF] WC]; subst. unfold Undeclare.
  destruct (existsb (fun p => str_eqb (fst p) n) tab) eqn:E.
  - apply existsb_name in E. split; [exact E|]. intros k u.
    assert (IFF : forall m w, In (m, w) (filter (fun p : str * value => negb (str_eqb (fst p) n)) tab) <-> In (m, w) tab /\ m <> n).
    { intros m w. rewrite filter_In. cbn [fst]. rewrite negb_true_iff. split; intros [I N]; (split; [exact I|]); apply Py.str_eqb_neq; exact N. }
    split.
    + intro A. inversion A as [tab' m w I|tab' m s sub j w I A']; subst; apply IFF in I; destruct I as [I N].
      * split; [apply at_name; exact I|]. split; [exact N|]. apply PF; [eapply names_in; exact I | exact E].
      * split; [eapply at_nested; eassumption|]. split; [intros <-; apply (PF _ _ E (names_in _ _ _ I)); exists j; reflexivity|].
        intros (j' & X). apply N. apply (begin_same tab m n j j' (conj ND PF) (names_in _ _ _ I) E X).
    + intros (A & N & NE). inversion A as [tab' m w I|tab' m s sub j w I A']; subst.
      * apply at_name. apply IFF. auto.
      * eapply at_nested; [apply IFF; split; [exact I|] | exact A']. intros ->. apply NE. exists j. reflexivity.
  - split; [reflexivity|]. intro I. apply existsb_name in I. congruence.
Qed.
Example C237_nonvacuous : built (Scope 0 demo) /\ Declare (lit "My") (Leaf 9) demo = inr IncompatibleNames /\
  Declare (lit "Other.x") (Leaf 9) demo = inr IncompatibleNames /\ Declare (lit "Other") (Leaf 9) demo = inr DuplicateName /\
  Declare (lit "My.Sch") (Leaf 9) demo = inl (demo ++ [(lit "My.Sch", Leaf 9)]) /\ Undeclare (lit "My.Schema") demo = inl (tl demo).
Proof. split; [apply demo_built|]. repeat split; vm_compute; reflexivity. Qed.

(** ** C238: looking up *)
Theorem C238_lookup t tab key : built (Scope t tab) ->
  (forall v, GetItem key tab = Some (inl v) <-> at_key tab key v) /\
  (GetItem key tab = Some (inr KeyError) <-> forall v, ~ at_key tab key v) /\
  (GetItem key tab <> None) /\ (contains key tab = true <-> exists v, at_key tab key v).
Proof.
  intro B. apply built_wf in B. unfold contains, GetItem.
  destruct (getitem_spec (S (length key)) t tab key B (Nat.lt_succ_diag_r _)) as [(v & E & A)|(E & A)]; rewrite E.
  - assert (AV : at_key tab key v) by (apply A; reflexivity). split; [|split; [|split]].
    + intro u. rewrite A. split; [intros [= ->]; reflexivity | intros ->; reflexivity].
    + split; [discriminate | intro N; destruct (N v AV)].
    + discriminate.
    + split; [eauto | reflexivity].
  - split; [|split; [|split]].
    + intro u. split; [discriminate | intro H; destruct (A u H)].
    + split; [intros _; exact A | reflexivity].
    + discriminate.
    + split; [discriminate | intros (u & H); destruct (A u H)].
Qed.
Theorem C238_one t tab key v u : built (Scope t tab) -> at_key tab key v -> at_key tab key u -> v = u.
Proof. intros B A1 A2. destruct (C238_lookup t tab key B) as (L & _). apply L in A1, A2. congruence. Qed.
Example C238_nonvacuous : built (Scope 0 demo) /\ GetItem (lit "Other.My.Box.Set") demo = Some (inl (Leaf 5)) /\
  GetItem (lit "My.Schema.Type") demo = Some (inl (Leaf 2)) /\ GetItem (lit "My.Type") demo = Some (inr KeyError).
Proof. split; [apply demo_built|]. repeat split; vm_compute; reflexivity. Qed.

(** ** C239: the keys *)
(** Missing: len, which never returns a number. *)
Theorem C239_partial t tab : built (Scope t tab) ->
  NoDup (keys tab) /\ (forall k, In k (keys tab) <-> exists v, at_key tab k v) /\
  map fst (items tab) = keys tab /\ forall k x, In (k, x) (items tab) -> exists v, x = Some (inl v) /\ at_key tab k v.
Proof.
  intro B. split; [apply (keys_nodup (Scope 0 tab)); apply built_wf in B; inversion B; subst; constructor; assumption|].
  assert (K : forall k, In k (keys tab) <-> exists v, at_key tab k v) by exact (keys_at (Scope 0 tab) 0 tab eq_refl).
  split; [exact K|]. split.
  - unfold items. rewrite map_map. cbn [fst]. apply map_id.
  - intros k x I. unfold items in I. apply in_map_iff in I. destruct I as (k' & E & I). injection E as -> <-.
    apply K in I. destruct I as (v & A). exists v. split; [|exact A]. apply (C238_lookup t tab k B). exact A.
Qed.
Theorem C239_len_refuted tab : exists e, len tab = inr e.
Proof. destruct tab; eexists; reflexivity. Qed.
Example C239_nonvacuous : built (Scope 0 demo) /\
  keys demo = [lit "My.Schema"; lit "Other"; lit "My.Schema.Type"; lit "Other.My.Box"; lit "Other.My.Box.Set"].
Proof. split; [apply demo_built | vm_compute; reflexivity]. Qed.

Print Assumptions C237_declare.
Print Assumptions C237_undeclare.
Print Assumptions C238_lookup.
Print Assumptions C238_one.
Print Assumptions C239_partial.
Print Assumptions C239_len_refuted.
