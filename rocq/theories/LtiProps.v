(** The properties of consumers of a Basic LTI tool *)
From Coq Require Import Lia Permutation.
From Verif Require Import Py Lti LtiSpec LtiProofs.
Open Scope Z_scope.
Open Scope list_scope.

(** ** C255: a nonce is refused just if it was accepted less than the window of time ago *)
Theorem C255_nonces : forall window t0 cs, steady t0 cs -> forall i n t, call cs i n t ->
  exists b, nth_error (calls window [] cs) i = Some b /\
    (b = true <-> exists j u, (j < i)%nat /\ call cs j n u /\ nth_error (calls window [] cs) j = Some false /\ t - window <= u).
Proof. intros window t0 cs. apply calls_good. Qed.
Definition day : list (str * Z) := [(lit "a", 0); (lit "b", 10); (lit "a", 5400); (lit "a", 5401); (lit "b", 5405); (lit "a", 9000)].
Example C255_case : steady 0 day /\ calls 5400 [] day = [false; false; true; false; true; true].
Proof. split; [cbn; lia|vm_compute; reflexivity]. Qed.

(** ** C256: keys: they are groups of four hexadecimal digits, as many as two bytes each make, and
    tell the bytes apart.  They have at least keyLength bits only for some lengths, and without
    os.urandom they may have a G. *)
Definition C256_keys : Prop :=
  (forall keyLength, (keyLength <= 16 * nFours keyLength)%nat) /\
  (forall keyLength chosen n, nFours keyLength = S n -> length chosen = (4 * S n)%nat -> Forall (fun i => (i < 17)%nat) chosen ->
     grouped (S n) (GenerateKey' keyLength chosen)).
Theorem C256_refuted : ~ C256_keys /\ nFours 30 = 1%nat /\ GenerateKey' 16 [16; 16; 16; 16]%nat = lit "GGGG".
Proof.
  split; [|split; reflexivity]. intros [H _]. specialize (H 30%nat). vm_compute in H. lia.
Qed.
Theorem C256_partial :
  (forall keyLength n bytes, nFours keyLength = S n -> Forall byte bytes -> length bytes = (2 * nFours keyLength)%nat ->
     grouped (nFours keyLength) (GenerateKey bytes)) /\
  (forall keyLength xs ys, Forall byte xs -> Forall byte ys ->
     length xs = (2 * nFours keyLength)%nat -> length ys = (2 * nFours keyLength)%nat -> GenerateKey xs = GenerateKey ys -> xs = ys) /\
  (forall keyLength, (keyLength <= 16 * nFours keyLength)%nat <-> (keyLength mod 16 = 0 \/ keyLength mod 16 = 15)%nat).
Proof.
  split; [|split].
  - intros k n bytes E F L. rewrite E in *. now apply key_grouped.
  - intros k xs ys. apply key_inj.
  - intros k. unfold nFours. pose proof (Nat.div_mod_eq k 16) as D. pose proof (Nat.mod_upper_bound k 16 ltac:(lia)) as M.
    pose proof (Nat.div_mod_eq (k + 1) 16) as D'. pose proof (Nat.mod_upper_bound (k + 1) 16 ltac:(lia)) as M'. lia.
Qed.
Example C256_case : GenerateKey [1; 171; 0; 255] = lit "01AB.00FF" /\ nFours 128 = 8%nat.
Proof. vm_compute. auto. Qed.

(** ** C257: a new consumer does not take the place of another: a key that is given is refused if
    there is one; a key that is made is not looked up *)
Definition C257_new : Prop := forall key generated secret cs k cs', NewConsumer key generated secret cs = Some (k, cs') ->
  get k cs = None.
Theorem C257_refuted : ~ C257_new.
Proof.
  intros H. specialize (H None (lit "A") (lit "new") [(lit "A", lit "old")] _ _ eq_refl). vm_compute in H. discriminate.
Qed.
Theorem C257_partial : forall key generated secret cs,
  (NewConsumer key generated secret cs = None <-> exists k v, key = Some k /\ get k cs = Some v) /\
  (forall k cs', NewConsumer key generated secret cs = Some (k, cs') ->
     k = match key with Some k => k | None => generated end /\
     get k cs' = Some secret /\ (forall j, j <> k -> get j cs' = get j cs) /\
     (key <> None \/ get generated cs = None -> get k cs = None)).
Proof.
  intros key g s cs. unfold NewConsumer. destruct key as [k|].
  - destruct (get k cs) as [v|] eqn:G.
    + split; [split; [eauto|reflexivity]|discriminate].
    + split; [split; [discriminate|intros (j & v & [= <-] & X); congruence]|]. intros j cs' [= <- <-]. split; [reflexivity|].
      rewrite get_set, (proj2 (str_eqb_eq k k) eq_refl). split; [reflexivity|]. split; [|auto].
      intros j N. rewrite get_set. destruct (str_eqb k j) eqn:E; [apply str_eqb_eq in E; congruence|reflexivity].
  - split; [split; [discriminate|intros (j & v & X & _); discriminate]|]. intros j cs' [= <- <-]. split; [reflexivity|].
    rewrite get_set, (proj2 (str_eqb_eq g g) eq_refl). split; [reflexivity|]. split; [|intros [X|X]; [contradiction|exact X]].
    intros j N. rewrite get_set. destruct (str_eqb g j) eqn:E; [apply str_eqb_eq in E; congruence|reflexivity].
Qed.
Example C257_case : NewConsumer (Some (lit "B")) [] (lit "x") [(lit "A", lit "old")] = Some (lit "B", [(lit "A", lit "old"); (lit "B", lit "x")]) /\
  NewConsumer (Some (lit "A")) [] (lit "x") [(lit "A", lit "old")] = None.
Proof. vm_compute. auto. Qed.

(** ** C258: what SaveToFile wrote, LoadFromFile reads back: for keys and secrets without white space
    and keys that do not begin with #, as those made by GenerateKey are *)
Definition C258_file : Prop := forall cs, NoDup (map fst cs) ->
  exists cs', LoadFromFile (SaveToFile cs) [] = (cs', false) /\ forall k, get k cs' = get k cs.
Theorem C258_refuted : ~ C258_file /\
  LoadFromFile (SaveToFile [(lit "my key", lit "s")]) [] = ([(lit "my", lit "key")], false) /\
  LoadFromFile (SaveToFile [(lit "#1", lit "s")]) [] = ([], false).
Proof.
  split; [|vm_compute; auto]. intros H. destruct (H [(lit "#1", lit "s")]) as (cs' & E & G).
  { constructor; [intros []|constructor]. }
  vm_compute in E. injection E as <-. specialize (G (lit "#1")). vm_compute in G. discriminate.
Qed.
Lemma get_perm : forall a b : consumers, Permutation a b -> NoDup (map fst a) -> forall k, get k a = get k b.
Proof.
  induction 1 as [|[n v] a b _ IH|[n v] [m w] a|a b c P1 IH1 P2 IH2]; intros D k.
  - reflexivity.
  - cbn [map] in D. inversion D; subst. cbn [get]. destruct (str_eqb n k); auto.
  - cbn [get]. destruct (str_eqb n k) eqn:E, (str_eqb m k) eqn:F; try reflexivity. apply str_eqb_eq in E, F. subst n m.
    cbn [map fst] in D. inversion D as [|? ? X _]; subst. destruct X. now left.
  - rewrite IH1 by assumption. apply IH2. eapply Permutation_NoDup; [|exact D]. now apply Permutation_map.
Qed.
Theorem C258_partial : forall cs sorted, Permutation cs sorted -> NoDup (map fst cs) ->
  Forall (fun p => word (fst p) /\ word (snd p) /\ nth 0 (fst p) 0 <> 35) cs ->
  exists cs', LoadFromFile (SaveToFile sorted) [] = (cs', false) /\ forall k, get k cs' = get k cs.
Proof.
  intros cs sorted P D F.
  assert (Forall (fun p => word (fst p) /\ word (snd p) /\ nth 0 (fst p) 0 <> 35) sorted) as F' by (rewrite Forall_forall in *; intros p Hp; apply F; eapply Permutation_in; [symmetry; exact P|exact Hp]).
  assert (NoDup (map fst sorted)) as D' by (eapply Permutation_NoDup; [|exact D]; now apply Permutation_map).
  unfold LoadFromFile. rewrite lines_save by (eapply Forall_impl; [|exact F']; cbn; tauto).
  destruct (load_save sorted [] F' D' ltac:(reflexivity)) as (cs' & L & G). exists cs'. split; [exact L|]. intros k. rewrite G, (get_perm cs sorted P D).
  destruct (get k sorted); reflexivity.
Qed.
Theorem C258_generated : forall n bytes, Forall byte bytes -> length bytes = (2 * S n)%nat ->
  word (GenerateKey bytes) /\ nth 0 (GenerateKey bytes) 0 <> 35.
Proof. intros n bytes F L. eapply grouped_word, key_grouped; eassumption. Qed.
(** Whatever the file, a consumer there is stays as it is, and every one that is added is from a
    line of the file *)
Theorem C258_kept : forall text cs cs' dup, LoadFromFile text cs = (cs', dup) ->
  (forall k v, get k cs = Some v -> get k cs' = Some v) /\
  (forall k v, get k cs' = Some v -> get k cs = Some v \/
     exists line rest, In line (lines_from [] text) /\ split line = k :: v :: rest /\ hd 0 line <> 35) /\
  (dup = true -> exists line k v rest, In line (lines_from [] text) /\ split line = k :: v :: rest /\ get k cs' <> None).
Proof.
  intros text. unfold LoadFromFile. induction (lines_from [] text) as [|line r IH]; intros cs cs' dup; cbn [load_lines].
  - intros [= <- <-]. split; [auto|]. split; [auto|discriminate].
  - destruct (match line with c :: _ => c =? 35 | [] => false end) eqn:C.
    + intros H. destruct (IH _ _ _ H) as (A & B & D). split; [exact A|]. split.
      * intros k v G. destruct (B k v G) as [X|(l & t & X1 & X2)]; [auto|]. right. exists l, t. split; [now right|exact X2].
      * intros E. destruct (D E) as (l & k & v & t & X1 & X2). exists l, k, v, t. split; [now right|exact X2].
    + assert (hd 0 line <> 35) as Hd by (destruct line as [|c line]; cbn [hd]; [lia|now apply Z.eqb_neq]).
      assert (forall cs0, load_lines r cs0 = (cs', dup) ->
        (forall k v, get k cs0 = Some v -> get k cs' = Some v) /\
        (forall k v, get k cs' = Some v -> get k cs0 = Some v \/
           exists l rest, In l (line :: r) /\ split l = k :: v :: rest /\ hd 0 l <> 35) /\
        (dup = true -> exists l k v rest, In l (line :: r) /\ split l = k :: v :: rest /\ get k cs' <> None)) as W.
      { intros cs0 H. destruct (IH _ _ _ H) as (A & B & D). split; [exact A|]. split.
        - intros k v G. destruct (B k v G) as [X|(l & t & X1 & X2)]; [auto|]. right. exists l, t. split; [now right|exact X2].
        - intros E. destruct (D E) as (l & k & v & t & X1 & X2). exists l, k, v, t. split; [now right|exact X2]. }
      destruct (split line) as [|k [|v t]] eqn:S; try apply W.
      destruct (get k cs) as [w|] eqn:G.
      * intros [= <- <-]. split; [auto|]. split; [auto|]. intros _. exists line, k, v, t. split; [now left|]. split; [exact S|congruence].
      * intros H. destruct (W _ H) as (A & B & D). split; [|split; [|exact D]].
        -- intros j u Gj. apply A. rewrite get_set. destruct (str_eqb k j) eqn:E; [apply str_eqb_eq in E; congruence|exact Gj].
        -- intros j u Gj. destruct (B j u Gj) as [X|X]; [|auto]. rewrite get_set in X. destruct (str_eqb k j) eqn:E; [|auto].
           apply str_eqb_eq in E. subst j. injection X as ->. right. exists line, t. split; [now left|]. split; [exact S|exact Hd].
Qed.
Example C258_case : LoadFromFile (SaveToFile [(lit "01AB.00FF", lit "1234"); (lit "k", lit "s")]) [] = ([(lit "01AB.00FF", lit "1234"); (lit "k", lit "s")], false) /\
  LoadFromFile (lit "# note" ++ [10] ++ lit "k s" ++ [10] ++ lit "k t") [] = ([(lit "k", lit "s")], true).
Proof. vm_compute. auto. Qed.

Print Assumptions C255_nonces.
Print Assumptions C256_refuted.
Print Assumptions C256_partial.
Print Assumptions C257_refuted.
Print Assumptions C257_partial.
Print Assumptions C258_refuted.
Print Assumptions C258_partial.
Print Assumptions C258_generated.
Print Assumptions C258_kept.
