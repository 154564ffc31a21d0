(** Properties C60-C63 and C102-C105. *)
From Verif Require Import Py Memds MemdsSpec MemdsProofs MemdsProofs2 MemdsProofs3 MemdsProofs4.
From Coq Require Import Lia Permutation.

(** ** C60: the two halves of an association index *)
Theorem C60_inverse h a b :
  let ix := fold_right (fun o ix => do_lop ix o) emptyIndex h in
  (In b (GetLinksFrom ix a) <-> In a (GetLinksTo ix b)) /\
  (In b (GetLinksFrom ix a) <-> linked_after h a b).
Proof.
  intros ix. destruct (index_refines h) as [W H]. split; [apply W|apply H].
Qed.

Theorem C60_once h a :
  let ix := fold_right (fun o ix => do_lop ix o) emptyIndex h in
  NoDup (GetLinksFrom ix a) /\ NoDup (GetLinksTo ix a).
Proof.
  intros ix. destruct (index_refines h) as [W _]. split; apply W.
Qed.

Local Notation num n := (KOne (AInt n)).

Example C60_ex :
  let ix := fold_right (fun o ix => do_lop ix o) emptyIndex
              [LDelFrom (num 1); LRemove (num 2) (num 8); LAdd (num 2) (num 8);
               LAdd (num 2) (num 7); LAdd (num 1) (num 7)] in
  GetLinksFrom ix (num 2) = [num 7] /\ GetLinksTo ix (num 7) = [num 2] /\
  GetLinksFrom ix (num 1) = [].
Proof. vm_compute. repeat split. Qed.

(** ** C61: deleting an entity removes all its links *)
Theorem C61_delete_links order sch P Q s k st st' x :
  (forall l, Permutation (order l) l) -> reach order sch P Q st ->
  DeleteEntity sch s k st = (st', x) ->
  (forall i a b, (i < nassocs sch)%nat -> linked st' i a b ->
     src sch i a <> (s, k) /\ dst sch i b <> (s, k)) /\
  (forall i a b, src sch i a <> (s, k) -> dst sch i b <> (s, k) ->
     (linked st' i a b <-> linked st i a b)) /\
  ~ present st' (s, k) /\
  (forall y, y <> (s, k) -> row_of st' y = row_of st y).
Proof.
  intros Ho R E. destruct (reach_base order Ho sch P Q st R) as [W _].
  destruct (DeleteEntity_spec sch s k st st' x W E) as (_ & L & Rw & _ & _).
  split; [intros i a b Hi Hl; apply L in Hl; apply Hl, Hi|]. split; [|split].
  - intros i a b H1 H2. rewrite L. tauto.
  - rewrite present_row, Rw; cbn. rewrite key_eqb_refl, Nat.eqb_refl. cbn. congruence.
  - intros [s' k'] Hy. rewrite Rw; cbn. destruct (key_eqb_spec k' k) as [->|]; [|reflexivity].
    destruct (Nat.eqb_spec s' s) as [->|]; [congruence|reflexivity].
Qed.
(** Its media stream goes too: an entity added later under the same key has an empty one.  The
    streams of other entities are kept. *)
Theorem C61_stream sch s k st st' : DeleteEntity sch s k st = (st', None) ->
  ReadStream (stores st' s) k = Err KeyError /\
  (forall props, ReadStream (AddEntity (stores st' s) k props) k = Ok []) /\
  (forall o k', (o, k') <> (s, k) -> ReadStream (stores st' o) k' = ReadStream (stores st o) k').
Proof.
  unfold DeleteEntity. destruct (dmem k (data (stores st s))) eqn:E; [|discriminate]. intros [= <-]. unfold set_store, upd. cbn [stores].
  assert (Hk : key_eqb k k = true) by (apply key_eqb_eq; reflexivity).
  rewrite Nat.eqb_refl. unfold ReadStream, AddEntity, set_data, dmem. cbn [data streams]. rewrite !dget_ddel, !Hk. split; [reflexivity|]. split; [intros props; rewrite dget_dset, Hk; reflexivity|].
  intros o k' Hne. destruct (Nat.eqb s o) eqn:Eo; [|reflexivity]. apply Nat.eqb_eq in Eo as <-. cbn [data streams]. rewrite !dget_ddel.
  destruct (key_eqb k' k) eqn:Ek; [apply key_eqb_eq in Ek as ->; congruence|reflexivity].
Qed.
Print Assumptions C61_stream.
(** What is written to a stream is read from it *)
Theorem C61_stream_written s k x : dmem k (data s) = true ->
  ReadStream (UpdateEntityStream s k x) k = Ok x /\ forall k', k' <> k -> ReadStream (UpdateEntityStream s k x) k' = ReadStream s k'.
Proof.
  intros H. unfold ReadStream, UpdateEntityStream. cbn [data streams]. rewrite H, dget_dset.
  assert (Hk : key_eqb k k = true) by (apply key_eqb_eq; reflexivity). rewrite Hk. split; [reflexivity|]. intros k' Hne. rewrite dget_dset.
  destruct (key_eqb k' k) eqn:Ek; [apply key_eqb_eq in Ek; congruence|reflexivity].
Qed.
Print Assumptions C61_stream_written.

(** ** C62: entity sets are maps *)

(** Entities added with all their properties; updates write the selected ones. *)
Theorem C62_store_map_partial w h k : Forall (width_ok w) h ->
  let s := fold_right (fun o s => do_sop s o) emptyStore h in
  ReadEntity s k (repeat true w) = written h k.
Proof.
  intros H s. destruct (store_refines w h H k) as [E L]. unfold ReadEntity, s. rewrite E.
  destruct (written h k) as [row|]; [|reflexivity].
  rewrite <- (L row eq_refl), read_row_all. reflexivity.
Qed.

Example C62_ex :
  let v n := Some [n] in
  let h := [SUpdate (num 1) [(false, v 8); (true, v 9)]; SDelete (num 2);
            SAdd (num 2) [v 5; v 6]; SAdd (num 1) [v 3; v 4]] in
  Forall (width_ok 2) h /\ written h (num 1) = Some [v 3; v 9] /\ written h (num 2) = None.
Proof. split; [repeat constructor|vm_compute; split; reflexivity]. Qed.

(** An entity added with a property that is not selected: the values move to the preceding
    properties. *)
Theorem C62_store_map_refuted : exists k props sel,
  length sel = length props /\ nth 1 (map fst props) false = true /\
  ReadEntity (AddEntity emptyStore k props) k sel <> None /\
  forall row, ReadEntity (AddEntity emptyStore k props) k sel = Some row ->
    nth 1 row None <> nth 1 (map snd props) None /\ nth 0 row None = nth 1 (map snd props) None.
Proof.
  exists (num 1), [(false, None); (true, Some [7])], [true; true].
  split; [reflexivity|]. split; [reflexivity|]. split; [vm_compute; discriminate|].
  intros row [= <-]. split; [discriminate|reflexivity].
Qed.

(** Generated keys are new, and generating one does not change the entities. *)
Theorem C62_next_key numeric s z s' : NextKey numeric s = Ok (z, s') ->
  dget (num z) (data s) = None /\ data s' = data s /\ streams s' = streams s.
Proof.
  intros H. apply NextKey_fresh in H. destruct H as (H & D & _ & S).
  split; [|tauto]. unfold dmem in H. destruct (dget (num z) (data s)); [discriminate|reflexivity].
Qed.

Theorem C62_next_key_total s : exists z s', NextKey true s = Ok (z, s').
Proof. apply NextKey_total. right; reflexivity. Qed.

(** Asked twice before the entity is inserted, the same key is generated twice. *)
Theorem C62_next_key_refuted : exists s z s' z' s'',
  NextKey true s = Ok (z, s') /\ NextKey true s' = Ok (z', s'') /\ z = z'.
Proof.
  exists emptyStore, 0, (mkStore [] [] [] (Some 0)), 0, (mkStore [] [] [] (Some 0)).
  repeat split.
Qed.

(** A key of a deleted entity can be generated again. *)
Theorem C62_reuse_refuted : exists s z s',
  NextKey true s = Ok (z, s') /\ forall props,
  exists s'', NextKey true (set_data (ddel (num z) (data (AddEntity s' (num z) props)))
                              (AddEntity s' (num z) props)) = Ok (z, s'').
Proof.
  exists emptyStore, 0, (mkStore [] [] [] (Some 0)). split; [reflexivity|].
  intros props. exists (mkStore [] [] [] (Some 0)). reflexivity.
Qed.

(** Insertion through a collection that is not filtered never replaces an entity. *)
Theorem C62_insert_partial order sch s k props bs fe st :
  present st (s, k) ->
  InsertEntity order sch no_filter s (Ent (Some k) props bs) fe st = (st, Err ConstraintError).
Proof.
  intros [row H]. rewrite InsertEntity_eq. unfold in_collection. cbn in H. rewrite H. reflexivity.
Qed.

(** Through a filtered collection it does. *)
Theorem C62_insert_refuted : exists sch flt s k props st st',
  reach (fun l => l) sch (fun _ _ => True) success st /\ present st (s, k) /\
  InsertEntity (fun l => l) sch flt s (Ent (Some k) props BNil) None st = (st', Ok k) /\
  row_of st' (s, k) <> row_of st (s, k).
Proof.
  set (sch := mkSchema 0 (fun _ => mkAssoc 0 0 Many Many true) (fun _ => true)).
  set (o1 := OInsert 0%nat no_filter (Ent (Some (num 1)) [(true, Some [5])] BNil)).
  set (st1 := fst (step (fun l => l) sch 1 emptyState o1)).
  exists sch, (fun _ => false), 0%nat, (num 1), [(true, Some [6])], st1,
    (fst (InsertEntity (fun l => l) sch (fun _ => false) 0
            (Ent (Some (num 1)) [(true, Some [6])] BNil) None st1)).
  split; [|split; [|split]].
  - apply (reach_step _ _ _ _ emptyState o1 1); [apply reach_nil|exact I|reflexivity].
  - exists [Some [5]]. reflexivity.
  - reflexivity.
  - discriminate.
Qed.

(** ** C63: multiplicities as upper bounds *)
Theorem C63_at_most_one_partial order sch Q st :
  (forall l, Permutation (order l) l) -> optional_many sch ->
  reach order sch (no_takeover sch) Q st -> at_most_one sch st.
Proof. intros Ho. apply (reach_AMO order Ho sch). Qed.

(** Orders (set 0) of customers (set 1). *)
Definition ex_orders (to : mult) : schema :=
  mkSchema 1 (fun _ => mkAssoc 0 1 Many to true) (fun _ => true).

(** Concrete histories. *)
Definition run (sch : schema) (ops : list op) : state :=
  fold_left (fun st o => fst (step (fun l => l) sch 9 st o)) ops emptyState.
Fixpoint allowed (sch : schema) (P : state -> op -> Prop) (Q : option exn -> Prop) (st : state)
    (ops : list op) : Prop :=
  match ops with
  | [] => True
  | o :: ops' => P st o /\ Q (snd (step (fun l => l) sch 9 st o)) /\
                 allowed sch P Q (fst (step (fun l => l) sch 9 st o)) ops'
  end.
Lemma reach_run sch P Q ops : allowed sch P Q emptyState ops ->
  reach (fun l => l) sch P Q (run sch ops).
Proof.
  unfold run. assert (H : reach (fun l => l) sch P Q emptyState) by apply reach_nil.
  revert H. generalize emptyState. induction ops as [|o ops IH]; intros st H A; [exact H|].
  destruct A as (A1 & A2 & A3). cbn [fold_left]. apply IH; [|exact A3].
  apply reach_step; assumption.
Qed.
Definition add (s : nat) (n : Z) (bs : bindings) : op := OInsert s no_filter (Ent (Some (num n)) [] bs).

Example C63_ex :
  let sch := ex_orders ZeroToOne in
  let st := run sch [add 1 7 BNil; add 1 8 BNil; add 0 1 (BKey (0%nat, false) (num 7) BNil);
                     add 0 2 (BKey (0%nat, false) (num 8) BNil);
                     OReplace (0%nat, false) (num 1) (num 8)] in
  optional_many sch /\ reach (fun l => l) sch (no_takeover sch) success st /\
  linked st 0 (num 1) (num 8) /\ linked st 0 (num 2) (num 8) /\ ~ linked st 0 (num 1) (num 7).
Proof.
  cbv zeta. split; [intros i Hi; split; cbn; congruence|]. split.
  { apply reach_run. repeat (split; [exact I|split; [reflexivity|]]).
    split; [cbn; discriminate|]. split; [reflexivity|exact I]. }
  vm_compute. split; [tauto|]. split; [tauto|]. intros [H|[]]; discriminate.
Qed.

(** Replace takes an order over from another customer without unlinking it there. *)
Theorem C63_replace_refuted : exists sch st, optional_many sch /\
  reach (fun l => l) sch (fun st o => known_ends sch o /\ no_stale sch st o) success st /\
  ~ at_most_one sch st.
Proof.
  exists (ex_orders ZeroToOne),
    (run (ex_orders ZeroToOne)
       [add 1 7 BNil; add 1 8 BNil; add 0 1 (BKey (0%nat, false) (num 7) BNil);
        OReplace (0%nat, true) (num 8) (num 1)]).
  split; [intros i Hi; split; cbn; congruence|]. split.
  { apply reach_run. do 3 (split; [split; [exact I|intros x []]|split; [reflexivity|]]).
    split; [|split; [reflexivity|exact I]].
    split; [split; [cbn; lia|reflexivity]|]. split; exists []; reflexivity. }
  intros H. destruct (H 0%nat ltac:(cbn; lia)) as [_ H2].
  specialize (H2 ltac:(discriminate) (num 1) (num 7) (num 8)).
  assert (E : num 7 = num 8) by (apply H2; vm_compute; tauto). discriminate.
Qed.

(** With 0..1 at both ends a binding does the same. *)
Theorem C63_bind_refuted : exists sch st,
  reach (fun l => l) sch
    (fun st o => known_ends sch o /\ no_stale sch st o /\ no_takeover sch st o) success st /\
  ~ at_most_one sch st.
Proof.
  set (sch := mkSchema 1 (fun _ => mkAssoc 0 1 ZeroToOne ZeroToOne true) (fun _ => true)).
  exists sch, (run sch [add 1 7 BNil; add 0 1 (BKey (0%nat, false) (num 7) BNil);
                        add 0 2 (BKey (0%nat, false) (num 7) BNil)]).
  split.
  { apply reach_run. do 3 (split; [split; [exact I|split; [intros x []|exact I]]|split; [reflexivity|]]).
    exact I. }
  intros H. destruct (H 0%nat ltac:(cbn; lia)) as [H1 _].
  specialize (H1 ltac:(discriminate) (num 1) (num 2) (num 7)).
  assert (E : num 1 = num 2) by (apply H1; vm_compute; tauto). discriminate.
Qed.

(** ** C102: deletion removes exactly the entities that need the deleted one *)
Theorem C102_cascade_partial order sch P Q fuel s k st st' :
  (forall l, Permutation (order l) l) -> no_self sch -> reach order sch P Q st ->
  delitem order sch fuel s k st = (st', None) ->
  (forall y, (present st y /\ ~ present st' y) <-> dependent sch st (s, k) y) /\
  (forall y, ~ dependent sch st (s, k) y -> row_of st' y = row_of st y) /\
  (forall i a b, (i < nassocs sch)%nat ->
     (linked st' i a b <-> linked st i a b /\ ~ dependent sch st (s, k) (src sch i a)
                                            /\ ~ dependent sch st (s, k) (dst sch i b))).
Proof.
  intros Ho NS R E. destruct (reach_base order Ho sch P Q st R) as [W HI].
  destruct (delete_exact order Ho sch fuel s k st st' NS W HI E) as (D & _ & Hg).
  pose proof (d_good _ _ _ _ D) as G.
  split; [exact Hg|]. split.
  - intros y Hy. destruct (present_dec st' y) as [A|A]; [apply (g_row _ _ _ G), A|].
    destruct (present_dec st y) as [B|B]; [exfalso; apply Hy, Hg; split; assumption|].
    rewrite present_row in A, B. destruct (row_of st' y); [exfalso; apply A; discriminate|].
    destruct (row_of st y); [exfalso; apply B; discriminate|]. reflexivity.
  - intros i a b Hi. split.
    + intros Hl. split; [apply (g_link _ _ _ G), Hl|].
      split; intros Hd; apply Hg in Hd; destruct (g_clean _ _ _ G _ Hd i a b Hi Hl); congruence.
    + intros (Hl & H1 & H2). destruct (d_link _ _ _ _ D i a b Hi Hl) as [A|[A|A]];
        [exact A|apply Hg in A; contradiction|apply Hg in A; contradiction].
Qed.

(** A deletion that fails changes no values, adds no links and leaves no link of an entity
    it has removed. *)
Theorem C102_failed order sch P Q fuel s k st st' x :
  (forall l, Permutation (order l) l) -> reach order sch P Q st ->
  delitem order sch fuel s k st = (st', x) ->
  (forall y, row_of st' y = row_of st y \/ row_of st' y = None) /\
  (forall i a b, linked st' i a b -> linked st i a b) /\
  (forall i a b, (i < nassocs sch)%nat -> linked st' i a b ->
     (present st (src sch i a) -> present st' (src sch i a)) /\
     (present st (dst sch i b) -> present st' (dst sch i b))).
Proof.
  intros Ho R E. destruct (reach_base order Ho sch P Q st R) as [W HI].
  pose proof (delitem_good order sch fuel s k st st' x W E) as G.
  split; [|split; [apply G|]].
  - intros y. destruct (row_of st' y) eqn:Er; [left|right; reflexivity].
    rewrite <- Er. apply (g_row _ _ _ G). rewrite present_row, Er. discriminate.
  - intros i a b Hi Hl. split; intros Hp.
    + destruct (present_dec st' (src sch i a)) as [A|A]; [exact A|].
      destruct (g_clean _ _ _ G _ (conj Hp A) i a b Hi Hl). congruence.
    + destruct (present_dec st' (dst sch i b)) as [A|A]; [exact A|].
      destruct (g_clean _ _ _ G _ (conj Hp A) i a b Hi Hl). congruence.
Qed.

(** Deletion ends: as many nested calls as there are entities are enough. *)
Theorem C102_terminates order sch P Q univ fuel s k st :
  (forall l, Permutation (order l) l) -> no_self sch -> reach order sch P Q st ->
  (forall y, present st y -> In y univ) -> (length univ < fuel)%nat ->
  snd (delitem order sch fuel s k st) <> Some OutOfFuel.
Proof.
  intros Ho NS R Hu Hf. destruct (reach_base order Ho sch P Q st R) as [W _].
  destruct (delitem order sch fuel s k st) as [st' x] eqn:E. cbn [snd].
  apply (delitem_fuel order Ho sch univ NS fuel s k st st' x W Hu); [|exact E].
  unfold todo. eapply Nat.le_lt_trans; [|exact Hf].
  clear. induction univ as [|a l IH]; cbn; [lia|]. destruct (_ && _); cbn; lia.
Qed.

Example C102_ex :
  let sch := ex_orders One in
  let st := run sch [add 1 7 BNil; add 1 8 BNil; add 0 1 (BKey (0%nat, false) (num 7) BNil);
                     add 0 2 (BKey (0%nat, false) (num 8) BNil)] in
  let st' := fst (delitem (fun l => l) sch 9 1 (num 7) st) in
  no_self sch /\ reach (fun l => l) sch (fun _ _ => True) success st /\
  snd (delitem (fun l => l) sch 9 1 (num 7) st) = None /\
  present st (0%nat, num 1) /\ ~ present st' (0%nat, num 1) /\ present st' (0%nat, num 2) /\
  linked st' 0 (num 2) (num 8).
Proof.
  cbv zeta. split; [intros i Hi; cbn; discriminate|]. split.
  { apply reach_run. repeat (split; [exact I|split; [reflexivity|]]). exact I. }
  split; [reflexivity|]. split; [exists []; reflexivity|]. split; [intros [r H]; discriminate|].
  split; [exists []; reflexivity|]. vm_compute. tauto.
Qed.

(** Employees and their managers in one entity set: deleting an employee nobody depends on
    deletes the manager. *)
Theorem C102_self_refuted : exists sch st st',
  reach (fun l => l) sch (fun _ _ => True) success st /\
  delitem (fun l => l) sch 9 0 (num 3) st = (st', None) /\
  ~ dependent sch st (0%nat, num 3) (0%nat, num 2) /\
  present st (0%nat, num 2) /\ ~ present st' (0%nat, num 2).
Proof.
  set (sch := mkSchema 1 (fun _ => mkAssoc 0 0 Many One true) (fun _ => true)).
  set (st := run sch [add 0 1 (BKey (0%nat, false) (num 1) BNil);
                      add 0 2 (BKey (0%nat, false) (num 1) BNil);
                      add 0 3 (BKey (0%nat, false) (num 2) BNil)]).
  exists sch, st, (fst (delitem (fun l => l) sch 9 0 (num 3) st)). split.
  { apply reach_run. repeat (split; [exact I|split; [reflexivity|]]). exact I. }
  split; [reflexivity|].
  split; [|split; [exists []; reflexivity|intros [r H]; discriminate]].
  intros D.
  assert (W : wf st).
  { apply (reach_base (fun l => l) (fun l => Permutation_refl l) sch (fun _ _ => True) success).
    apply reach_run. repeat (split; [exact I|split; [reflexivity|]]). exact I. }
  assert (K : forall y, dependent sch st (0%nat, num 3) y -> y = (0%nat, num 3)).
  { induction 1 as [|y z D1 IH (i & a & b & Hi & Hl & Hc)]; [reflexivity|]. subst y.
    assert (i = 0%nat) as -> by (cbn in Hi; lia).
    destruct Hc as [(_ & _ & Hm)|(Hb & -> & _)]; [discriminate|].
    unfold dst in Hb; cbn in Hb. injection Hb as <-. exfalso.
    unfold linked in Hl. apply (W 0%nat) in Hl. vm_compute in Hl. exact Hl. }
  apply K in D. discriminate.
Qed.

(** Deletion can fail half way: the entity to be deleted exists, everything can be
    navigated, and a dependent reached by two paths makes it stop with KeyError after it
    has removed the dependents. *)
Definition ex_diamond : schema :=
  mkSchema 3 (fun i => match i with
    | O => mkAssoc 1 0 Many One true     (* a needs r *)
    | S O => mkAssoc 2 1 Many One true   (* b needs a *)
    | _ => mkAssoc 1 2 Many One true     (* a needs b *)
    end) (fun _ => true).

Theorem C102_diamond_refuted : exists sch s k st st' y,
  no_self sch /\ (forall i, nav_to (assocs sch i) = true) /\
  reach (fun l => l) sch (fun _ _ => True) success st /\
  delitem (fun l => l) sch 9 s k st = (st', Some KeyError) /\
  present st (s, k) /\ present st' (s, k) /\
  dependent sch st (s, k) y /\ present st y /\ ~ present st' y.
Proof.
  set (st := run ex_diamond
       [add 0 0 BNil;
        add 1 1 (BKey (0%nat, false) (num 0)
           (BNew (2%nat, false) (Ent (Some (num 5)) [] (BKey (1%nat, false) (num 1) BNil)) BNil));
        add 1 2 (BKey (0%nat, false) (num 0) (BKey (2%nat, false) (num 5) BNil))]).
  exists ex_diamond, 0%nat, (num 0), st,
    (fst (delitem (fun l => l) ex_diamond 9 0 (num 0) st)), (1%nat, num 1).
  split; [intros [|[|[|i]]] Hi; cbn; discriminate|].
  split; [intros [|[|i]]; reflexivity|]. split.
  { apply reach_run. repeat (split; [exact I|split; [reflexivity|]]). exact I. }
  split; [apply injective_projections; [reflexivity|vm_compute; reflexivity]|].
  split; [exists []; vm_compute; reflexivity|]. split; [exists []; vm_compute; reflexivity|]. split.
  { apply (dep_step _ _ _ (0%nat, num 0)); [apply dep_self|].
    exists 0%nat, (num 1), (num 0). split; [cbn; lia|]. split; [vm_compute; tauto|].
    right. repeat split. }
  split; [exists []; vm_compute; reflexivity|]. intros [r H]. vm_compute in H. discriminate.
Qed.

(** ** C103: links join existing entities *)
Theorem C103_no_dangling_partial order sch Q st :
  (forall l, Permutation (order l) l) ->
  reach order sch (fun st o => known_ends sch o /\ no_stale sch st o) Q st -> no_dangling sch st.
Proof. intros Ho. apply (reach_ND order Ho sch). Qed.

Example C103_ex :
  let sch := ex_orders One in
  let st := run sch [add 1 7 BNil; add 1 8 BNil;
                     ONavInsert (0%nat, true) (num 8) (Ent (Some (num 1)) [] BNil);
                     ODelete 1%nat (num 7)] in
  reach (fun l => l) sch (fun st o => known_ends sch o /\ no_stale sch st o) success st /\
  linked st 0 (num 1) (num 8) /\ ~ present st (1%nat, num 7).
Proof.
  cbv zeta. split.
  { apply reach_run. do 2 (split; [split; [exact I|intros x []]|split; [reflexivity|]]).
    split; [split; [split; [cbn; lia|reflexivity]|]; split; [exists []; reflexivity|intros x []]|].
    split; [reflexivity|]. split; [split; exact I|]. split; [reflexivity|exact I]. }
  split; [vm_compute; tauto|]. intros [r H]; discriminate.
Qed.

(** An entity object kept after its entity was deleted can still be bound. *)
Theorem C103_stale_refuted : exists sch st,
  reach (fun l => l) sch (fun _ o => known_ends sch o) success st /\ ~ no_dangling sch st.
Proof.
  exists (ex_orders ZeroToOne),
    (run (ex_orders ZeroToOne)
       [add 1 7 BNil; ODelete 1%nat (num 7); add 0 1 (BEnt (0%nat, false) (num 7) BNil)]).
  split.
  { apply reach_run. repeat (split; [exact I|split; [reflexivity|]]). exact I. }
  intros H. destruct (H 0%nat (num 1) (num 7)) as [_ [r Hr]]; [cbn; lia|vm_compute; tauto|].
  discriminate.
Qed.

(** ** C104: required links are there *)
Theorem C104_at_least_one_partial order sch P st :
  (forall l, Permutation (order l) l) -> no_self sch -> one_unbound sch ->
  reach order sch P success st -> at_least_one sch st.
Proof. intros Ho. apply (reach_ALO order Ho sch). Qed.

Example C104_ex :
  let sch := ex_orders One in
  let st := run sch [add 0 1 (BNew (0%nat, false) (Ent (Some (num 8)) [] BNil) BNil)] in
  no_self sch /\ one_unbound sch /\ reach (fun l => l) sch (fun _ _ => True) success st /\
  present st (0%nat, num 1) /\ linked st 0 (num 1) (num 8).
Proof.
  cbv zeta. split; [intros i Hi; cbn; discriminate|].
  split; [intros i j Hi Hj; cbn; discriminate|]. split.
  { apply reach_run. split; [exact I|split; [reflexivity|exact I]]. }
  split; [exists []; reflexivity|vm_compute; tauto].
Qed.

(** An insertion that fails leaves an entity without the link it requires. *)
Theorem C104_failed_insert_refuted : exists sch st, no_self sch /\ one_unbound sch /\
  reach (fun l => l) sch (fun st o => known_ends sch o /\ no_stale sch st o) any_outcome st /\
  ~ at_least_one sch st.
Proof.
  exists (ex_orders One), (run (ex_orders One) [add 0 1 (BKey (0%nat, false) (num 7) BNil)]).
  split; [intros i Hi; cbn; discriminate|].
  split; [intros i j Hi Hj; cbn; discriminate|]. split.
  { apply reach_run. split; [split; [exact I|intros x []]|split; exact I]. }
  intros H. destruct (H 0%nat ltac:(cbn; lia)) as [_ H2].
  destruct (H2 eq_refl (num 1)) as [b Hb]; [exists []; reflexivity|]. destruct Hb.
Qed.

(** ** C105: a filter applies to lookups, iteration and length alike *)

(** Entity sets.  Keys are not repeated in a dictionary. *)
Theorem C105_filter_partial order sch P Q flt s k row st :
  (forall l, Permutation (order l) l) -> reach order sch P Q st ->
  (coll_getitem flt s k st = Ok row <->
     row_of st (s, k) = Some row /\ match flt with Some f => f row = true | None => True end) /\
  (coll_getitem flt s k st = Ok row <-> In (k, row) (coll_iter flt s st)) /\
  coll_len flt s st = length (coll_iter flt s st).
Proof.
  intros Ho R. split; [|split].
  - apply coll_getitem_spec.
  - apply coll_getitem_iter. apply (reach_keys order Ho sch P Q st R).
  - apply coll_len_iter.
Qed.

(** Navigation collections: iteration and length. *)
Theorem C105_navigation_partial order sch Q flt e k t row st l :
  (forall l, Permutation (order l) l) ->
  reach order sch (fun st o => known_ends sch o /\ no_stale sch st o) Q st -> nav_end sch e ->
  nav_iter order sch flt e k st = Ok l ->
  (In (t, row) l <-> linked_at st e k t /\ row_of st (end_store sch (other e), t) = Some row /\
     match flt with Some f => f row = true | None => True end) /\
  nav_len order sch flt e k st = Ok (length l).
Proof.
  intros Ho R He. destruct (reach_base order Ho sch _ _ _ R) as [W _].
  apply nav_iter_spec; assumption.
Qed.

Theorem C105_navigation_total order sch Q flt e k st :
  (forall l, Permutation (order l) l) ->
  reach order sch (fun st o => known_ends sch o /\ no_stale sch st o) Q st -> nav_end sch e ->
  exists l, nav_iter order sch flt e k st = Ok l.
Proof.
  intros Ho R He. destruct (reach_base order Ho sch _ _ _ R) as [W _].
  pose proof (reach_ND order Ho sch _ _ R) as N.
  apply nav_iter_total; try assumption. apply nd_ends; assumption.
Qed.

(** The lookup of a navigation collection ignores its filter. *)
Theorem C105_lookup_refuted : exists sch st flt e k t,
  reach (fun l => l) sch (fun st o => known_ends sch o /\ no_stale sch st o) success st /\
  nav_end sch e /\ nav_getitem sch (Some flt) e k t st = Ok [] /\
  nav_iter (fun l => l) sch (Some flt) e k st = Ok [].
Proof.
  exists (ex_orders One),
    (run (ex_orders One) [add 1 7 BNil; add 0 1 (BKey (0%nat, false) (num 7) BNil)]),
    (fun _ => false), (0%nat, false), (num 1), (num 7).
  split.
  { apply reach_run. do 2 (split; [split; [exact I|intros x []]|split; [reflexivity|]]). exact I. }
  split; [split; [cbn; lia|discriminate]|]. split; reflexivity.
Qed.

Print Assumptions C60_inverse.
Print Assumptions C60_once.
Print Assumptions C61_delete_links.
Print Assumptions C62_store_map_partial.
Print Assumptions C62_next_key.
Print Assumptions C62_next_key_total.
Print Assumptions C62_insert_partial.
Print Assumptions C63_at_most_one_partial.
Print Assumptions C63_replace_refuted.
Print Assumptions C63_bind_refuted.
Print Assumptions C102_cascade_partial.
Print Assumptions C102_failed.
Print Assumptions C102_terminates.
Print Assumptions C102_self_refuted.
Print Assumptions C102_diamond_refuted.
Print Assumptions C103_no_dangling_partial.
Print Assumptions C103_stale_refuted.
Print Assumptions C104_at_least_one_partial.
Print Assumptions C104_failed_insert_refuted.
Print Assumptions C105_filter_partial.
Print Assumptions C105_navigation_partial.
Print Assumptions C105_navigation_total.
Print Assumptions C105_lookup_refuted.

Print Assumptions C62_insert_refuted.
Print Assumptions C62_next_key_refuted.
Print Assumptions C62_reuse_refuted.
Print Assumptions C62_store_map_refuted.
