(** C171-C173: transactions of the SQL data source. *)
From Coq Require Import List Arith Bool Lia.
From Verif Require Import SqlTrans SqlTransSpec.
Import ListNotations.

Scheme method_ind2 := Induction for method Sort Prop
with body_ind2 := Induction for body Sort Prop.
Combined Scheme method_body_ind from method_ind2, body_ind2.

Section Props.
Variables (Q DB : Type).
Variable execute : Q -> DB -> (DB * list nat) + err.
Variable cursor_fails commit_fails : DB -> option err.
Variable supported : bool.
Notation run_method := (run_method Q DB execute cursor_fails commit_fails supported).
Notation run_body := (run_body Q DB execute cursor_fails commit_fails supported).
Notation plain_method := (plain_method Q DB execute).
Notation plain_body := (plain_body Q DB execute).

Lemma plain_method_eq i b d : plain_method (Method i b) d = match plain_body b d with inl x => inl x | inr e => inr (reported i e) end.
Proof. reflexivity. Qed.
Lemma plain_call sh m k d : plain_body (Call sh m k) d = match plain_method m d with inl (d', rows) => plain_body (k rows) d' | inr e => inr e end.
Proof. reflexivity. Qed.
Lemma plain_exec q k d : plain_body (Execute q k) d = match execute q d with inl (d', rows) => plain_body (k rows) d' | inr e => inr e end.
Proof. reflexivity. Qed.
Lemma run_exec q k t c : run_body (Execute q k) t c =
  match execute q (current c) with
  | inl (d, rows) => run_body (k rows) (mkTrans (cursor t) (noCommit t) (S (queryCount t))) (mkConn (stable c) d (published c) (marks c))
  | inr e => (t, c, inr e)
  end.
Proof. reflexivity. Qed.
Lemma run_call m k t c : run_body (Call true m k) t c =
  let '(t', c', r) := run_method m t c in match r with inl rows => run_body (k rows) t' c' | inr e => (t', c', inr e) end.
Proof. reflexivity. Qed.
Lemma run_method_eq integrity b t c : run_method (Method integrity b) t c =
      let '(t1, e0) := Begin DB cursor_fails t c in
      let '(t2, c2, r) := match e0 with Some e => (t1, c, inr e) | None => run_body b t1 c end in
      let '(c3, r3) := match r with
                       | inl rows => let '(c', e) := Commit DB commit_fails t2 c2 in (c', match e with Some e => inr e | None => inl rows end)
                       | inr e => (c2, inr e)
                       end in
      let '(c4, r4) := match r3 with
                       | inl rows => (c3, inl rows)
                       | inr e =>
                           match e, integrity with
                           | Integrity, Some e' => let '(c', x) := Rollback DB supported t2 c3 e true in (c', inr (match x with Some x => x | None => e' end))
                           | _, _ => let '(c', x) := Rollback DB supported t2 c3 e false in (c', inr (match x with Some x => x | None => e end))
                           end
                       end in
      (Close t2, c4, r4).
Proof. reflexivity. Qed.

(** What a method or a body does inside a transaction: nothing that others can see *)
Definition inside (x : (DB * list nat) + err) (t : trans) (c : connection DB) (r : trans * connection DB * (list nat + err)) : Prop :=
  let '(t', c', v) := r in
  cursor t' = true /\ noCommit t' = noCommit t /\ stable c' = stable c /\ published c' = published c /\
  match x with inl (d, rows) => v = inl rows /\ current c' = d | inr e => v = inr e end.

Lemma inside_both :
  (forall m, passes m -> forall t c, cursor t = true -> inside (plain_method m (current c)) t c (run_method m t c)) /\
  (forall b, passes_body b -> forall t c, cursor t = true -> inside (plain_body b (current c)) t c (run_body b t c)).
Proof.
  apply (method_body_ind Q (fun m => passes m -> forall t c, cursor t = true -> inside (plain_method m (current c)) t c (run_method m t c))
    (fun b => passes_body b -> forall t c, cursor t = true -> inside (plain_body b (current c)) t c (run_body b t c))).
  - intros integrity b IH P t c Ht. rewrite run_method_eq, plain_method_eq. unfold Begin. rewrite Ht.
    specialize (IH P (mkTrans true (S (noCommit t)) (queryCount t)) c eq_refl). unfold inside in IH.
    destruct (run_body b (mkTrans true (S (noCommit t)) (queryCount t)) c) as [[t2 c2] r]. destruct IH as (H1 & H2 & H3 & H4 & H5). cbn [noCommit] in H2.
    destruct (plain_body b (current c)) as [[d rows]|e].
    + destruct H5 as [-> H5]. unfold Commit. rewrite H2. unfold inside, Close. rewrite H2. cbn [cursor noCommit]. auto 6.
    + subst r. unfold Rollback. rewrite H2. unfold Close. rewrite H2.
      destruct e, integrity; cbn [reported dbapi_error inside cursor noCommit]; auto 6.
  - intros rows _ t c Ht. cbn. auto 6.
  - intros e _ t c Ht. cbn. auto 6.
  - intros q k IH P t c Ht. rewrite run_exec, plain_exec. destruct (execute q (current c)) as [[d rows]|e].
    + exact (IH rows (P rows) (mkTrans (cursor t) (noCommit t) (S (queryCount t))) (mkConn (stable c) d (published c) (marks c)) Ht).
    + cbn. auto 6.
  - intros x k IH P t c Ht. exact (IH P t (mkConn (stable c) (current c) (published c) (x :: marks c)) Ht).
  - intros shared m IHm k IHk P t c Ht. destruct P as (-> & Pm & Pk). rewrite run_call, plain_call.
    specialize (IHm Pm t c Ht). unfold inside in IHm. destruct (run_method m t c) as [[t' c'] v]. destruct IHm as (H1 & H2 & H3 & H4 & H5).
    destruct (plain_method m (current c)) as [[d rows]|e].
    + destruct H5 as [-> H5]. specialize (IHk rows (Pk rows) t' c' H1). rewrite H5 in IHk. unfold inside in *. destruct (run_body (k rows) t' c') as [[t2 c2] v2].
      rewrite H2, H3, H4 in IHk. exact IHk.
    + subst v. cbn. auto 6.
Qed.

(** * C171: a method, with all the methods it passes its transaction to, is one transaction *)
(** What comes of it: the effect of all its statements, or an exception *)
Definition expected (m : method Q) (d : DB) : (DB * list nat) + err :=
  match m with
  | Method integrity _ =>
      match cursor_fails d with
      | Some e => inr (reported integrity e)
      | None => match plain_method m d with
                | inl (d', rows) => match commit_fails d' with Some e => inr (reported integrity e) | None => inl (d', rows) end
                | inr e => inr e
                end
      end
  end.
(** Others see all of it or nothing, in one step; the connection is left without a transaction *)
Theorem C171_atomic m c : supported = true -> passes m -> stable c = current c ->
  let '(t', c', r) := run_method m new_trans c in
  t' = new_trans /\ current c' = stable c' /\
  match expected m (stable c) with
  | inl (d, rows) => r = inl rows /\ stable c' = d /\ published c' = d :: published c
  | inr e => r = inr e /\ stable c' = stable c /\ published c' = published c
  end.
Proof.
  intros S P E. destruct m as [integrity b]. unfold expected. rewrite E, run_method_eq, plain_method_eq. unfold Begin. cbn [cursor new_trans].
  destruct (cursor_fails (current c)) as [e|] eqn:F.
  - unfold Rollback, Close. change (noCommit new_trans) with 0. change (cursor new_trans) with false. cbv iota. rewrite S.
    destruct e, integrity; cbn [reported dbapi_error current stable published]; rewrite ?E; auto 6.
  - destruct inside_both as [_ IH]. specialize (IH b P (mkTrans true 0 0) c eq_refl). unfold inside in IH. cbn [new_trans noCommit queryCount].
    destruct (run_body b (mkTrans true 0 0) c) as [[t2 c2] r]. destruct IH as (H1 & H2 & H3 & H4 & H5). cbn [noCommit] in H2.
    assert (Cl : Close t2 = new_trans) by (unfold Close; now rewrite H2, H1).
    destruct (plain_body b (current c)) as [[d rows]|e].
    + destruct H5 as [-> <-]. unfold Commit, Rollback. rewrite H2, S. destruct (commit_fails (current c2)) as [e|] eqn:G.
      * destruct e, integrity; cbn [reported dbapi_error current stable published]; rewrite ?Cl, ?H3, ?H4, ?E; auto 6.
      * cbn [current stable published]. rewrite Cl, H4. auto 6.
    + subst r. unfold Rollback. rewrite H2, S.
      destruct e, integrity; cbn [reported dbapi_error current stable published]; rewrite ?Cl, ?H3, ?H4, ?E; auto 6.
Qed.
(** A method given a transaction neither commits nor rolls back, and leaves the transaction as it was *)
Theorem C171_nested m t c : passes m -> cursor t = true ->
  let '(t', c', r) := run_method m t c in
  cursor t' = true /\ noCommit t' = noCommit t /\ stable c' = stable c /\ published c' = published c /\
  match plain_method m (current c) with
  | inl (d, rows) => r = inl rows /\ current c' = d
  | inr e => r = inr e
  end.
Proof. intros P Ht. exact (proj1 inside_both m P t c Ht). Qed.
End Props.

(** Where rollback is not supported the exception that was the reason is lost *)
Theorem C171_unsupported_refuted : ~ forall Q DB execute (m : method Q) (c : connection DB) e, passes m ->
  plain_method Q DB execute m (current c) = inr e ->
  exists t' c', run_method Q DB execute (fun _ => None) (fun _ => None) false m new_trans c = (t', c', inr e).
Proof.
  intros H. destruct (H unit unit (fun _ _ => inr DbError) (Method None (Execute tt Return)) (mkConn tt tt [] []) SQLErr) as (t' & c' & E); [cbn; auto|reflexivity|discriminate E].
Qed.

(** * C172: inserting, updating and deleting entities *)
Lemma entity_ind2 (P : entity -> Prop)
  (H : forall x bs, (forall n w e, In (n, w, New e) bs -> P e) -> P (Entity x bs)) : forall e, P e.
Proof.
  fix IH 1. intros [x bs]. apply H. induction bs as [|[[n w] b] bs IHb]; [intros ? ? ? []|].
  intros n' w' e' [E|X]; [|exact (IHb n' w' e' X)]. destruct b as [y|y|e]; try discriminate E. injection E as _ _ <-. apply IH.
Qed.
Definition bindings (e : entity) : list (nat * where_kept * binding) := match e with Entity _ bs => bs end.
Lemma no_keys_iff e : no_keys e <-> Forall (fun p => binding_no_keys (snd p)) (bindings e).
Proof.
  destruct e as [x bs]. cbn [no_keys bindings]. induction bs as [|[p b] bs IH]; [split; auto|].
  rewrite IH. split; [intros [H1 H2]; constructor; auto|intros H; inversion H; auto].
Qed.
Lemma passes_InsertLink a n x y : passes (InsertLink a n x y).
Proof. cbn. intros rows. destruct a; [exact I|]. now destruct rows. Qed.
Lemma passes_ClearLinks a n x : passes (ClearLinks a n x).
Proof. cbn. auto. Qed.
Lemma passes_ReplaceLink a n x y : passes (ReplaceLink a n x y).
Proof. cbn [passes ReplaceLink passes_body]. split; [reflexivity|]. split; [apply passes_ClearLinks|]. intros _. split; [reflexivity|]. split; [apply passes_InsertLink|]. exact (fun _ => I). Qed.
Lemma passes_insert e : no_keys e -> forall fk, passes (InsertEntitySQL e fk).
Proof.
  induction e as [x bs IH] using entity_ind2. intros N fk. apply no_keys_iff in N. cbn [bindings] in N. cbn [InsertEntitySQL passes].
  assert (S3 : passes_body ((fix step3 l : body statement :=
        match l with
        | [] => Return []
        | (n, w, b) :: l' =>
            if here w then step3 l'
            else
              match b with
              | ByKey y => Call false (getitem y) (fun _ => Call true (InsertLink (aux w) n x y) (fun _ => step3 l'))
              | Existing y => Call true (InsertLink (aux w) n x y) (fun _ => step3 l')
              | New e' =>
                  if aux w then Call true (InsertEntitySQL e' []) (fun _ => Call true (InsertLink true n x (key e')) (fun _ => step3 l'))
                  else Call true (InsertEntitySQL e' [x]) (fun _ => step3 l')
              end
        end) bs)).
  { revert N IH. generalize bs. intros l N IH. induction l as [|[[n w] b] l IHl]; [exact I|]. inversion N as [|? ? N1 N2]; subst. cbn [snd] in N1.
    specialize (IHl N2 (fun n0 w0 e0 X => IH n0 w0 e0 (or_intror X))). destruct (here w); [exact IHl|]. destruct b as [y|y|e']; [destruct N1| |].
    - split; [reflexivity|]. split; [apply passes_InsertLink|]. intros _. exact IHl.
    - assert (A := IH n w e' (or_introl eq_refl) N1). destruct (aux w).
      + split; [reflexivity|]. split; [apply A|]. intros _. split; [reflexivity|]. split; [apply passes_InsertLink|]. intros _. exact IHl.
      + split; [reflexivity|]. split; [apply A|]. intros _. exact IHl. }
  revert N IH S3. generalize (InsertRow x (fk ++ foreign_keys bs)). 
  match goal with |- forall q : statement, ?N -> ?I -> passes_body ?s3 -> _ => generalize s3 end. clear. intros s3 q N IH S3. induction bs as [|[[n w] b] l IHl]; [intros _; exact S3|].
  inversion N as [|? ? N1 N2]; subst. cbn [snd] in N1. specialize (IHl N2 (fun n0 w0 e0 X => IH n0 w0 e0 (or_intror X))). destruct (here w); [|exact IHl].
  destruct b as [y|y|e']; [destruct N1|exact IHl|]. split; [reflexivity|]. split; [exact (IH n w e' (or_introl eq_refl) N1 [])|]. intros _. exact IHl.
Qed.
Lemma passes_update3 multi x l : Forall (fun p => binding_no_keys (snd p) /\ not_new_aux (snd (fst p)) (snd p)) l -> passes_body (update3 multi x l).
Proof.
  induction l as [|[[n w] b] l IH]; intros N; [exact I|]. inversion N as [|? ? [N1 N3] N2]; subst. cbn [fst snd] in N1, N3. specialize (IH N2). cbn [update3].
  assert (L : forall y, passes (if multi n then InsertLink (aux w) n x y else ReplaceLink (aux w) n x y)) by (intros y; destruct (multi n); [apply passes_InsertLink|apply passes_ReplaceLink]).
  destruct (here w) eqn:Hw; [exact IH|]. destruct b as [y|y|e']; [destruct N1| |].
  - split; [reflexivity|]. split; [apply L|]. intros _. exact IH.
  - destruct w; [discriminate Hw| |destruct N3]. cbn [aux]. assert (A := passes_insert e' N1 [x]). destruct (multi n).
    + split; [reflexivity|]. split; [exact A|]. intros _. exact IH.
    + split; [reflexivity|]. split; [apply passes_ClearLinks|]. intros _. split; [reflexivity|]. split; [exact A|]. intros _. exact IH.
Qed.
Lemma passes_update multi x bs : Forall (fun p => binding_no_keys (snd p) /\ not_new_aux (snd (fst p)) (snd p)) bs -> passes (UpdateEntity multi x bs).
Proof.
  intros N. cbn [UpdateEntity passes]. assert (X : forall l, Forall (fun p => binding_no_keys (snd p) /\ not_new_aux (snd (fst p)) (snd p)) l -> passes_body (update1 multi x bs l)); [|now apply X].
  induction l as [|[[n w] b] l IH]; intros Nl.
  - cbn [update1 passes_body]. intros [|r rows]; [exact I|now apply passes_update3].
  - inversion Nl as [|? ? [N1 N3] N2]; subst. cbn [fst snd] in N1, N3. specialize (IH N2). cbn [update1]. destruct (here w); [|exact IH].
    destruct b as [y|y|e']; [destruct N1|exact IH|]. split; [reflexivity|]. split; [now apply passes_insert|]. intros _. exact IH.
Qed.
Lemma passes_delete l x : Forall (fun p => match snd p with inl _ => True | inr _ => False end) l -> passes (DeleteEntity (Links l) x).
Proof.
  intros N. cbn [DeleteEntity passes]. induction l as [|[n [a|s]] l IH].
  - cbn [passes_body]. intros [|r [|r' rows]]; exact I.
  - inversion N; subst. split; [reflexivity|]. split; [apply passes_ClearLinks|]. intros _. now apply IH.
  - inversion N as [|? ? F _]. destruct F.
Qed.

(** Whatever the database does with the statements, others see the whole change or none of it *)
Definition all_or_nothing {DB} (execute : statement -> DB -> (DB * list nat) + err) (cursor_fails commit_fails : DB -> option err) (m : method statement) : Prop :=
  forall c : connection DB, stable c = current c ->
  let '(_, c', r) := run_method _ _ execute cursor_fails commit_fails true m new_trans c in
  current c' = stable c' /\
  match r with
  | inl rows => plain_method _ _ execute m (stable c) = inl (stable c', rows) /\ published c' = stable c' :: published c
  | inr _ => stable c' = stable c /\ published c' = published c
  end.
Lemma passes_all {DB} execute cursor_fails commit_fails m : passes m -> @all_or_nothing DB execute cursor_fails commit_fails m.
Proof.
  intros P c E. assert (A := C171_atomic _ _ execute cursor_fails commit_fails true m c eq_refl P E).
  destruct (run_method _ _ execute cursor_fails commit_fails true m new_trans c) as [[t' c'] r]. destruct A as (_ & A & B). split; [exact A|].
  unfold expected in B. destruct m as [i b]. destruct (cursor_fails (stable c)); [destruct B as (-> & B); exact B|].
  destruct (plain_method statement DB execute (Method i b) (stable c)) as [[d rows]|e]; [|destruct B as (-> & B); exact B].
  destruct (commit_fails d); [destruct B as (-> & B); exact B|]. destruct B as (-> & <- & B). auto.
Qed.
(** Inserting an entity with new and existing entities bound to it *)
Theorem C172_insert_partial DB execute cursor_fails commit_fails e fk : no_keys e -> @all_or_nothing DB execute cursor_fails commit_fails (InsertEntitySQL e fk).
Proof. intros N. apply passes_all, passes_insert, N. Qed.
(** Updating one, without new entities bound through auxiliary tables *)
Theorem C172_update_partial DB execute cursor_fails commit_fails multi x bs :
  Forall (fun p => binding_no_keys (snd p) /\ not_new_aux (snd (fst p)) (snd p)) bs -> @all_or_nothing DB execute cursor_fails commit_fails (UpdateEntity multi x bs).
Proof. intros N. apply passes_all, passes_update, N. Qed.
(** Deleting one that no other entities depend on; replacing a link *)
Theorem C172_delete_partial DB execute cursor_fails commit_fails l x :
  Forall (fun p => match snd p with inl _ => True | inr _ => False end) l -> @all_or_nothing DB execute cursor_fails commit_fails (DeleteEntity (Links l) x).
Proof. intros N. apply passes_all, passes_delete, N. Qed.
Theorem C172_replace DB execute cursor_fails commit_fails a n x y : @all_or_nothing DB execute cursor_fails commit_fails (ReplaceLink a n x y).
Proof. apply passes_all, passes_ReplaceLink. Qed.

(** An entity bound by its key: reading it commits the row just inserted, and if the link then cannot be
    made the row stays *)
Theorem C172_insert_refuted : ~ forall e fk, @all_or_nothing database execute0 (fun _ => None) (fun _ => None) (InsertEntitySQL e fk).
Proof. intros H. specialize (H (Entity 1 [(0, Aux, ByKey 2); (0, Aux, ByKey 2)]) [] (mkConn ([2], []) ([2], []) [] []) eq_refl). vm_compute in H. destruct H as [_ [H _]]. discriminate H. Qed.
(** What others see of it *)
Example ex_insert_key : run_method _ _ execute0 (fun _ => None) (fun _ => None) true (InsertEntitySQL (Entity 1 [(0, Aux, ByKey 2); (0, Aux, ByKey 2)]) []) new_trans (mkConn ([2], []) ([2], []) [] [])
  = (new_trans, mkConn ([1; 2], [(0, 1, 2)]) ([1; 2], [(0, 1, 2)]) [([1; 2], [(0, 1, 2)]); ([1; 2], [])] [1], inr Navigation).
Proof. reflexivity. Qed.
(** A new entity bound through an auxiliary table is committed on its own by an update *)
Theorem C172_update_refuted : ~ forall multi x bs, Forall (fun p => binding_no_keys (snd p)) bs -> @all_or_nothing database execute0 (fun _ => None) (fun _ => None) (UpdateEntity multi x bs).
Proof.
  intros H. specialize (H (fun _ => true) 1 [(0, Aux, New (Entity 2 [])); (0, Aux, Existing 3)] ltac:(repeat constructor; reflexivity) (mkConn ([1], []) ([1], []) [] []) eq_refl).
  vm_compute in H. destruct H as [_ [H _]]. discriminate H.
Qed.
(** Deleting an entity with entities that depend on it, and on them: looking for the latter commits that
    the former were unlinked, and if one cannot be deleted it stays unlinked *)
Theorem C172_delete_refuted : ~ forall s x, @all_or_nothing database execute0 (fun _ => None) (fun _ => None) (DeleteEntity s x).
Proof.
  intros H. specialize (H (Links [(0, inr (Links [(1, inr (Links []))]))]) 1 (mkConn ([1; 2; 3], [(0, 1, 2); (5, 3, 2)]) ([1; 2; 3], [(0, 1, 2); (5, 3, 2)]) [] []) eq_refl).
  vm_compute in H. destruct H as [_ [H _]]. discriminate H.
Qed.

(** * C173: an entity exists after it was inserted, and only then *)
(** An insert that raises an exception leaves the entity as one that exists, so that inserting it again is
    refused although it is not stored *)
Theorem C173_retry_refuted : ~ forall DB execute e (c c' : connection DB) x, no_keys e -> stable c = current c -> marks c = [] ->
  InsertEntity execute (fun _ => None) (fun _ => None) true e c = (c', inr x) ->
  snd (InsertEntity execute (fun _ => None) (fun _ => None) true e c') <> inr EntityExists.
Proof.
  intros H. refine (H database execute0 (Entity 1 [(0, Aux, Existing 2)]) (mkConn ([], []) ([], []) [] []) _ _ _ eq_refl eq_refl eq_refl eq_refl); [cbn; auto].
Qed.
(** Marks stay *)
Section Marks.
Variable DB : Type.
Variable execute : statement -> DB -> (DB * list nat) + err.
Variable cursor_fails commit_fails : DB -> option err.
Variable supported : bool.
Notation run_method := (run_method statement DB execute cursor_fails commit_fails supported).
Notation run_body := (run_body statement DB execute cursor_fails commit_fails supported).
Lemma marks_stay x :
  (forall m t c, In x (marks c) -> In x (marks (snd (fst (run_method m t c))))) /\
  (forall b t c, In x (marks c) -> In x (marks (snd (fst (run_body b t c))))).
Proof.
  apply (method_body_ind statement (fun m => forall t c, In x (marks c) -> In x (marks (snd (fst (run_method m t c)))))
    (fun b => forall t c, In x (marks c) -> In x (marks (snd (fst (run_body b t c)))))).
  - intros i b IH t c H. rewrite run_method_eq. destruct (Begin DB cursor_fails t c) as [t1 e0].
    assert (X : In x (marks (snd (fst (match e0 with Some e => (t1, c, inr e) | None => run_body b t1 c end))))) by (destruct e0; [exact H|now apply IH]).
    destruct (match e0 with Some e => (t1, c, inr e) | None => run_body b t1 c end) as [[t2 c2] r]. cbn [fst snd] in X.
    assert (R : forall c3 e sw, In x (marks c3) -> In x (marks (fst (Rollback DB supported t2 c3 e sw)))) by (intros c3 e sw X3; unfold Rollback; destruct (noCommit t2); [destruct supported|]; exact X3).
    assert (Y : In x (marks (fst (match r with
                       | inl rows => let '(c', e) := Commit DB commit_fails t2 c2 in (c', match e with Some e => inr e | None => inl rows end)
                       | inr e => (c2, inr e)
                       end)))).
    { destruct r as [rows|e]; [|exact X]. unfold Commit. destruct (noCommit t2); [destruct (commit_fails (current c2))|]; exact X. }
    destruct (match r with
                       | inl rows => let '(c', e) := Commit DB commit_fails t2 c2 in (c', match e with Some e => inr e | None => inl rows end)
                       | inr e => (c2, inr e)
                       end) as [c3 r3]. cbn [fst] in Y. destruct r3 as [rows|e]; [exact Y|].
    assert (R' := fun sw => R c3 e sw Y). destruct e, i; try (specialize (R' false); match goal with |- context [Rollback ?a ?b ?d ?f ?g false] => destruct (Rollback a b d f g false) end; exact R').
    specialize (R' true). destruct (Rollback DB supported t2 c3 Integrity true). exact R'.
  - intros rows t c H. exact H.
  - intros e t c H. exact H.
  - intros q k IH t c H. rewrite run_exec. destruct (execute q (current c)) as [[d rows]|e]; [|exact H]. apply IH. exact H.
  - intros y k IH t c H. apply IH. now right.
  - intros sh m IHm k IHk t c H. destruct sh.
    + rewrite run_call. specialize (IHm t c H). destruct (run_method m t c) as [[t' c'] [rows|e]]; [now apply IHk|exact IHm].
    + change (run_body (Call false m k) t c) with (let '(_, c', r) := run_method m new_trans c in match r with inl rows => run_body (k rows) t c' | inr e => (t, c', inr e) end).
      specialize (IHm new_trans c H). destruct (run_method m new_trans c) as [[t' c'] [rows|e]]; [now apply IHk|exact IHm].
Qed.
(** [b] marks [x] whenever it returns *)
Inductive marking (x : nat) : body statement -> Prop :=
| M_here k : marking x (Mark x k)
| M_raise e : marking x (Raise e)
| M_execute q k : (forall rows, marking x (k rows)) -> marking x (Execute q k)
| M_call sh m k : (forall rows, marking x (k rows)) -> marking x (Call sh m k).
Lemma marking_body x b : marking x b -> forall t c t' c' r, run_body b t c = (t', c', inl r) -> In x (marks c').
Proof.
  induction 1 as [k|e|q k _ IH|sh m k _ IH]; intros t c t' c' r.
  - intros E. assert (X := proj2 (marks_stay x) k t (mkConn (stable c) (current c) (published c) (x :: marks c)) (or_introl eq_refl)).
    change (run_body (Mark x k) t c) with (run_body k t (mkConn (stable c) (current c) (published c) (x :: marks c))) in E. now rewrite E in X.
  - discriminate.
  - rewrite run_exec. destruct (execute q (current c)) as [[d rows]|e]; [apply IH|discriminate].
  - destruct sh.
    + rewrite run_call. destruct (run_method m t c) as [[t1 c1] [rows|e]]; [apply IH|discriminate].
    + change (run_body (Call false m k) t c) with (let '(_, c', r) := run_method m new_trans c in match r with inl rows => run_body (k rows) t c' | inr e => (t, c', inr e) end).
      destruct (run_method m new_trans c) as [[t1 c1] [rows|e]]; [apply IH|discriminate].
Qed.
Lemma marking_method x i b t c t' c' r : marking x b -> run_method (Method i b) t c = (t', c', inl r) -> In x (marks c').
Proof.
  intros M. rewrite run_method_eq. destruct (Begin DB cursor_fails t c) as [t1 [e0|]].
  - cbv iota beta zeta. destruct e0, i; try (match goal with |- context [Rollback ?a ?b ?d ?f ?g ?h] => destruct (Rollback a b d f g h) end; discriminate).
  - destruct (run_body b t1 c) as [[t2 c2] [rows|e]] eqn:E.
    + apply (marking_body _ _ M) in E. unfold Commit. destruct (noCommit t2) as [|n].
      * destruct (commit_fails (current c2)) as [e|]; [|intros [= _ <- _]; exact E].
        destruct e, i; try (match goal with |- context [Rollback ?a ?b ?d ?f ?g ?h] => destruct (Rollback a b d f g h) end; discriminate).
      * intros [= _ <- _]. exact E.
    + destruct e, i; try (match goal with |- context [Rollback ?a ?b ?d ?f ?g ?h] => destruct (Rollback a b d f g h) end; discriminate).
Qed.
End Marks.
(** An insert that returns leaves the entity as one that exists *)
Theorem C173_exists DB execute cursor_fails commit_fails supported e fk (c : connection DB) t t' c' r :
  run_method _ _ execute cursor_fails commit_fails supported (InsertEntitySQL e fk) t c = (t', c', inl r) -> In (key e) (marks c').
Proof.
  destruct e as [x bs]. cbn [InsertEntitySQL key]. apply marking_method. generalize (InsertRow x (fk ++ foreign_keys bs)). intros q.
  match goal with |- context [Mark x ?k] => generalize k end. intros k. induction bs as [|[[n w] b] bs IH].
  - constructor. intros _. constructor.
  - destruct (here w); [|exact IH]. destruct b; [constructor; intros _; exact IH|exact IH|constructor; intros _; exact IH].
Qed.

(** ** Non-vacuity *)
(** An entity with a new one whose key it holds and a link to an existing one; and when that is missing *)
Example ex_insert : run_method _ _ execute0 (fun _ => None) (fun _ => None) true (InsertEntitySQL (Entity 1 [(0, Here, New (Entity 2 [])); (1, Aux, Existing 3)]) []) new_trans (mkConn ([3], []) ([3], []) [] [])
  = (new_trans, mkConn ([1; 2; 3], [(1, 1, 3)]) ([1; 2; 3], [(1, 1, 3)]) [([1; 2; 3], [(1, 1, 3)])] [1; 2], inl []).
Proof. reflexivity. Qed.
Example ex_insert_fails : run_method _ _ execute0 (fun _ => None) (fun _ => None) true (InsertEntitySQL (Entity 1 [(0, Here, New (Entity 2 [])); (1, Aux, Existing 3)]) []) new_trans (mkConn ([], []) ([], []) [] [])
  = (new_trans, mkConn ([], []) ([], []) [] [1; 2], inr Navigation).
Proof. reflexivity. Qed.
Example ex_no_keys : no_keys (Entity 1 [(0, Here, New (Entity 2 [])); (1, Aux, Existing 3)]) /\ passes (InsertEntitySQL (Entity 1 [(0, Here, New (Entity 2 [])); (1, Aux, Existing 3)]) []).
Proof. assert (X : no_keys (Entity 1 [(0, Here, New (Entity 2 [])); (1, Aux, Existing 3)])) by (cbn; auto). split; [exact X|now apply passes_insert]. Qed.
Example ex_update : run_method _ _ execute0 (fun _ => None) (fun _ => None) true (UpdateEntity (fun _ => false) 1 [(0, Aux, Existing 3)]) new_trans (mkConn ([1; 2; 3], [(0, 1, 2)]) ([1; 2; 3], [(0, 1, 2)]) [] [])
  = (new_trans, mkConn ([1; 2; 3], [(0, 1, 3)]) ([1; 2; 3], [(0, 1, 3)]) [([1; 2; 3], [(0, 1, 3)])] [], inl []).
Proof. reflexivity. Qed.
Example ex_delete : run_method _ _ execute0 (fun _ => None) (fun _ => None) true (DeleteEntity (Links [(0, inl true)]) 1) new_trans (mkConn ([1; 2], [(0, 1, 2)]) ([1; 2], [(0, 1, 2)]) [] [])
  = (new_trans, mkConn ([2], []) ([2], []) [([2], [])] [], inl []).
Proof. reflexivity. Qed.

Print Assumptions C171_atomic.
Print Assumptions C171_nested.
Print Assumptions C171_unsupported_refuted.
Print Assumptions C172_insert_partial.
Print Assumptions C172_update_partial.
Print Assumptions C172_delete_partial.
Print Assumptions C172_replace.
Print Assumptions C172_insert_refuted.
Print Assumptions C172_update_refuted.
Print Assumptions C172_delete_refuted.
Print Assumptions C173_exists.
Print Assumptions C173_retry_refuted.
