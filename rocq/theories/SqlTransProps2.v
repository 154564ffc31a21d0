(** C172, continued: what inserting, updating and deleting entities stores. *)
From Coq Require Import List Arith Bool Lia Permutation.
From Verif Require Import SqlTrans SqlTransSpec SqlTransProps.
Import ListNotations.

(** What a method that returns did is the plain effect of its statements, whoever's transaction they ran in *)
Section Success.
Variables (Q DB : Type).
Variable execute : Q -> DB -> (DB * list nat) + err.
Variable cursor_fails commit_fails : DB -> option err.
Variable supported : bool.
Notation run_method := (run_method Q DB execute cursor_fails commit_fails supported).
Notation run_body := (run_body Q DB execute cursor_fails commit_fails supported).
Notation plain_method := (plain_method Q DB execute).
Notation plain_body := (plain_body Q DB execute).
Lemma run_plain :
  (forall m t c t' c' rows, run_method m t c = (t', c', inl rows) -> plain_method m (current c) = inl (current c', rows)) /\
  (forall b t c t' c' rows, run_body b t c = (t', c', inl rows) -> plain_body b (current c) = inl (current c', rows)).
Proof.
  apply (method_body_ind Q (fun m => forall t c t' c' rows, run_method m t c = (t', c', inl rows) -> plain_method m (current c) = inl (current c', rows))
    (fun b => forall t c t' c' rows, run_body b t c = (t', c', inl rows) -> plain_body b (current c) = inl (current c', rows))).
  - intros i b IH t c t' c' rows. rewrite run_method_eq, plain_method_eq. destruct (Begin DB cursor_fails t c) as [t1 [e0|]].
    + cbv iota beta zeta. destruct e0, i; try (match goal with |- context [Rollback ?a ?b ?d ?f ?g ?h] => destruct (Rollback a b d f g h) end; discriminate).
    + destruct (run_body b t1 c) as [[t2 c2] [rows2|e]] eqn:E.
      * apply IH in E. rewrite E. unfold Commit. destruct (noCommit t2) as [|n].
        -- destruct (commit_fails (current c2)) as [e|]; [|intros [= _ <- <-]; reflexivity].
           destruct e, i; try (match goal with |- context [Rollback ?a ?b ?d ?f ?g ?h] => destruct (Rollback a b d f g h) end; discriminate).
        -- intros [= _ <- <-]. reflexivity.
      * destruct e, i; try (match goal with |- context [Rollback ?a ?b ?d ?f ?g ?h] => destruct (Rollback a b d f g h) end; discriminate).
  - intros rows t c t' c' r [= _ <- <-]. reflexivity.
  - discriminate.
  - intros q k IH t c t' c' r. rewrite run_exec, plain_exec. destruct (execute q (current c)) as [[d rows]|e]; [|discriminate]. intros E. apply IH in E. exact E.
  - intros x k IH t c t' c' r E. exact (IH t (mkConn (stable c) (current c) (published c) (x :: marks c)) t' c' r E).
  - intros sh m IHm k IHk t c t' c' r. rewrite plain_call. destruct sh.
    + rewrite run_call. destruct (run_method m t c) as [[t1 c1] [rows|e]] eqn:E; [|discriminate]. rewrite (IHm _ _ _ _ _ E). apply IHk.
    + change (run_body (Call false m k) t c) with (let '(_, c', r) := run_method m new_trans c in match r with inl rows => run_body (k rows) t c' | inr e => (t, c', inr e) end).
      destruct (run_method m new_trans c) as [[t1 c1] [rows|e]] eqn:E; [|discriminate]. rewrite (IHm _ _ _ _ _ E). apply IHk.
Qed.
Lemma trans_kept :
  (forall m t c, cursor t = true -> cursor (fst (fst (run_method m t c))) = true /\ noCommit (fst (fst (run_method m t c))) = noCommit t) /\
  (forall b t c, cursor t = true -> cursor (fst (fst (run_body b t c))) = true /\ noCommit (fst (fst (run_body b t c))) = noCommit t).
Proof.
  apply (method_body_ind Q (fun m => forall t c, cursor t = true -> cursor (fst (fst (run_method m t c))) = true /\ noCommit (fst (fst (run_method m t c))) = noCommit t)
    (fun b => forall t c, cursor t = true -> cursor (fst (fst (run_body b t c))) = true /\ noCommit (fst (fst (run_body b t c))) = noCommit t)).
  - intros i b IH t c H. rewrite run_method_eq. unfold Begin. rewrite H. specialize (IH (mkTrans true (S (noCommit t)) (queryCount t)) c eq_refl).
    destruct (run_body b (mkTrans true (S (noCommit t)) (queryCount t)) c) as [[t2 c2] r]. cbn [fst noCommit] in IH. destruct IH as [H1 H2].
    match goal with |- context [let '(c3, r3) := ?x in _] => destruct x as [c3 r3] end.
    match goal with |- context [let '(c4, r4) := ?x in _] => destruct x as [c4 r4] end. cbn [fst]. unfold Close. rewrite H2. auto.
  - auto.
  - auto.
  - intros q k IH t c H. rewrite run_exec. destruct (execute q (current c)) as [[d rows]|e]; [|auto]. apply (IH rows (mkTrans (cursor t) (noCommit t) (S (queryCount t))) _ H).
  - intros x k IH t c H. apply (IH t (mkConn (stable c) (current c) (published c) (x :: marks c)) H).
  - intros sh m IHm k IHk t c H. destruct sh.
    + rewrite run_call. specialize (IHm t c H). destruct (run_method m t c) as [[t1 c1] [rows|e]]; cbn [fst] in *; [|exact IHm]. destruct IHm as [H1 H2]. rewrite <- H2. now apply IHk.
    + change (run_body (Call false m k) t c) with (let '(_, c', r) := run_method m new_trans c in match r with inl rows => run_body (k rows) t c' | inr e => (t, c', inr e) end).
      destruct (run_method m new_trans c) as [[t1 c1] [rows|e]]; cbn [fst]; [now apply IHk|auto].
Qed.
(** A method called without a transaction that returns has committed *)
Lemma run_commits m c t' c' rows : run_method m new_trans c = (t', c', inl rows) -> stable c' = current c'.
Proof.
  destruct m as [i b]. rewrite run_method_eq. unfold Begin. cbn [cursor new_trans]. destruct (cursor_fails (current c)) as [e0|].
  - cbv iota beta zeta. destruct e0, i; try (match goal with |- context [Rollback ?a ?b ?d ?f ?g ?h] => destruct (Rollback a b d f g h) end; discriminate).
  - assert (K := proj2 trans_kept b (mkTrans true 0 0) c eq_refl). cbn [noCommit queryCount new_trans]. destruct (run_body b (mkTrans true 0 0) c) as [[t2 c2] [rows2|e]]; cbn [fst noCommit] in K; destruct K as [_ K].
    + unfold Commit. rewrite K. destruct (commit_fails (current c2)) as [e|]; [|now intros [= _ <- _]].
      destruct e, i; try (match goal with |- context [Rollback ?a ?b ?d ?f ?g ?h] => destruct (Rollback a b d f g h) end; discriminate).
    + destruct e, i; try (match goal with |- context [Rollback ?a ?b ?d ?f ?g ?h] => destruct (Rollback a b d f g h) end; discriminate).
Qed.
End Success.

Section Stores.
Variable DB : Type.
Variable execute : statement -> DB -> (DB * list nat) + err.
Notation plain_method := (plain_method statement (DB * list statement) (logged execute)).
Notation plain_body := (plain_body statement (DB * list statement) (logged execute)).
(** The changes of a method or a body that returns are, in some order, [l] *)
Definition does (m : method statement) (l : list statement) : Prop :=
  forall d d' rows, plain_method m d = inl (d', rows) -> exists l', changes (snd d') = changes (snd d) ++ l' /\ Permutation l' l.
Definition does_body (b : body statement) (l : list statement) : Prop :=
  forall d d' rows, plain_body b d = inl (d', rows) -> exists l', changes (snd d') = changes (snd d) ++ l' /\ Permutation l' l.
Lemma does_method i b l : does_body b l -> does (Method i b) l.
Proof. intros H d d' rows. rewrite plain_method_eq. destruct (plain_body b d) as [x|e] eqn:E; [|discriminate]. intros [= ->]. exact (H d d' rows E). Qed.
Lemma does_return rows : does_body (Return rows) [].
Proof. intros d d' r [= -> _]. exists []. split; [now rewrite app_nil_r|reflexivity]. Qed.
Lemma does_raise e l : does_body (Raise e) l.
Proof. intros d d' r. discriminate. Qed.
Lemma does_exec q k l : (forall rows, does_body (k rows) l) -> does_body (Execute q k) (if change q then q :: l else l).
Proof.
  intros H d d' rows. rewrite plain_exec. unfold logged at 1. destruct (execute q (fst d)) as [[x r]|e]; [|discriminate]. intros E.
  destruct (H r _ _ _ E) as (l' & E1 & P). cbn [snd] in E1. unfold changes in E1. rewrite filter_app in E1. cbn [filter] in E1. destruct (change q).
  - exists (q :: l'). split; [unfold changes; rewrite E1, <- app_assoc; reflexivity|now constructor].
  - exists l'. rewrite app_nil_r in E1. auto.
Qed.
Lemma does_call sh m k l l2 : does m l -> (forall rows, does_body (k rows) l2) -> does_body (Call sh m k) (l ++ l2).
Proof.
  intros Hm Hk d d' rows. rewrite plain_call. destruct (plain_method m d) as [[d1 r]|e] eqn:E; [|discriminate]. intros E2.
  destruct (Hm _ _ _ E) as (l1 & E1 & P1). destruct (Hk _ _ _ _ E2) as (l3 & E3 & P3). exists (l1 ++ l3). split; [rewrite E3, E1, app_assoc; reflexivity|now apply Permutation_app].
Qed.
Lemma does_mark x k l : does_body k l -> does_body (Mark x k) l.
Proof. intros H d d' rows E. exact (H d d' rows E). Qed.
Lemma does_perm b l l' : does_body b l -> Permutation l l' -> does_body b l'.
Proof. intros H P d d' rows E. destruct (H _ _ _ E) as (x & E1 & P1). exists x. split; [exact E1|now rewrite P1]. Qed.
Lemma does_getitem x : does (getitem x) [].
Proof. apply does_method. apply (does_exec (SelectRow x) _ []). intros [|r [|r' rows]]; [apply does_raise|apply does_return|apply does_raise]. Qed.
Lemma does_InsertLink a n x y : does (InsertLink a n x y) [SetLink n x y].
Proof. apply does_method. apply (does_exec (SetLink n x y) _ []). intros rows. destruct a; [apply does_return|]. destruct rows; [apply does_raise|apply does_return]. Qed.
Lemma does_ClearLinks a n x : does (ClearLinks a n x) [UnsetLinks n x].
Proof. apply does_method. apply (does_exec (UnsetLinks n x) _ []). intros rows. apply does_return. Qed.
Lemma does_DeleteLink n x y : does (DeleteLink n x y) [UnsetLink n x y].
Proof. apply does_method. apply (does_exec (UnsetLink n x y) _ []). intros [|r rows]; [apply does_raise|apply does_return]. Qed.
Lemma does_ReplaceLink a n x y : does (ReplaceLink a n x y) [UnsetLinks n x; SetLink n x y].
Proof. apply does_method. apply (does_call true (ClearLinks a n x) _ [UnsetLinks n x] [SetLink n x y]); [apply does_ClearLinks|]. intros _. apply (does_call true (InsertLink a n x y) _ [SetLink n x y] []); [apply does_InsertLink|apply does_return]. Qed.

Lemma does_link a n x y k l : does_body k l -> does_body (Call true (InsertLink a n x y) (fun _ => k)) (SetLink n x y :: l).
Proof. intros H. apply (does_call true (InsertLink a n x y) (fun _ => k) [SetLink n x y] l); [apply does_InsertLink|exact (fun _ => H)]. Qed.
(** The parts of what an insert stores: through bindings kept here, and through the others *)
Definition part1 (x : nat) (p : nat * where_kept * binding) : list statement :=
  let '(n, w, b) := p in if here w then match b with New e' => new_rows e' [] ++ new_links e' | _ => [] end else [].
Definition part3 (x : nat) (p : nat * where_kept * binding) : list statement :=
  let '(n, w, b) := p in
  if here w then []
  else match b with
       | ByKey y | Existing y => [SetLink n x y]
       | New e' => if aux w then (new_rows e' [] ++ new_links e') ++ [SetLink n x (key e')] else new_rows e' [x] ++ new_links e'
       end.
Lemma parts x fk bs : Permutation (flat_map (part1 x) bs ++ [InsertRow x (fk ++ foreign_keys bs)] ++ flat_map (part3 x) bs) (new_rows (Entity x bs) fk ++ new_links (Entity x bs)).
Proof.
  cbn [new_rows new_links]. rewrite <- app_comm_cons. generalize (InsertRow x (fk ++ foreign_keys bs)). intros q. rewrite <- Permutation_middle. cbn [app]. constructor.
  induction bs as [|[[n w] b] bs IH]; [reflexivity|]. cbn [flat_map]. revert IH.
  generalize (flat_map (part1 x) bs) (flat_map (part3 x) bs). intros f1 f3.
  match goal with |- Permutation _ (?a ++ ?b) -> _ => generalize a b end. intros g1 g3 IH.
  assert (X : forall p1 p3 a1 a3 : list statement, Permutation (p1 ++ p3) (a1 ++ a3) -> Permutation ((p1 ++ f1) ++ (p3 ++ f3)) ((a1 ++ g1) ++ (a3 ++ g3))).
  { intros p1 p3 a1 a3 P. transitivity ((p1 ++ p3) ++ (f1 ++ f3)).
    - rewrite <- !app_assoc. apply Permutation_app_head. rewrite !app_assoc. apply Permutation_app_tail. apply Permutation_app_comm.
    - rewrite P, IH. rewrite <- !app_assoc. apply Permutation_app_head. rewrite !app_assoc. apply Permutation_app_tail. apply Permutation_app_comm. }
  destruct w; cbn [part1 part3 here aux].
  - destruct b as [y|y|e']; [exact IH|exact IH|]. specialize (X (new_rows e' [] ++ new_links e') [] (new_rows e' []) (new_links e')). rewrite app_nil_r in X. exact (X (Permutation_refl _)).
  - destruct b as [y|y|e']; [apply (X [] [SetLink n x y] [] [SetLink n x y]); reflexivity|apply (X [] [SetLink n x y] [] [SetLink n x y]); reflexivity|].
    apply (X [] (new_rows e' [x] ++ new_links e') (new_rows e' [x]) (new_links e')). reflexivity.
  - destruct b as [y|y|e']; [apply (X [] [SetLink n x y] [] [SetLink n x y]); reflexivity|apply (X [] [SetLink n x y] [] [SetLink n x y]); reflexivity|].
    specialize (X [] ((new_rows e' [] ++ new_links e') ++ [SetLink n x (key e')]) (new_rows e' []) ([SetLink n x (key e')] ++ new_links e')).
    change (SetLink n x (target (New e'))) with (SetLink n x (key e')). rewrite (app_assoc [SetLink n x (key e')] (new_links e') g3). apply X. cbn [app]. rewrite <- app_assoc. apply Permutation_app_head. apply Permutation_sym, Permutation_cons_append.
Qed.
Lemma does_insert e : forall fk, does (InsertEntitySQL e fk) (new_rows e fk ++ new_links e).
Proof.
  induction e as [x bs IH] using entity_ind2. intros fk. cbn [InsertEntitySQL]. apply does_method. apply (does_perm _ _ _) with (2 := parts x fk bs).
  match goal with |- context [Mark x (?k bs)] => assert (S3 : forall l, incl l bs -> does_body (k l) (flat_map (part3 x) l)) end.
  { induction l as [|[[n w] b] l IHl]; intros Hi; [apply does_return|]. specialize (IHl (fun p Hp => Hi p (or_intror Hp))). cbn [flat_map part3]. destruct (here w); [exact IHl|].
    destruct b as [y|y|e'].
    - apply (does_call false (getitem y) _ []); [apply does_getitem|]. intros _. apply does_link. exact IHl.
    - apply does_link. exact IHl.
    - assert (A := IH n w e' (Hi _ (or_introl eq_refl))). destruct (aux w).
      + rewrite <- app_assoc. apply does_call; [apply A|]. intros _. apply does_link. exact IHl.
      + apply does_call; [apply A|]. intros _. exact IHl. }
  specialize (S3 bs (fun p Hp => Hp)). revert S3. match goal with |- does_body ?k _ -> _ => generalize k end. intros k S3.
  assert (T : does_body (Execute (InsertRow x (fk ++ foreign_keys bs)) (fun _ => Mark x k)) ([InsertRow x (fk ++ foreign_keys bs)] ++ flat_map (part3 x) bs)).
  { apply (does_exec (InsertRow x (fk ++ foreign_keys bs))). intros _. apply does_mark. exact S3. }
  clear S3. revert T. generalize ([InsertRow x (fk ++ foreign_keys bs)] ++ flat_map (part3 x) bs) (Execute (InsertRow x (fk ++ foreign_keys bs)) (fun _ => Mark x k)). intros tl b0 T.
  induction bs as [|[[n w] b] bs IHb]; [exact T|]. specialize (IHb (fun n0 w0 e0 X => IH n0 w0 e0 (or_intror X))). cbn [flat_map part1]. destruct (here w); [|exact IHb].
  destruct b as [y|y|e'].
  - apply (does_call false (getitem y) _ []); [apply does_getitem|]. intros _. exact IHb.
  - exact IHb.
  - rewrite <- app_assoc. apply does_call; [exact (IH n w e' (or_introl eq_refl) [])|]. intros _. exact IHb.
Qed.

(** ** Updates *)
Definition upart3 (multi : nat -> bool) (x : nat) (p : nat * where_kept * binding) : list statement :=
  let '(n, w, b) := p in
  if here w then []
  else
    let link y := if multi n then [SetLink n x y] else [UnsetLinks n x; SetLink n x y] in
    match b with
    | ByKey y | Existing y => link y
    | New e' => if aux w then (new_rows e' [] ++ new_links e') ++ link (key e')
                else (if multi n then [] else [UnsetLinks n x]) ++ new_rows e' [x] ++ new_links e'
    end.
Lemma does_update3 multi x l : does_body (update3 multi x l) (flat_map (upart3 multi x) l).
Proof.
  induction l as [|[[n w] b] l IH]; [apply does_return|]. cbn [update3 flat_map upart3]. destruct (here w); [exact IH|].
  assert (L : forall y, does_body (Call true (if multi n then InsertLink (aux w) n x y else ReplaceLink (aux w) n x y) (fun _ => update3 multi x l)) ((if multi n then [SetLink n x y] else [UnsetLinks n x; SetLink n x y]) ++ flat_map (upart3 multi x) l)).
  { intros y. apply does_call; [|intros _; exact IH]. destruct (multi n); [apply does_InsertLink|apply does_ReplaceLink]. }
  destruct b as [y|y|e'].
  - apply (does_call false (getitem y) _ []); [apply does_getitem|]. intros _. apply L.
  - apply L.
  - destruct (aux w).
    + rewrite <- app_assoc. apply does_call; [apply does_insert|]. intros _. apply L.
    + rewrite <- !app_assoc. destruct (multi n); cbn [app].
      * rewrite app_assoc. apply does_call; [apply does_insert|]. intros _. exact IH.
      * apply (does_call true (ClearLinks false n x) _ [UnsetLinks n x]); [apply does_ClearLinks|]. intros _. rewrite app_assoc. apply does_call; [apply does_insert|]. intros _. exact IH.
Qed.
Lemma uparts multi x bs : Permutation (flat_map (part1 x) bs ++ [UpdateRow x (foreign_keys bs)] ++ flat_map (upart3 multi x) bs) (update_changes multi x bs).
Proof.
  unfold update_changes. generalize (UpdateRow x (foreign_keys bs)). intros q. cbn [app]. rewrite <- Permutation_middle. constructor.
  induction bs as [|[[n w] b] bs IH]; [reflexivity|]. cbn [flat_map]. rewrite <- IH.
  assert (X : forall p1 p3 a f1 f3 : list statement, Permutation (p1 ++ p3) a -> Permutation ((p1 ++ f1) ++ (p3 ++ f3)) (a ++ f1 ++ f3)).
  { intros p1 p3 a f1 f3 P. rewrite <- P. rewrite <- !app_assoc. apply Permutation_app_head. rewrite !app_assoc. apply Permutation_app_tail. apply Permutation_app_comm. }
  apply X. destruct w; cbn [part1 upart3 here aux app].
  - rewrite app_nil_r. reflexivity.
  - destruct b as [y|y|e']; destruct (multi n); cbn [app]; reflexivity.
  - destruct b as [y|y|e']; destruct (multi n); cbn [app target]; try reflexivity; rewrite Permutation_app_comm; reflexivity.
Qed.
Lemma does_update multi x bs : does (UpdateEntity multi x bs) (update_changes multi x bs).
Proof.
  apply does_method. apply (does_perm _ _ _) with (2 := uparts multi x bs).
  assert (X : forall l, does_body (update1 multi x bs l) (flat_map (part1 x) l ++ [UpdateRow x (foreign_keys bs)] ++ flat_map (upart3 multi x) bs)); [|apply X].
  induction l as [|[[n w] b] l IH].
  - cbn [update1 flat_map app]. apply (does_exec (UpdateRow x (foreign_keys bs))). intros [|r rows]; [apply does_raise|apply does_update3].
  - cbn [update1 flat_map part1]. destruct (here w); [|exact IH]. destruct b as [y|y|e'].
    + apply (does_call false (getitem y) _ []); [apply does_getitem|]. intros _. exact IH.
    + exact IH.
    + rewrite <- app_assoc. apply does_call; [apply does_insert|]. intros _. exact IH.
Qed.
End Stores.

(** An insert that returns has stored one row for the entity and for each new one bound to it and one link
    for each other binding, nothing else, and has left nothing uncommitted *)
Theorem C172_insert_stores DB execute cursor_fails commit_fails supported e fk (c : connection (DB * list statement)) t' c' rows :
  run_method _ _ (@logged DB execute) cursor_fails commit_fails supported (InsertEntitySQL e fk) new_trans c = (t', c', inl rows) ->
  stable c' = current c' /\ exists l, changes (snd (current c')) = changes (snd (current c)) ++ l /\ Permutation l (new_rows e fk ++ new_links e).
Proof. intros E. split; [exact (run_commits _ _ _ _ _ _ _ _ _ _ _ E)|]. apply run_plain in E. exact (does_insert DB execute e fk _ _ _ E). Qed.
Theorem C172_update_stores DB execute cursor_fails commit_fails supported multi x bs (c : connection (DB * list statement)) t' c' rows :
  run_method _ _ (@logged DB execute) cursor_fails commit_fails supported (UpdateEntity multi x bs) new_trans c = (t', c', inl rows) ->
  stable c' = current c' /\ exists l, changes (snd (current c')) = changes (snd (current c)) ++ l /\ Permutation l (update_changes multi x bs).
Proof. intros E. split; [exact (run_commits _ _ _ _ _ _ _ _ _ _ _ E)|]. apply run_plain in E. exact (does_update DB execute multi x bs _ _ _ E). Qed.
(** ** Deletes *)
Lemma links_ind2 (P : links -> Prop) (H : forall l, (forall n s, In (n, inr s) l -> P s) -> P (Links l)) : forall s, P s.
Proof.
  fix IH 1. intros [l]. apply H. induction l as [|[n [a|s]] l IHl]; [intros ? ? []| |].
  - intros n' s' [E|X]; [discriminate E|exact (IHl n' s' X)].
  - intros n' s' [E|X]; [injection E as _ <-; apply IH|exact (IHl n' s' X)].
Qed.
Section Deletes.
Variable DB : Type.
Variable execute : statement -> DB -> (DB * list nat) + err.
Notation plain_method := (plain_method statement (DB * list (statement * list nat)) (answered execute)).
Notation plain_body := (plain_body statement (DB * list (statement * list nat)) (answered execute)).
Lemma exec_answered q k d d' rows : plain_body (Execute q k) d = inl (d', rows) -> exists x r, plain_body (k r) (x, snd d ++ [(q, r)]) = inl (d', rows).
Proof. rewrite plain_exec. unfold answered at 1. destruct (execute q (fst d)) as [[x r]|e]; [|discriminate]. intros E. now exists x, r. Qed.
Lemma call_answered sh m k d d' rows : plain_body (Call sh m k) d = inl (d', rows) -> exists d1 r, plain_method m d = inl (d1, r) /\ plain_body (k r) d1 = inl (d', rows).
Proof. rewrite plain_call. destruct (plain_method m d) as [[d1 r]|e]; [|discriminate]. intros E. now exists d1, r. Qed.
Lemma method_answered i b d d' rows : plain_method (Method i b) d = inl (d', rows) -> plain_body b d = inl (d', rows).
Proof. rewrite plain_method_eq. destruct (plain_body b d); [auto|discriminate]. Qed.
Lemma deletes s : forall x d d' rows, plain_method (DeleteEntity s x) d = inl (d', rows) -> exists l, snd d' = snd d ++ l /\ deleted s x l.
Proof.
  induction s as [l IH] using links_ind2. intros x d d' rows E. cbn [DeleteEntity] in E. apply method_answered in E.
  enough (X : exists part r, snd d' = snd d ++ part ++ [(DeleteRow x, [r])] /\ ends_done l x part).
  { destruct X as (part & r & E1 & X). exists (part ++ [(DeleteRow x, [r])]). split; [exact E1|now constructor]. }
  revert d E. induction l as [|[n [a|s]] l IHl]; intros d E.
  - apply exec_answered in E as (z & r & E). destruct r as [|r [|r' rs]]; [discriminate E| |discriminate E]. injection E as <- _. exists [], r. split; [reflexivity|constructor].
  - apply call_answered in E as (d1 & r & E1 & E2). destruct (IHl (fun n0 s0 X => IH n0 s0 (or_intror X)) d1 E2) as (part & r0 & E3 & X).
    apply method_answered, exec_answered in E1 as (z & r1 & E1). injection E1 as <- _. cbn [snd] in E3. exists ((UnsetLinks n x, r1) :: part), r0. split; [rewrite E3, <- app_assoc; reflexivity|now constructor].
  - apply call_answered in E as (d1 & ys & E1 & E2). apply method_answered, exec_answered in E1 as (z & r1 & E1). injection E1 as <- ->.
    assert (Y : forall ys d1, plain_body ((fix each ys := match ys with
                              | [] => (fix ends l : body statement :=
        match l with
        | [] => Execute (DeleteRow x) (fun rows => match rows with [] => Raise KeyErr | [_] => Return [] | _ => Raise SQLErr end)
        | (n, inl a) :: l' => Call true (ClearLinks a n x) (fun _ => ends l')
        | (n, inr s') :: l' =>
            Call false (values n x) (fun ys =>
              (fix each ys := match ys with
                              | [] => ends l'
                              | y :: ys' => Call true (DeleteLink n x y) (fun _ => Call true (DeleteEntity s' y) (fun _ => each ys'))
                              end) ys)
        end) l
                              | y :: ys' => Call true (DeleteLink n x y) (fun _ => Call true (DeleteEntity s y) (fun _ => each ys'))
                              end) ys) d1 = inl (d', rows) ->
              exists sub part r, snd d' = snd d1 ++ sub ++ part ++ [(DeleteRow x, [r])] /\ each_done s n x ys sub /\ ends_done l x part).
    { clear - IH IHl. intros ys. induction ys as [|y ys IHy]; intros d1 E.
      - destruct (IHl (fun n0 s0 X => IH n0 s0 (or_intror X)) d1 E) as (part & r0 & E3 & X). exists [], part, r0. split; [exact E3|]. split; [constructor|exact X].
      - apply call_answered in E as (d2 & r & E1 & E2). apply method_answered, exec_answered in E1 as (z & r1 & E1). destruct r1 as [|r1 rs]; [discriminate E1|]. injection E1 as <- _.
        apply call_answered in E2 as (d3 & r2 & E2 & E3). destruct (IH n s (or_introl eq_refl) y _ _ _ E2) as (l2 & E4 & X2). cbn [snd] in E4.
        destruct (IHy d3 E3) as (sub & part & r3 & E5 & X3 & X4). exists ((UnsetLink n x y, r1 :: rs) :: l2 ++ sub), part, r3. split; [|split; [now constructor|exact X4]].
        rewrite E5, E4, <- !app_assoc. cbn [app]. now rewrite <- !app_assoc. }
    destruct (Y ys _ E2) as (sub & part & r & E3 & X1 & X2). cbn [snd] in E3. exists ((SelectLinks n x, ys) :: sub ++ part), r. split; [|now constructor].
    rewrite E3, <- !app_assoc. cbn [app]. now rewrite <- !app_assoc.
Qed.
End Deletes.
(** A delete that returns has deleted the entity and all that depend on it, has dropped its links, and has committed *)
Theorem C172_deletes DB execute cursor_fails commit_fails supported s x (c : connection (DB * list (statement * list nat))) t' c' rows :
  run_method _ _ (@answered DB execute) cursor_fails commit_fails supported (DeleteEntity s x) new_trans c = (t', c', inl rows) ->
  stable c' = current c' /\ exists l, snd (current c') = snd (current c) ++ l /\ deleted s x l.
Proof. intros E. split; [exact (run_commits _ _ _ _ _ _ _ _ _ _ _ E)|]. apply run_plain in E. exact (deletes DB execute s x _ _ _ E). Qed.

(** ** Non-vacuity *)
Example ex_stores : new_rows (Entity 1 [(0, Here, New (Entity 2 [])); (1, Aux, Existing 3); (2, There, New (Entity 4 [(3, Aux, New (Entity 5 []))]))]) [9]
    ++ new_links (Entity 1 [(0, Here, New (Entity 2 [])); (1, Aux, Existing 3); (2, There, New (Entity 4 [(3, Aux, New (Entity 5 []))]))])
  = [InsertRow 1 [9; 2]; InsertRow 2 []; InsertRow 4 [1]; InsertRow 5 []; SetLink 1 1 3; SetLink 3 4 5].
Proof. reflexivity. Qed.
Example ex_insert_runs :
  let r := run_method _ _ (logged execute0) (fun _ => None) (fun _ => None) true (InsertEntitySQL (Entity 1 [(0, Here, New (Entity 2 [])); (1, Aux, ByKey 3); (2, There, New (Entity 4 []))]) []) new_trans
    (mkConn ([3], [], []) ([3], [], []) [] []) in
  snd r = inl [] /\ snd (stable (snd (fst r))) = [InsertRow 2 []; InsertRow 1 [2]; SelectRow 3; SetLink 1 1 3; InsertRow 4 [1]].
Proof. vm_compute. split; reflexivity. Qed.
Example ex_update_runs :
  let r := run_method _ _ (logged execute0) (fun _ => None) (fun _ => None) true (UpdateEntity (fun _ => false) 1 [(1, Aux, Existing 3); (2, There, New (Entity 4 []))]) new_trans
    (mkConn ([1; 3], [], []) ([1; 3], [], []) [] []) in
  snd r = inl [] /\ snd (stable (snd (fst r))) = [UpdateRow 1 []; UnsetLinks 1 1; SetLink 1 1 3; UnsetLinks 2 1; InsertRow 4 [1]].
Proof. vm_compute. split; reflexivity. Qed.
Example ex_delete_runs :
  let r := run_method _ _ (answered execute0) (fun _ => None) (fun _ => None) true (DeleteEntity (Links [(0, inr (Links [])); (1, inl true)]) 1) new_trans
    (mkConn ([1; 2; 3], [(0, 1, 2); (1, 1, 3)], []) ([1; 2; 3], [(0, 1, 2); (1, 1, 3)], []) [] []) in
  snd r = inl [] /\ fst (stable (snd (fst r))) = ([3], []).
Proof. vm_compute. split; reflexivity. Qed.

Print Assumptions C172_insert_stores.
Print Assumptions C172_update_stores.
Print Assumptions C172_deletes.
