(** Proofs about navigation collections and insertion. *)
From Verif Require Import Py Memds MemdsSpec MemdsProofs MemdsProofs2.
From Coq Require Import Lia Permutation.

Scheme entity_mut := Induction for entity Sort Prop
  with bindings_mut := Induction for bindings Sort Prop.
Combined Scheme entity_bindings_ind from entity_mut, bindings_mut.

Section Nav.
Variable order : list key -> list key.
Hypothesis order_perm : forall l, Permutation (order l) l.
Variable sch : schema.

(** ** Unfolding *)

Lemma InsertEntity_eq flt s ok props bs fe st :
  InsertEntity order sch flt s (Ent ok props bs) fe st =
      match (match ok with
             | Some k => Ok (k, st)
             | None => '(z, x) <- NextKey (numeric sch s) (stores st s) ;;
                       Ok (KOne (AInt z), set_store st s x)
             end) with
      | Err x => (st, Err x)
      | Ok (k, st) =>
          if in_collection flt s k st then (st, Err ConstraintError)
          else if negb (check_constraints sch s fe bs) then (st, Err NavigationError)
          else
            match UpdateBindings order sch s k bs
                    (set_store st s (AddEntity (stores st s) k props)) with
            | (st, Some x) => (st, Err x)
            | (st, None) => (st, Ok k)
            end
      end.
Proof. reflexivity. Qed.

Lemma UpdateBindings_eq s k bs st :
  UpdateBindings order sch s k bs st =
  match bs with
  | BNil => (st, None)
  | BKey e t rest =>
      if negb (end_valid sch s e) then (st, Some KeyError)
      else if negb (in_collection no_filter (end_store sch (other e)) t st)
      then (st, Some KeyError)
      else
        match bind_existing order sch e k t st with
        | (st, Some x) => (st, Some x)
        | (st, None) => UpdateBindings order sch s k rest st
        end
  | BEnt e t rest =>
      if negb (end_valid sch s e) then (st, Some KeyError)
      else
        match bind_existing order sch e k t st with
        | (st, Some x) => (st, Some x)
        | (st, None) => UpdateBindings order sch s k rest st
        end
  | BNew e n rest =>
      if negb (end_valid sch s e) then (st, Some KeyError)
      else
        match InsertEntity order sch no_filter (end_store sch (other e)) n (Some (other e)) st with
        | (st, Err x) => (st, Some x)
        | (st, Ok t) =>
            match nav_setitem sch e k t (end_store sch (other e)) t st with
            | (st, Some x) => (st, Some x)
            | (st, None) => UpdateBindings order sch s k rest st
            end
        end
  end.
Proof. destruct bs; reflexivity. Qed.

Lemma named_eq ok props bs : named sch (Ent ok props bs) = named_in sch bs.
Proof. reflexivity. Qed.
Lemma named_in_eq bs : named_in sch bs =
  match bs with
  | BNil => []
  | BKey _ _ r => named_in sch r
  | BEnt e t r => (end_store sch (other e), t) :: named_in sch r
  | BNew _ n r => named sch n ++ named_in sch r
  end.
Proof. destruct bs; reflexivity. Qed.

(** ** Adding and removing one link *)

Lemma wf_add st e k t : wf st -> wf (add_link st e k t).
Proof.
  intros W i. unfold add_link; cbn. unfold upd. destruct (Nat.eqb (fst e) i); [|apply W].
  destruct (snd e); apply wf_AddLink, W.
Qed.

Lemma wf_remove st e k t : wf st -> wf (remove_link st e k t).
Proof.
  intros W i. unfold remove_link; cbn. unfold upd. destruct (Nat.eqb (fst e) i); [|apply W].
  destruct (snd e); apply wf_RemoveLink, W.
Qed.

Lemma other_other e : other (other e) = e.
Proof. destruct e as [i b]. unfold other; cbn. rewrite negb_involutive. reflexivity. Qed.

Lemma end_cases e f : fst e = fst f -> f = e \/ f = other e.
Proof.
  destruct e as [i b], f as [j c]; cbn. intros ->. unfold other; cbn.
  destruct b, c; cbn; tauto.
Qed.

Lemma elink_add st e k t f u v : wf st ->
  elink (add_link st e k t) f u v <->
  elink st f u v \/ (f = e /\ u = k /\ v = t) \/ (f = other e /\ u = t /\ v = k).
Proof.
  intros W. pose proof (wf_add st e k t W) as W'. rewrite !elink_linked by assumption.
  unfold linked, add_link; cbn. rewrite upd_case.
  destruct (Nat.eqb_spec (fst e) (fst f)) as [E|E].
  - destruct e as [i b], f as [j c]; cbn in *. subst j. unfold other; cbn.
    pose proof (linked_AddLink (links st i)) as A.
    destruct b, c; cbn; rewrite A by apply W;
      (split; [intros [[? ?]|?]; subst; tauto|intros [?|[(? & ? & ?)|(? & ? & ?)]]; subst; try tauto; try congruence]).
  - split; [tauto|]. intros [H|[(-> & _)|(-> & _)]]; [exact H|congruence|].
    unfold other in E; cbn in E. congruence.
Qed.

Lemma elink_remove st e k t f u v : wf st ->
  elink (remove_link st e k t) f u v <->
  elink st f u v /\ ~ (f = e /\ u = k /\ v = t) /\ ~ (f = other e /\ u = t /\ v = k).
Proof.
  intros W. pose proof (wf_remove st e k t W) as W'. rewrite !elink_linked by assumption.
  unfold linked, remove_link; cbn. rewrite upd_case.
  destruct (Nat.eqb_spec (fst e) (fst f)) as [E|E].
  - destruct e as [i b], f as [j c]; cbn in *. subst j. unfold other; cbn.
    destruct b, c; cbn; rewrite linked_RemoveLink;
      (split;
       [intros [Hn Hl]; split; [exact Hl|]; split; intros (? & ? & ?); try congruence; apply Hn; tauto
       |intros (Hl & Hn1 & Hn2); split; [|exact Hl]; intros [? ?]; subst; tauto]).
  - split; [|tauto]. intros H. split; [exact H|]. split; intros (-> & _); [congruence|].
    unfold other in E; cbn in E. congruence.
Qed.

(** ** What the operations on navigation collections do *)

Definition same_data (st st' : state) : Prop := stores st' = stores st.

Lemma mult_neqb a b : mult_eqb a b = false <-> a <> b.
Proof. destruct a, b; cbn; split; congruence. Qed.

Lemma nav_setitem_cases e k t vs vk st st' x : wf st ->
  nav_setitem sch e k t vs vk st = (st', x) ->
  (st' = st /\ x <> None) \/
  (x = None /\ elink st e k t /\ st' = st) \/
  (x = None /\ st' = add_link st e k t /\ ~ elink st e k t /\
   present st (end_store sch (other e), t) /\
   (toMult sch e <> Many -> forall u, ~ elink st e k u) /\
   (fromMult sch e <> Many -> forall u, ~ elink st e u t)).
Proof.
  intros W. unfold nav_setitem.
  destruct (kmem_spec t (lookup st e k)) as [H1|H1]; [injection 1 as <- <-; right; left; tauto|].
  destruct (negb (Nat.eqb vs _)); [injection 1 as <- <-; left; split; congruence|].
  destruct (negb (key_eqb t vk)); [injection 1 as <- <-; left; split; congruence|].
  destruct (in_collection no_filter (end_store sch (other e)) t st) eqn:Hp; cbn [negb];
    [|injection 1 as <- <-; left; split; congruence].
  destruct (negb (mult_eqb (toMult sch e) Many) && _) eqn:Hm1;
    [injection 1 as <- <-; left; split; congruence|].
  destruct (negb (mult_eqb (fromMult sch e) Many) && _) eqn:Hm2;
    [injection 1 as <- <-; left; split; congruence|].
  injection 1 as <- <-. right; right. split; [reflexivity|]. split; [reflexivity|].
  split; [exact H1|]. split.
  { unfold in_collection in Hp. destruct (dget t _) as [row|] eqn:E; [|discriminate].
    exists row. exact E. }
  split.
  - intros Hm u Hu. apply mult_neqb in Hm. rewrite Hm in Hm1; cbn in Hm1.
    unfold elink in Hu. destruct (lookup st e k); [destruct Hu|discriminate].
  - intros Hm u Hu. apply mult_neqb in Hm. rewrite Hm in Hm2; cbn in Hm2.
    apply (elink_other st e u t W) in Hu.
    unfold elink in Hu. unfold rlookup in Hm2. destruct (lookup st (other e) t); [destruct Hu|discriminate].
Qed.

(** The loop of Replace. *)
Lemma remove_others_spec e k t olds : forall st, wf st ->
  wf (remove_others e k t olds st) /\ stores (remove_others e k t olds st) = stores st /\
  forall f u v, elink (remove_others e k t olds st) f u v <->
    elink st f u v /\ ~ (f = e /\ u = k /\ In v olds /\ v <> t)
                   /\ ~ (f = other e /\ v = k /\ In u olds /\ u <> t).
Proof.
  induction olds as [|o olds IH]; intros st W; cbn [remove_others fold_left].
  - split; [exact W|]. split; [reflexivity|]. intros f u v. cbn. tauto.
  - change (fold_left _ olds ?s) with (remove_others e k t olds s).
    destruct (key_eqb_spec o t) as [->|Ho].
    + destruct (IH st W) as (W1 & S1 & H1). split; [exact W1|]. split; [exact S1|].
      intros f u v. rewrite H1. cbn [In].
      split; intros (A & B & C); (split; [exact A|]); split;
        intros (D1 & D2 & D3 & D4); try (destruct D3 as [D3|D3]; [congruence|]); tauto.
    + destruct (IH _ (wf_remove st e k o W)) as (W1 & S1 & H1). split; [exact W1|].
      split; [rewrite S1; reflexivity|]. intros f u v. rewrite H1, elink_remove by exact W.
      cbn [In]. split.
      * intros ((A & B1 & B2) & C & D). split; [exact A|].
        split; intros (D1 & D2 & [D3|D3] & D4); subst; tauto.
      * intros (A & B & C). split; [split; [exact A|]; split; intros (D1 & D2 & D3); subst; tauto|].
        split; intros (D1 & D2 & D3 & D4); tauto.
Qed.

Lemma order_single l x : order l = [x] -> forall y, In y l <-> y = x.
Proof.
  intros E y. rewrite <- (In_order order order_perm y l), E. cbn. intuition congruence.
Qed.

Lemma order_nil l : order l = [] -> l = [].
Proof.
  intros E. pose proof (order_perm l) as P. rewrite E in P. apply Permutation_nil in P. exact P.
Qed.

Lemma nav_replace_cases e k t st st' x : wf st ->
  nav_replace order sch e k t st = (st', x) ->
  (st' = st /\ x <> None) \/
  (x = None /\ elink st e k t /\ st' = st) \/
  (x = None /\ fromMult sch e = One /\ st' = add_link st e k t /\
   present st (end_store sch (other e), t) /\
   (forall u, ~ elink st e k u) /\ (forall u, ~ elink st e u t)) \/
  (x = None /\ fromMult sch e <> One /\ wf st' /\ stores st' = stores st /\
   forall f u v, elink st' f u v <->
     (f = e /\ u = k /\ v = t) \/ (f = other e /\ u = t /\ v = k) \/
     (elink st f u v /\ ~ (f = e /\ u = k) /\ ~ (f = other e /\ v = k))).
Proof.
  intros W. unfold nav_replace.
  destruct (match order (lookup st e k) with [y] => key_eqb y t | _ => false end) eqn:E1.
  { injection 1 as <- <-. right; left. split; [reflexivity|]. split; [|reflexivity].
    destruct (order (lookup st e k)) as [|y [|z l]] eqn:E; try discriminate.
    apply key_eqb_eq in E1. subst y. apply (order_single _ _ E t). reflexivity. }
  destruct (mult_eqb (fromMult sch e) One) eqn:Em.
  - apply mult_eqb_eq in Em. destruct (order (lookup st e k)) as [|y l] eqn:E.
    + intros H. apply (nav_setitem_cases _ _ _ _ _ _ _ _ W) in H.
      apply order_nil in E. destruct H as [H|[H|(Hx & H1 & H2 & H3 & H4 & H5)]]; [tauto|tauto|].
      right; right; left. repeat split; try assumption.
      * unfold elink. rewrite E. intros u [].
      * apply H5. congruence.
    + injection 1 as <- <-. left. split; congruence.
  - apply mult_neqb in Em. injection 1 as <- <-. right; right; right.
    split; [reflexivity|]. split; [exact Em|].
    set (st1 := if kmem t (order (lookup st e k)) then st else add_link st e k t).
    assert (H1 : wf st1 /\ stores st1 = stores st /\ forall f u v, elink st1 f u v <->
              elink st f u v \/ (f = e /\ u = k /\ v = t) \/ (f = other e /\ u = t /\ v = k)).
    { unfold st1. destruct (kmem_spec t (order (lookup st e k))) as [Hm|Hm].
      - split; [exact W|]. split; [reflexivity|]. intros f u v.
        rewrite (In_order order order_perm) in Hm.
        split; [tauto|]. intros [H|[(-> & -> & ->)|(-> & -> & ->)]]; [exact H|exact Hm|].
        apply (elink_other st e k t W). exact Hm.
      - split; [apply wf_add, W|]. split; [reflexivity|]. intros f u v. apply elink_add, W. }
    destruct H1 as (W1 & S1 & L1).
    destruct (remove_others_spec e k t (order (lookup st e k)) st1 W1) as (W2 & S2 & L2).
    split; [exact W2|]. split; [congruence|]. intros f u v. rewrite L2, L1.
    assert (HI : forall y, In y (order (lookup st e k)) <-> elink st e k y)
      by (intros y; apply In_order, order_perm).
    rewrite !HI. clear L1 L2 HI.
    assert (Hneq : e <> other e).
    { destruct e as [i b]. unfold other; cbn. destruct b; cbn; congruence. }
    split.
    + intros ([A|[A|A]] & B & C); [|tauto|tauto].
      destruct (key_eq_dec u k) as [->|Hu].
      * destruct (key_eq_dec v t) as [->|Hv].
        -- destruct (key_eq_dec k t) as [Hkt|Hkt].
           ++ subst t. destruct (Nat.eq_dec (fst e) (fst f)) as [Hf|Hf].
              ** destruct (end_cases e f Hf) as [->| ->]; tauto.
              ** right; right. split; [exact A|]. split; intros [-> _]; [congruence|].
                 unfold other in Hf; cbn in Hf; congruence.
           ++ destruct (Nat.eq_dec (fst e) (fst f)) as [Hf|Hf].
              ** destruct (end_cases e f Hf) as [->| ->]; [tauto|].
                 right; right. split; [exact A|]. split; intros [? ?]; congruence.
              ** right; right. split; [exact A|]. split; intros [-> _]; [congruence|].
                 unfold other in Hf; cbn in Hf; congruence.
        -- right; right. split; [exact A|]. split.
           ++ intros [-> _]. apply B. tauto.
           ++ intros [-> ->]. apply C. split; [reflexivity|]. split; [reflexivity|].
              split; [|congruence]. apply (elink_other st e k k W). exact A.
      * destruct (key_eq_dec v k) as [->|Hv].
        -- destruct (key_eq_dec u t) as [->|Hut].
           ++ destruct (Nat.eq_dec (fst e) (fst f)) as [Hf|Hf].
              ** destruct (end_cases e f Hf) as [->| ->]; [|tauto].
                 right; right. split; [exact A|]. split; intros [? ?]; congruence.
              ** right; right. split; [exact A|]. split; intros [-> _]; [congruence|].
                 unfold other in Hf; cbn in Hf; congruence.
           ++ right; right. split; [exact A|]. split; [intros [_ ?]; congruence|].
              intros [-> _]. apply C. split; [reflexivity|]. split; [reflexivity|].
              split; [|exact Hut]. apply (elink_other st e k u W). exact A.
        -- right; right. split; [exact A|]. split; intros [_ ?]; congruence.
    + intros [(-> & -> & ->)|[(-> & -> & ->)|(A & B & C)]].
      * split; [tauto|]. split; [tauto|]. intros (D & _). congruence.
      * split; [tauto|]. split; [|tauto]. intros (D & _). congruence.
      * split; [tauto|]. split; intros (D1 & D2 & _); tauto.
Qed.

(** ** The specifications seen from the ends *)

Lemma amo_ends st : wf st ->
  at_most_one sch st <->
  forall e, (fst e < nassocs sch)%nat -> toMult sch e <> Many ->
    forall k t t', elink st e k t -> elink st e k t' -> t = t'.
Proof.
  intros W. split.
  - intros H [i b] Hi Hm k t t' H1 H2. rewrite elink_linked in H1, H2 by exact W. cbn in *.
    destruct (H i Hi) as [A B]. destruct b; cbn in *.
    + apply (A Hm t t' k H1 H2).
    + apply (B Hm k t t' H1 H2).
  - intros H i Hi. split; intros Hm x y z H1 H2.
    + apply (H (i, true) Hi Hm z); rewrite elink_linked by exact W; assumption.
    + apply (H (i, false) Hi Hm x); rewrite elink_linked by exact W; assumption.
Qed.

Lemma nd_ends st : wf st ->
  no_dangling sch st <->
  forall e k t, (fst e < nassocs sch)%nat -> elink st e k t ->
    present st (end_store sch e, k) /\ present st (end_store sch (other e), t).
Proof.
  intros W. split.
  - intros H [i b] k t Hi Hl. rewrite elink_linked in Hl by exact W. cbn in *.
    destruct b; apply (H i _ _ Hi) in Hl; destruct Hl; split; assumption.
  - intros H i a b Hi Hl. apply (H (i, false) a b Hi). rewrite elink_linked by exact W. exact Hl.
Qed.

Definition served (st : state) (e : end_) (k : key) : Prop := exists t, elink st e k t.

Lemma alo_ends st : wf st ->
  at_least_one sch st <->
  forall e k, (fst e < nassocs sch)%nat -> toMult sch e = One ->
    present st (end_store sch e, k) -> served st e k.
Proof.
  intros W. split.
  - intros H [i b] k Hi Hm Hp. destruct (H i Hi) as [A B].
    destruct b; cbn in Hm, Hp.
    + destruct (A Hm k Hp) as [a Ha]. exists a. apply (elink_linked st (i, true) k a W). exact Ha.
    + destruct (B Hm k Hp) as [b Hb]. exists b. apply (elink_linked st (i, false) k b W). exact Hb.
  - intros H i Hi. split; intros Hm x Hp.
    + destruct (H (i, true) x Hi Hm Hp) as [t Ht]. exists t.
      rewrite elink_linked in Ht by exact W. exact Ht.
    + destruct (H (i, false) x Hi Hm Hp) as [t Ht]. exists t.
      rewrite elink_linked in Ht by exact W. exact Ht.
Qed.

(** ** Invariants of insertion *)

Lemma present_stores st st' x : stores st' = stores st -> present st' x <-> present st x.
Proof. intros E. unfold present. rewrite E. reflexivity. Qed.

Lemma present_set_store st s y x :
  (forall k, dget k (data (stores st s)) <> None -> dget k (data y) <> None) ->
  present st x -> present (set_store st s y) x.
Proof.
  intros H. destruct x as [s' k']. rewrite !present_row. unfold row_of; cbn. rewrite upd_case.
  destruct (Nat.eqb_spec s s') as [->|]; [apply H|tauto].
Qed.

Definition grows (st st' : state) : Prop := forall x, present st x -> present st' x.

Section Preserve.
Variable strict : bool.
Variable I : state -> Prop.
Hypothesis I_next : forall st s y, wf st -> I st -> data y = data (stores st s) ->
  deleting y = deleting (stores st s) -> I (set_store st s y).
Hypothesis I_add : forall st s k props, wf st -> I st ->
  I (set_store st s (AddEntity (stores st s) k props)).
Hypothesis I_set : forall st e k t vs vk st' x, wf st -> I st ->
  (fst e < nassocs sch)%nat -> present st (end_store sch e, k) ->
  nav_setitem sch e k t vs vk st = (st', x) -> I st'.
Hypothesis I_rep : forall st e k t st' x, wf st -> I st ->
  (fst e < nassocs sch)%nat -> toMult sch e <> Many -> present st (end_store sch e, k) ->
  (strict = true -> present st (end_store sch (other e), t)) ->
  nav_replace order sch e k t st = (st', x) -> I st'.

Definition kept (st st' : state) : Prop := wf st' /\ I st' /\ grows st st'.

Lemma kept_set st e k t vs vk st' x : wf st -> I st -> (fst e < nassocs sch)%nat ->
  present st (end_store sch e, k) -> nav_setitem sch e k t vs vk st = (st', x) -> kept st st'.
Proof.
  intros W Hi He Hp H. pose proof (I_set _ _ _ _ _ _ _ _ W Hi He Hp H) as Hi'.
  apply (nav_setitem_cases _ _ _ _ _ _ _ _ W) in H.
  destruct H as [(-> & _)|[(_ & _ & ->)|(_ & -> & _)]];
    (split; [|split; [exact Hi'|]]); try exact W; try apply wf_add, W; intros y Hy; exact Hy.
Qed.

Lemma nav_replace_stores e k t st st' x : wf st -> nav_replace order sch e k t st = (st', x) ->
  wf st' /\ stores st' = stores st.
Proof.
  intros W H. apply (nav_replace_cases _ _ _ _ _ _ W) in H.
  destruct H as [(-> & _)|[(_ & _ & ->)|[(_ & _ & -> & _)|(_ & _ & W' & S & _)]]];
    try (split; [exact W|reflexivity]); [|split; assumption].
  split; [apply wf_add, W|reflexivity].
Qed.

Lemma kept_rep st e k t st' x : wf st -> I st -> (fst e < nassocs sch)%nat ->
  toMult sch e <> Many -> present st (end_store sch e, k) ->
  (strict = true -> present st (end_store sch (other e), t)) ->
  nav_replace order sch e k t st = (st', x) -> kept st st'.
Proof.
  intros W Hi He Hm Hp Ht H. pose proof (I_rep _ _ _ _ _ _ W Hi He Hm Hp Ht H) as Hi'.
  apply (nav_replace_stores _ _ _ _ _ _ W) in H. destruct H as [W' S].
  split; [exact W'|]. split; [exact Hi'|]. intros y Hy. apply (present_stores st st' y S), Hy.
Qed.

Lemma kept_bind st e k t st' x : wf st -> I st -> (fst e < nassocs sch)%nat ->
  present st (end_store sch e, k) ->
  (strict = true -> present st (end_store sch (other e), t)) ->
  bind_existing order sch e k t st = (st', x) -> kept st st'.
Proof.
  intros W Hi He Hp Ht. unfold bind_existing. destruct (mult_eqb (toMult sch e) Many) eqn:Em.
  - apply kept_set; assumption.
  - apply mult_neqb in Em. apply kept_rep; assumption.
Qed.

Lemma kept_refl st : wf st -> I st -> kept st st.
Proof. intros W H. split; [exact W|]. split; [exact H|]. intros x Hx; exact Hx. Qed.

Lemma kept_trans st1 st2 st3 : kept st1 st2 -> kept st2 st3 -> kept st1 st3.
Proof.
  intros (_ & _ & G) (W & Hi & H). split; [exact W|]. split; [exact Hi|].
  intros x Hx. apply H, G, Hx.
Qed.

Lemma end_valid_spec s e : end_valid sch s e = true <->
  (fst e < nassocs sch)%nat /\ end_store sch e = s /\ end_nav sch e = true.
Proof.
  unfold end_valid. rewrite !andb_true_iff, Nat.ltb_lt, Nat.eqb_eq. tauto.
Qed.

Lemma insert_kept :
  (forall n flt s fe st st' r, wf st -> I st ->
     (strict = true -> forall x, In x (named sch n) -> present st x) ->
     InsertEntity order sch flt s n fe st = (st', r) ->
     kept st st' /\ forall k, r = Ok k -> present st' (s, k)) /\
  (forall bs s k st st' x, wf st -> I st -> present st (s, k) ->
     (strict = true -> forall y, In y (named_in sch bs) -> present st y) ->
     UpdateBindings order sch s k bs st = (st', x) -> kept st st').
Proof.
  apply entity_bindings_ind.
  - intros ok props bs IH flt s fe st st' r W Hi Hn H. rewrite InsertEntity_eq in H. rewrite named_eq in Hn.
    destruct (match ok with Some k => Ok (k, st) | None => _ end) as [[k st1]|y] eqn:E.
    2: { injection H as <- <-. split; [apply kept_refl; assumption|discriminate]. }
    assert (K1 : kept st st1).
    { destruct ok as [k0|]; [injection E as _ <-; apply kept_refl; assumption|].
      destruct (NextKey _ _) as [[z y]|] eqn:En; [|discriminate]. injection E as _ <-.
      apply NextKey_fresh in En. destruct En as (_ & Ed & Edel & _).
      split; [exact W|]. split; [apply I_next; assumption|].
      intros x. apply present_set_store. intros k'. rewrite Ed. tauto. }
    destruct (in_collection flt s k st1); [injection H as <- <-; split; [exact K1|discriminate]|].
    destruct (negb (check_constraints sch s fe bs));
      [injection H as <- <-; split; [exact K1|discriminate]|].
    set (st2 := set_store st1 s (AddEntity (stores st1 s) k props)) in *.
    assert (Hp2 : present st2 (s, k)).
    { rewrite present_row. unfold row_of, st2; cbn. rewrite upd_eq; cbn.
      rewrite dget_dset, key_eqb_refl. discriminate. }
    assert (K2 : kept st st2).
    { apply (kept_trans _ st1 _ K1). destruct K1 as (W1 & Hi1 & _).
      split; [exact W1|]. split; [apply I_add; assumption|].
      intros x. apply present_set_store. intros k'. cbn. rewrite dget_dset.
      destruct (key_eqb k' k); [discriminate|tauto]. }
    destruct (UpdateBindings order sch s k bs st2) as [st3 x3] eqn:EU.
    assert (K3 : kept st2 st3).
    { destruct K2 as (W2 & I2 & G2). apply (IH s k st2 st3 x3 W2 I2 Hp2); [|exact EU].
      intros Hs y Hy. apply G2, Hn; assumption. }
    destruct x3 as [x3|]; injection H as <- <-; (split; [eapply kept_trans; eassumption|]).
    + discriminate.
    + intros k' [= <-]. apply K3, Hp2.
  - intros s k st st' x W Hi Hp Hn H. rewrite UpdateBindings_eq in H. injection H as <- _. apply kept_refl; assumption.
  - intros e t rest IH s k st st' x W Hi Hp Hn H. rewrite UpdateBindings_eq in H. rewrite named_in_eq in Hn.
    destruct (end_valid sch s e) eqn:Ev; cbn [negb] in H;
      [|injection H as <- _; apply kept_refl; assumption].
    apply end_valid_spec in Ev. destruct Ev as (He & Es & _).
    destruct (in_collection no_filter (end_store sch (other e)) t st) eqn:Ec; cbn [negb] in H;
      [|injection H as <- _; apply kept_refl; assumption].
    destruct (bind_existing order sch e k t st) as [st1 y] eqn:Eb.
    assert (K1 : kept st st1).
    { eapply kept_bind; [exact W|exact Hi|exact He|rewrite Es; exact Hp| |exact Eb].
      intros _. rewrite present_row. unfold row_of; cbn. unfold in_collection in Ec.
      destruct (dget t _); [discriminate|discriminate]. }
    destruct y as [y|]; [injection H as <- _; exact K1|].
    apply (kept_trans _ st1 _ K1). destruct K1 as (Wn & In_ & Gn). apply (IH s k st1 st' x Wn In_); [apply Gn, Hp| |exact H].
    intros Hs y Hy. apply Gn, Hn; assumption.
  - intros e t rest IH s k st st' x W Hi Hp Hn H. rewrite UpdateBindings_eq in H. rewrite named_in_eq in Hn.
    destruct (end_valid sch s e) eqn:Ev; cbn [negb] in H;
      [|injection H as <- _; apply kept_refl; assumption].
    apply end_valid_spec in Ev. destruct Ev as (He & Es & _).
    destruct (bind_existing order sch e k t st) as [st1 y] eqn:Eb.
    assert (K1 : kept st st1).
    { eapply kept_bind; [exact W|exact Hi|exact He|rewrite Es; exact Hp| |exact Eb].
      intros Hs. apply Hn; [exact Hs|left; reflexivity]. }
    destruct y as [y|]; [injection H as <- _; exact K1|].
    apply (kept_trans _ st1 _ K1). destruct K1 as (Wn & In_ & Gn). apply (IH s k st1 st' x Wn In_); [apply Gn, Hp| |exact H].
    intros Hs y Hy. apply Gn, Hn; [exact Hs|right; exact Hy].
  - intros e n IHn rest IH s k st st' x W Hi Hp Hn H. rewrite UpdateBindings_eq in H. rewrite named_in_eq in Hn.
    destruct (end_valid sch s e) eqn:Ev; cbn [negb] in H;
      [|injection H as <- _; apply kept_refl; assumption].
    apply end_valid_spec in Ev. destruct Ev as (He & Es & _).
    destruct (InsertEntity order sch no_filter (end_store sch (other e)) n (Some (other e)) st)
      as [st1 [t|y]] eqn:En.
    2: { injection H as <- _. eapply IHn in En; [apply En|exact W|exact Hi|].
         intros Hs z Hz. apply Hn; [exact Hs|apply in_app_iff; left; exact Hz]. }
    eapply IHn in En; [|exact W|exact Hi|].
    2: { intros Hs z Hz. apply Hn; [exact Hs|apply in_app_iff; left; exact Hz]. }
    destruct En as [K1 _].
    destruct (nav_setitem sch e k t (end_store sch (other e)) t st1) as [st2 y] eqn:Eb.
    assert (K2 : kept st1 st2).
    { eapply kept_set; [apply K1|apply K1|exact He| |exact Eb]. rewrite Es. apply K1, Hp. }
    pose proof (kept_trans _ _ _ K1 K2) as K3.
    destruct y as [y|]; [injection H as <- _; exact K3|].
    apply (kept_trans _ st2 _ K3). destruct K3 as (Wn & In_ & Gn). apply (IH s k st2 st' x Wn In_); [apply Gn, Hp| |exact H].
    intros Hs y Hy. apply Gn, Hn; [exact Hs|apply in_app_iff; right; exact Hy].
Qed.

End Preserve.

(** ** Upper bounds *)

Definition AMO (st : state) : Prop :=
  forall e, (fst e < nassocs sch)%nat -> toMult sch e <> Many ->
    forall k t t', elink st e k t -> elink st e k t' -> t = t'.

Lemma fromMult_other e : fromMult sch (other e) = toMult sch e.
Proof. reflexivity. Qed.
Lemma toMult_other e : toMult sch (other e) = fromMult sch e.
Proof. unfold toMult, fromMult. rewrite other_other. reflexivity. Qed.

Lemma other_neq e : other e <> e.
Proof. destruct e as [i b]. unfold other; cbn. destruct b; cbn; congruence. Qed.

Lemma AMO_add st e k t : wf st -> AMO st ->
  (toMult sch e <> Many -> forall u, ~ elink st e k u) ->
  (fromMult sch e <> Many -> forall u, ~ elink st e u t) ->
  AMO (add_link st e k t).
Proof.
  intros W HA H1 H2 f Hf Hm u v v' A B. rewrite elink_add in A, B by exact W.
  pose proof (other_neq e) as Hne.
  assert (H2' : fromMult sch e <> Many -> forall w, ~ elink st (other e) t w).
  { intros Hx w Hw. apply (H2 Hx w). apply (elink_other st e w t W), Hw. }
  destruct A as [A|[(-> & -> & ->)|(-> & -> & ->)]];
    destruct B as [B|[(E1 & E2 & E3)|(E1 & E2 & E3)]]; subst; try congruence.
  - apply (HA f Hf Hm u v v' A B).
  - exfalso. apply (H1 Hm v A).
  - rewrite toMult_other in Hm. exfalso. apply (H2' Hm v A).
  - exfalso. apply (H1 Hm v' B).
  - rewrite toMult_other in Hm. exfalso. apply (H2' Hm v' B).
Qed.

Lemma AMO_set st e k t vs vk st' x : wf st -> AMO st ->
  nav_setitem sch e k t vs vk st = (st', x) -> AMO st'.
Proof.
  intros W HA H. apply (nav_setitem_cases _ _ _ _ _ _ _ _ W) in H.
  destruct H as [(-> & _)|[(_ & _ & ->)|(_ & -> & _ & _ & H1 & H2)]]; try exact HA.
  apply AMO_add; assumption.
Qed.

Lemma AMO_rep st e k t st' x : wf st -> AMO st ->
  (fromMult sch e = ZeroToOne -> forall k', elink st e k' t -> k' = k) ->
  nav_replace order sch e k t st = (st', x) -> AMO st'.
Proof.
  intros W HA Hz H. apply (nav_replace_cases _ _ _ _ _ _ W) in H.
  destruct H as [(-> & _)|[(_ & _ & ->)|[(_ & _ & -> & _ & H1 & H2)|(_ & Hm1 & W' & _ & L)]]];
    try exact HA.
  - apply AMO_add; auto.
  - intros f Hf Hm u v v' A B. rewrite L in A, B. pose proof (other_neq e) as Hne.
    assert (Hz' : fromMult sch e <> Many -> forall w, elink st (other e) t w -> w = k).
    { intros Hx w Hw. apply Hz; [destruct (fromMult sch e); congruence|].
      apply (elink_other st e w t W), Hw. }
    destruct A as [(-> & -> & ->)|[(-> & -> & ->)|(A & A1 & A2)]];
      destruct B as [(E1 & E2 & E3)|[(E1 & E2 & E3)|(B & B1 & B2)]]; subst; try congruence;
      try tauto.
    + rewrite toMult_other in Hm. symmetry; apply (Hz' Hm); exact B.
    + rewrite toMult_other in Hm. apply (Hz' Hm); exact A.
    + apply (HA f Hf Hm u v v' A B).
Qed.

Lemma AMO_mono st st' : wf st -> wf st' ->
  (forall i a b, linked st' i a b -> linked st i a b) -> AMO st -> AMO st'.
Proof.
  intros W W' H HA f Hf Hm k t t' A B. rewrite elink_linked in A, B by exact W'.
  apply (HA f Hf Hm k); rewrite elink_linked by exact W; destruct (snd f); apply H; assumption.
Qed.

Lemma AMO_stores st st' : links st' = links st -> AMO st -> AMO st'.
Proof.
  intros E HA f Hf Hm k t t' A B. unfold elink, lookup in A, B. rewrite E in A, B.
  apply (HA f Hf Hm k t t'); assumption.
Qed.

Lemma optional_many_end : optional_many sch -> forall e, (fst e < nassocs sch)%nat ->
  fromMult sch e = ZeroToOne -> toMult sch e = Many.
Proof.
  intros H [i b] Hi. destruct (H i Hi) as [A B]. unfold fromMult, toMult, end_mult, other; cbn in *.
  destruct b; cbn; assumption.
Qed.

Lemma AMO_insert flt s n fe st st' r : optional_many sch -> wf st -> AMO st ->
  InsertEntity order sch flt s n fe st = (st', r) -> wf st' /\ AMO st' /\ grows st st'.
Proof.
  intros HO W HA H.
  destruct (insert_kept false AMO) as [K _].
  - intros st0 s0 y _ H0 _ _. apply (AMO_stores st0); [reflexivity|exact H0].
  - intros st0 s0 k props _ H0. apply (AMO_stores st0); [reflexivity|exact H0].
  - intros st0 e k t vs vk st0' x W0 H0 _ _ E. eapply AMO_set; eassumption.
  - intros st0 e k t st0' x W0 H0 He Hm _ _ E. eapply AMO_rep; try eassumption.
    intros Hz. exfalso. apply Hm. apply (optional_many_end HO e He Hz).
  - apply (K n flt s fe st st' r W HA) in H; [apply H|discriminate].
Qed.

Lemma AMO_bindings s k bs st st' x : optional_many sch -> wf st -> AMO st -> present st (s, k) ->
  UpdateBindings order sch s k bs st = (st', x) -> wf st' /\ AMO st' /\ grows st st'.
Proof.
  intros HO W HA Hp H.
  destruct (insert_kept false AMO) as [_ K].
  - intros st0 s0 y _ H0 _ _. apply (AMO_stores st0); [reflexivity|exact H0].
  - intros st0 s0 k0 props _ H0. apply (AMO_stores st0); [reflexivity|exact H0].
  - intros st0 e k0 t vs vk st0' y W0 H0 _ _ E. eapply AMO_set; eassumption.
  - intros st0 e k0 t st0' y W0 H0 He Hm _ _ E. eapply AMO_rep; try eassumption.
    intros Hz. exfalso. apply Hm. apply (optional_many_end HO e He Hz).
  - apply (K bs s k st st' x W HA Hp) in H; [exact H|discriminate].
Qed.

(** ** Links join existing entities *)

Definition ND (st : state) : Prop :=
  forall e k t, (fst e < nassocs sch)%nat -> elink st e k t ->
    present st (end_store sch e, k) /\ present st (end_store sch (other e), t).

Lemma ND_add st e k t : wf st -> ND st -> present st (end_store sch e, k) ->
  present st (end_store sch (other e), t) -> ND (add_link st e k t).
Proof.
  intros W HN H1 H2 f u v Hf A. rewrite elink_add in A by exact W.
  destruct A as [A|[(-> & -> & ->)|(-> & -> & ->)]].
  - apply (HN f u v Hf A).
  - split; assumption.
  - rewrite other_other. split; assumption.
Qed.

Lemma ND_grows st st' : links st' = links st -> grows st st' -> ND st -> ND st'.
Proof.
  intros E G HN e k t He A. unfold elink, lookup in A. rewrite E in A.
  destruct (HN e k t He A) as [H1 H2]. split; apply G; assumption.
Qed.

Lemma ND_set st e k t vs vk st' x : wf st -> ND st -> present st (end_store sch e, k) ->
  nav_setitem sch e k t vs vk st = (st', x) -> ND st'.
Proof.
  intros W HA Hp H. apply (nav_setitem_cases _ _ _ _ _ _ _ _ W) in H.
  destruct H as [(-> & _)|[(_ & _ & ->)|(_ & -> & _ & H1 & _)]]; try exact HA.
  apply ND_add; assumption.
Qed.

Lemma ND_rep st e k t st' x : wf st -> ND st -> present st (end_store sch e, k) ->
  present st (end_store sch (other e), t) ->
  nav_replace order sch e k t st = (st', x) -> ND st'.
Proof.
  intros W HA Hp Ht H. apply (nav_replace_cases _ _ _ _ _ _ W) in H.
  destruct H as [(-> & _)|[(_ & _ & ->)|[(_ & _ & -> & _ & H1 & H2)|(_ & Hm1 & W' & S & L)]]];
    try exact HA.
  - apply ND_add; assumption.
  - intros f u v Hf A. apply L in A. rewrite !(present_stores st st' _ S).
    destruct A as [(-> & -> & ->)|[(-> & -> & ->)|(A & _)]].
    + split; assumption.
    + rewrite other_other. split; assumption.
    + apply (HA f u v Hf A).
Qed.

Lemma ND_prims : 
  (forall st s y, wf st -> ND st -> data y = data (stores st s) ->
     deleting y = deleting (stores st s) -> ND (set_store st s y)) /\
  (forall st s k props, wf st -> ND st ->
     ND (set_store st s (AddEntity (stores st s) k props))).
Proof.
  split.
  - intros st0 s0 y _ H0 Ed _. apply (ND_grows st0); [reflexivity| |exact H0].
    intros z. apply present_set_store. rewrite Ed. tauto.
  - intros st0 s0 k0 props _ H0. apply (ND_grows st0); [reflexivity| |exact H0].
    intros z. apply present_set_store. intros k'. cbn. rewrite dget_dset.
    destruct (key_eqb k' k0); [discriminate|tauto].
Qed.

Lemma ND_insert flt s n fe st st' r : wf st -> ND st ->
  (forall x, In x (named sch n) -> present st x) ->
  InsertEntity order sch flt s n fe st = (st', r) -> wf st' /\ ND st' /\ grows st st'.
Proof.
  intros W HA Hn H.
  destruct (insert_kept true ND) as [K _].
  - apply ND_prims.
  - apply ND_prims.
  - intros st0 e k t vs vk st0' x W0 H0 _ Hp E. eapply ND_set; eassumption.
  - intros st0 e k t st0' x W0 H0 He Hm Hp Ht E. eapply ND_rep; try eassumption.
    apply Ht; reflexivity.
  - apply (K n flt s fe st st' r W HA) in H; [apply H|intros _; exact Hn].
Qed.

Lemma ND_bindings s k bs st st' x : wf st -> ND st -> present st (s, k) ->
  (forall y, In y (named_in sch bs) -> present st y) ->
  UpdateBindings order sch s k bs st = (st', x) -> wf st' /\ ND st' /\ grows st st'.
Proof.
  intros W HA Hp Hn H.
  destruct (insert_kept true ND) as [_ K].
  - apply ND_prims.
  - apply ND_prims.
  - intros st0 e k0 t vs vk st0' y W0 H0 _ Hp0 E. eapply ND_set; eassumption.
  - intros st0 e k0 t st0' y W0 H0 He Hm Hp0 Ht E. eapply ND_rep; try eassumption.
    apply Ht; reflexivity.
  - apply (K bs s k st st' x W HA Hp) in H; [exact H|intros _; exact Hn].
Qed.

(** ** Lower bounds *)

(** No required link is lost. *)
Definition keeps (st st' : state) : Prop :=
  forall e k, (fst e < nassocs sch)%nat -> toMult sch e = One -> served st e k -> served st' e k.

Lemma keeps_refl st : keeps st st.
Proof. intros e k _ _ H; exact H. Qed.
Lemma keeps_trans st1 st2 st3 : keeps st1 st2 -> keeps st2 st3 -> keeps st1 st3.
Proof. intros H1 H2 e k He Hm H. apply H2, H1; assumption. Qed.
Lemma keeps_links st st' : links st' = links st -> keeps st st'.
Proof.
  intros E e k _ _ [t Ht]. exists t. unfold elink, lookup in *. rewrite E. exact Ht.
Qed.

Lemma keeps_set st e k t vs vk st' x : wf st -> nav_setitem sch e k t vs vk st = (st', x) ->
  keeps st st' /\ stores st' = stores st /\ wf st' /\
  (x = None -> served st' e k /\ served st' (other e) t).
Proof.
  intros W H. apply (nav_setitem_cases _ _ _ _ _ _ _ _ W) in H.
  destruct H as [(-> & Hx)|[(_ & Hl & ->)|(_ & -> & _ & H1 & _)]].
  - split; [apply keeps_refl|]. split; [reflexivity|]. split; [exact W|]. intros ->; congruence.
  - split; [apply keeps_refl|]. split; [reflexivity|]. split; [exact W|]. intros _.
    split; [exists t; exact Hl|]. exists k. apply (elink_other st e k t W), Hl.
  - split; [|split; [reflexivity|split; [apply wf_add, W|]]].
    + intros f u Hf Hm [v Hv]. exists v. apply elink_add; [exact W|tauto].
    + intros _. split; [exists t|exists k]; apply elink_add; try exact W; tauto.
Qed.

Lemma keeps_rep st e k t st' x : wf st -> nav_replace order sch e k t st = (st', x) ->
  keeps st st' /\ stores st' = stores st /\ wf st' /\ (x = None -> served st' e k).
Proof.
  intros W H. apply (nav_replace_cases _ _ _ _ _ _ W) in H.
  destruct H as [(-> & Hx)|[(_ & Hl & ->)|[(_ & _ & -> & _ & H1 & H2)|(_ & Hm1 & W' & S & L)]]].
  - split; [apply keeps_refl|]. split; [reflexivity|]. split; [exact W|]. intros ->; congruence.
  - split; [apply keeps_refl|]. split; [reflexivity|]. split; [exact W|]. intros _. exists t; exact Hl.
  - split; [|split; [reflexivity|split; [apply wf_add, W|]]].
    + intros f u Hf Hm [v Hv]. exists v. apply elink_add; [exact W|tauto].
    + intros _. exists t. apply elink_add; try exact W; tauto.
  - split; [|split; [exact S|split; [exact W'|]]].
    + intros f u Hf Hm [v Hv].
      destruct (Nat.eq_dec (fst e) (fst f)) as [Ef|Ef].
      2: { exists v. apply L. right; right. split; [exact Hv|].
           split; intros [-> _]; [congruence|unfold other in Ef; cbn in Ef; congruence]. }
      destruct (end_cases e f Ef) as [->| ->].
      * destruct (key_eq_dec u k) as [->|Hu].
        -- exists t. apply L. tauto.
        -- exists v. apply L. right; right. split; [exact Hv|].
           split; [tauto|]. intros [E _]. pose proof (other_neq e). congruence.
      * rewrite toMult_other in Hm. contradiction.
    + intros _. exists t. apply L. tauto.
Qed.

Lemma end_eqb_eq e f : end_eqb e f = true <-> e = f.
Proof.
  destruct e as [i b], f as [j c]. unfold end_eqb; cbn.
  rewrite andb_true_iff, Nat.eqb_eq, Bool.eqb_true_iff. split; [intros [-> ->]; reflexivity|].
  injection 1 as -> ->. split; reflexivity.
Qed.

Lemma check_constraints_spec s fe bs : one_unbound sch ->
  check_constraints sch s fe bs = true ->
  forall e, (fst e < nassocs sch)%nat -> end_store sch e = s -> toMult sch e = One ->
    fe = Some e \/ In e (bound_ends bs).
Proof.
  intros H1 H e He Es Em. unfold check_constraints in H.
  apply andb_true_iff in H as [Hu Hall].
  assert (Hin : In e (linkEnds sch s)) by (apply In_linkEnds; split; assumption).
  assert (Him : forall f, match fe with Some g => end_eqb f g | None => false end = true -> fe = Some f).
  { intros f. destruct fe as [g|]; [|discriminate]. rewrite end_eqb_eq. intros ->; reflexivity. }
  destruct (end_nav sch e) eqn:En.
  - rewrite forallb_forall in Hall. specialize (Hall e Hin). cbv beta in Hall.
    rewrite En in Hall; cbn [negb orb] in Hall.
    rewrite !orb_true_iff in Hall. destruct Hall as [[Hall|Hall]|Hall].
    + left. apply Him, Hall.
    + unfold toMult in Em. rewrite Em in Hall. discriminate.
    + right. apply existsb_exists in Hall. destruct Hall as (f & Hf & E).
      apply end_eqb_eq in E. subst; exact Hf.
  - left. apply Him. destruct (unboundPrincipal sch s) as [b|] eqn:Eu.
    + assert (b = e) as <-; [|exact Hu].
      unfold unboundPrincipal in Eu. apply find_some in Eu. destruct Eu as [Hb Hb'].
      apply In_linkEnds in Hb. destruct Hb as [Hb1 Hb2].
      apply andb_true_iff in Hb' as [Hb3 Hb4]. apply mult_eqb_eq in Hb4.
      apply negb_true_iff in Hb3. unfold end_nav in Hb3, En.
      destruct b as [i b0], e as [j b1]; cbn in *.
      apply orb_false_iff in Hb3 as [Hb5 Hb6]. apply orb_false_iff in En as [En1 En2].
      apply negb_false_iff in Hb5, En1. subst b0 b1. cbn in *.
      unfold end_store in *; cbn in *. f_equal.
      unfold toMult, end_mult, other in *; cbn in *.
      apply (H1 i j); try assumption. congruence.
    + exfalso. unfold unboundPrincipal in Eu. apply (find_none _ _ Eu e) in Hin.
      rewrite En in Hin; cbn in Hin. unfold toMult in Em. rewrite Em in Hin. discriminate.
Qed.

(** The entities of [st'] that are not of [st] have the links they need, except [x] at the
    end [fe]. *)
Definition newly (st st' : state) (x : nat * key) (fe : option end_) : Prop :=
  forall y, present st' y -> present st y \/
    (forall e, (fst e < nassocs sch)%nat -> end_store sch e = fst y -> toMult sch e = One ->
       served st' e (snd y) \/ (y = x /\ fe = Some e)).

Lemma bind_served st e k t st' x : wf st -> bind_existing order sch e k t st = (st', x) ->
  keeps st st' /\ stores st' = stores st /\ wf st' /\ (x = None -> served st' e k).
Proof.
  intros W. unfold bind_existing. destruct (mult_eqb (toMult sch e) Many); intros H.
  - apply (keeps_set _ _ _ _ _ _ _ _ W) in H. tauto.
  - apply (keeps_rep _ _ _ _ _ _ W) in H. exact H.
Qed.

Lemma grows_refl st : grows st st.
Proof. intros x H; exact H. Qed.
Lemma grows_stores st st' : stores st' = stores st -> grows st st'.
Proof. intros E x H. apply (present_stores _ _ _ E), H. Qed.
Lemma grows_trans a b c : grows a b -> grows b c -> grows a c.
Proof. intros H1 H2 x H. apply H2, H1, H. Qed.

(** Updating the bindings of an entity: nothing needed is lost, what is bound has a link,
    and what is created has all the links it needs. *)
Definition new_all (st st' : state) : Prop :=
  forall y, present st' y -> present st y \/
    (forall e, (fst e < nassocs sch)%nat -> end_store sch e = fst y -> toMult sch e = One ->
       served st' e (snd y)).

Lemma new_all_keeps st1 st2 st3 : new_all st1 st2 -> keeps st2 st3 -> new_all st2 st3 ->
  new_all st1 st3.
Proof.
  intros N1 K N2 y Hy. destruct (N2 y Hy) as [H|H]; [|right; exact H].
  destruct (N1 y H) as [H'|H']; [left; exact H'|right].
  intros e He Es Em. apply K; [exact He|exact Em|]. apply H'; assumption.
Qed.

Lemma new_all_stores st st' : stores st' = stores st -> new_all st st'.
Proof. intros E y Hy. left. apply (present_stores _ _ _ E), Hy. Qed.

Lemma insert_served : one_unbound sch ->
  (forall n flt s fe st st' k, wf st ->
     InsertEntity order sch flt s n fe st = (st', Ok k) ->
     wf st' /\ keeps st st' /\ newly st st' (s, k) fe) /\
  (forall bs s k st st', wf st ->
     UpdateBindings order sch s k bs st = (st', None) ->
     wf st' /\ keeps st st' /\ new_all st st' /\
     forall e, In e (bound_ends bs) -> toMult sch e = One -> served st' e k).
Proof.
  intros HU. apply entity_bindings_ind.
  - intros ok props bs IH flt s fe st st' r W H. rewrite InsertEntity_eq in H.
    destruct (match ok with Some k => Ok (k, st) | None => _ end) as [[k st1]|y] eqn:E;
      [|discriminate].
    assert (K1 : wf st1 /\ links st1 = links st /\ (forall y, present st1 y <-> present st y)).
    { destruct ok as [k0|]; [injection E as _ <-; split; [exact W|]; split; [reflexivity|reflexivity]|].
      destruct (NextKey _ _) as [[z y]|] eqn:En; [|discriminate]. injection E as _ <-.
      apply NextKey_fresh in En. destruct En as (_ & Ed & Edel & _).
      split; [exact W|]. split; [reflexivity|]. intros [s' k']. apply present_ext.
      unfold row_of; cbn. rewrite upd_case. destruct (Nat.eqb_spec s s') as [->|]; [|reflexivity].
      rewrite Ed. reflexivity. }
    destruct K1 as (W1 & L1 & P1).
    destruct (in_collection flt s k st1); [discriminate|].
    destruct (check_constraints sch s fe bs) eqn:Ec; cbn [negb] in H; [|discriminate].
    set (st2 := set_store st1 s (AddEntity (stores st1 s) k props)) in *.
    assert (P2 : forall y, present st2 y -> present st1 y \/ y = (s, k)).
    { intros [s' k']. rewrite !present_row. unfold row_of, st2; cbn. rewrite upd_case.
      destruct (Nat.eqb_spec s s') as [->|]; [|tauto]. cbn. rewrite dget_dset.
      destruct (key_eqb_spec k' k) as [->|]; [right; reflexivity|tauto]. }
    destruct (UpdateBindings order sch s k bs st2) as [st3 [x3|]] eqn:EU; [discriminate|].
    injection H as <- <-.
    destruct (IH s k st2 st3) as (W3 & K3 & N3 & B3); [exact W1|exact EU|].
    split; [exact W3|]. split.
    + apply (keeps_trans _ st2); [|exact K3]. apply keeps_links. exact L1.
    + intros y Hy. destruct (N3 y Hy) as [H|H].
      * destruct (P2 y H) as [H1| ->]; [left; apply P1, H1|]. right.
        intros e He Es Em. cbn in *.
        destruct (check_constraints_spec s fe bs HU Ec e He Es Em) as [A|A]; [right; tauto|].
        left. apply (B3 e A Em).
      * right. intros e He Es Em. left. apply H; assumption.
  - intros s k st st' W H. rewrite UpdateBindings_eq in H. injection H as <-. split; [exact W|]. split; [apply keeps_refl|].
    split; [apply new_all_stores; reflexivity|]. intros e [].
  - intros e t rest IH s k st st' W H. rewrite UpdateBindings_eq in H.
    destruct (end_valid sch s e) eqn:Ev; cbn [negb] in H; [|discriminate].
    destruct (in_collection _ _ _ st); cbn [negb] in H; [|discriminate].
    destruct (bind_existing order sch e k t st) as [st1 [y|]] eqn:Eb; [discriminate|].
    apply (bind_served _ _ _ _ _ _ W) in Eb. destruct Eb as (K1 & S1 & W1 & B1).
    destruct (IH s k st1 st' W1 H) as (W2 & K2 & N2 & B2).
    split; [exact W2|]. split; [apply (keeps_trans _ st1); assumption|].
    split; [apply (new_all_keeps _ st1); try assumption; apply new_all_stores, S1|].
    intros f [<-|Hf] Hm; [|apply (B2 f Hf Hm)]. apply end_valid_spec in Ev.
    apply K2; [apply Ev|exact Hm|apply B1; reflexivity].
  - intros e t rest IH s k st st' W H. rewrite UpdateBindings_eq in H.
    destruct (end_valid sch s e) eqn:Ev; cbn [negb] in H; [|discriminate].
    destruct (bind_existing order sch e k t st) as [st1 [y|]] eqn:Eb; [discriminate|].
    apply (bind_served _ _ _ _ _ _ W) in Eb. destruct Eb as (K1 & S1 & W1 & B1).
    destruct (IH s k st1 st' W1 H) as (W2 & K2 & N2 & B2).
    split; [exact W2|]. split; [apply (keeps_trans _ st1); assumption|].
    split; [apply (new_all_keeps _ st1); try assumption; apply new_all_stores, S1|].
    intros f [<-|Hf] Hm; [|apply (B2 f Hf Hm)]. apply end_valid_spec in Ev.
    apply K2; [apply Ev|exact Hm|apply B1; reflexivity].
  - intros e n IHn rest IH s k st st' W H. rewrite UpdateBindings_eq in H.
    destruct (end_valid sch s e) eqn:Ev; cbn [negb] in H; [|discriminate].
    destruct (InsertEntity order sch no_filter (end_store sch (other e)) n (Some (other e)) st)
      as [st1 [t|y]] eqn:En; [|discriminate].
    destruct (IHn _ _ _ _ _ _ W En) as (W1 & K1 & N1).
    destruct (nav_setitem sch e k t (end_store sch (other e)) t st1) as [st2 [y|]] eqn:Eb;
      [discriminate|].
    apply (keeps_set _ _ _ _ _ _ _ _ W1) in Eb. destruct Eb as (K2 & S2 & W2 & B2).
    destruct (B2 eq_refl) as [B2a B2b].
    destruct (IH s k st2 st' W2 H) as (W3 & K3 & N3 & B3).
    assert (N12 : new_all st st2).
    { intros y Hy. apply (present_stores _ _ _ S2) in Hy. destruct (N1 y Hy) as [A|A]; [tauto|].
      right. intros f Hf Es Em. destruct (A f Hf Es Em) as [B|[-> B]].
      - apply K2; assumption.
      - injection B as <-. exact B2b. }
    split; [exact W3|]. split; [apply (keeps_trans _ st1); [exact K1|];
      apply (keeps_trans _ st2); assumption|].
    split; [apply (new_all_keeps _ st2); assumption|].
    intros f [<-|Hf] Hm; [|apply (B3 f Hf Hm)]. apply end_valid_spec in Ev.
    apply K3; [apply Ev|exact Hm|exact B2a].
Qed.

End Nav.
