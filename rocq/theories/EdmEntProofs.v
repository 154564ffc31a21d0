From Coq Require Import Lia.
From Verif Require Import Py Iso Dec EdmLit EdmLitSpec EdmLitProofs EdmEnt EdmEntSpec.
Open Scope Z_scope.
Open Scope list_scope.

(** ** Dictionaries and paths *)
Lemma has_nil n t : ~ has n t INil. Proof. intros H. inversion H. Qed.
Lemma has_cons n t m u r : has n t (ICons m u r) <-> n = m /\ t = u \/ has n t r.
Proof. split; [inversion 1; subst; auto|]. intros [[-> ->]|H]; constructor; auto. Qed.
Lemma find_has n d : is_dict d -> forall t, find n d = Some t <-> has n t d.
Proof.
  induction 1 as [|m u r Hn Hu _ Hr IH]; intros t; cbn [find].
  - split; [discriminate|intros H; destruct (has_nil _ _ H)].
  - rewrite has_cons. destruct (str_eqb m n) eqn:E.
    + apply str_eqb_eq in E. subst m. split; [intros [= ->]; auto|]. intros [[_ ->]|H]; [reflexivity|destruct (Hn t H)].
    + apply str_eqb_neq in E. rewrite IH. split; [auto|]. intros [[-> _]|H]; [congruence|assumption].
Qed.
Lemma find_none n d : find n d = None <-> ~ listed n d.
Proof.
  induction d as [|m u r IH]; cbn [find].
  - split; [intros _ [t H]; destruct (has_nil _ _ H)|reflexivity].
  - destruct (str_eqb m n) eqn:E.
    + apply str_eqb_eq in E. subst m. split; [discriminate|]. intros H. destruct H. exists u. constructor.
    + apply str_eqb_neq in E. rewrite IH. unfold listed. split; intros H [t Ht]; apply H; exists t.
      * apply has_cons in Ht. destruct Ht as [[-> _]|]; [congruence|assumption].
      * now constructor.
Qed.
Lemma dict_sub n t d : is_dict d -> has n t d -> is_dict (dict t).
Proof.
  induction 1 as [|m u r Hn Hu _ Hr IH]; intros H; [destruct (has_nil _ _ H)|].
  apply has_cons in H. destruct H as [[-> ->]|H]; auto.
Qed.
Lemma at_path_ne d p t : at_path d p t -> p <> []. Proof. destruct 1; discriminate. Qed.
Lemma at_path_dict n t d p u : has n t d -> at_path (dict t) p u -> at_path d (n :: p) u.
Proof.
  destruct t as [|d']; cbn [dict]; intros H P; [inversion P as [? ? ? X|? ? ? ? ? X]; destruct (has_nil _ _ X)|].
  econstructor; eassumption.
Qed.

Section Types.
Variable schema : nat -> str -> option member.
Hypothesis no_star : forall T, schema T star = None.
Notation good_expand := (good_expand schema).
Notation good_select := (good_select schema).
Notation leads := (leads schema).

Lemma good_expand_step T e : good_expand T e <->
  forall n t, has n t e -> exists U, schema T n = Some (Nav U) /\ good_expand U (dict t).
Proof.
  split.
  - intros H n t Hn. destruct (H [] n t) as (T' & U & L & S); [now constructor|]. inversion L; subst T'. exists U. split; [assumption|].
    intros p m u P. destruct (H (n :: p) m u) as (T' & V & L' & S').
    { cbn [app]. now apply (at_path_dict n t). }
    inversion L' as [|? ? U' ? ? S2 L2]; subst. rewrite S in S2. injection S2 as <-. eauto.
  - intros H p n t P. destruct p as [|m p]; cbn [app] in P.
    + inversion P as [? ? ? Hn|? ? ? ? ? Hn Q]; subst; [|destruct (at_path_ne _ _ _ Q eq_refl)].
      destruct (H n t Hn) as (U & S & _). exists T, U. split; [constructor|assumption].
    + inversion P as [? ? ? Hn E|? d' ? ? ? Hn Q]; subst; [destruct p; discriminate|].
      destruct (H m _ Hn) as (U & S & G). destruct (G p n t Q) as (T' & V & L & S'). exists T', V. split; [econstructor; eassumption|assumption].
Qed.
Lemma good_select_step T s : good_select T s <->
  forall n t, has n t s -> (exists U, schema T n = Some (Nav U) /\ good_select U (dict t)) \/
                           t = TNone /\ (n = star \/ schema T n = Some Data).
Proof.
  split.
  - intros H n t Hn. destruct (H [] n t) as (T' & L & C); [now constructor|]. inversion L; subst T'. destruct C as [[U S]|C]; [|right; assumption].
    left. exists U. split; [assumption|]. intros p m u P. destruct (H (n :: p) m u) as (T' & L' & C').
    { cbn [app]. now apply (at_path_dict n t). }
    inversion L' as [|? ? U' ? ? S2 L2]; subst. rewrite S in S2. injection S2 as <-. eauto.
  - intros H p n t P. destruct p as [|m p]; cbn [app] in P.
    + inversion P as [? ? ? Hn|? ? ? ? ? Hn Q]; subst; [|destruct (at_path_ne _ _ _ Q eq_refl)].
      exists T. split; [constructor|]. destruct (H n t Hn) as [(U & S & _)|C]; [left; eauto|right; assumption].
    + inversion P as [? ? ? Hn E|? d' ? ? ? Hn Q]; subst; [destruct p; discriminate|].
      destruct (H m _ Hn) as [(U & S & G)|[C _]]; [|discriminate]. destruct (G p n t Q) as (T' & L & C). exists T'. split; [econstructor; eassumption|assumption].
Qed.

Scheme tree_mut := Induction for tree Sort Prop with items_mut := Induction for items Sort Prop.
Lemma expand_ok_spec : forall e T, expand_ok schema T e = true <-> good_expand T e.
Proof.
  apply (items_mut (fun t => forall T, expand_ok schema T (dict t) = true <-> good_expand T (dict t))
                   (fun e => forall T, expand_ok schema T e = true <-> good_expand T e)).
  - intros T. cbn [dict expand_ok]. split; [|reflexivity]. intros _. apply good_expand_step. intros n t H. destruct (has_nil _ _ H).
  - intros d IH T. exact (IH T).
  - intros T. cbn [expand_ok]. split; [|reflexivity]. intros _. apply good_expand_step. intros n t H. destruct (has_nil _ _ H).
  - intros n t IHt r IHr T. cbn [expand_ok].
    assert (match schema T n with Some (Nav U) => match t with TNone => true | TDict d => expand_ok schema U d end | _ => false end = true
            <-> exists U, schema T n = Some (Nav U) /\ good_expand U (dict t)) as A.
    { destruct (schema T n) as [[|U]|] eqn:S; try (split; [discriminate|intros (V & ? & _); discriminate]).
      assert (match t with TNone => true | TDict d => expand_ok schema U d end = expand_ok schema U (dict t)) as -> by (destruct t; reflexivity).
      rewrite IHt. split; [eauto|]. intros (V & [= <-] & G). exact G. }
    rewrite andb_true_iff, A, IHr, !good_expand_step. split.
    + intros [(U & S & G) H] m u Hm. apply has_cons in Hm. destruct Hm as [[-> ->]|Hm]; eauto.
    + intros H. split; [apply H; constructor|]. intros m u Hm. apply H. now constructor.
Qed.
Lemma expand_rest_spec T s e : expand_rest schema T s e = true <->
  forall n t, has n t e -> exists U, schema T n = Some (Nav U) /\ (find n s = None -> good_expand U (dict t)).
Proof.
  induction e as [|n t r IH]; cbn [expand_rest].
  - split; [|reflexivity]. intros _ n t H. destruct (has_nil _ _ H).
  - assert (match schema T n with Some (Nav U) => match find n s with Some _ => true | None => expand_ok schema U (dict t) end | _ => false end = true
            <-> exists U, schema T n = Some (Nav U) /\ (find n s = None -> good_expand U (dict t))) as A.
    { destruct (schema T n) as [[|U]|] eqn:S; try (split; [discriminate|intros (V & ? & _); discriminate]).
      destruct (find n s) eqn:F.
      - split; [|reflexivity]. intros _. exists U. split; [reflexivity|discriminate].
      - rewrite expand_ok_spec. split; [eauto|]. intros (V & [= <-] & G). auto. }
    rewrite andb_true_iff, A, IH. split.
    + intros [B H] m u Hm. apply has_cons in Hm. destruct Hm as [[-> ->]|Hm]; auto.
    + intros H. split; [apply H; constructor|]. intros m u Hm. apply H. now constructor.
Qed.
Definition sub_of (n : str) (e : items) : items := match find n e with Some t => dict t | None => INil end.
Lemma select_loop_spec T e s : select_loop schema T e s = true <->
  forall n t, has n t s ->
    n = star /\ t = TNone \/
    n <> star /\ (schema T n = Some Data /\ t = TNone \/
                  exists U, schema T n = Some (Nav U) /\
                    select_loop schema U (sub_of n e) (dict t) && expand_rest schema U (dict t) (sub_of n e) = true).
Proof.
  induction s as [|n t r IH]; cbn [select_loop].
  - split; [|reflexivity]. intros _ n t H. destruct (has_nil _ _ H).
  - fold (sub_of n e). rewrite andb_true_iff, IH.
    match goal with |- (?c = true /\ _) <-> _ => assert (c = true <->
      (n = star /\ t = TNone \/
       n <> star /\ (schema T n = Some Data /\ t = TNone \/
                  exists U, schema T n = Some (Nav U) /\
                    select_loop schema U (sub_of n e) (dict t) && expand_rest schema U (dict t) (sub_of n e) = true))) as A end.
    { destruct (str_eqb n star) eqn:E.
      - apply str_eqb_eq in E. destruct t; split; auto; [discriminate|]. intros [[_ X]|[X _]]; [discriminate|contradiction].
      - apply str_eqb_neq in E. cbv zeta. destruct (schema T n) as [[|U]|] eqn:S.
        + destruct t; split; auto; try discriminate. intros [[X _]|[_ [[_ X]|(V & X & _)]]]; congruence.
        + assert (match t with TNone => expand_rest schema U INil (sub_of n e) | TDict d => select_loop schema U (sub_of n e) d && expand_rest schema U d (sub_of n e) end
                  = select_loop schema U (sub_of n e) (dict t) && expand_rest schema U (dict t) (sub_of n e)) as -> by (destruct t; reflexivity).
          split; [intros X; right; split; [assumption|right; eauto]|].
          intros [[X _]|[_ [[X _]|(V & [= <-] & X)]]]; [contradiction|discriminate|exact X].
        + split; [discriminate|]. intros [[X _]|[_ [[X _]|(V & X & _)]]]; [contradiction|discriminate|discriminate]. }
    rewrite A. split.
    + intros [B H] m u Hm. apply has_cons in Hm. destruct Hm as [[-> ->]|Hm]; auto.
    + intros H. split; [apply H; constructor|]. intros m u Hm. apply H. now constructor.
Qed.
Definition validate (T : nat) (e s : items) : bool := select_loop schema T e s && expand_rest schema T s e.
Definition validates (t : tree) : Prop := forall U e, is_dict e -> is_dict (dict t) ->
  validate U e (dict t) = true <-> good_select U (dict t) /\ good_expand U e.
Lemma validates_items s : (forall n t, has n t s -> validates t) -> forall U e, is_dict e -> is_dict s ->
  validate U e s = true <-> good_select U s /\ good_expand U e.
Proof.
  intros IH U e De Ds. unfold validate. rewrite andb_true_iff, select_loop_spec, expand_rest_spec, good_select_step, good_expand_step.
  assert (forall n, is_dict (sub_of n e)) as Dsub.
  { intros n. unfold sub_of. destruct (find n e) as [t|] eqn:F; [|constructor]. apply find_has in F; [|assumption]. exact (dict_sub n t e De F). }
  split.
  - intros [H1 H2]. split.
    + intros n t Hn. destruct (H1 n t Hn) as [[-> ->]|[Hs [[S ->]|(V & S & X)]]]; [right; auto|right; auto|left].
      exists V. split; [assumption|]. apply (IH n t Hn V (sub_of n e) (Dsub n) (dict_sub n t s Ds Hn)) in X. apply X.
    + intros n t Hn. destruct (H2 n t Hn) as (V & S & G). exists V. split; [assumption|].
      destruct (find n s) as [u|] eqn:F; [|auto]. apply find_has in F; [|assumption].
      destruct (H1 n u F) as [[-> ->]|[Hs [[S' ->]|(W & S' & X)]]]; [rewrite no_star in S; discriminate|congruence|].
      rewrite S in S'. injection S' as <-. apply (IH n u F V (sub_of n e) (Dsub n) (dict_sub n u s Ds F)) in X. destruct X as [_ X].
      unfold sub_of in X. apply (find_has n e De) in Hn. rewrite Hn in X. exact X.
  - intros [H1 H2]. split.
    + intros n t Hn. destruct (H1 n t Hn) as [(V & S & G)|[-> [-> |S]]].
      * right. assert (n <> star) as Hs by (intros ->; rewrite no_star in S; discriminate). split; [assumption|]. right. exists V. split; [assumption|].
        apply (IH n t Hn V (sub_of n e) (Dsub n) (dict_sub n t s Ds Hn)). split; [assumption|].
        unfold sub_of. destruct (find n e) as [u|] eqn:F; [|apply good_expand_step; intros ? ? X; destruct (has_nil _ _ X)].
        apply find_has in F; [|assumption]. destruct (H2 n u F) as (W & S' & G'). rewrite S in S'. injection S' as <-. exact G'.
      * left. auto.
      * right. split; [intros ->; rewrite no_star in S; discriminate|]. left. auto.
    + intros n t Hn. destruct (H2 n t Hn) as (V & S & G). eauto.
Qed.
Theorem validates_all : forall t, validates t.
Proof.
  apply (tree_mut validates (fun s => forall n t, has n t s -> validates t)).
  - intros U e De Ds. apply (validates_items INil); auto. intros n t H. destruct (has_nil _ _ H).
  - intros d IH U e De Ds. apply (validates_items d); auto.
  - intros n t H. destruct (has_nil _ _ H).
  - intros n t IHt r IHr m u H. apply has_cons in H. destruct H as [[-> ->]|H]; eauto.
Qed.
Theorem validate_spec T expand select : is_dict (dict expand) -> is_dict (dict select) ->
  ValidateExpansion schema T expand select = true <-> good_select T (dict select) /\ good_expand T (dict expand).
Proof. intros De Ds. exact (validates_all select T (dict expand) De Ds). Qed.
End Types.

(** ** Select *)
Lemma mem_in n l : mem n l = true <-> In n l.
Proof.
  unfold mem. rewrite existsb_exists. split; [intros (x & H & E); apply str_eqb_eq in E; now subst|].
  intros H. exists n. split; [assumption|now apply str_eqb_eq].
Qed.
Lemma in_dict_listed n d : in_dict n d = true <-> listed n d.
Proof.
  unfold in_dict. destruct (find n d) eqn:F.
  - split; [|reflexivity]. intros _. revert F. induction d as [|m u r IH]; cbn [find]; [discriminate|].
    destruct (str_eqb m n) eqn:E; [apply str_eqb_eq in E; subst; eexists; constructor|].
    intros F. destruct (IH F) as [v V]. exists v. now constructor.
  - apply find_none in F. split; [discriminate|contradiction].
Qed.
Lemma selected_in d x n : mem n (select_names d x) = true <->
  listed n d /\ (data_name n x \/ In n (e_navs x)) \/ listed star d /\ data_name n x.
Proof.
  rewrite mem_in. unfold select_names. rewrite in_app_iff, filter_In, in_app_iff, in_dict_listed.
  assert (In n (map p_name (e_props x)) <-> data_name n x) as ->.
  { rewrite in_map_iff. unfold data_name. split; intros (p & A & B); exists p; auto. }
  assert (In n (if in_dict star d then map p_name (e_props x) else []) <-> listed star d /\ data_name n x) as ->.
  { rewrite <- in_dict_listed. destruct (in_dict star d).
    - rewrite in_map_iff. unfold data_name. split; [intros (p & A & B); split; [reflexivity|exists p; auto]|]. intros [_ (p & A & B)]. exists p. auto.
    - split; [intros []|intros [X _]; discriminate]. }
  tauto.
Qed.
Scheme value_mut := Induction for value Sort Prop with fields_mut := Induction for fields Sort Prop.
Lemma set_null_nulled : forall v, nulled v (set_null v).
Proof.
  apply (value_mut (fun v => nulled v (set_null v)) (fun fs => nulled_fields fs (null_fields fs))); cbn [set_null null_fields]; intros; constructor; auto.
Qed.
Theorem shown_all d x : Forall2 (shown d) (e_props x) (e_props (select_entity (Some d) x)).
Proof.
  cbn [select_entity e_props]. cbv zeta. destruct (in_dict star d) eqn:E.
  - apply in_dict_listed in E. induction (e_props x) as [|p l IH]; constructor; [|assumption]. unfold shown. repeat (split; [reflexivity|]). left. auto.
  - assert (~ listed star d) as Hs by (rewrite <- in_dict_listed; congruence).
    set (sel := select_names d x). 
    assert (forall l, incl l (e_props x) -> Forall2 (shown d) l (map (fun p => if p_key p || mem (p_name p) sel then p
                                else mkProp (p_name p) (p_key p) (p_fixed p) (set_null (p_value p))) l)) as A.
    { induction l as [|p l IH]; intros Hi; cbn [map]; constructor; [|apply IH; intros y Y; apply Hi; now right].
      assert (mem (p_name p) sel = true <-> listed (p_name p) d) as M.
      { unfold sel. rewrite selected_in. split; [intros [[A _]|[A _]]; [assumption|contradiction]|]. intros L. left. split; [assumption|].
        left. exists p. split; [apply Hi; now left|reflexivity]. }
      destruct (p_key p) eqn:K; cbn [orb]; [unfold shown; split; [reflexivity|]; split; [reflexivity|]; split; [reflexivity|]; left; split; [left; exact K|reflexivity]|].
      destruct (mem (p_name p) sel) eqn:Mm.
      - unfold shown. split; [reflexivity|]. split; [reflexivity|]. split; [reflexivity|]. left. split; [right; right; now apply M|reflexivity].
      - assert (~ listed (p_name p) d) by (rewrite <- M; congruence).
        unfold shown. cbn [p_name p_key p_fixed p_value]. split; [reflexivity|]. split; [congruence|]. split; [reflexivity|]. right.
        split; [assumption|]. split; [assumption|]. split; [assumption|apply set_null_nulled]. }
    apply A. intros y Y. exact Y.
Qed.

(** ** Copying *)
Lemma self_same : forall v, self_set v = v.
Proof.
  apply (value_mut (fun v => self_set v = v) (fun fs => self_fields fs = fs)); cbn [self_set self_fields]; intros; congruence.
Qed.
Theorem set_from_complex_same fs new : forall gs, SetFromComplex fs new = Ok gs -> gs = fs.
Proof.
  induction fs as [|n v r IH]; intros gs; cbn [SetFromComplex]; [intros [= <-]; reflexivity|].
  destruct (match field n new with None => Ok v | Some nv => _ end) as [v'|] eqn:E; [|discriminate]. cbn [bind].
  destruct (SetFromComplex r new) as [r'|] eqn:R; [|discriminate]. cbn [bind]. intros [= <-]. rewrite (IH r' eq_refl). f_equal.
  destruct (field n new) as [[w|gs]|]; destruct v as [s|hs]; rewrite ?self_same in E; congruence.
Qed.
Theorem set_from_entity_same ps : forall new qs, SetFromEntity ps new = Ok qs -> qs = ps.
Proof.
  induction ps as [|p ps IH]; intros new qs; cbn [SetFromEntity]; [intros [= <-]; reflexivity|].
  destruct (p_key p).
  - destruct (SetFromEntity ps new) as [r|] eqn:R; [|discriminate]. cbn [bind]. intros [= <-]. now rewrite (IH _ _ R).
  - destruct new as [s|fs]; [discriminate|]. destruct (field (p_name p) fs) as [nv|].
    + destruct (SetFromEntity ps nv) as [r|] eqn:R; [|discriminate]. cbn [bind]. intros [= <-]. now rewrite (IH _ _ R).
    + destruct (forallb p_key ps); [|discriminate]. intros [= <-]. reflexivity.
Qed.

(** ** Concurrency *)
Theorem hash_changed ps qs p q : one_changed ps qs p q -> p_key p = false -> p_fixed p = false ->
  (hash_input ps = hash_input qs <-> hash_value (p_value p) = hash_value (p_value q)).
Proof.
  intros [a b p' q' Hn Hk Hf] K F. unfold hash_input. rewrite !flat_map_app. cbn [flat_map]. rewrite Hk, Hf, K, F. cbn [orb].
  split; [|congruence]. intros H. apply app_inv_head in H. now apply app_inv_tail in H.
Qed.
Lemma fit_length pad m f h : (length (fit pad (Some m) f h) <= m)%nat /\ (f = true -> length (fit pad (Some m) f h) = m).
Proof.
  unfold fit. cbv zeta. destruct (m <? length h)%nat eqn:E; [apply Nat.ltb_lt in E|apply Nat.ltb_ge in E].
  - destruct f; rewrite ?app_length, ?repeat_length, skipn_length; split; intros; try discriminate; lia.
  - destruct f; rewrite ?app_length, ?repeat_length; split; intros; try discriminate; lia.
Qed.
Lemma fit_inj pad m f h h' : length h = length h' -> match m with Some k => (length h <= k)%nat | None => True end ->
  fit pad m f h = fit pad m f h' -> h = h'.
Proof.
  intros L Hm. unfold fit. destruct m as [k|]; [|auto]. cbv zeta. rewrite <- L.
  assert ((k <? length h)%nat = false) as -> by (apply Nat.ltb_ge; lia). destruct f; [|auto].
  rewrite <- L. apply app_inv_tail.
Qed.
(** Repeated calls for an integer *)
Fixpoint times (n : nat) (digest hexdigest : str) (t : token) : result token :=
  match n with O => Ok t | S n' => t' <- times n' digest hexdigest t ;; next_token digest hexdigest t' end.
Definition long_int (i : int_type) : Prop := i = Int16 \/ i = Int32 \/ i = Int64.
Lemma set_int_1 i n : in_range i n -> set_int i n 1 = Ok n.
Proof. intros H. apply (proj1 (range_ok i n)) in H. apply set_int_spec. rewrite quot1. split; [lia|reflexivity]. Qed.
Theorem int_times i v d h k : long_int i -> 0 <= (match v with None => 0 | Some n => n end) -> Z.of_nat (S k) + (match v with None => 0 | Some n => n end) <= greatest i ->
  times (S k) d h (TInt i v) = Ok (TInt i (Some (Z.of_nat (S k) + match v with None => 0 | Some n => n end))).
Proof.
  intros Hi Hv. set (v0 := match v with None => 0 | Some n => n end) in *.
  assert (forall w n, 0 <= n -> n + 1 <= greatest i -> (match w with None => 0 | Some n => n end) = n -> next_token d h (TInt i w) = Ok (TInt i (Some (n + 1)))) as A.
  { intros w n Hn Hg E. assert (set_int i (match w with None => 1 | Some n => n + 1 end) 1 = Ok (n + 1)) as B.
    { replace (match w with None => 1 | Some n => n + 1 end) with (n + 1) by (destruct w; lia). apply set_int_1. split; [|assumption].
      assert (least i <= 0) by (destruct i; cbn; lia). lia. }
    cbn [next_token]. destruct Hi as [-> |[-> | ->]]; rewrite B; reflexivity. }
  induction k as [|k IH]; intros Hg.
  - cbn [times bind]. rewrite (A v v0) by (auto; lia). do 3 f_equal. lia.
  - change (times (S (S k)) d h (TInt i v)) with (t' <- times (S k) d h (TInt i v) ;; next_token d h t').
    rewrite IH by lia. cbn [bind]. rewrite (A _ (Z.of_nat (S k) + v0)) by (try reflexivity; lia). do 3 f_equal. lia.
Qed.
