(** The properties of $expand, $select, the copying of values and concurrency tokens *)
From Coq Require Import Lia.
From Verif Require Import Py Iso Dec EdmLit EdmLitSpec EdmLitProofs EdmEnt EdmEntSpec EdmEntProofs.
Open Scope Z_scope.
Open Scope list_scope.

(** ** C247: the options accepted are those whose every name exists where it stands.
    No property is named *, which is not a simple identifier. *)
Theorem C247_validate : forall schema T expand select,
  (forall U, schema U star = None) -> is_dict (dict expand) -> is_dict (dict select) ->
  (ValidateExpansion schema T expand select = true <->
   good_select schema T (dict select) /\ good_expand schema T (dict expand)).
Proof. intros schema T e s H De Ds. now apply validate_spec. Qed.
(** Type 0 has Name and navigates by Orders to type 1, which has Date and Lines, to type 2 *)
Definition shop (T : nat) (n : str) : option member :=
  match T with
  | 0%nat => if str_eqb n (lit "Name") then Some Data else if str_eqb n (lit "Orders") then Some (Nav 1) else None
  | 1%nat => if str_eqb n (lit "Date") then Some Data else if str_eqb n (lit "Lines") then Some (Nav 2) else None
  | _ => None
  end.
Definition one (n : str) (t : tree) : tree := TDict (ICons n t INil).
Definition shop_select : tree := TDict (ICons (lit "Name") TNone (ICons (lit "Orders") (one (lit "Date") TNone) INil)).
Definition shop_expand : tree := one (lit "Orders") (one (lit "Lines") TNone).
Example C247_case : (forall U, shop U star = None) /\ is_dict (dict shop_expand) /\ is_dict (dict shop_select) /\
  ValidateExpansion shop 0 shop_expand shop_select = true /\
  ValidateExpansion shop 0 (one (lit "Name") TNone) shop_select = false /\
  ValidateExpansion shop 0 (one (lit "Orders") (one (lit "Date") TNone)) shop_select = false /\
  ValidateExpansion shop 0 TNone (one (lit "Name") (one (lit "Date") TNone)) = false.
Proof.
  split; [|split; [|split; [|vm_compute; auto]]].
  - intros [|[|U]]; reflexivity.
  - cbn. repeat constructor; intros u X; inversion X.
  - cbn. repeat constructor; intros u X; inversion X; subst; match goal with Y : has _ _ INil |- _ => inversion Y end.
Qed.

(** ** C248: an entity under $select and $expand *)
Theorem C248_selected : forall d x n,
  (Selected n (select_entity (Some d) x) = true <->
   listed n d /\ (data_name n x \/ In n (e_navs x)) \/ listed star d /\ data_name n x) /\
  Selected n (select_entity None x) = true.
Proof. intros d x n. split; [exact (selected_in d x n)|reflexivity]. Qed.
Theorem C248_values : forall d x,
  Forall2 (shown d) (e_props x) (e_props (select_entity (Some d) x)) /\
  e_props (select_entity None x) = e_props x.
Proof. intros d x. split; [apply shown_all|reflexivity]. Qed.
(** Each navigation property that is to be expanded is, with the names after it; selected as a
    whole it is selected as the star *)
Theorem C248_expansions : forall e s x n t w,
  In (n, t, w) (expansions (TDict e) s x) <->
  In n (e_navs x) /\ find n e = Some t /\
  (w = None /\ (s = None \/ exists d, s = Some d /\ ~ listed n d) \/
   exists d u, s = Some d /\ find n d = Some u /\
     (u = TNone /\ w = Some (ICons star TNone INil) \/ exists d', u = TDict d' /\ w = Some d')).
Proof.
  intros e s x n t w. unfold expansions. rewrite in_flat_map. cbn [dict]. split.
  - intros (m & Hm & H). destruct (find m e) as [u|] eqn:F; [|destruct H]. destruct H as [H|[]]. injection H as <- <- <-.
    split; [assumption|]. split; [assumption|]. destruct s as [d|]; [|left; auto].
    destruct (find m d) as [[|d']|] eqn:G.
    + right. exists d, TNone. auto.
    + right. exists d, (TDict d'). split; [reflexivity|]. split; [assumption|]. right. eauto.
    + left. split; [reflexivity|]. right. exists d. split; [reflexivity|]. now apply find_none.
  - intros (Hn & F & H). exists n. split; [assumption|]. rewrite F. left. f_equal.
    destruct H as [[-> [-> |(d & -> & H)]]|(d & u & -> & G & [[-> ->]|(d' & -> & ->)])].
    + reflexivity.
    + apply find_none in H. now rewrite H.
    + now rewrite G.
    + now rewrite G.
Qed.
(** The tag is of the tokens selected *)
Theorem C248_tag : forall d x v,
  (exists l, ETag (select_entity (Some d) x) = Some l /\ In v l) <->
  exists p, In p (e_props x) /\ p_fixed p = true /\ (listed star d \/ listed (p_name p) d) /\ p_value p = v /\ v <> Simple None.
Proof.
  intros d x v. set (y := select_entity (Some d) x).
  assert (forall p, In p (e_props x) -> (Selected (p_name p) y = true <-> listed star d \/ listed (p_name p) d)) as S.
  { intros p Hp. destruct (C248_selected d x (p_name p)) as [E _]. fold y in E. rewrite E.
    assert (data_name (p_name p) x) by (exists p; auto). tauto. }
  unfold ETag. set (l := flat_map _ (e_props y)).
  assert (In v l <-> exists p, In p (e_props x) /\ p_fixed p = true /\ (listed star d \/ listed (p_name p) d) /\ p_value p = v /\ v <> Simple None) as L.
  { unfold l. clear l. destruct (C248_values d x) as [F _]. fold y in F.
    assert (forall ps qs, Forall2 (shown d) ps qs -> incl ps (e_props x) ->
      (In v (flat_map (fun p => if p_fixed p && Selected (p_name p) y then match p_value p with Simple None => [] | v => [v] end else []) qs) <->
       exists p, In p ps /\ p_fixed p = true /\ (listed star d \/ listed (p_name p) d) /\ p_value p = v /\ v <> Simple None)) as A.
    { induction 1 as [|p q ps qs H _ IH]; intros Hi.
      - split; [intros []|intros (p & [] & _)].
      - cbn [flat_map]. rewrite in_app_iff, IH by (intros z Z; apply Hi; now right).
        destruct H as (En & _ & Ef & H). rewrite En, Ef.
        assert (In v (if p_fixed p && Selected (p_name p) y then match p_value q with Simple None => [] | v => [v] end else []) <->
                p_fixed p = true /\ (listed star d \/ listed (p_name p) d) /\ p_value p = v /\ v <> Simple None) as ->.
        { rewrite <- S by (apply Hi; now left). destruct (p_fixed p); cbn [andb]; [|split; [intros []|intros [X _]; discriminate]].
          destruct (Selected (p_name p) y) eqn:Sp; [|split; [intros []|intros (_ & X & _); discriminate]].
          apply S in Sp; [|apply Hi; now left].
          assert (p_value q = p_value p) as ->.
          { destruct H as [[_ H]|(_ & Na & Nb & _)]; [assumption|]. destruct Sp; contradiction. }
          destruct (p_value p) as [[s|]|fs]; cbn [In].
          - split; [intros [<- |[]]; repeat split; auto; discriminate|]. intros (_ & _ & X & _). auto.
          - split; [intros []|]. intros (_ & _ & X & Y). congruence.
          - split; [intros [<- |[]]; repeat split; auto; discriminate|]. intros (_ & _ & X & _). auto. }
        split.
        + intros [X|(p' & Hp & X)]; [exists p; split; [now left|exact X]|exists p'; split; [now right|exact X]].
        + intros (p' & [<- |Hp] & X); [left; exact X|right; exists p'; auto]. }
    apply A; [exact F|]. intros z Z. exact Z. }
  rewrite <- L. destruct l as [|a l].
  - split; [intros (m & X & _); discriminate|intros []].
  - split; [intros (m & [= <-] & X); exact X|]. intros X. exists (a :: l). auto.
Qed.
Definition sample : entity :=
  mkEnt [mkProp (lit "Id") true false (Simple (Some (lit "7")));
         mkProp (lit "Name") false false (Simple (Some (lit "Box")));
         mkProp (lit "Size") false false (Complex (FCons (lit "W") (Simple (Some (lit "3"))) FNil));
         mkProp (lit "Version") false true (Simple (Some (lit "12")))] [lit "Orders"; lit "Maker"] None.
Example C248_case :
  e_props (select_entity (Some (ICons (lit "Name") TNone INil)) sample) =
    [mkProp (lit "Id") true false (Simple (Some (lit "7")));
     mkProp (lit "Name") false false (Simple (Some (lit "Box")));
     mkProp (lit "Size") false false (Complex (FCons (lit "W") (Simple None) FNil));
     mkProp (lit "Version") false true (Simple None)] /\
  Selected (lit "Id") (select_entity (Some (ICons (lit "Name") TNone INil)) sample) = false /\
  expansions (one (lit "Orders") TNone) (Some (ICons (lit "Orders") TNone INil)) sample =
    [(lit "Orders", TNone, Some (ICons star TNone INil))] /\
  ETag sample = Some [Simple (Some (lit "12"))] /\
  ETag (select_entity (Some (ICons (lit "Name") TNone INil)) sample) = None.
Proof. vm_compute. auto. Qed.

(** ** C249: the value of each property is copied: it never is.  What is proved: nothing else is
    changed either, and when it raises. *)
Definition C249_copies : Prop :=
  (forall fs new gs, SetFromComplex fs new = Ok gs -> copied fs new gs) /\
  (forall ps new, exists qs, SetFromEntity ps (Complex new) = Ok qs).
Theorem C249_refuted : ~ C249_copies /\
  (forall fs new gs n v w, field n fs = Some (Simple v) -> field n new = Some (Simple w) -> v <> w ->
     SetFromComplex fs new = Ok gs -> ~ copied fs new gs) /\
  (forall a p b q c new v, forallb p_key a = true -> p_key p = false -> forallb p_key b = true -> p_key q = false ->
     field (p_name p) new = Some (Simple v) ->
     SetFromEntity (a ++ p :: b ++ q :: c) (Complex new) = Err AttributeError).
Proof.
  assert (forall a p b q c new v, forallb p_key a = true -> p_key p = false -> forallb p_key b = true -> p_key q = false ->
     field (p_name p) new = Some (Simple v) ->
     SetFromEntity (a ++ p :: b ++ q :: c) (Complex new) = Err AttributeError) as E.
  { intros a p b q c new v Ha Hp Hb Hq F.
    assert (SetFromEntity (b ++ q :: c) (Simple v) = Err AttributeError) as B.
    { induction b as [|r b IH]; cbn [app SetFromEntity]; [now rewrite Hq|].
      cbn [forallb] in Hb. apply andb_true_iff in Hb. destruct Hb as [K Hb]. rewrite K, IH by assumption. reflexivity. }
    induction a as [|r a IH]; cbn [app SetFromEntity].
    - now rewrite Hp, F, B.
    - cbn [forallb] in Ha. apply andb_true_iff in Ha. destruct Ha as [K Ha]. rewrite K, IH by assumption. reflexivity. }
  split; [|split; [|exact E]].
  - intros [_ H]. specialize (H [mkProp (lit "A") false false (Simple None); mkProp (lit "B") false false (Simple None)]
      (FCons (lit "A") (Simple None) FNil)). destruct H as [qs H]. vm_compute in H. discriminate.
  - intros fs new gs n v w F G N H C. apply set_from_complex_same in H. subst gs. specialize (C n v w F G). congruence.
Qed.
(** A complex property that would be set from a simple value *)
Definition ill_matched (fs new : fields) : Prop :=
  exists n hs w, field n fs = Some (Complex hs) /\ field n new = Some (Simple w).
Fixpoint field_names (fs : fields) : list str := match fs with FNil => [] | FCons n _ r => n :: field_names r end.
Theorem C249_partial : forall fs new, NoDup (field_names fs) ->
  (SetFromComplex fs new = Err ValueError /\ ill_matched fs new \/ SetFromComplex fs new = Ok fs /\ ~ ill_matched fs new) /\
  (forall ps v qs, SetFromEntity ps v = Ok qs -> qs = ps).
Proof.
  intros fs new D. split; [|intros; eapply set_from_entity_same; eassumption].
  assert (forall n (l : fields) v, field n l = Some v -> In n (field_names l)) as I.
  { intros n l v. induction l as [|m u r IH]; cbn [field field_names]; [discriminate|]. destruct (str_eqb m n) eqn:E; [apply str_eqb_eq in E; now left|right; auto]. }
  induction fs as [|n v r IH]; cbn [SetFromComplex].
  - right. split; [reflexivity|]. intros (n & hs & w & F & _). discriminate.
  - cbn [field_names] in D. inversion D as [|? ? N D']; subst.
    assert (ill_matched (FCons n v r) new <-> (exists hs w, v = Complex hs /\ field n new = Some (Simple w)) \/ ill_matched r new) as ->.
    { split.
      - intros (m & hs & w & F & G). cbn [field] in F. destruct (str_eqb n m) eqn:E.
        + apply str_eqb_eq in E. subst m. injection F as ->. left. eauto.
        + right. exists m, hs, w. auto.
      - intros [(hs & w & -> & G)|(m & hs & w & F & G)].
        + exists n, hs, w. split; [|assumption]. cbn [field]. now rewrite (proj2 (str_eqb_eq n n) eq_refl).
        + exists m, hs, w. split; [|assumption]. cbn [field]. destruct (str_eqb n m) eqn:E; [|assumption].
          apply str_eqb_eq in E. subst m. destruct (N (I _ _ _ F)). }
    specialize (IH D').
    destruct (match v with Complex _ => match field n new with Some (Simple _) => true | _ => false end | _ => false end) eqn:B.
    + destruct v as [|hs]; [discriminate|]. destruct (field n new) as [[w|]|]; try discriminate. left. split; [reflexivity|]. left. eauto.
    + assert (match field n new with None => Ok v | Some nv => match v, nv with
                | Complex _, Complex _ => Ok (self_set v) | Complex _, Simple _ => Err ValueError
                | Simple _, Complex _ => Ok v | Simple _, Simple _ => Ok (self_set v) end end = Ok v) as ->.
      { destruct (field n new) as [[w|gs]|]; destruct v as [s|hs]; rewrite ?self_same; congruence. }
      cbn [bind]. assert (~ (exists hs w, v = Complex hs /\ field n new = Some (Simple w))) as Nb.
      { intros (hs & w & -> & G). rewrite G in B. discriminate. }
      destruct IH as [[-> H]|[-> H]]; cbn [bind]; [left; auto|right; split; [reflexivity|tauto]].
Qed.
Example C249_case :
  SetFromComplex (FCons (lit "A") (Simple (Some (lit "1"))) FNil) (FCons (lit "A") (Simple (Some (lit "2"))) FNil)
    = Ok (FCons (lit "A") (Simple (Some (lit "1"))) FNil) /\
  SetFromComplex (FCons (lit "A") (Complex FNil) FNil) (FCons (lit "A") (Simple None) FNil) = Err ValueError /\
  SetFromEntity (e_props sample) (Complex (FCons (lit "Name") (Simple (Some (lit "Bag"))) FNil)) = Err AttributeError.
Proof. vm_compute. auto. Qed.

(** ** C250: what is hashed for concurrency tells every change of the data: it tells each change
    of one simple property to another literal, but not all *)
Definition C250_tells : Prop := forall ps qs,
  map p_name ps = map p_name qs -> map p_key ps = map p_key qs -> map p_fixed ps = map p_fixed qs ->
  hash_input ps = hash_input qs -> forall i p q, nth_error ps i = Some p -> nth_error qs i = Some q ->
  p_key p = false -> p_fixed p = false -> p_value p = p_value q.
Definition pair_of (a b : option str) : list prop :=
  [mkProp (lit "First") false false (Simple a); mkProp (lit "Last") false false (Simple b)].
Theorem C250_refuted : ~ C250_tells /\
  hash_input (pair_of (Some (lit "ab")) (Some (lit "c"))) = hash_input (pair_of (Some (lit "a")) (Some (lit "bc"))) /\
  (forall b, hash_input (pair_of None b) = hash_input (pair_of (Some []) b)).
Proof.
  split; [|split; [reflexivity|intros b; reflexivity]].
  intros H. specialize (H (pair_of None None) (pair_of (Some []) None) eq_refl eq_refl eq_refl eq_refl 0%nat _ _ eq_refl eq_refl eq_refl eq_refl).
  discriminate.
Qed.
Theorem C250_partial : forall ps qs p q, one_changed ps qs p q ->
  (p_key p = false -> p_fixed p = false -> forall a b, p_value p = Simple (Some a) -> p_value q = Simple (Some b) ->
     (hash_input ps = hash_input qs <-> a = b)) /\
  (p_key p = true \/ p_fixed p = true -> hash_input ps = hash_input qs).
Proof.
  intros ps qs p q C. split.
  - intros K F a b Hp Hq. rewrite (hash_changed ps qs p q C K F), Hp, Hq. reflexivity.
  - destruct C as [a b p' q' Hn Hk Hf]. intros H. unfold hash_input. rewrite !flat_map_app. cbn [flat_map]. rewrite Hk, Hf.
    destruct H as [-> | ->]; rewrite ?orb_true_r; reflexivity.
Qed.
Example C250_case : one_changed (pair_of (Some (lit "a")) None) (pair_of (Some (lit "b")) None)
    (mkProp (lit "First") false false (Simple (Some (lit "a")))) (mkProp (lit "First") false false (Simple (Some (lit "b")))) /\
  hash_input (pair_of (Some (lit "a")) None) = lit "a".
Proof. split; [|reflexivity]. apply (Changed [] [mkProp (lit "Last") false false (Simple None)]); reflexivity. Qed.

(** ** C251: each update of a token gives it a new value: those of integers count, until the
    greatest; those of bytes and text fit their facets and tell digests apart unless cut; others
    raise NameError *)
Definition C251_updates : Prop := forall d h t, exists t', next_token d h t = Ok t' /\ t' <> t.
Theorem C251_refuted : ~ C251_updates /\
  (forall d h v, next_token d h (TOther v) = Err NameError) /\
  (forall d h v, next_token d h (TInt Byte v) = Err NameError /\ next_token d h (TInt SByte v) = Err NameError) /\
  (forall d h i, long_int i -> next_token d h (TInt i (Some (greatest i))) = Err ValueError).
Proof.
  split; [|split; [reflexivity|split; [auto|]]].
  - intros H. destruct (H [] [] (TOther None)) as (t & E & _). discriminate.
  - intros d h i [-> |[-> | ->]]; reflexivity.
Qed.
Theorem C251_partial : forall d h,
  (forall i v k, long_int i -> 0 <= v -> v + Z.of_nat (S k) <= greatest i ->
     times (S k) d h (TInt i (Some v)) = Ok (TInt i (Some (v + Z.of_nat (S k))))) /\
  (forall i k, long_int i -> Z.of_nat (S k) <= greatest i ->
     times (S k) d h (TInt i None) = Ok (TInt i (Some (Z.of_nat (S k))))) /\
  (forall m f v, exists x y, next_token d h (TBin m f v) = Ok (TBin m f (Some x)) /\ next_token d h (TStr m f v) = Ok (TStr m f (Some y)) /\
     match m with
     | None => x = d /\ y = h
     | Some k => (length x <= k)%nat /\ (length y <= k)%nat /\ (f = true -> length x = k /\ length y = k)
     end) /\
  (forall d' h' m f v v', length d = length d' -> length h = length h' ->
     match m with Some k => (length d <= k)%nat /\ (length h <= k)%nat | None => True end ->
     (next_token d h (TBin m f v) = next_token d' h' (TBin m f v') -> d = d') /\
     (next_token d h (TStr m f v) = next_token d' h' (TStr m f v') -> h = h')).
Proof.
  intros d h. split; [|split; [|split]].
  - intros i v k Hi Hv Hg. rewrite int_times by (auto; lia). do 3 f_equal. lia.
  - intros i k Hi Hg. rewrite int_times by (auto; lia). now rewrite Z.add_0_r.
  - intros m f v. eexists _, _. split; [reflexivity|]. split; [reflexivity|]. destruct m as [k|]; [|split; reflexivity].
    destruct (fit_length 0 k f d) as [A B]. destruct (fit_length 48 k f h) as [A' B']. auto.
  - intros d' h' m f v v' Ld Lh Hm. split; intros [= E].
    + apply (fit_inj 0 m f); auto. destruct m; [apply Hm|exact I].
    + apply (fit_inj 48 m f); auto. destruct m; [apply Hm|exact I].
Qed.
Example C251_case : times 3 [] [] (TInt Int16 None) = Ok (TInt Int16 (Some 3)) /\
  next_token (lit "abcdef") (lit "0123") (TBin (Some 4%nat) false None) = Ok (TBin (Some 4%nat) false (Some (lit "cdef"))) /\
  next_token (lit "abcdef") (lit "0123") (TStr (Some 6%nat) true None) = Ok (TStr (Some 6%nat) true (Some (lit "012300"))).
Proof. vm_compute. auto. Qed.

Print Assumptions C247_validate.
Print Assumptions C248_selected.
Print Assumptions C248_values.
Print Assumptions C248_expansions.
Print Assumptions C248_tag.
Print Assumptions C249_refuted.
Print Assumptions C249_partial.
Print Assumptions C250_refuted.
Print Assumptions C250_partial.
Print Assumptions C251_refuted.
Print Assumptions C251_partial.
