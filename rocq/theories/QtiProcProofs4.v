(** Lemmas: submitted responses *)
From Coq Require Import QArith Qcanon.
From Verif Require Import Py Dec XmlUtils Xsd XsdProofs XsdProofs2 Imscp ImscpProofs QtiValue QtiExpr QtiSpec QtiProofs QtiProofs2
  QtiProofs3 QtiProofs4 QtiProc QtiProcSpec QtiProcProofs QtiProcProofs2 QtiProcProofs3.
Open Scope Z_scope.
Open Scope list_scope.

Lemma split_head x s : exists r, s = hd [] (split_on x s) ++ r /\ (r = [] \/ exists r', r = x :: r') /\ ~ In x (hd [] (split_on x s)).
Proof.
  induction s as [|c s IH]; cbn [split_on].
  - exists []. cbn. auto.
  - destruct (c =? x) eqn:E; cbn [hd].
    + exists (c :: s). cbn. split; [reflexivity|]. split; [right; exists s; f_equal; lia|auto].
    + destruct (split_on_cons x s) as (p & ps & Q). rewrite Q in *. cbn [hd] in *. destruct IH as (r & -> & Hr & Hn).
      exists r. cbn [app]. split; [reflexivity|]. split; [exact Hr|]. cbn. intros [K|K]; [lia|auto].
Qed.
Lemma head_split x p r : ~ In x p -> (r = [] \/ exists r', r = x :: r') -> hd [] (split_on x (p ++ r)) = p.
Proof.
  intros Hp [->|[r' ->]]; [|rewrite split_app_no by exact Hp; reflexivity]. rewrite app_nil_r.
  induction p as [|c p IH]; [reflexivity|]. cbn [split_on]. destruct (c =? x) eqn:E; [exfalso; apply Hp; left; lia|].
  assert (K : ~ In x p) by (intros K; apply Hp; right; exact K). specialize (IH K).
  destruct (split_on_cons x p) as (q & qs & Q). rewrite Q in *. cbn [hd] in *. congruence.
Qed.
Lemma addresses_iff prefix id p : ~ In 46 id ->
  (starts_with_prefix prefix p = true /\ hd [] (split_on 46 (skipn (length prefix) p)) = id) <-> addresses prefix id p.
Proof.
  intros Hi. unfold starts_with_prefix. split.
  - intros [H1 H2]. apply str_eqb_eq in H1. destruct (split_head 46 (skipn (length prefix) p)) as (r & E & Hr & _).
    exists r. split; [|exact Hr]. rewrite H2 in E. rewrite <- E, <- H1 at 1. rewrite H1. rewrite <- H1 at 1. apply eq_sym, firstn_skipn.
  - intros (r & -> & Hr). rewrite firstn_app, Nat.sub_diag, firstn_all, app_nil_r, str_eqb_refl.
    split; [reflexivity|]. rewrite skipn_app, skipn_all, Nat.sub_diag. cbn [app skipn]. apply head_split; assumption.
Qed.

Lemma NoDup_right {A} (l l' : list A) : NoDup (l ++ l') -> NoDup l'.
Proof. induction l; cbn; [auto|]. intros H. apply NoDup_cons_iff in H. apply IHl, H. Qed.
Lemma NoDup_left {A} (l l' : list A) : NoDup (l ++ l') -> NoDup l.
Proof.
  induction l; cbn; [constructor|]. intros H. apply NoDup_cons_iff in H. destruct H as [H1 H2]. constructor; [|apply IHl, H2].
  intros K. apply H1. apply in_or_app. left. exact K.
Qed.

Section P.
Context {X : Ext}.

Lemma reparse b s a o : parse_single b (RText s) = Ok (Some a) -> parse_single b (raw_of a) = Ok o -> o = Some a.
Proof.
  intros H1 H2. destruct (baseType_eqb b BInteger) eqn:E.
  - destruct b; try discriminate. cbn [parse_single] in H1. destruct (DecodeInteger s) as [n|]; [|discriminate].
    cbn [bind] in H1. injection H1 as <-. cbn [raw_of parse_single] in H2. destruct (in_range n); [|discriminate]. congruence.
  - assert (W : wf_atom b a).
    { eapply parse_wf; [exact H1| | |reflexivity]; destruct b; auto; discriminate. }
    rewrite (parse_raw b a W) in H2. congruence.
Qed.
Lemma new_atom_reparse b s a o : new_atom b (RText s) = Ok (Some a) -> new_atom b (raw_of a) = Ok o -> o = Some a.
Proof. intros H1 H2. destruct b; cbn [new_atom] in *; try discriminate; eapply reparse; eassumption. Qed.

Definition positive (m : list (option atom * Z)) : Prop := Forall (fun p => 0 < snd p) m.
Lemma aincr_keys k m k' : In k' (map fst (aincr k m)) <-> k' = k \/ In k' (map fst m).
Proof.
  unfold aincr. rewrite aset_keys, in_app_iff. destruct (existsb (oatom_eqb k) (map fst m)) eqn:E.
  - apply existsb_oatom in E. cbn. split; [tauto|]. intros [->|H]; auto.
  - cbn. split; [intros [H|[H|[]]]; auto|intros [H|H]; auto].
Qed.
Lemma acount_nonneg k m : positive m -> 0 <= acount k m.
Proof.
  intros H. unfold acount. destruct (aget k m) as [n|] eqn:E; [|lia]. apply aget_In in E. unfold positive in H.
  rewrite Forall_forall in H. apply H in E. cbn in E. lia.
Qed.
Lemma aincr_positive k m : positive m -> positive (aincr k m).
Proof.
  intros H. unfold positive, aincr. rewrite Forall_forall. intros p Hp. apply aset_In in Hp. destruct Hp as [->|Hp].
  - cbn [snd]. pose proof (acount_nonneg k m H). lia.
  - unfold positive in H. rewrite Forall_forall in H. auto.
Qed.
Lemma multiple_loop_ok b l : forall acc m, positive acc -> multiple_loop (Some b) acc l = (m, None) ->
  positive m /\
  (forall r, In (Some r) l -> exists k, new_atom b r = Ok k) /\
  (forall k, In k (map fst m) <-> In k (map fst acc) \/ exists r, In (Some r) l /\ new_atom b r = Ok k).
Proof.
  induction l as [|[r|] l IH]; intros acc m Ha; cbn [multiple_loop].
  - intros [= <-]. split; [exact Ha|]. split; [intros r []|]. intros k. split; [auto|]. intros [H|(r & [] & _)]. exact H.
  - destruct (new_atom b r) as [a|] eqn:E; [|discriminate]. intros H.
    destruct (IH _ _ (aincr_positive a acc Ha) H) as (H1 & H2 & H3). split; [exact H1|]. split.
    + intros r' [K|K]; [injection K as <-; eauto|auto].
    + intros k. rewrite H3, aincr_keys. split.
      * intros [[->|K]|(r' & K1 & K2)]; [right; exists r; cbn; auto|auto|right; exists r'; cbn; auto].
      * intros [K|(r' & [K1|K1] & K2)]; [auto|injection K1 as <-; left; left; congruence|right; eauto].
  - intros H. destruct (IH _ _ Ha H) as (H1 & H2 & H3). split; [exact H1|]. split.
    + intros r' [K|K]; [discriminate|auto].
    + intros k. rewrite H3. split; intros [K|(r' & K1 & K2)]; auto; right; exists r'; cbn in *; [auto|].
      destruct K1 as [K1|K1]; [discriminate|auto].
Qed.
Lemma somes_in (a : atom) (l : list (option atom)) : In a (somes l) <-> In (Some a) l.
Proof.
  induction l as [|[x|] l IH]; cbn; [tauto| |].
  - rewrite IH. split; intros [H|H]; auto; left; congruence.
  - rewrite IH. split; [auto|intros [K|K]; [discriminate|exact K]].
Qed.
Lemma positive_members bt m a : positive m -> In a (members (VMultiple bt (Some m))) <-> In (Some a) (map fst m).
Proof.
  intros H. cbn [members]. rewrite somes_in. induction H as [|[k n] m Hn Hm IH]; cbn [flat_map map fst snd]; [tauto|].
  rewrite in_app_iff, IH. cbn [In fst snd] in *. split; (intros [K|K]; [left|right; exact K]).
  - apply repeat_spec in K. congruence.
  - subst k. destruct (Z.to_nat n) as [|j] eqn:E; [lia|]. cbn. auto.
Qed.
Lemma set_multiple_ok b l v : set_multiple (Some b) l = (v, None) ->
  exists o, v = VMultiple (Some b) o /\
    (forall r, In (Some r) l -> exists k, new_atom b r = Ok k) /\
    match o with
    | None => forall r, ~ In (Some r) l
    | Some m => positive m /\ forall k, In k (map fst m) <-> exists r, In (Some r) l /\ new_atom b r = Ok k
    end.
Proof.
  unfold set_multiple. destruct (multiple_loop (Some b) [] l) as [m [e|]] eqn:E; [destruct m; discriminate|].
  destruct (multiple_loop_ok b l [] m (Forall_nil _) E) as (H1 & H2 & H3).
  assert (H4 : forall k, In k (map fst m) <-> exists r, In (Some r) l /\ new_atom b r = Ok k).
  { intros k. rewrite H3. cbn. tauto. }
  destruct m as [|p m].
  - intros [= <-]. exists None. split; [reflexivity|]. split; [exact H2|]. intros r K. destruct (H2 r K) as [k Hk].
    apply (H4 k). eauto.
  - intros [= <-]. exists (Some (p :: m)). auto.
Qed.

Section Item.
Variable i : item.
Hypothesis Hd : distinct_names i.
Hypothesis Hs : well_sorted i.
Variable d : declaration.
Hypothesis Hin : In d (i_responses i).
Hypothesis Hdot : ~ In 46 (d_id d).

Notation id := (d_id d).
Lemma saved_in : In (SAVED id, Saved d) (variables i).
Proof. apply (in_response_all i d Hin). cbn. auto. Qed.
Lemma response_in : In (id, Response d) (variables i).
Proof. apply (in_response_all i d Hin). cbn. auto. Qed.
Lemma response_of d' : In d' (i_responses i) -> d_id d' = id -> d' = d.
Proof.
  intros H E. assert (R : Response d' = Response d); [|congruence].
  apply (role_unique i Hd id); [rewrite <- E; apply (in_response_all i d' H); cbn; auto|apply response_in].
Qed.

(** one parameter *)
Definition saves (x : pvalue) (old : value) : value * option exn :=
  match d_card d with
  | Some CSingle => match x with PvText s => set_value old (PRaw (RText s)) | PvList _ => (old, Some NameError) end
  | Some CMultiple => set_value old (texts (match x with PvText s => [s] | PvList l => l end))
  | _ => (old, None)
  end.
Lemma save_other prefix p x st st' : s_item st = i -> ~ addresses prefix id p -> save_parameter prefix (p, x) st = (st', None) ->
  assoc (SAVED id) (s_map st') = assoc (SAVED id) (s_map st).
Proof.
  intros Hi Ha. unfold save_parameter. destruct (starts_with_prefix prefix p) eqn:Ep; cbn [negb]; [|congruence].
  set (parts := split_on 46 (skipn (length prefix) p)). set (name := hd [] parts).
  assert (Hn : name <> id). { intros K. apply Ha. apply addresses_iff; auto. }
  assert (Hn2 : SAVED id <> SAVED name). { unfold SAVED. intros K. apply app_inv_tail in K. congruence. }
  destruct (GetDeclaration st name) as [[d'|]|]; cbn [lift]; try discriminate.
  destruct (is_response (Some d')); cbn [negb]; [|discriminate].
  assert (S : forall p st1 st2, store (SAVED name) p st1 = (st2, None) -> assoc (SAVED id) (s_map st2) = assoc (SAVED id) (s_map st1)).
  { intros q st1 st2. unfold store, lift. destruct (get_var st1 (SAVED name)); [|discriminate]. destruct (set_value _ q).
    intros [= <- _]. cbn [put s_map]. apply assoc_sset_other. exact Hn2. }
  match goal with |- andthen ?e ?k = _ -> _ => set (E := e); set (K := k) end.
  assert (HE : assoc (SAVED id) (s_map (fst E)) = assoc (SAVED id) (s_map st)).
  { unfold E. destruct (assoc (SAVED name) (s_map st)); [reflexivity|]. destruct (new_value _ _); [|reflexivity].
    cbn [lift fst put s_map]. apply assoc_sset_other. exact Hn2. }
  destruct E as [st1 [e|]]; cbn [andthen fst] in *; [discriminate|]. rewrite <- HE. unfold K. clear K.
  destruct (d_card d') as [[]|]; try discriminate.
  - apply S.
  - destruct (Nat.eqb _ 2); [discriminate|congruence].
  - destruct x; [apply S|discriminate].
Qed.
Lemma save_this prefix p x st st' : s_item st = i -> well_typed st -> addresses prefix id p ->
  d_card d = Some CSingle \/ d_card d = Some CMultiple -> save_parameter prefix (p, x) st = (st', None) ->
  exists old v, vtype old = declared_type d /\ saves x old = (v, None) /\ assoc (SAVED id) (s_map st') = Some v.
Proof.
  intros Hi Hw Ha Hc. apply addresses_iff in Ha; [|exact Hdot]. destruct Ha as [Hp Hh].
  unfold save_parameter. rewrite Hp. cbn [negb].
  remember (split_on 46 (skipn (length prefix) p)) as parts. rewrite Hh.
  unfold GetDeclaration. rewrite Hi. destruct (assoc id (s_map st)) as [cur|]; cbn [lift]; [|discriminate].
  destruct (assoc id (i_decls i)) as [d'|] eqn:Ed; [|discriminate].
  destruct (is_response (Some d')) eqn:Er; cbn [negb]; [|discriminate].
  destruct (declared _ _ _ Ed) as [Hn Hall]. pose proof (is_response_in i d' Hs Hall Er) as Ho.
  assert (d' = d) by (apply response_of; assumption). subst d'.
  match goal with |- andthen ?e ?k = _ -> _ => set (E := e); set (K := k) end.
  assert (HE : snd E = None -> exists old, assoc (SAVED id) (s_map (fst E)) = Some old /\ vtype old = declared_type d).
  { unfold E. specialize (Hw (SAVED id) (Saved d)). rewrite Hi in Hw. specialize (Hw saved_in).
    destruct (assoc (SAVED id) (s_map st)) as [w|] eqn:Ew; [intros _; exists w; auto|].
    destruct (new_value _ _) as [w|] eqn:En; [|discriminate]. intros _. exists w. cbn [lift fst put s_map].
    split; [apply assoc_sset_same|]. apply new_value_type in En. exact En. }
  destruct E as [st1 [e|]]; cbn [andthen fst snd] in *; [discriminate|]. destruct (HE eq_refl) as (old & Ho1 & Ho2).
  unfold K. clear K HE. intros G. exists old. unfold saves.
  assert (S : forall q, store (SAVED id) q st1 = (st', None) ->
    exists v, vtype old = declared_type d /\ set_value old q = (v, None) /\ assoc (SAVED id) (s_map st') = Some v).
  { intros q. unfold store, get_var. rewrite Ho1. cbn [lift]. destruct (set_value old q) as [v o]. intros [= <- ->].
    exists v. cbn [put s_map]. rewrite assoc_sset_same. auto. }
  destruct Hc as [Hc|Hc]; rewrite Hc in G |- *.
  - destruct x; [apply S, G|discriminate].
  - apply S, G.
Qed.
Lemma SaveParameters_none prefix ps : forall st st', s_item st = i -> SaveParameters prefix ps st = (st', None) ->
  (forall q y, In (q, y) ps -> ~ addresses prefix id q) -> assoc (SAVED id) (s_map st') = assoc (SAVED id) (s_map st).
Proof.
  unfold SaveParameters. induction ps as [|[p x] ps IH]; intros st st' Hi H Hn; cbn [each] in H; [congruence|].
  destruct (save_parameter_step i Hd Hs prefix (p, x) st Hi) as [[T _] _].
  destruct (save_parameter prefix (p, x) st) as [st1 [e|]] eqn:E; cbn [andthen fst] in *; [discriminate|].
  rewrite (IH st1 st' (eq_trans T Hi) H) by (intros q y K; apply (Hn q y); right; exact K).
  eapply save_other; eauto. apply (Hn p x). left. reflexivity.
Qed.
Lemma each_app {A} (f : A -> state -> eff) l1 l2 st : each f (l1 ++ l2) st = andthen (each f l1 st) (each f l2).
Proof.
  revert st. induction l1 as [|x l1 IH]; intros st; cbn [each app andthen]; [reflexivity|].
  destruct (f x st) as [st1 [e|]]; cbn [andthen]; [reflexivity|apply IH].
Qed.
Lemma SaveParameters_last prefix ps x st st' : s_item st = i -> well_typed st ->
  d_card d = Some CSingle \/ d_card d = Some CMultiple ->
  SaveParameters prefix ps st = (st', None) -> last_for prefix id ps x ->
  exists old v, vtype old = declared_type d /\ saves x old = (v, None) /\ assoc (SAVED id) (s_map st') = Some v.
Proof.
  intros Hi Hw Hc H (ps1 & p & ps2 & -> & Hp & Hn). unfold SaveParameters in H. rewrite each_app in H.
  destruct (SaveParameters_step i Hd Hs prefix ps1 st Hi) as [[T1 _] W1]. unfold SaveParameters in T1, W1.
  destruct (each (save_parameter prefix) ps1 st) as [st1 [e|]] eqn:E1; cbn [andthen fst] in *; [discriminate|].
  cbn [each] in H. destruct (save_parameter_step i Hd Hs prefix (p, x) st1 (eq_trans T1 Hi)) as [[T2 _] W2].
  destruct (save_parameter prefix (p, x) st1) as [st2 [e|]] eqn:E2; cbn [andthen fst] in *; [discriminate|].
  destruct (save_this prefix p x st1 st2 (eq_trans T1 Hi) (W1 Hw) Hp Hc E2) as (old & v & H1 & H2 & H3).
  exists old, v. split; [exact H1|]. split; [exact H2|]. rewrite <- H3.
  eapply SaveParameters_none; [|exact H|exact Hn]. congruence.
Qed.

(** committing *)
Lemma commits l : forall st st', s_item st = i -> incl l (i_responses i) -> NoDup l -> each commit_saved l st = (st', None) ->
  (assoc (SAVED id) (s_map st) = None -> assoc id (s_map st') = assoc id (s_map st)) /\
  (~ In d l -> assoc id (s_map st') = assoc id (s_map st)) /\
  (forall w, In d l -> assoc (SAVED id) (s_map st) = Some w ->
     exists old v, assoc id (s_map st) = Some old /\ set_value old (payload_of w) = (v, None) /\ assoc id (s_map st') = Some v).
Proof.
  induction l as [|d' l IH]; intros st st' Hi Hl Hnd H; cbn [each] in H.
  - injection H as <-. repeat split; auto. intros w [].
  - assert (Hd' : In d' (i_responses i)) by (apply Hl; left; reflexivity).
    assert (Hl' : incl l (i_responses i)) by (intros y Hy; apply Hl; right; exact Hy).
    apply NoDup_cons_iff in Hnd. destruct Hnd as [Hnin Hnd].
    destruct (commit_saved_step i Hd Hs d' st Hd' Hi) as [[T1 T2] _].
    destruct (commit_saved d' st) as [st1 [e|]] eqn:E; cbn [andthen fst] in *; [discriminate|].
    destruct (IH st1 st' (eq_trans T1 Hi) Hl' Hnd H) as (A1 & A2 & A3).
    rewrite Hi in T2.
    assert (D : d' = d \/ d' <> d).
    { destruct (str_eqb (d_id d') id) eqn:Ee; [left; apply response_of; [exact Hd'|apply str_eqb_eq, Ee]|right; intros ->; rewrite str_eqb_refl in Ee; discriminate]. }
    destruct D as [->|D].
    + unfold commit_saved in E. destruct (assoc (SAVED id) (s_map st)) as [w|] eqn:Ew.
      * unfold store, lift in E. destruct (get_var st id) as [old|] eqn:Eg; [|discriminate].
        destruct (set_value old (payload_of w)) as [v [e|]] eqn:Es; cbn [andthen] in E; [discriminate|].
        injection E as E. split; [discriminate|]. split; [intros K; destruct K; left; reflexivity|].
        intros w' _ [= <-]. exists old, v. split; [apply get_var_assoc, Eg|]. split; [exact Es|].
        rewrite A2 by exact Hnin. subst st1. cbn [remove put s_map]. rewrite assoc_sdel, assoc_sset_same.
        destruct (str_eqb id (SAVED id)) eqn:Ei; [|reflexivity]. apply str_eqb_eq in Ei.
        assert (R : Response d = Saved d); [|discriminate].
        apply (role_unique i Hd id); [apply response_in|rewrite Ei at 1; apply saved_in].
      * injection E as <-. repeat split; auto. intros w _ K. discriminate.
    + assert (E1 : assoc id (s_map st1) = assoc id (s_map st)).
      { apply (T2 id (Response d) response_in). intros [K|K]; congruence. }
      assert (E2 : assoc (SAVED id) (s_map st1) = assoc (SAVED id) (s_map st)).
      { apply (T2 (SAVED id) (Saved d) saved_in). intros [K|K]; congruence. }
      rewrite E1, E2 in *. split; [exact A1|]. split; [intros K; apply A2; intros K2; apply K; right; exact K2|].
      intros w [K|K] Hw; [congruence|]. apply A3; assumption.
Qed.
Lemma responses_NoDup : NoDup (i_responses i).
Proof.
  assert (N : NoDup (map fst (flat_map (fun d => [(d_id d, Response d); (d_id d ++ lit ".CORRECT", Correct d);
      (d_id d ++ lit ".DEFAULT", Default d); (d_id d ++ lit ".SAVED", Saved d)]) (i_responses i)))).
  { assert (H := Hd). unfold distinct_names, variables in H. rewrite !map_app in H.
    apply NoDup_right in H. apply NoDup_right in H. apply NoDup_left in H. exact H. }
  clear - N. induction (i_responses i) as [|x l IH]; [constructor|]. cbn [flat_map] in N. rewrite map_app in N. constructor.
  - intros K. cbn [map app fst] in N. apply NoDup_cons_iff in N. destruct N as [N _].
    apply N. right. right. right. apply in_map_iff. exists (d_id x, Response x). split; [reflexivity|].
    apply in_flat_map. exists x. split; [exact K|left; reflexivity].
  - apply IH. apply NoDup_right in N. exact N.
Qed.

Lemma submit_value prefix rp ps st st' : s_item st = i -> well_typed st -> SubmitSession prefix rp ps st = (st', None) ->
  ((forall q y, In (q, y) ps -> ~ addresses prefix id q) -> assoc (SAVED id) (s_map st) = None ->
   assoc id (s_map st') = assoc id (s_map st)) /\
  (forall x, d_card d = Some CSingle \/ d_card d = Some CMultiple -> last_for prefix id ps x ->
   exists old0 w old v, vtype old0 = declared_type d /\ saves x old0 = (w, None) /\
     vtype old = declared_type d /\ set_value old (payload_of w) = (v, None) /\ assoc id (s_map st') = Some v).
Proof.
  intros Hi Hw H. unfold SubmitSession in H.
  destruct (SaveParameters_step i Hd Hs prefix ps st Hi) as [[T1 G1] W1].
  destruct (SaveParameters prefix ps st) as [st1 [e|]] eqn:E1; cbn [andthen fst] in *; [discriminate|].
  assert (Hi1 : s_item st1 = i) by congruence. rewrite Hi1 in H.
  destruct (each commit_saved (i_responses i) st1) as [st2 [e|]] eqn:E2; cbn [andthen] in *; [discriminate|].
  destruct (commits (i_responses i) st1 st2 Hi1 (incl_refl _) responses_NoDup E2) as (A1 & _ & A3).
  assert (T2 : s_item st2 = i).
  { assert (S : step i (fun _ => True) st1 (fst (each commit_saved (i_responses i) st1))).
    { apply each_step. intros x K st3. eapply step_weaken; [|apply commit_saved_step; [exact Hd|exact Hs|exact K]]. auto. }
    destruct (S Hi1) as [[T _] _]. rewrite E2 in T. cbn [fst] in T. congruence. }
  destruct (EndAttempt_step i Hd Hs rp st2 T2) as [[_ G3] _]. rewrite H in G3. cbn [fst] in G3.
  assert (E3 : assoc id (s_map st') = assoc id (s_map st2)).
  { apply (G3 id (Response d)); [rewrite T2; apply response_in|]. intros [[d' K]|K]; discriminate. }
  assert (E4 : assoc id (s_map st1) = assoc id (s_map st)).
  { apply (G1 id (Response d)); [rewrite Hi; apply response_in|]. intros [d' K]; discriminate. }
  rewrite E3. split.
  - intros Hn Hsv. rewrite A1, E4; [reflexivity|]. rewrite <- Hsv. eapply SaveParameters_none; eauto.
  - intros x Hc Hx. destruct (SaveParameters_last prefix ps x st st1 Hi Hw Hc E1 Hx) as (old0 & w & B1 & B2 & B3).
    destruct (A3 w Hin B3) as (old & v & C1 & C2 & C3). exists old0, w, old, v. repeat split; auto.
    specialize (W1 Hw id (Response d)). rewrite Hi1, C1 in W1. apply W1, response_in.
Qed.
Lemma vtype_single v b : vtype v = (Some CSingle, b) -> exists o, v = VSingle b o.
Proof. destruct v; cbn; try discriminate. intros [= <-]. eauto. Qed.
Lemma vtype_multiple v b : vtype v = (Some CMultiple, b) -> exists o, v = VMultiple b o.
Proof. destruct v; cbn; try discriminate. intros [= <-]. eauto. Qed.

Lemma submit_single prefix rp ps st st' b x : s_item st = i -> well_typed st -> SubmitSession prefix rp ps st = (st', None) ->
  d_card d = Some CSingle -> d_base d = Some b -> last_for prefix id ps x ->
  exists s v, x = PvText s /\ new_single (Some b) (Some (RText s)) = Ok v /\ assoc id (s_map st') = Some v.
Proof.
  intros Hi Hw H Hc Hb Hx. destruct (submit_value prefix rp ps st st' Hi Hw H) as [_ G].
  destruct (G x (or_introl Hc) Hx) as (old0 & w & old & v & H1 & H2 & H3 & H4 & H5).
  unfold declared_type in H1, H3. rewrite Hc, Hb in H1, H3. apply vtype_single in H1, H3.
  destruct H1 as [o0 ->]. destruct H3 as [o ->]. unfold saves in H2. rewrite Hc in H2. destruct x as [s|]; [|discriminate].
  rewrite set_single in H2. destruct (parse_single b (RText s)) as [oa|] eqn:Ep; [|discriminate]. injection H2 as <-.
  exists s, v. split; [reflexivity|]. split; [|exact H5].
  assert (Hv : v = VSingle (Some b) oa).
  { destruct oa as [a|]; cbn [payload_of] in H4.
    - rewrite set_single in H4. destruct (parse_single b (raw_of a)) as [o'|] eqn:E2; [|discriminate].
      rewrite (reparse _ _ _ _ Ep E2) in H4. congruence.
    - destruct b; cbn in H4; congruence. }
  rewrite Hv. unfold new_single. destruct b; try (rewrite Ep; reflexivity); discriminate.
Qed.
Lemma texts_in l r : In (Some r) (map (fun s => Some (RText s)) l) <-> exists s, r = RText s /\ In s l.
Proof. rewrite in_map_iff. split; [intros (s & [= <-] & K); eauto|intros (s & -> & K); eauto]. Qed.
Lemma new_single_atom b s a : new_single (Some b) (Some (RText s)) = Ok (VSingle (Some b) (Some a)) <-> new_atom b (RText s) = Ok (Some a).
Proof.
  unfold new_single, new_atom. destruct b; try (split; discriminate);
    destruct (parse_single _ (RText s)) as [o|]; cbn [bind]; split; congruence.
Qed.
Lemma submit_multiple prefix rp ps st st' b x : s_item st = i -> well_typed st -> SubmitSession prefix rp ps st = (st', None) ->
  d_card d = Some CMultiple -> d_base d = Some b -> last_for prefix id ps x ->
  exists v, assoc id (s_map st') = Some v /\ vtype v = (Some CMultiple, Some b) /\
    forall a, In a (members v) <->
      exists s, In s (match x with PvText s => [s] | PvList l => l end) /\
        new_single (Some b) (Some (RText s)) = Ok (VSingle (Some b) (Some a)).
Proof.
  intros Hi Hw H Hc Hb Hx. destruct (submit_value prefix rp ps st st' Hi Hw H) as [_ G].
  destruct (G x (or_intror Hc) Hx) as (old0 & w & old & v & H1 & H2 & H3 & H4 & H5).
  unfold declared_type in H1, H3. rewrite Hc, Hb in H1, H3. apply vtype_multiple in H1, H3.
  destruct H1 as [o0 ->]. destruct H3 as [o ->]. unfold saves in H2. rewrite Hc in H2. unfold texts in H2. cbn [set_value] in H2.
  set (l := match x with PvText s => [s] | PvList l => l end) in *.
  destruct (set_multiple_ok b _ w H2) as (ow & -> & P1 & P2).
  exists v. split; [exact H5|]. destruct ow as [m|]; cbn [payload_of set_value] in H4.
  - destruct P2 as [P2 P3]. rewrite <- (map_map fst (option_map raw_of)) in H4.
    destruct (set_multiple_ok b _ v H4) as (ov & -> & Q1 & Q2). split; [reflexivity|]. intros a.
    assert (K1 : forall r, In (Some r) (map (option_map raw_of) (map fst m)) <-> exists a, r = raw_of a /\ In (Some a) (map fst m)).
    { intros r. rewrite in_map_iff. split; [intros ([y|] & E & K); [injection E as <-; eauto|discriminate]|].
      intros (y & -> & K). exists (Some y). auto. }
    assert (K2 : forall y, In (Some y) (map fst m) <-> exists s, In s l /\ new_atom b (RText s) = Ok (Some y)).
    { intros y. rewrite P3. split.
      - intros (r & Hr & E). apply texts_in in Hr. destruct Hr as (s & -> & K). eauto.
      - intros (s & K & E). exists (RText s). split; [apply texts_in; eauto|exact E]. }
    assert (K3 : forall y, In (Some y) (map fst m) -> new_atom b (raw_of y) = Ok (Some y)).
    { intros y Hy. destruct (Q1 (raw_of y)) as [k Ek]; [apply K1; eauto|]. apply K2 in Hy. destruct Hy as (s & _ & Es).
      rewrite Ek. f_equal. eapply new_atom_reparse; eassumption. }
    assert (K4 : In a (members (VMultiple (Some b) ov)) <-> In (Some a) (map fst m)).
    { destruct ov as [m2|].
      - destruct Q2 as [Q2 Q3]. rewrite positive_members by exact Q2. rewrite Q3. split.
        + intros (r & Hr & E). apply K1 in Hr. destruct Hr as (y & -> & Hy). rewrite (K3 y Hy) in E. injection E as <-. exact Hy.
        + intros Hy. exists (raw_of a). split; [apply K1; eauto|apply K3, Hy].
      - cbn. split; [tauto|]. intros Hy. apply (Q2 (raw_of a)). apply K1. eauto. }
    rewrite K4, K2. split; intros (s & Ks & E); exists s; (split; [exact Ks|]); apply new_single_atom; exact E.
  - injection H4 as <-. split; [reflexivity|]. intros a. cbn. split; [tauto|]. intros (s & Ks & _).
    apply (P2 (RText s)). apply texts_in. eauto.
Qed.
End Item.
End P.
