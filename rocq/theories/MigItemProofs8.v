(** When the conversion of an item succeeds. *)
From Coq Require Import Lia QArith Qcanon.
From Verif Require Import Py Iso Dec XmlUtils XmlChars Xsd Shapes QtiValue QtiExpr
  V1Mig V1MigProofs7 MigWrite MigItem MigItemSpec MigItemProofs MigItemProofs2 MigItemProofs3 MigItemProofs4 MigItemProofs7.
Open Scope Z_scope.
Open Scope list_scope.

(** ** There is a name for a new variable *)
Lemma numbered_num_inj b n m : 0 <= n -> 0 <= m -> numbered b n = numbered b m -> n = m.
Proof.
  intros Hn Hm H. unfold numbered in H. apply app_inv_head in H. apply (f_equal dval) in H. rewrite !dval_pad, !dval_fmt in H by assumption. exact H.
Qed.
Lemma unique_none vs base k : forall n e, unique_from vs base n k = Err e -> forall j, 0 <= j < Z.of_nat k -> In (numbered base (n + j)) (map fst vs).
Proof.
  induction k as [|k IH]; intros n e H j Hj; [lia|]. cbn [unique_from] in H. destruct (has_key (numbered base n) vs) eqn:E; [|discriminate].
  destruct (Z.eq_dec j 0) as [->|].
  - rewrite Z.add_0_r. destruct (in_dec str_eq_dec (numbered base n) (map fst vs)) as [K|K]; [exact K|]. apply dget_none, has_key_false in K. congruence.
  - replace (n + j) with (n + 1 + (j - 1)) by lia. eapply IH; [exact H|lia].
Qed.
Lemma new_name_total s id : NoDup (map fst (variables s)) -> (length (variables s) <= 99)%nat -> exists n, new_name s id = Ok n.
Proof.
  intros HN HL. unfold new_name, UniqueVarName. destruct (has_key id (variables s)) eqn:E; [|eauto].
  destruct (unique_from (variables s) id 1 99) as [n|e] eqn:E1; [eauto|]. exfalso. pose proof (unique_none _ _ _ _ _ E1) as H.
  assert (Hid : In id (map fst (variables s))).
  { destruct (in_dec str_eq_dec id (map fst (variables s))) as [K|K]; [exact K|]. apply dget_none, has_key_false in K. congruence. }
  assert (L : incl (id :: map (fun j => numbered id (1 + Z.of_nat j)) (seq 0 99)) (map fst (variables s))).
  { intros x [<-|Hx]; [exact Hid|]. apply in_map_iff in Hx as (j & <- & Hj). apply in_seq in Hj. apply H. lia. }
  apply NoDup_incl_length in L.
  - cbn [length] in L. rewrite !map_length, seq_length in L. lia.
  - constructor.
    + intros K. apply in_map_iff in K as (j & K & _). unfold numbered in K. rewrite <- (app_nil_r id) in K at 2. apply app_inv_head in K.
      unfold pad in K. apply app_eq_nil in K as [_ K]. apply fmt_not_nil in K. exact K.
    + apply FinFun.Injective_map_NoDup; [|apply seq_NoDup]. intros a b K. apply numbered_num_inj in K; lia.
Qed.
Lemma variables_length s : inv s -> length (variables s) = (1 + length (responses s) + length (outcomes s))%nat.
Proof.
  intros I. rewrite <- (map_length fst (variables s)). transitivity (length (names s)).
  - apply Nat.le_antisymm; apply NoDup_incl_length.
    + apply (i_vars s I).
    + intros k. apply (i_keys s I).
    + apply (i_names s I).
    + intros k. apply (i_keys s I).
  - unfold names. cbn [length]. rewrite app_length, !map_length. reflexivity.
Qed.

(** ** Responses *)
Lemma declare_response_total mk s id : inv s -> (forall n, decl_identifier (mk n) = n) -> ~ In id (map fst (responses s)) ->
  (length (responses s) + length (outcomes s) <= 98)%nat -> exists s' n, declare_response mk s id = Ok (s', n).
Proof.
  intros I Hmk Hid HL. unfold declare_response. rewrite (proj2 (has_key_false _ _) (proj2 (dget_none _ _) Hid)).
  destruct (new_name_total s id (i_vars s I) ltac:(rewrite variables_length by exact I; lia)) as (n & En). rewrite En. cbn [bind].
  destruct (new_name_fresh _ _ _ En) as (Hf & _). unfold DeclareVariable. rewrite Hmk, (proj2 (has_key_false _ _) (fresh_undeclared s n I Hf)). cbn [bind]. eauto.
Qed.
Lemma NoDup_app_l {A} (l m : list A) : NoDup (l ++ m) -> forall x, In x m -> ~ In x l.
Proof.
  induction l as [|y l IH]; intros H x Hx; [intros []|]. cbn in H. inversion H as [|? ? Hy HN]; subst. intros [<-|K]; [apply Hy, in_app_iff; auto|exact (IH HN x Hx K)].
Qed.
Lemma declare_indexed_total r : forall k s i, Rphase s -> NoDup (map fst (responses s) ++ map (part_id r) (seq (S i) k)) ->
  (length (responses s) + k <= 99)%nat -> exists s' ns, declare_indexed s (response_id (r_ident r)) (r_baseType r) i k = Ok (s', ns).
Proof.
  induction k as [|k IH]; intros s i P HN HL; cbn [declare_indexed]; [eauto|]. destruct P as (I & Po & Pf).
  destruct (declare_response_total (fun n => ResponseDeclaration n (lit "single") (r_baseType r) (set_default None)) s (indexed (response_id (r_ident r)) (S i))) as (s1 & n1 & E1).
  - exact I.
  - reflexivity.
  - rewrite indexed_part. apply (NoDup_app_l _ _ HN). now left.
  - rewrite Po. cbn [length]. lia.
  - unfold DeclareResponse. rewrite E1. cbn [bind]. apply declare_step in E1; [|exact I|reflexivity]. destruct E1 as (I1 & G1 & Hr1 & Ho1 & Hru1 & Hf1 & Hi1 & Hn1 & K1).
    destruct (IH s1 (S i)) as (s2 & ns & E2).
    + split; [exact I1|split; congruence].
    + rewrite Hr1, map_app, <- app_assoc. cbn [map fst]. rewrite indexed_part. exact HN.
    + rewrite Hr1, app_length. cbn [length]. lia.
    + rewrite E2. cbn [bind]. eauto.
Qed.
Lemma response_total s r : Rphase s -> NoDup (map fst (responses s) ++ response_ids r) -> (length (responses s) + length (response_ids r) <= 99)%nat ->
  exists s', CloseResponse Vv s r = Ok s'.
Proof.
  intros P HN HL. unfold CloseResponse. rewrite read_response. cbn [bind]. unfold response_ids in *. rewrite app_length, map_length, seq_length in HL. cbn [length] in HL.
  pose proof P as (I & Po & Pf). destruct (r_split r) as [|k].
  - cbn [seq map app] in HN. destruct (declare_response_total (fun n => ResponseDeclaration n (r_cardinality r) (r_baseType r) (set_default (r_default r))) s (response_id (r_ident r))) as (s1 & n1 & E1);
      [exact I|reflexivity|apply (NoDup_app_l _ _ HN); now left|rewrite Po; cbn [length]; lia|]. unfold DeclareResponse. rewrite E1. cbn [bind]. eauto.
  - destruct (declare_indexed_total r (S k) s 0%nat P) as (s1 & ns & E1).
    + rewrite app_assoc in HN. apply NoDup_prefix in HN. exact HN.
    + lia.
    + rewrite E1. cbn [bind]. apply declare_indexed_step in E1; [|exact P]. destruct E1 as (P1 & G1 & Hr1 & Hi1 & Hns1 & Hru1 & K1). destruct P1 as (I1 & Ho1 & Hf1).
      destruct (declare_response_total (fun n => OutcomeDeclaration n (r_cardinality r) (r_baseType r) None None None) s1 (response_id (r_ident r))) as (s2 & n2 & E2).
      * exact I1.
      * reflexivity.
      * rewrite Hr1. rewrite app_assoc in HN. apply (NoDup_app_l _ _ HN). now left.
      * rewrite Ho1. rewrite <- (map_length fst), Hr1, app_length, !map_length, seq_length. cbn [length]. lia.
      * unfold DeclareFakeResponse. rewrite E2. cbn [bind]. eauto.
Qed.
Lemma responses_total : forall rs s, Rphase s -> NoDup (map fst (responses s) ++ flat_map response_ids rs) ->
  (length (responses s) + length (flat_map response_ids rs) <= 99)%nat -> exists s', CloseResponses Vv s rs = Ok s'.
Proof.
  induction rs as [|r rs IH]; intros s P HN HL; cbn [CloseResponses]; [eauto|]. cbn [flat_map] in *. rewrite app_length in HL. rewrite app_assoc in HN.
  destruct (response_total s r P (NoDup_prefix _ _ HN) ltac:(lia)) as (s1 & E1). rewrite E1. cbn [bind].
  destruct (response_step _ _ _ P E1) as (P1 & G1 & Hr1 & _). apply IH; [exact P1|rewrite Hr1; exact HN|].
  rewrite <- (map_length fst (responses s1)), Hr1, app_length, map_length. lia.
Qed.

(** ** Tests *)
Section Tests.
Variables (rs : list response) (s : MigItem.state).
Hypothesis Hnd : NoDup (map fst (responses s)).
Hypothesis Hkeys : map fst (responses s) = flat_map response_ids rs.
Hypothesis Hrs : forall r, In r rs -> response_in s r.
Lemma read_attribute id : ReadAttribute Vv id RESPONSE_PREFIX = Ok (option_map response_id id).
Proof. destruct id as [v|]; [|reflexivity]. cbn [ReadAttribute]. rewrite read_response. reflexivity. Qed.
Lemma get_kind id : match GetResponse s (option_map response_id id) with
  | Some d => kind_of rs id = (decl_cardinality d, decl_baseType d)
  | None => kind_of rs id = (lit "single", lit "identifier")
  end.
Proof.
  destruct id as [v|]; [|reflexivity]. cbn [option_map]. unfold kind_of. rewrite (assoc_of (response_id v)).
  destruct (in_dec str_eq_dec (response_id v) (map fst (responses s))) as [K|K].
  - rewrite Hkeys in K. apply in_flat_map in K as (r & Hr & K). destruct (Hrs r Hr) as [W1 W2].
    assert (F : forall mk, response_is s (response_id v) mk -> GetResponse s (Some (response_id v)) = Some (mk (name_in (responses s) (response_id v)))).
    { intros mk (n & K1 & K2). unfold GetResponse, name_in. rewrite K1, K2. reflexivity. }
    assert (Hk : NoDup (map fst (flat_map response_kinds rs))) by (rewrite kinds_keys, <- Hkeys; exact Hnd).
    apply in_app_iff in K as [K|[K|[]]].
    + apply in_map_iff in K as (j & K & Hj). pose proof Hj as Hj'. apply in_seq in Hj. specialize (W2 j ltac:(lia)). unfold part_id in W2. rewrite K in W2. rewrite (F _ W2).
      rewrite (in_dget _ (lit "single", r_baseType r)); [reflexivity|exact Hk|]. apply in_flat_map. exists r. split; [exact Hr|]. apply in_app_iff. left.
      apply in_map_iff. exists j. rewrite K. auto.
    + rewrite K in W1. rewrite (F _ W1). rewrite (in_dget _ (r_cardinality r, r_baseType r)); [destruct (r_split r); reflexivity|exact Hk|].
      apply in_flat_map. exists r. split; [exact Hr|]. apply in_app_iff. right. left. rewrite K. reflexivity.
  - rewrite (proj2 (dget_none _ _)) by (rewrite kinds_keys, <- Hkeys; exact K). unfold GetResponse. rewrite (proj2 (dget_none _ _) K). reflexivity.
Qed.
(** The variable, with the cardinality and base type after the index *)
Lemma variable_total id index : (fst (kind_of rs id) = lit "multiple" -> no_index index) ->
  exists x c, MakeVariableExpression s (option_map response_id id) index = Ok (x, c, snd (kind_of rs id)) /\
    (c = fst (kind_of rs id) \/ ~ no_index index /\ c = lit "single").
Proof.
  intros H. unfold MakeVariableExpression. pose proof (get_kind id) as K. destruct (GetResponse s _) as [d|]; rewrite K in *; cbn [fst snd] in *; [|eauto].
  destruct index as [n|]; [|eauto]. destruct (n =? 0) eqn:E; [eauto|]. 
  destruct (str_eqb (decl_cardinality d) (lit "multiple")) eqn:E1.
  { apply str_eqb_eq in E1. destruct (H E1) as [K1|K1]; [discriminate|]. injection K1 as ->. discriminate. }
  destruct (str_eqb (decl_cardinality d) (lit "single")) eqn:E2; [eauto|]. eexists _, _. split; [reflexivity|]. right. split; [|reflexivity].
  intros [K1|K1]; [discriminate|]. injection K1 as ->. discriminate.
Qed.
Lemma literal_total t text : exists x, MakeSingleValue Vv t text = Ok x.
Proof.
  unfold MakeSingleValue. destruct (str_eqb t (lit "pair") || str_eqb t (lit "directedPair")); [eexists; reflexivity|].
  destruct (str_eqb t (lit "identifier")); [rewrite read_response|]; eexists; reflexivity.
Qed.
Lemma scan_total : forall t sep v cs, ~ In 46 t -> ~ In 46 v -> exists l, MigItem.scan t sep v cs = Ok l.
Proof.
  assert (D : forall v, ~ In 46 v -> int_digits (rev v) = Ok (dval (rev v))).
  { intros v Hv. unfold int_digits. destruct (mem 46 (rev v)) eqn:E; [|reflexivity]. exfalso. apply Hv. apply in_rev.
    clear Hv. induction (rev v) as [|c l IH]; [discriminate|]. cbn [mem existsb] in E. apply orb_prop in E as [E|E]; [left; lia|right; apply IH, E]. }
  induction t as [|c t IH]; intros sep v cs Ht Hv; cbn [MigItem.scan].
  - destruct v; [eauto|]. rewrite D by exact Hv. cbn [bind]. eauto.
  - cbn [In] in Ht. destruct (is_num_char c) eqn:E; [|apply IH; tauto]. destruct (sep && _) eqn:E1.
    + rewrite D by exact Hv. cbn [bind]. apply IH; [tauto|]. intros [K|[]]; apply Ht; left; exact K.
    + apply IH; [tauto|]. intros [K|K]; [apply Ht; left; exact K|tauto].
Qed.
Lemma pad4_long l : exists a b c d l', pad4 l = a :: b :: c :: d :: l'.
Proof.
  unfold pad4. destruct l as [|a [|b [|c [|d l]]]]; cbn; eauto 10.
Qed.
Lemma area_total a t : ~ In 46 t -> exists x, ConvertAreaCoords a t = Ok x.
Proof.
  intros H. unfold ConvertAreaCoords. destruct (scan_total t false [] [] H (fun x => x)) as (l & ->). cbn [bind].
  destruct (pad4_long l) as (c0 & c1 & c2 & c3 & l' & E). destruct a as [[]|]; rewrite ?E; eauto. destruct (c2 =? c3); eauto.
Qed.
Lemma map_concat_total {A B} (f : A -> result (list B)) l : Forall (fun x => exists y, f x = Ok y) l -> exists y, map_concat f l = Ok y.
Proof.
  induction 1 as [|x l (y & Hy) _ (ys & IH)]; [eexists; reflexivity|]. cbn [map_concat]. fold (map_concat f). rewrite Hy. cbn [bind]. rewrite IH. eexists. reflexivity.
Qed.
Lemma acceptable_all l : (fix all l := match l with [] => True | e :: l' => acceptable rs e /\ all l' end) l <-> Forall (acceptable rs) l.
Proof.
  induction l as [|e l IH]; [split; auto|]. rewrite IH. split; [intros [H1 H2]; auto|]. intros H. inversion H; auto.
Qed.
Lemma test_total e : acceptable rs e -> exists es, CloseTest Vv s e = Ok es.
Proof.
  assert (L : forall l, Forall (fun e => acceptable rs e -> exists es, CloseTest Vv s e = Ok es) l ->
    (fix all l := match l with [] => True | e :: l' => acceptable rs e /\ all l' end) l -> exists es, map_concat (CloseTest Vv s) l = Ok es).
  { intros l IH Hl. apply acceptable_all in Hl. apply map_concat_total. rewrite Forall_forall in *. intros x Hx. apply IH; auto. }
  induction e as [c id n t|o id n t|id n t|c id n t|a id n t|id| |l IH|l IH|l IH|] using test_ind'; intros H; cbn [CloseTest acceptable] in *; rewrite ?read_attribute; cbn [bind].
  - destruct (kind_of rs id) as [k ty] eqn:Ek. destruct H as [H1 H2]. destruct (variable_total id n) as (x & c0 & E & Hc); [rewrite Ek; exact H1|]. rewrite Ek in *. cbn [fst snd] in *.
    unfold CloseEqual. rewrite E. cbn [bind]. destruct (literal_total ty t) as (v & ->). cbn [bind].
    assert (M : forall l, one_of l ty -> is_type l ty = true) by (intros l Hl; apply is_type_iff, Hl).
    assert (S : one_of ["identifier"; "pair"; "integer"; "string"; "float"]%string ty ->
       exists es, (x0 <- (if is_type ["identifier"; "pair"; "integer"]%string ty then Ok (MatchOperator x v)
                  else if str_eqb ty (lit "string") then Ok (StringMatchOperator c false x v)
                  else if str_eqb ty (lit "float") then Ok (BinaryOperator (lit "equal") x v) else Err ProcessingError) ;; Ok [x0]) = Ok es).
    { intros (w & Hw & ->). destruct Hw as [<-|[<-|[<-|[<-|[<-|[]]]]]]; eexists; reflexivity. }
    assert (S' : one_of ["identifier"; "pair"; "string"; "float"]%string ty ->
       exists es, (x0 <- (if is_type ["identifier"; "pair"; "string"; "float"]%string ty then Ok (MemberOperator v x) else Err ProcessingError) ;; Ok [x0]) = Ok es).
    { intros Hw. rewrite (M _ Hw). eexists. reflexivity. }
    assert (W : one_of ["identifier"; "pair"; "string"; "float"]%string ty -> one_of ["identifier"; "pair"; "integer"; "string"; "float"]%string ty).
    { intros (w & Hw & ->). exists w. split; [|reflexivity]. cbn in *. tauto. }
    destruct (str_eqb c0 (lit "single")) eqn:Es.
    + apply S. destruct H2 as [[_ H2]|H2]; [exact H2|apply W, H2].
    + apply S'. destruct H2 as [[H2 H3]|H2]; [|exact H2]. exfalso. destruct Hc as [->|[_ ->]]; [|rewrite str_eqb_refl in Es; discriminate].
      destruct H2 as [->|H2]; [rewrite str_eqb_refl in Es; discriminate|].
      (* an index into a container that is neither multiple nor single makes it single *)
      unfold MakeVariableExpression in E. pose proof (get_kind id) as K. destruct (GetResponse s _) as [d|].
      * rewrite Ek in K. injection K as -> ->. destruct n as [n|]; [|apply H2; left; reflexivity]. destruct (n =? 0) eqn:En; [apply H2; right; f_equal; lia|].
        destruct (str_eqb (decl_cardinality d) (lit "multiple")); [discriminate|]. rewrite Es in E. injection E as _ E. rewrite <- E in Es. rewrite str_eqb_refl in Es. discriminate.
      * injection E as _ E _. rewrite <- E in Es. rewrite str_eqb_refl in Es. discriminate.
  - destruct (variable_total id n H) as (x & c0 & E & Hc). unfold CloseIneq. rewrite E. cbn [bind]. destruct (literal_total (snd (kind_of rs id)) t) as (v & ->). cbn [bind].
    destruct (str_eqb c0 _); [destruct (is_type _ _); [|destruct (str_eqb _ _)]|]; eexists; reflexivity.
  - destruct (variable_total id None) as (x & c0 & E & Hc); [left; reflexivity|]. unfold CloseSubset. rewrite E. cbn [bind]. destruct (literal_total (snd (kind_of rs id)) t) as (v & ->). cbn [bind].
    destruct id as [id|]; [|congruence]. cbn [option_map]. destruct (str_eqb c0 _); eexists; reflexivity.
  - destruct (variable_total id n H) as (x & c0 & E & Hc). unfold CloseSubstring. rewrite E. cbn [bind]. destruct (literal_total (snd (kind_of rs id)) t) as (v & ->). cbn [bind].
    destruct (negb _); [|destruct (negb _)]; eexists; reflexivity.
  - destruct H as [H1 H2]. unfold CloseInside. destruct (area_total a t H2) as ([sh cs] & ->). cbn [bind]. destruct (variable_total id n H1) as (x & c0 & -> & _). eexists. reflexivity.
  - destruct (GetResponse s _); eexists; reflexivity.
  - eexists. reflexivity.
  - destruct (L l IH H) as (es & ->). cbn [bind]. destruct es as [|? [|]]; eexists; reflexivity.
  - destruct (L l IH H) as (es & ->). eexists. reflexivity.
  - destruct (L l IH H) as (es & ->). eexists. reflexivity.
  - eexists. reflexivity.
Qed.
Lemma condition_total l : Forall (acceptable rs) l -> exists e, CloseConditionVar Vv s l = Ok e.
Proof.
  intros H. unfold CloseConditionVar. destruct (map_concat_total (CloseTest Vv s) l) as (es & ->).
  - eapply Forall_impl; [|exact H]. intros e. apply test_total.
  - cbn [bind]. destruct es as [|? [|]]; eexists; reflexivity.
Qed.
End Tests.

(** ** Placing *)
Fixpoint ready (d : nat) (l : list MigWrite.rule) : Prop :=
  match d with
  | O => True
  | S d' => exists before i elifs els, l = before ++ [ResponseCondition i elifs els] /\ ready d' match els with Some l => l | None => [] end
  end.
Lemma at_depth_total f k : (forall l, ready k l -> exists l', f l = Ok l') -> forall d l, ready (d + k) l -> exists l', at_depth d f l = Ok l'.
Proof.
  intros Hf d. induction d as [|d IH]; intros l H; [apply Hf, H|]. cbn [Nat.add ready] in H. destruct H as (before & i & elifs & els & -> & H).
  cbn [at_depth]. rewrite rev_unit. destruct (IH _ H) as (l' & E). rewrite E. cbn [bind]. eauto.
Qed.
Lemma at_depth_ready f k k' : (forall l l', ready k l -> f l = Ok l' -> ready k' l') -> forall d l l', ready (d + k) l -> at_depth d f l = Ok l' -> ready (d + k') l'.
Proof.
  intros Hf d. induction d as [|d IH]; intros l l' H E; [eapply Hf; eassumption|]. cbn [Nat.add ready at_depth] in *. destruct H as (before & i & elifs & els & -> & H).
  rewrite rev_unit in E. destruct (at_depth d f _) as [l1|] eqn:E1; cbn [bind] in E; [|discriminate]. injection E as <-. rewrite rev_involutive.
  exists before, i, elifs, (Some l1). split; [reflexivity|]. eapply IH; eassumption.
Qed.
Definition in_place (m : bool) (pt : MigItem.point) (l : list MigWrite.rule) : Prop :=
  match m, pt with true, MigItem.InRules d => ready d l | false, MigItem.InCond d => ready (d + 1) l | _, _ => False end.
Lemma add_ready p l l' : add_condition p l = Ok l' -> ready 1 l'.
Proof. intros [= <-]. cbn [ready]. exists l, p, [], None. auto. Qed.
Lemma add_total p c m pt l : in_place m pt l -> exists l' pt', AddRespCondition p c m pt l = Ok (l', pt') /\ in_place c pt' l'.
Proof.
  intros H. unfold AddRespCondition.
  assert (T1 : forall d, ready d l -> exists l', at_depth d (add_condition p) l = Ok l' /\ ready d l' /\ ready (d + 1) l').
  { intros d Hd. assert (Hd0 : ready (d + 0) l) by (rewrite Nat.add_0_r; exact Hd).
    destruct (at_depth_total (add_condition p) 0 ltac:(intros; eexists; reflexivity) d l Hd0) as (l' & E). exists l'. split; [exact E|].
    split; [rewrite <- (Nat.add_0_r d); eapply (at_depth_ready _ 0 0); [|exact Hd0|exact E]; intros; exact I|].
    eapply (at_depth_ready _ 0 1); [|exact Hd0|exact E]. intros; eapply add_ready; eassumption. }
  assert (T2 : forall d, ready (d + 1) l -> exists l', at_depth d (MigItem.add_else_if p) l = Ok l' /\ ready (d + 1) l').
  { intros d Hd. destruct (at_depth_total (MigItem.add_else_if p) 1) with (d := d) (l := l) as (l' & E).
    - intros l0 (before & i & elifs & els & -> & _). unfold MigItem.add_else_if. rewrite rev_unit. eauto.
    - exact Hd.
    - exists l'. split; [exact E|]. eapply (at_depth_ready _ 1 1); [|exact Hd|exact E]. intros l0 l1 (before & i & elifs & els & -> & _) E0.
      unfold MigItem.add_else_if in E0. rewrite rev_unit in E0. injection E0 as <-. rewrite rev_involutive. exists before, i, (elifs ++ [p]), els. split; [reflexivity|exact I]. }
  destruct m, pt as [d|d]; try contradiction; cbn [in_place] in H; destruct c; cbn [bind].
  - destruct (T1 d H) as (l' & E & R1 & R2). rewrite E. cbn [bind]. eexists _, _. split; [reflexivity|]. exact R1.
  - destruct (T1 d H) as (l' & E & R1 & R2). rewrite E. cbn [bind]. eexists _, _. split; [reflexivity|]. exact R2.
  - rewrite Nat.add_1_r in H. destruct (T1 (S d) H) as (l' & E & R1 & R2). rewrite E. cbn [bind]. eexists _, _. split; [reflexivity|]. exact R1.
  - destruct (T2 d H) as (l' & E & R1). rewrite E. cbn [bind]. eexists _, _. split; [reflexivity|]. exact R1.
Qed.

(** ** One resprocessing *)
Section Processing.
Variables (uc : bool) (rs : list response) (s0 : MigItem.state).
Hypothesis I0 : inv s0.
Hypothesis Hkeys : map fst (responses s0) = flat_map response_ids rs.
Hypothesis Hrs : forall r, In r rs -> response_in s0 r.
Variable all : list str.
Hypothesis Hall : (length (flat_map response_ids rs) + length (nodup str_eq_dec all) <= 99)%nat.

Lemma room s dvs ids id : Ophase uc s0 s dvs ids -> (forall i, In i (map (decvar_id uc) dvs ++ ids) -> In i all) -> In id all -> ~ In id (map fst (outcomes s)) ->
  (length (responses s) + length (outcomes s) <= 98)%nat.
Proof.
  intros P Hin Hid Hn. rewrite (o_responses _ _ _ _ _ P). rewrite <- (map_length fst (responses s0)), Hkeys.
  assert (L : (length (id :: map fst (outcomes s)) <= length (nodup str_eq_dec all))%nat).
  { apply NoDup_incl_length; [constructor; [exact Hn|apply (i_outs s), P]|]. intros x [<-|Hx]; apply nodup_In; [exact Hid|]. apply Hin, (o_keys _ _ _ _ _ P), Hx. }
  cbn [length] in L. rewrite map_length in L. lia.
Qed.
Lemma declare_outcome_total s dvs ids id t df v : Ophase uc s0 s dvs ids -> (forall i, In i (map (decvar_id uc) dvs ++ ids) -> In i all) -> In id all -> ~ In id (map fst (outcomes s)) ->
  exists s' d, declare_outcome s id t df v = Ok (s', d).
Proof.
  intros P Hin Hid Hn. pose proof (room _ _ _ _ P Hin Hid Hn) as HL. pose proof (o_inv _ _ _ _ _ P) as I. unfold declare_outcome.
  destruct (new_name_total s id (i_vars s I) ltac:(rewrite variables_length by exact I; lia)) as (n & En). rewrite En. cbn [bind].
  destruct (new_name_fresh _ _ _ En) as (Hf & _). unfold DeclareVariable. cbn [decl_identifier]. rewrite (proj2 (has_key_false _ _) (fresh_undeclared s n I Hf)). cbn [bind]. eauto.
Qed.
Lemma decvars_total : forall l s dvs, Ophase uc s0 s dvs [] -> NoDup (map (decvar_id uc) (dvs ++ l)) -> (forall i, In i (map (decvar_id uc) (dvs ++ l)) -> In i all) ->
  exists s', CloseDecVars Vv uc s l = Ok s'.
Proof.
  induction l as [|e l IH]; intros s dvs P HN Hin; cbn [CloseDecVars]; [eauto|].
  assert (Hnew : ~ In (decvar_id uc e) (map fst (outcomes s))).
  { rewrite (o_keys _ _ _ _ _ P), app_nil_r. rewrite map_app in HN. apply (NoDup_app_l _ _ HN). now left. }
  assert (E : exists s1, CloseDecVar Vv uc s e = Ok s1).
  { rewrite close_decvar. unfold DeclareOutcome. cbn [dv_identifier read_decvar dv_baseType dv_default]. rewrite (proj2 (has_key_false _ _) (proj2 (dget_none _ _) Hnew)).
    destruct (declare_outcome_total s dvs [] (decvar_id uc e) (de_baseType e) (de_default e) (Some (read_decvar uc e)) P) as (s1 & d & E).
    - intros i. rewrite app_nil_r. intros Hi. apply Hin. rewrite map_app. apply in_app_iff. auto.
    - apply Hin. rewrite map_app. apply in_app_iff. right. now left.
    - exact Hnew.
    - rewrite E. cbn [bind]. eauto. }
  destruct E as (s1 & E). rewrite E. cbn [bind]. destruct (decvar_phase _ _ _ _ _ _ P E) as (P1 & _). apply (IH s1 (dvs ++ [e]) P1); rewrite <- app_assoc; assumption.
Qed.
Lemma get_total s dvs ids id : Ophase uc s0 s dvs ids -> (forall i, In i (map (decvar_id uc) dvs ++ ids) -> In i all) -> In id all ->
  exists s' d, GetOutcome s id = Ok (s', d).
Proof.
  intros P Hin Hid. unfold GetOutcome. destruct (dget id (outcomes s)) as [n|] eqn:E.
  - destruct (i_outcome s (o_inv _ _ _ _ _ P) _ _ (dget_in _ _ _ E)) as (d & v & K & _). rewrite K. eauto.
  - eapply declare_outcome_total; try eassumption. apply dget_none, E.
Qed.
Lemma sets_total : forall l s dvs ids, Ophase uc s0 s dvs ids -> (forall i, In i (map (decvar_id uc) dvs ++ ids ++ map (fun v => outcome_named uc (MigItem.sv_varname v)) l) -> In i all) ->
  exists s' r, thread (CloseSetVar Vv uc) s l = Ok (s', r).
Proof.
  induction l as [|v l IH]; intros s dvs ids P Hin; cbn [thread]; [eauto|]. unfold CloseSetVar at 1. rewrite read_varname. cbn [bind].
  destruct (get_total s dvs ids (outcome_named uc (MigItem.sv_varname v)) P) as (s1 & d & E).
  - intros i Hi. apply Hin. rewrite in_app_iff in *. rewrite in_app_iff. tauto.
  - apply Hin. rewrite !in_app_iff. right. right. now left.
  - rewrite E. cbn [bind]. destruct (get_phase _ _ _ _ _ _ _ _ P E) as (P1 & _). destruct (IH s1 dvs (ids ++ [outcome_named uc (MigItem.sv_varname v)]) P1) as (s2 & r & E2).
    + intros i Hi. apply Hin. rewrite <- app_assoc in Hi. exact Hi.
    + fold (thread (CloseSetVar Vv uc)). rewrite E2. cbn [bind]. eauto.
Qed.
Lemma shows_total : forall l s dvs ids, Ophase uc s0 s dvs ids -> exists s' r, thread (CloseDisplayFeedback Vv) s l = Ok (s', r).
Proof.
  induction l as [|f l IH]; intros s dvs ids P; cbn [thread]; [eauto|]. unfold CloseDisplayFeedback at 1. rewrite read_feedback. cbn [bind].
  destruct (DeclareFeedback_eq s (o_inv _ _ _ _ _ P)) as (s1 & E & _). rewrite E. cbn [bind]. destruct (feedback_phase _ _ _ _ _ _ P E) as (P1 & _).
  destruct (IH s1 dvs ids P1) as (s2 & r & E2). fold (thread (CloseDisplayFeedback Vv)). rewrite E2. cbn [bind]. eauto.
Qed.
Lemma conditions_total : forall l s dvs ids m pt rules0, Ophase uc s0 s dvs ids -> flag_ok s0 s -> in_place m pt rules0 ->
  (forall i, In i (map (decvar_id uc) dvs ++ ids ++ cond_ids uc l) -> In i all) -> (forall c, In c l -> Forall (acceptable rs) (rc_tests c)) ->
  exists s' rules', CloseRespConditions Vv uc s l m pt rules0 = Ok (s', rules').
Proof.
  induction l as [|c l IH]; intros s dvs ids m pt rules0 P F Hpl Hin Hacc; cbn [CloseRespConditions]; [eauto|].
  assert (E : exists s1 q, CloseRespCondition Vv uc s c = Ok (s1, q)).
  { unfold CloseRespCondition. rewrite (condition_ext Vv s s0) by (apply get_same_responses; [exact I0|apply P|apply P]).
    destruct (condition_total rs s0 (i_resp s0 I0) Hkeys Hrs (rc_tests c)) as (e & ->); [apply Hacc; now left|]. cbn [bind].
    destruct (sets_total (MigItem.rc_setvars c) s dvs ids P) as (s1 & r1 & E1).
    - intros i Hi. apply Hin. rewrite cond_ids_cons. unfold cond_ids at 1. cbn [flat_map]. rewrite app_nil_r. rewrite !in_app_iff in *. tauto.
    - rewrite E1. cbn [bind]. destruct (sets_phase _ _ _ _ _ _ _ _ P F E1) as (P1 & _). destruct (shows_total (MigItem.rc_feedback c) _ _ _ P1) as (s2 & r2 & E2). rewrite E2. cbn [bind]. eauto. }
  destruct E as (s1 & q & E). rewrite E. cbn [bind]. destruct (condition_phase _ _ _ _ _ _ _ _ P F E) as (P1 & G1 & _ & F1 & _).
  destruct (add_total q (MigItem.rc_continue c) m pt rules0 Hpl) as (l1 & pt1 & E1 & Hpl1). rewrite E1. cbn [bind].
  apply (IH _ _ _ _ _ _ P1 F1 Hpl1); [|intros c0 Hc0; apply Hacc; now right]. intros i Hi. apply Hin. rewrite cond_ids_cons. rewrite <- app_assoc in Hi. exact Hi.
Qed.
End Processing.
Lemma process_total uc rs s0 p : inv s0 -> map fst (responses s0) = flat_map response_ids rs -> (forall r, In r rs -> response_in s0 r) ->
  (length (flat_map response_ids rs) + length (nodup str_eq_dec (outcome_ids uc p)) <= 99)%nat -> NoDup (map (decvar_id uc) (rp_decvars p)) ->
  (forall c, In c (rp_conditions p) -> Forall (acceptable rs) (rc_tests c)) -> exists s, CloseResProcessing Vv uc s0 p = Ok s.
Proof.
  intros I Hk Hr HL HN Hacc. unfold CloseResProcessing.
  destruct (decvars_total uc rs s0 Hk (outcome_ids uc p) HL (rp_decvars p) _ [] (reset_phase uc s0 I)) as (s1 & E1).
  - exact HN.
  - cbn [app]. intros i Hi. apply in_app_iff. auto.
  - rewrite E1. cbn [bind]. destruct (decvars_phase _ s0 _ _ [] _ (reset_phase uc s0 I) E1) as (P1 & G1 & F1 & _). cbn [app] in P1.
    assert (Fl : flag_ok s0 s1). { destruct (Reset_ok s0 I) as (R1 & R2 & R3 & R4 & R5 & R6 & R7). intros K1 K2. congruence. }
    destruct (conditions_total uc rs s0 I Hk Hr (outcome_ids uc p) HL (rp_conditions p) s1 (rp_decvars p) [] true (MigItem.InRules 0) []) as (s2 & l & E2); auto.
    + exact Logic.I.
    + rewrite E2. cbn [bind]. eauto.
Qed.
Lemma response_in_same s s' r : responses s' = responses s -> (forall id n, In (id, n) (responses s) -> dget n (variables s') = dget n (variables s)) ->
  response_in s r -> response_in s' r.
Proof.
  intros H1 H2. assert (T : forall id mk, response_is s id mk -> response_is s' id mk).
  { intros id mk (n & K1 & K2). exists n. rewrite H1. split; [exact K1|]. rewrite (H2 id n (dget_in _ _ _ K1)). exact K2. }
  intros [K1 K2]. split; [apply T, K1|]. intros j Hj. apply T, K2, Hj.
Qed.
Lemma conversion_total uc sf rs ps : NoDup (flat_map response_ids rs) -> (length (flat_map response_ids rs) <= 99)%nat ->
  (forall p, In p ps -> (length (flat_map response_ids rs) + length (nodup str_eq_dec (outcome_ids uc p)) <= 99)%nat /\
     NoDup (map (decvar_id uc) (rp_decvars p)) /\ forall c, In c (rp_conditions p) -> Forall (acceptable rs) (rc_tests c)) ->
  exists s, ConvertItem Vv uc sf rs ps = Ok s.
Proof.
  intros HN HL Hps. unfold ConvertItem. destruct (responses_total rs new_item Rphase_new HN HL) as (s1 & E1). rewrite E1. cbn [bind].
  destruct (responses_step _ _ _ Rphase_new E1) as (P1 & _ & Hk & Hr & _). cbn [app map new_item responses] in Hk.
  assert (G : exists s2, CloseResProcessings Vv uc s1 ps = Ok s2).
  { destruct P1 as (I1 & _). clear E1. revert s1 I1 Hk Hr. induction ps as [|p ps IH]; intros s1 I1 Hk Hr; cbn [CloseResProcessings]; [eauto|].
    destruct (Hps p (or_introl eq_refl)) as (H1 & H2 & H3). destruct (process_total uc rs s1 p I1 Hk Hr H1 H2 H3) as (s2 & E2). rewrite E2. cbn [bind].
    destruct (process_keeps _ _ _ _ I1 E2) as (I2 & R2 & V2 & _). apply IH; [intros q Hq; apply Hps; now right|exact I2|congruence|].
    intros r Hin. eapply response_in_same; [exact R2|exact V2|apply Hr, Hin]. }
  destruct G as (s2 & ->). cbn [bind]. eauto.
Qed.
