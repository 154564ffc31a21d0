(** Further properties of QTI expressions: NULL operands and area mappings (C46, C83, C86),
    C126 strings, points and fields, C127 random values. *)
From Coq Require Import QArith Qcanon Lia Permutation.
From Verif Require Import Py Dec XmlUtils Xsd XsdProofs2 QtiValue QtiExpr QtiSpec
  QtiProofs QtiProofs2 QtiProofs3 QtiProofs4 QtiProofs5 QtiProps.
Open Scope Z_scope.
Open Scope list_scope.

(** ** Specification *)
(** A number or a NULL of a numeric type *)
Definition numeric_value (v : value) : Prop :=
  (exists x, number v x) \/ v = VSingle (Some BInteger) None \/ v = VSingle (Some BFloat) None.
(** The first area that contains a point, None if there is none *)
Definition first_area (es : list ((Z * Z -> result bool) * Qc)) (p : Z * Z) (o : option nat) : Prop :=
  match o with
  | None => Forall (fun e => fst e p = Ok false) es
  | Some j => (exists e, nth_error es j = Some e /\ fst e p = Ok true) /\
              forall k e, (k < j)%nat -> nth_error es k = Some e -> fst e p = Ok false
  end.
Definition worth (es : list ((Z * Z -> result bool) * Qc)) (j : nat) : Qc := nth j (map snd es) 0%Qc.
(** The points of a value: those of a multiple container once each *)
Definition points_of (v : value) (ps : list (Z * Z)) : Prop :=
  let given := map (fun p : Z * Z => Some (APoint (fst p) (snd p))) ps in
  (exists p, ps = [p] /\ v = VSingle (Some BPoint) (Some (APoint (fst p) (snd p)))) \/
  (ps <> [] /\ v = VOrdered (Some BPoint) (Some given)) \/
  (ps <> [] /\ exists m, v = VMultiple (Some BPoint) (Some m) /\ map fst m = given).
Definition hits (f : Z * Z -> option nat) (ps : list (Z * Z)) : list nat :=
  flat_map (fun p => match f p with Some j => [j] | None => [] end) ps.
Definition misses (f : Z * Z -> option nat) (ps : list (Z * Z)) : list (Z * Z) :=
  filter (fun p => match f p with Some _ => false | None => true end) ps.
Definition text (s : str) : value := VSingle (Some BString) (Some (AStr s)).

Section Props.
Context {X : Ext}.
Ltac go H := cbn [eval]; rewrite (evaluates_mapM _ _ _ H); cbn [bind].

(** C86: matching with NULL is NULL *)
Theorem C86_null st e1 e2 b v w c : eval st e1 = Ok v -> eval st e2 = Ok w ->
  base v = Some b -> base w = Some b -> b <> BDuration -> card v = Some c -> card w = Some c ->
  non_null v = false \/ non_null w = false -> eval st (EMatch [e1; e2]) = Ok (boolean None).
Proof.
  intros H1 H2 Hbv Hbw Hd Hcv Hcw Hn. go (ev2 _ _ _ _ _ H1 H2). unfold op_match. cbn [two bind]. unfold value_eq.
  rewrite Hbv, Hbw, Hcv, Hcw.
  assert (E1 : exists o, CheckCardinalities [Some c; Some c] = Ok o) by (destruct c; eexists; reflexivity). destruct E1 as [o ->].
  assert (E2 : CheckBaseTypes [Some b; Some b] = Ok (Some b)) by (destruct b; reflexivity). rewrite E2. cbn [bind].
  destruct (opt_eqb baseType_eqb (Some b) (Some BDuration)) eqn:E; [destruct b; try discriminate; congruence|].
  destruct Hn as [-> | ->]; [|rewrite andb_false_r]; reflexivity.
Qed.

(** C83: a NULL among the numbers makes sum and product NULL *)
Lemma numeric_parts v : numeric_value v -> card v = Some CSingle /\ (base v = Some BInteger \/ base v = Some BFloat) /\
  (non_null v = true -> exists x, to_float v = Ok x) /\
  (non_null v = true -> base v = Some BInteger -> exists n, to_int v = Ok n).
Proof.
  intros [[x [(n & -> & ->)| ->]]|[-> | ->]]; repeat split; cbn; auto; try discriminate; intros; eauto; discriminate.
Qed.
Lemma numeric_types vs : forall ret, Forall numeric_value vs -> (ret = None -> vs <> []) -> (ret = None \/ ret = Some BInteger \/ ret = Some BFloat) ->
  exists b, check_numeric ret (map base vs) = Ok (Some b) /\
    (b = BFloat \/ b = BInteger /\ ret <> Some BFloat /\ forall v, In v vs -> base v = Some BInteger).
Proof.
  induction vs as [|v vs IH]; intros ret Hv Hne Hret; cbn [map check_numeric].
  - destruct Hret as [->|[-> | ->]]; [specialize (Hne eq_refl); congruence| |]; eexists; (split; [reflexivity|]); [right|left; reflexivity].
    split; [reflexivity|]. split; [discriminate|intros v []].
  - inversion Hv as [|? ? H1 H2]; subst. destruct (numeric_parts v H1) as (_ & Hb & _).
    assert (G : forall r, r = Some BInteger \/ r = Some BFloat -> exists b, check_numeric r (map base vs) = Ok (Some b) /\
      (b = BFloat \/ b = BInteger /\ r <> Some BFloat /\ forall v, In v vs -> base v = Some BInteger)).
    { intros r Hr. apply IH; [exact H2|intros ->; destruct Hr; discriminate|auto]. }
    destruct Hb as [Hb|Hb]; rewrite Hb; cbn [numeric negb]; destruct Hret as [->|[-> | ->]]; cbn [baseType_eqb];
    match goal with |- exists b, check_numeric ?r _ = _ /\ _ => destruct (G r ltac:(auto)) as (b & E & Hq) end;
    exists b; (split; [exact E|]); destruct Hq as [Hq|(Hq & Hr & Hall)]; auto; try congruence;
    right; (split; [exact Hq|]); (split; [congruence|]); intros w [<-|Hw]; auto.
Qed.
Theorem C83_null st es vs : evaluates st es vs -> Forall numeric_value vs -> (exists v, In v vs /\ non_null v = false) ->
  exists b, (b = BInteger \/ b = BFloat) /\
    eval st (ESum es) = Ok (VSingle (Some b) None) /\ eval st (EProduct es) = Ok (VSingle (Some b) None).
Proof.
  intros H Hv (v & Hin & Hn).
  assert (Hne : vs <> []) by (intros ->; contradiction).
  destruct (numeric_types vs None Hv ltac:(auto) ltac:(auto)) as (b & Eb & Hb).
  exists b. split; [destruct Hb as [->|[-> _]]; auto|].
  assert (G : forall zop zu qop qu, op_fold zop zu qop qu vs = Ok (VSingle (Some b) None)).
  { intros zop zu qop qu. unfold op_fold. destruct vs as [|v0 vs0] eqn:Evs; [congruence|]. rewrite <- Evs in *. clear Evs v0 vs0.
    rewrite Forall_forall in Hv. rewrite cards_single by (intros w Hw; left; apply (numeric_parts w (Hv w Hw))). cbn [bind].
    unfold CheckNumericalTypes. rewrite Eb. cbn [bind]. apply in_split in Hin as (l1 & l2 & ->).
    destruct Hb as [->|(-> & _ & Hall)].
    - rewrite num_loop_null; [reflexivity| |exact Hn]. intros w Hw Hnn. apply (numeric_parts w); [|exact Hnn]. apply Hv, in_or_app. auto.
    - rewrite num_loop_null; [reflexivity| |exact Hn]. intros w Hw Hnn. apply (numeric_parts w); [|exact Hnn|]; [apply Hv|apply Hall]; apply in_or_app; auto. }
  go H. split; apply G.
Qed.
(** and difference and quotient *)
Theorem C83_null2 st e1 e2 v w : eval st e1 = Ok v -> eval st e2 = Ok w -> numeric_value v -> numeric_value w ->
  non_null v = false \/ non_null w = false ->
  (exists b, (b = BInteger \/ b = BFloat) /\ eval st (ESubtract [e1; e2]) = Ok (VSingle (Some b) None)) /\
  eval st (EDivide [e1; e2]) = Ok (VSingle (Some BFloat) None).
Proof.
  intros H1 H2 Hv Hw Hn. go (ev2 _ _ _ _ _ H1 H2).
  destruct Hv as [[x [(n & -> & ->)| ->]]|[-> | ->]], Hw as [[y [(m & -> & ->)| ->]]|[-> | ->]];
    try (destruct Hn; discriminate); (split; [eexists; split; [|reflexivity]; auto|reflexivity]).
Qed.

(** ** C46: mapResponsePoint: every area counts once, for the first point in it; each point in no
    area counts with the default value *)
Fixpoint set_nth (j : nat) (l : list bool) : list bool :=
  match j, l with O, _ :: l' => true :: l' | S j', b :: l' => b :: set_nth j' l' | _, [] => [] end.
Lemma set_nth_length j : forall l, length (set_nth j l) = length l.
Proof. induction j as [|j IH]; intros [|b l]; cbn; auto. Qed.
Lemma set_nth_same j : forall l, (j < length l)%nat -> nth j (set_nth j l) false = true.
Proof. induction j as [|j IH]; intros [|b l] H; cbn in *; try lia. apply IH. lia. Qed.
Lemma set_nth_other j k : forall l, k <> j -> nth k (set_nth j l) false = nth k l false.
Proof. revert k. induction j as [|j IH]; intros [|k] [|b l] H; cbn; try reflexivity; try congruence. apply IH. congruence. Qed.
Lemma area_hit_some es p j : forall been, length been = length es -> first_area es p (Some j) ->
  area_hit es been p = Ok (Some ((if nth j been false then q0 else worth es j), set_nth j been)) /\ (j < length es)%nat.
Proof.
  revert j. induction es as [|[t q] es IH]; intros j [|b been] Hl ((e & He & Ht) & Hlt); try discriminate Hl.
  - destruct j; discriminate.
  - destruct j as [|j]; cbn in He; cbn [area_hit].
    + injection He as <-. cbn in Ht. rewrite Ht. cbn [bind]. split; [reflexivity|cbn; lia].
    + assert (Et : t p = Ok false) by (apply (Hlt 0%nat (t, q)); [lia|reflexivity]). rewrite Et. cbn [bind].
      injection Hl as Hl. destruct (IH j been Hl) as [E Hj].
      { split; [eauto|]. intros k e' Hk. apply (Hlt (S k) e'). lia. }
      rewrite E. cbn [bind]. split; [reflexivity|cbn; lia].
Qed.
Lemma area_hit_none es p : forall been, first_area es p None -> area_hit es been p = Ok None.
Proof.
  induction es as [|[t q] es IH]; intros [|b been] H; try reflexivity. inversion H as [|? ? H1 H2]; subst. cbn in H1.
  cbn [area_hit]. rewrite H1. cbn [bind]. rewrite IH by exact H2. reflexivity.
Qed.
(** the areas hit, without those in [been], each once *)
Fixpoint fresh (been : nat -> bool) (l : list nat) : list nat :=
  match l with
  | [] => []
  | j :: l' => if been j then fresh been l' else j :: fresh (fun k => been k || Nat.eqb k j) l'
  end.
Lemma fresh_In l : forall been j, In j (fresh been l) <-> In j l /\ been j = false.
Proof.
  induction l as [|k l IH]; intros been j; cbn [fresh]; [cbn; tauto|]. destruct (been k) eqn:E.
  - rewrite IH. cbn. split; [tauto|]. intros [[->|H] Hb]; [congruence|tauto].
  - cbn [In]. rewrite IH. destruct (Nat.eq_dec k j) as [->|N]; [intuition|].
    assert (Nat.eqb j k = false) as -> by (apply Nat.eqb_neq; congruence). rewrite orb_false_r. intuition congruence.
Qed.
Lemma fresh_NoDup l : forall been, NoDup (fresh been l).
Proof.
  induction l as [|k l IH]; intros been; cbn [fresh]; [constructor|]. destruct (been k); [apply IH|]. constructor; [|apply IH].
  rewrite fresh_In, Nat.eqb_refl, orb_true_r. intuition discriminate.
Qed.
Lemma fresh_ext l : forall b1 b2, (forall j, b1 j = b2 j) -> fresh b1 l = fresh b2 l.
Proof.
  induction l as [|k l IH]; intros b1 b2 H; cbn [fresh]; [reflexivity|]. rewrite H. destruct (b2 k); [apply IH, H|]. f_equal. apply IH. intros j. rewrite H. reflexivity.
Qed.
Lemma area_loop_sum a f ps : (forall p, In p ps -> first_area (a_entries a) p (f p)) -> forall been acc, length been = length (a_entries a) ->
  area_loop a been acc (map (fun p : Z * Z => Some (APoint (fst p) (snd p))) ps) =
  Ok (acc + (qsum (map (worth (a_entries a)) (fresh (fun j => nth j been false) (hits f ps))) +
             qsum (map (fun _ => a_default a) (misses f ps))))%Qc.
Proof.
  induction ps as [|p ps IH]; intros Hf been acc Hl; cbn [map area_loop hits misses flat_map filter].
  - cbn. f_equal. ring.
  - replace (fst p, snd p) with p by (destruct p; reflexivity). specialize (IH (fun p' H => Hf p' (or_intror H))).
    pose proof (Hf p (or_introl eq_refl)) as Hp. destruct (f p) as [j|].
    + destruct (area_hit_some _ _ _ been Hl Hp) as [E Hj]. rewrite E. cbn [bind]. rewrite IH by (rewrite set_nth_length; exact Hl).
      cbn [app fresh]. change (flat_map (fun p => match f p with Some j => [j] | None => [] end) ps) with (hits f ps).
      change (filter (fun p => match f p with Some _ => false | None => true end) ps) with (misses f ps). f_equal.
      destruct (nth j been false) eqn:Eb.
      * rewrite (fresh_ext _ _ (fun k => nth k been false)).
        -- change q0 with 0%Qc. ring.
        -- intros k. destruct (Nat.eq_dec k j) as [->|N]; [rewrite set_nth_same by lia; congruence|apply set_nth_other, N].
      * rewrite (fresh_ext _ _ (fun k => nth k been false || Nat.eqb k j)).
        -- cbn [map qsum fold_right]. unfold qsum. ring.
        -- intros k. destruct (Nat.eq_dec k j) as [->|N]; [rewrite set_nth_same, Nat.eqb_refl, orb_true_r by lia; reflexivity|].
           rewrite set_nth_other by exact N. apply Nat.eqb_neq in N. rewrite N, orb_false_r. reflexivity.
    + rewrite (area_hit_none _ _ been Hp). cbn [bind]. rewrite IH by exact Hl. cbn [app].
      change (flat_map (fun p => match f p with Some j => [j] | None => [] end) ps) with (hits f ps).
      change (filter (fun p => match f p with Some _ => false | None => true end) ps) with (misses f ps). f_equal.
      cbn [map qsum fold_right]. unfold qsum. ring.
Qed.
Theorem C46_area a v ps f : points_of v ps -> (forall p, In p ps -> first_area (a_entries a) p (f p)) ->
  exists r, AreaMapValue a v = Ok (VSingle (Some BFloat) (Some (AFloat r))) /\
    bounded (a_lower a) (a_upper a)
      (qsum (map (worth (a_entries a)) (nodup Nat.eq_dec (hits f ps))) + qsum (map (fun _ => a_default a) (misses f ps)))%Qc r.
Proof.
  intros Hp Hf. assert (E : src_values v = Ok (map (fun p : Z * Z => Some (APoint (fst p) (snd p))) ps) /\ non_null v = true /\ base v = Some BPoint).
  { destruct Hp as [(p & -> & ->)|[(Hne & ->)|(Hne & m & -> & Hm)]].
    - repeat split.
    - repeat split.
    - split; [|split; reflexivity]. cbn. rewrite Hm. reflexivity. }
  destruct E as (E1 & E2 & E3). unfold AreaMapValue. rewrite E1, E2, E3. cbn [bind negb orb].
  rewrite (area_loop_sum a f ps Hf) by (rewrite map_length; reflexivity). cbn [bind mkfloat option_map].
  eexists. split; [reflexivity|]. replace (q0 + _)%Qc with (qsum (map (worth (a_entries a)) (nodup Nat.eq_dec (hits f ps))) + qsum (map (fun _ => a_default a) (misses f ps)))%Qc; [apply clamp_bounded|].
  assert (Eq : qsum (map (worth (a_entries a)) (nodup Nat.eq_dec (hits f ps))) =
               qsum (map (worth (a_entries a)) (fresh (fun j => nth j (map (fun _ => false) (a_entries a)) false) (hits f ps)))).
  { apply qsum_perm, Permutation_map, NoDup_Permutation; [apply NoDup_nodup|apply fresh_NoDup|]. intros j. rewrite nodup_In, fresh_In.
    assert (G : forall k (l : list ((Z * Z -> result bool) * Qc)), nth k (map (fun _ => false) l) false = false).
    { intros k l. revert k. induction l as [|x l IH]; intros [|k]; cbn; auto. }
    rewrite G. tauto. }
  rewrite Eq. change q0 with 0%Qc. ring.
Qed.
Theorem C46_area_null a v : non_null v = false -> match base v with None | Some BPoint => True | _ => False end ->
  AreaMapValue a v = Ok (VSingle (Some BFloat) (Some (AFloat (Q2Qc 0)))).
Proof.
  intros H Hb. unfold AreaMapValue, src_values. rewrite H. cbn [negb bind area_loop]. destruct (base v) as [[]|]; try contradiction; reflexivity.
Qed.

(** ** C126: strings, points and fields *)
Definition folded (case : bool) (s : str) : str := if case then s else x_lower s.
Lemma starts_iff s : forall t, starts_with s t = true <-> exists b, t = s ++ b.
Proof.
  induction s as [|c s IH]; intros t; cbn [starts_with]; [split; [exists t; reflexivity|auto]|].
  destruct t as [|d t]; [split; [discriminate|intros (b & E); discriminate]|]. rewrite andb_true_iff, Z.eqb_eq, IH. split.
  - intros (-> & b & ->). exists b. reflexivity.
  - intros (b & E). injection E as -> ->. eauto.
Qed.
Lemma substring_iff s : forall t, substring_of s t = true <-> exists a b, t = a ++ s ++ b.
Proof.
  induction t as [|c t IH]; cbn [substring_of]; rewrite orb_true_iff, starts_iff.
  - split; [intros [(b & E)|]; [exists [], b; exact E|discriminate]|]. intros (a & b & E). left. exists []. destruct a; [|discriminate].
    cbn in E. symmetry in E. apply app_eq_nil in E as [-> ->]. reflexivity.
  - rewrite IH. split.
    + intros [(b & E)|(a & b & ->)]; [exists [], b; exact E|exists (c :: a), b; reflexivity].
    + intros ([|c' a] & b & E); [left; exists b; exact E|right]. injection E as <- ->. eauto.
Qed.
Theorem C126_string_match st case e1 e2 s t : eval st e1 = Ok (text s) -> eval st e2 = Ok (text t) ->
  exists r, eval st (EStringMatch case false [e1; e2]) = Ok (boolean (Some r)) /\
    (r = true <-> folded case s = folded case t).
Proof.
  intros H1 H2. go (ev2 _ _ _ _ _ H1 H2). eexists. split; [reflexivity|]. unfold folded. destruct case; apply str_eqb_eq.
Qed.
Theorem C126_substring st case e1 e2 s t : eval st e1 = Ok (text s) -> eval st e2 = Ok (text t) ->
  exists r, eval st (ESubString case [e1; e2]) = Ok (boolean (Some r)) /\
    eval st (EStringMatch case true [e1; e2]) = Ok (boolean (Some r)) /\
    (r = true <-> exists a b, folded case t = a ++ folded case s ++ b).
Proof.
  intros H1 H2. go (ev2 _ _ _ _ _ H1 H2). eexists. split; [reflexivity|]. split; [reflexivity|]. unfold folded. destruct case; apply substring_iff.
Qed.
Theorem C126_string_null st case sub e1 e2 v w : eval st e1 = Ok v -> eval st e2 = Ok w ->
  (exists s, v = text s) \/ v = VSingle (Some BString) None -> (exists s, w = text s) \/ w = VSingle (Some BString) None ->
  non_null v = false \/ non_null w = false ->
  eval st (EStringMatch case sub [e1; e2]) = Ok (boolean None) /\ eval st (ESubString case [e1; e2]) = Ok (boolean None).
Proof.
  intros H1 H2 Hv Hw Hn. go (ev2 _ _ _ _ _ H1 H2). destruct Hv as [[s ->]| ->], Hw as [[t ->]| ->]; try (destruct Hn; discriminate); split; reflexivity.
Qed.
Theorem C126_pattern st p e s : is_ref p = false -> eval st e = Ok (text s) ->
  eval st (EPatternMatch p e) = Ok (boolean (x_match p s)).
Proof. intros Hp H. cbn [eval]. unfold StringOrTemplateRef. rewrite Hp. cbn [bind]. rewrite H. reflexivity. Qed.
Theorem C126_inside st test e v ps : eval st e = Ok v -> points_of v ps -> (forall p, In p ps -> exists b, test p = Ok b) ->
  exists r, eval st (EInside test e) = Ok (boolean (Some r)) /\ (r = true <-> exists p, In p ps /\ test p = Ok true).
Proof.
  intros H Hp Ht. cbn [eval]. rewrite H. cbn [bind].
  assert (G : exists r, any_inside test (map (fun p : Z * Z => Some (APoint (fst p) (snd p))) ps) = Ok r /\ (r = true <-> exists p, In p ps /\ test p = Ok true)).
  { clear Hp H. induction ps as [|p ps IH]; cbn [map any_inside].
    - exists false. split; [reflexivity|]. split; [discriminate|intros (p & [] & _)].
    - destruct (Ht p (or_introl eq_refl)) as [b Eb]. cbn [test_atom]. replace (fst p, snd p) with p by (destruct p; reflexivity). rewrite Eb. cbn [bind].
      destruct b; [exists true; split; [reflexivity|]; split; eauto using in_eq|].
      destruct IH as (r & E & Hr); [intros q Hq; apply Ht; right; exact Hq|]. exists r. split; [exact E|]. rewrite Hr. split.
      + intros (q & Hq & Et). eauto using in_cons.
      + intros (q & [<-|Hq] & Et); [congruence|eauto]. }
  destruct G as (r & E & Hr). exists r. split; [|exact Hr].
  destruct Hp as [(p & -> & ->)|[(Hne & ->)|(Hne & m & -> & Hm)]]; cbn [op_inside base CheckBaseTypes check_bases baseType_eqb bind].
  - cbn [map any_inside] in E. destruct (test_atom _ _) as [b|]; cbn [bind] in *; [|discriminate]. destruct b; injection E as <-; reflexivity.
  - rewrite E. reflexivity.
  - rewrite Hm, E. reflexivity.
Qed.
Theorem C126_is_null st e v : eval st e = Ok v -> wf_value v ->
  exists r, eval st (EIsNull e) = Ok (boolean (Some r)) /\ (card v <> Some CRecord -> (r = true <-> members v = [])).
Proof.
  intros H Hw. cbn [eval]. rewrite H. eexists. split; [reflexivity|]. intros Hc.
  destruct v as [|bt|bt [a|]|bt [l|]|bt [m|]|o]; cbn [non_null negb members]; try (split; [reflexivity|reflexivity]); try congruence.
  - split; [discriminate|discriminate].
  - split; [discriminate|]. cbn in Hw. destruct bt; [|contradiction]. destruct Hw as [Hne Hl]. destruct Hl as [|x l (a & -> & _) _]; [congruence|discriminate].
  - split; [discriminate|]. cbn in Hw. destruct bt; [|contradiction]. destruct Hw as (Hne & _ & Hl). destruct Hl as [|[k n] m (Hpos & a & Ek & _) _]; [congruence|].
    cbn [fst snd] in *. subst k. cbn [flat_map fst snd]. destruct (Z.to_nat n) eqn:En; [lia|discriminate].
  - exfalso. apply Hc. reflexivity.
Qed.
Theorem C126_field st f e l : eval st e = Ok (VRecord (Some l)) ->
  (forall b a, assoc f l = Some (b, a) -> eval st (EFieldValue f e) = Ok (VSingle (Some b) (Some a))) /\
  (assoc f l = None -> exists v, eval st (EFieldValue f e) = Ok v /\ non_null v = false).
Proof.
  intros H. cbn [eval]. rewrite H. cbn [bind op_field_value]. split; [intros b a ->; reflexivity|intros ->; eexists; split; reflexivity].
Qed.

(** ** C127: random values *)
Theorem C127_integer st mn mx step a b s : is_ref mn = false -> is_ref mx = false -> is_ref step = false ->
  DecodeInteger mn = Ok a -> DecodeInteger mx = Ok b -> DecodeInteger step = Ok s -> 0 < s -> a <= b -> int32 a -> int32 b ->
  (forall draw, exists n, eval st (ERandomInteger (Some mn) (Some mx) (Some step) draw) = Ok (integer n) /\ a <= n <= b /\ (s | n - a)) /\
  (forall n, a <= n <= b -> (s | n - a) -> exists draw, eval st (ERandomInteger (Some mn) (Some mx) (Some step) draw) = Ok (integer n)).
Proof.
  intros R1 R2 R3 E1 E2 E3 Hs Hab Ha Hb. cbn [eval]. unfold op_random_integer, IntegerOrTemplateRef. rewrite R1, R2, R3, E1, E2, E3. cbn [bind].
  replace (s =? 0) with false by (symmetry; apply Z.eqb_neq; lia).
  assert (Hk : 0 <= (b - a) / s) by (apply Z.div_pos; lia).
  replace ((b - a) / s <? 0) with false by (symmetry; apply Z.ltb_ge; exact Hk).
  pose proof (Z.mul_div_le (b - a) s Hs) as Hdiv. split.
  - intros draw. pose proof (Z.mod_pos_bound draw ((b - a) / s + 1) ltac:(lia)) as Hm. set (m := draw mod _) in *.
    assert (0 <= s * m <= b - a) by nia. exists (a + s * m). split; [apply mkint_ok; unfold int32 in *; lia|]. split; [lia|].
    exists m. lia.
  - intros n Hn [m Em]. assert (0 <= m) by nia. assert (m <= (b - a) / s) by (apply Z.div_le_lower_bound; nia). exists m.
    rewrite Z.mod_small by lia. replace (a + s * m) with n by lia. apply mkint_ok. unfold int32 in *; lia.
Qed.
Theorem C127_float st mn mx a b draw : is_ref mn = false -> is_ref mx = false -> x_double mn = Ok a -> x_double mx = Ok b ->
  Qcle a b -> Qcle 0%Qc draw -> Qcle draw 1%Qc ->
  exists x, eval st (ERandomFloat (Some mn) (Some mx) draw) = Ok (VSingle (Some BFloat) (Some (AFloat x))) /\ Qcle a x /\ Qcle x b.
Proof.
  intros R1 R2 E1 E2 Hab H0 H1. cbn [eval]. unfold op_random_float, FloatOrTemplateRef. rewrite R1, R2, E1, E2. cbn [bind].
  eexists. split; [reflexivity|]. assert (Hd : Qcle 0%Qc (b - a)%Qc).
  { apply -> Qcle_minus_iff in Hab. exact Hab. }
  split; apply Qcle_minus_iff.
  - replace (a + draw * (b - a) + - a)%Qc with (draw * (b - a))%Qc by ring.
    pose proof (Qcmult_le_compat_r 0%Qc draw (b - a)%Qc H0 Hd) as G. rewrite Qcmult_0_l in G. exact G.
  - replace (b + - (a + draw * (b - a)))%Qc with ((1 - draw) * (b - a))%Qc by ring.
    pose proof (Qcmult_le_compat_r 0%Qc (1 - draw)%Qc (b - a)%Qc) as G. rewrite Qcmult_0_l in G. apply G; [|exact Hd].
    apply -> Qcle_minus_iff in H1. exact H1.
Qed.
Theorem C127_member st e v b : eval st e = Ok v -> wf_value v -> base v = Some b -> non_null v = true ->
  card v = Some CMultiple \/ card v = Some COrdered ->
  (forall draw, exists a, eval st (ERandom draw e) = Ok (VSingle (Some b) (Some a)) /\ In a (members v)) /\
  (forall a, In a (members v) -> exists draw, eval st (ERandom draw e) = Ok (VSingle (Some b) (Some a))).
Proof.
  intros H Hw Hb Hn Hc. assert (G : GetValues v = map Some (members v) /\ members v <> [] /\ Forall (wf_atom b) (members v)).
  { split; [|split].
    - rewrite (GetValues_somes b v Hw Hb) at 1. destruct v as [| |?[]|?[]|?[]|[]]; try discriminate Hn; try (destruct Hc; discriminate); reflexivity.
    - intros E. destruct (C126_is_null st e v H Hw) as (r & E1 & Hr). cbn [eval] in E1. rewrite H in E1. cbn [bind] in E1. unfold op_is_null in E1. rewrite Hn in E1. cbn [negb] in E1.
      injection E1 as <-. destruct Hr as [_ Hr]; [destruct Hc as [-> | ->]; discriminate|]. specialize (Hr E). discriminate.
    - apply (members_wf v Hw b Hb). }
  destruct G as (G & Hne & Hwf).
  assert (E : forall draw, exists a, eval st (ERandom draw e) = Ok (VSingle (Some b) (Some a)) /\
    nth_error (members v) (Nat.modulo draw (length (members v))) = Some a).
  { intros draw. cbn [eval]. rewrite H. cbn [bind].
    assert (Hlt : (Nat.modulo draw (length (members v)) < length (members v))%nat) by (apply Nat.mod_upper_bound; destruct (members v); [congruence|discriminate]).
    destruct (nth_error (members v) (Nat.modulo draw (length (members v)))) as [a|] eqn:Ea; [|apply nth_error_None in Ea; lia].
    exists a. split; [|reflexivity].
    assert (Hwa : wf_atom b a) by (rewrite Forall_forall in Hwf; apply Hwf; eapply nth_error_In; exact Ea).
    assert (Hr : new_single (Some b) None = Ok (VSingle (Some b) None)) by (destruct b; try reflexivity; destruct a; contradiction).
    assert (Hf : finish (set_value (VSingle (Some b) None) (opayload (nth (Nat.modulo draw (length (map Some (members v)))) (map Some (members v)) None))) = Ok (VSingle (Some b) (Some a))).
    { rewrite map_length. rewrite (nth_error_nth (map Some (members v)) _ None (x := Some a)) by (rewrite nth_error_map, Ea; reflexivity).
      cbn [opayload]. unfold finish. cbn [set_value]. rewrite (parse_raw b a Hwa). destruct b; try reflexivity. }
    destruct v as [|bt|bt [a0|]|bt [l|]|bt [m|]|[l|]]; try discriminate Hn; try (destruct Hc; discriminate); cbn [base] in Hb; subst bt; cbn [op_random].
    all: rewrite Hr; cbn [bind]; rewrite G; destruct (map Some (members _)) as [|x0 l0] eqn:El; [destruct (members _); [congruence|discriminate]|]; exact Hf. }
  split.
  - intros draw. destruct (E draw) as (a & E1 & Hnth). exists a. split; [exact E1|]. eapply nth_error_In; exact Hnth.
  - intros a Ha. apply In_nth_error in Ha as [k Hk]. assert (k < length (members v))%nat by (apply nth_error_Some; congruence).
    exists k. destruct (E k) as (a' & E1 & Hnth). rewrite Nat.mod_small in Hnth by assumption. rewrite E1. congruence.
Qed.
End Props.

(** ** Concrete cases *)
#[local] Existing Instance demo.
Definition str_lit (s : str) := EBaseValue (Some BString) s.
Definition left_half (p : Z * Z) : result bool := Ok (fst p <? 50).
Definition low_half (p : Z * Z) : result bool := Ok (snd p <? 50).
Definition areas : areaMapping := mkArea None (Some (qz 6)) (qz (-1)) [(left_half, qz 3); (low_half, qz 4)].
Example ex_C46_area : points_of (VMultiple (Some BPoint) (Some [(Some (APoint 10 10), 1); (Some (APoint 20 90), 1); (Some (APoint 90 10), 2); (Some (APoint 90 90), 1)]))
    [(10, 10); (20, 90); (90, 10); (90, 90)] /\
  first_area (a_entries areas) (10, 10) (Some 0%nat) /\ first_area (a_entries areas) (90, 10) (Some 1%nat) /\ first_area (a_entries areas) (90, 90) None /\
  AreaMapValue areas (VMultiple (Some BPoint) (Some [(Some (APoint 10 10), 1); (Some (APoint 20 90), 1); (Some (APoint 90 10), 2); (Some (APoint 90 90), 1)])) =
    Ok (VSingle (Some BFloat) (Some (AFloat (qz 6)))).
Proof.
  split; [right; right; split; [discriminate|]; eexists; split; reflexivity|].
  split; [split; [eexists; split; reflexivity|intros; lia]|].
  split; [split; [eexists; split; reflexivity|]; intros [|k] e Hk E; [injection E as <-; reflexivity|lia]|].
  split; [constructor; [reflexivity|]; constructor; [reflexivity|constructor]|]. vm_compute. reflexivity.
Qed.
Example ex_C83_null : Forall numeric_value [integer 1; VSingle (Some BFloat) None] /\
  eval (mkState (mkItem [] [] [] false) [(lit "N", VSingle (Some BFloat) None)]) (ESum [int_lit (lit "1"); EVariable (lit "N")]) = Ok (VSingle (Some BFloat) None).
Proof.
  split; [|reflexivity]. constructor; [left; exists (qz 1); left; exists 1; split; reflexivity|]. constructor; [right; right; reflexivity|constructor].
Qed.
Example ex_C126 : eval demo_state (EStringMatch false false [str_lit (lit "aBc"); str_lit (lit "AbC")]) = Ok (boolean (Some true)) /\
  eval demo_state (EStringMatch true false [str_lit (lit "aBc"); str_lit (lit "AbC")]) = Ok (boolean (Some false)) /\
  eval demo_state (ESubString true [str_lit (lit "bc"); str_lit (lit "abcd")]) = Ok (boolean (Some true)) /\
  eval demo_state (EInside left_half (EBaseValue (Some BPoint) (lit "60 1"))) = Ok (boolean (Some false)).
Proof. vm_compute. repeat split. Qed.
Example ex_C127 : eval demo_state (ERandomInteger (Some (lit "2")) (Some (lit "11")) (Some (lit "3")) 7) = Ok (integer 11) /\
  eval demo_state (ERandom 2 (EVariable (lit "A"))) = Ok (integer 1) /\
  eval demo_state (ERandom 2 (EVariable (lit "B"))) = Ok (VSingle (Some BIdentifier) (Some (AIdent (lit "Y")))).
Proof. vm_compute. repeat split. Qed.
Print Assumptions C86_null.
Print Assumptions C83_null.
Print Assumptions C83_null2.
Print Assumptions C46_area.
Print Assumptions C46_area_null.
Print Assumptions C126_string_match.
Print Assumptions C126_substring.
Print Assumptions C126_string_null.
Print Assumptions C126_pattern.
Print Assumptions C126_inside.
Print Assumptions C126_is_null.
Print Assumptions C126_field.
Print Assumptions C127_integer.
Print Assumptions C127_float.
Print Assumptions C127_member.
