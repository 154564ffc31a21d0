(** The theorems about ABNF rule bases (C231-C236). *)
From Coq Require Import List Arith Bool ZArith Lia.
From Verif Require Import Py Abnf AbnfSpec AbnfProofs AbnfProofs2 AbnfProofs3 AbnfProofs4.
Import ListNotations.
Open Scope nat_scope.

(** ** An example: expr = "(x" expr ")" / 1*digit *)
Definition demo_log : list call :=
  [Declared (lit "expr") 0; Added (Literal (lit "(x")) 1; Added (Literal (lit ")")) 2; Added (Sequence [1; 0; 2]) 3;
   Added (ValueRange 48 57) 4; Added (Repeat 1 None 4) 5; Added (Alternative [3; 5]) 6; Defined (lit "Expr") false 6].
Definition demo_rules : list (option str * body) :=
  [(None, Alias 6); (None, Literal (lit "(x")); (None, Literal (lit ")")); (None, Sequence [1; 0; 2]);
   (None, ValueRange 48 57); (None, Repeat 1 None 4); (Some (lit "Expr"), Alternative [3; 5])].
Definition demo : rulebase := mkBase demo_rules [(lit "expr", 6)].
Example demo_calls : calls empty_base demo_log demo.
Proof.
  unfold demo_log. eapply calls_declare; [vm_compute; reflexivity|].
  do 6 (eapply calls_add; [discriminate | vm_compute; reflexivity|]).
  eapply calls_define; [vm_compute; reflexivity|]. apply calls_none.
Qed.

(** ** C231: what is generated belongs to the rule *)
Theorem C231_generated B name maxOptRepeat fuel choices s :
  GenerateData B name maxOptRepeat fuel choices = Generated s -> language B name s.
Proof. apply generate_sound_data. Qed.
Example C231_nonvacuous : GenerateData demo (lit "EXPR") 3 40 [0; 1; 1; 2; 55; 48]%Z = Generated (lit "(x70)").
Proof. vm_compute. reflexivity. Qed.

(** ** C232: every string of a rule may be generated *)
Theorem C232_all B name s : language B name s ->
  exists least choices, forall maxOptRepeat, least <= maxOptRepeat ->
  exists fuel, GenerateData B name maxOptRepeat fuel choices = Generated s.
Proof. apply generate_complete. Qed.
Example C232_nonvacuous : language demo (lit "expr") (lit "(X(x70))").
Proof. apply (C231_generated demo (lit "expr") 5 60 [0; 0; 0; 1; 1; 2; 55; 48]%Z). vm_compute. reflexivity. Qed.

(** ** C233: validating *)
(** a way of sorting *)
Fixpoint least (l : list (nat * list (nat * pos))) : option ((nat * list (nat * pos)) * list (nat * list (nat * pos))) :=
  match l with
  | [] => None
  | x :: l => match least l with None => Some (x, l) | Some (y, rest) => if fst x <=? fst y then Some (x, l) else Some (y, x :: rest) end
  end.
Lemma least_picks : picks least.
Proof.
  intro l. induction l as [|x l IH]; cbn [least]; [reflexivity|]. destruct (least l) as [[y rest]|].
  - destruct IH as ((a & b & -> & ->) & M). destruct (Nat.leb_spec (fst x) (fst y)) as [L|L].
    + split; [exists [], (a ++ y :: b); auto|]. intros z [<-|I]; [lia|]. pose proof (M z I). lia.
    + split; [exists (x :: a), b; auto|]. intros z [<-|I]; [lia | exact (M z I)].
  - subst l. split; [exists [], []; auto|]. intros z [<-|[]]. lia.
Qed.
Lemma picks_one first x : picks first -> first [x] = Some (x, []).
Proof.
  intro P. pose proof (P [x]) as H. destruct (first [x]) as [[y rest]|]; [|discriminate H].
  destruct H as ((a & b & E & ->) & _). destruct a as [|z a]; [injection E as <- <-; reflexivity|]. injection E as _ E. destruct a; discriminate E.
Qed.
Lemma picks_two first x y : picks first ->
  (first [x; y] = Some (x, [y]) /\ fst x <= fst y) \/ (first [x; y] = Some (y, [x]) /\ fst y <= fst x).
Proof.
  intro P. pose proof (P [x; y]) as H. destruct (first [x; y]) as [[z rest]|]; [|discriminate H].
  destruct H as ((a & b & E & ->) & M). destruct a as [|u a].
  - injection E as <- <-. left. split; [reflexivity|]. apply M. right; left; reflexivity.
  - injection E as <- E. destruct a as [|v a]; [|injection E as _ E; destruct a; discriminate E]. injection E as <- <-.
    right. split; [reflexivity|]. apply M. left; reflexivity.
Qed.
(** Missing: that the rest is empty, and that data of the language is accepted; both are false. *)
Theorem C233_partial B name data first fuel : sensible (rules B) -> picks first ->
  Forall (fun c => 0 <= c <= 1114111)%Z data ->
  ValidateData B name data first fuel = Accepted ->
  exists some rest, data = some ++ rest /\ language B name some.
Proof.
  intros SR P SD H. unfold ValidateData in H. destruct (lookup (lowers name) (ids B)) as [r|] eqn:L; [|discriminate H].
  pose proof (validate_good (rules B) data SR SD r first P fuel [(0, [(r, Start)])]) as V. rewrite H in V.
  destruct V as (i & LI & D); [|discriminate|].
  - constructor; [|constructor]. split; [apply Nat.le_0_l|]. split; [constructor; [apply vok_start | constructor]|].
    intros ss F. cbn [fst snd] in F. inversion F as [|? s ? ss' F1 F2]; subst. inversion F2; subst. cbn. rewrite app_nil_r.
    apply (proj1 (vframe_start (rules B) r s)). exact F1.
  - exists (firstn i data), (skipn i data). split; [symmetry; apply firstn_skipn|]. exists r. split; [exact L | exact D].
Qed.
Theorem C233_rejected B name data first fuel e r : lookup (lowers name) (ids B) = Some r ->
  sensible (rules B) -> picks first -> Forall (fun c => 0 <= c <= 1114111)%Z data ->
  ValidateData B name data first fuel = Failed e -> e = NameError.
Proof.
  intros L SR P SD H. unfold ValidateData in H. rewrite L in H.
  pose proof (validate_good (rules B) data SR SD r first P fuel [(0, [(r, Start)])]) as V. rewrite H in V.
  apply V; [|discriminate]. constructor; [|constructor]. split; [apply Nat.le_0_l|]. split; [constructor; [apply vok_start | constructor]|].
  intros ss F. cbn [fst snd] in F. inversion F as [|? s ? ss' F1 F2]; subst. inversion F2; subst. cbn. rewrite app_nil_r.
  apply (proj1 (vframe_start (rules B) r s)). exact F1.
Qed.
Definition ab_rules : list (option str * body) := [(None, Literal (lit "a")); (None, Literal (lit "b")); (Some (lit "x"), Alternative [0; 1])].
Definition ab : rulebase := mkBase ab_rules [(lit "x", 2)].
Definition a_only : rulebase := mkBase [(Some (lit "x"), Terminal (lit "a"))] [(lit "x", 0)].
Theorem C233_refuted :
  (forall first, picks first -> ValidateData a_only (lit "x") (lit "ab") first 3 = Accepted) /\ ~ language a_only (lit "x") (lit "ab") /\
  language ab (lit "x") (lit "b") /\
  (forall first, picks first -> ValidateData ab (lit "x") (lit "b") first 5 = Failed NameError).
Proof.
  split; [|split; [|split]].
  - intros first P. unfold ValidateData. change (lookup (lowers (lit "x")) (ids a_only)) with (Some 0). cbn iota.
    assert (S1 : forall f, validate (rules a_only) (lit "ab") first (S f) [(0, [(0, Start)])] = validate (rules a_only) (lit "ab") first f [(1, [])]).
    { intro f. cbn [validate]. rewrite (picks_one first _ P). reflexivity. }
    rewrite S1. cbn [validate]. rewrite (picks_one first _ P). reflexivity.
  - intros (r & L & D). injection L as <-. inversion D as [? ? ? H|? ? ? ? H|? ? ? ? ? H|? ? ? ? H|? ? ? ? ? H|? ? ? ? ? ? ? H|? ? ? ? H]; try discriminate H.
  - exists 2. split; [reflexivity|]. eapply derive_alternative; [reflexivity | right; left; reflexivity|].
    eapply derive_literal; [reflexivity|]. constructor; [left; reflexivity | constructor].
  - intros first P. unfold ValidateData. change (lookup (lowers (lit "x")) (ids ab)) with (Some 2). cbn iota.
    set (A := (0, [(0, Start)]) : state). set (Bx := (0, [(1, Start)]) : state). set (C := (0, [(2, At 0)]) : state). set (D := (1, []) : state).
    assert (S1 : forall f, validate ab_rules (lit "b") first (S f) [(0, [(2, Start)])] = validate ab_rules (lit "b") first f [C; A]).
    { intro f. cbn [validate]. rewrite (picks_one first _ P). reflexivity. }
    assert (SA : forall f l rest, first l = Some (A, rest) -> validate ab_rules (lit "b") first (S f) l = Failed NameError).
    { intros f l rest E. cbn [validate]. rewrite E. reflexivity. }
    assert (SB : forall f l rest, first l = Some (Bx, rest) -> validate ab_rules (lit "b") first (S f) l = validate ab_rules (lit "b") first f (rest ++ [D])).
    { intros f l rest E. cbn [validate]. rewrite E. reflexivity. }
    assert (SC : forall f l rest, first l = Some (C, rest) -> validate ab_rules (lit "b") first (S f) l = validate ab_rules (lit "b") first f (rest ++ [Bx])).
    { intros f l rest E. cbn [validate]. rewrite E. reflexivity. }
    change (rules ab) with ab_rules. rewrite S1.
    destruct (picks_two first C A P) as [[E _]|[E _]]; [|exact (SA _ _ _ E)]. rewrite (SC _ _ _ E). cbn [app].
    destruct (picks_two first A Bx P) as [[E2 _]|[E2 _]]; [exact (SA _ _ _ E2)|]. rewrite (SB _ _ _ E2). cbn [app].
    destruct (picks_two first A D P) as [[E3 _]|[_ E3]]; [exact (SA _ _ _ E3)|]. exfalso. unfold A, D in E3. cbn in E3. lia.
Qed.
Example C233_nonvacuous : sensible (rules ab) /\ picks least /\ ValidateData a_only (lit "x") (lit "a") least 3 = Accepted /\
  ValidateData demo (lit "expr") (lit "(X(x") least 60 = Failed NameError.
Proof.
  split; [|split; [apply least_picks | split; vm_compute; reflexivity]].
  intros [|[|[|r]]] n b H; cbn in H; try (destruct r; discriminate H); injection H as <- <-; cbn; try exact I. discriminate.
Qed.

(** ** C234: rules that were added keep their meaning *)
Theorem C234_added log B b r : calls empty_base log B -> In (Added b r) log ->
  forall s, derive (rules B) r s <-> means (rules B) b s.
Proof. intros C I s. destruct (calls_added _ _ _ _ _ C I) as [nm N]. exact (derive_means _ _ _ _ s N). Qed.
Lemma place_last b : forall l, place b l = None -> place b (l ++ [(None, b)]) = Some (length l).
Proof.
  induction l as [|[n c] l IH]; cbn; intro H.
  - rewrite (proj2 (body_eqb_eq b b) eq_refl). reflexivity.
  - destruct (body_eqb b c); [discriminate H|]. destruct (place b l); [discriminate H|]. rewrite (IH eq_refl). reflexivity.
Qed.
Theorem C234_again b B B' r : AddRule b B = (B', r) -> AddRule b B' = (B', r).
Proof.
  unfold AddRule at 1. destruct (place b (rules B)) as [n|] eqn:P; intros [= <- <-]; unfold AddRule; [rewrite P; reflexivity|].
  cbn [rules]. rewrite (place_last _ _ P). reflexivity.
Qed.
Example C234_nonvacuous : calls empty_base demo_log demo /\ In (Added (Sequence [1; 0; 2]) 3) demo_log.
Proof. split; [apply demo_calls | cbn; auto]. Qed.

(** ** C235: a name means what it is defined to be *)
(** Missing: definitions that only consist of the name of a rule that is not defined yet. *)
Theorem C235_partial before B1 name r B2 after B :
  calls empty_base before B1 -> (exists b, In (Added b r) before) -> DefineRule name false r B1 = inl B2 -> calls B2 after B ->
  (forall n q, In (Defined n true q) after -> lowers n <> lowers name) ->
  forall s, (language B name s <-> derive (rules B) r s) /\
  forall n q, In (Declared n q) (before ++ after) -> lowers n = lowers name -> (derive (rules B) q s <-> derive (rules B) r s).
Proof.
  intros C1 (b & I) D C2 NI s.
  destruct (calls_added _ _ _ _ _ C1 I) as [nm N].
  assert (NU : b <> Undefined).
  { clear - C1 I. induction C1; [destruct I | | | |]; destruct I as [E|I]; try discriminate E; auto. injection E as -> ->. assumption. }
  assert (T : tracked (lowers name) before B1).
  { apply (tracked_calls _ _ _ _ C1 []). unfold tracked. cbn. intros n q []. }
  destruct (define_settles _ _ _ _ _ _ D T (ex_intro _ nm N) NU) as [t ST].
  pose proof (settled_calls _ _ _ NU _ _ _ C2 NI _ ST) as (L & (nm' & N') & DE).
  assert (NR : exists nm'', nth_error (rules B) r = Some (nm'', b)).
  { destruct (define_stays _ _ _ _ _ D _ _ _ N NU) as [nm2 N2]. exact (calls_stays _ _ _ C2 _ _ _ N2 NU). }
  destruct NR as [nm'' NR].
  assert (TR : derive (rules B) t s <-> derive (rules B) r s).
  { rewrite (derive_means _ _ _ _ s N'), (derive_means _ _ _ _ s NR). reflexivity. }
  split.
  - rewrite <- TR. split; [intros (t' & L' & DT); rewrite L in L'; injection L' as <-; exact DT | intro DT; exists t; auto].
  - intros n q IQ E. rewrite <- TR. apply leads_derive. apply (DE n q); [|exact E].
    apply in_app_iff in IQ. rewrite !in_app_iff. destruct IQ as [IQ|IQ]; auto.
Qed.
Theorem C235_refuted : exists log B1 B2 B,
  calls empty_base log B1 /\ In (Declared (lit "b") 0) log /\ DefineRule (lit "a") false 0 B1 = inl B2 /\
  calls B2 [Added (Literal (lit "x")) 2; Defined (lit "b") false 2] B /\
  derive (rules B) 0 (lit "x") /\ ~ language B (lit "a") (lit "x") /\
  forall m fuel choices, GenerateData B (lit "a") m (S fuel) choices = Raised RFC2234RuleError.
Proof.
  eexists [Declared (lit "b") 0], _, _, _. split; [eapply calls_declare; [vm_compute; reflexivity | apply calls_none]|]. split; [left; reflexivity|].
  split; [vm_compute; reflexivity|].
  split; [eapply calls_add; [discriminate | vm_compute; reflexivity|]; eapply calls_define; [vm_compute; reflexivity | apply calls_none]|].
  split; [|split].
  - eapply derive_alias; [reflexivity|]. eapply derive_literal; [reflexivity|]. constructor; [left; reflexivity | constructor].
  - intros (r & L & D). vm_compute in L. injection L as <-.
    inversion D as [? ? ? H|? ? ? ? H|? ? ? ? ? H|? ? ? ? H|? ? ? ? ? H|? ? ? ? ? ? ? H|? ? ? ? H]; discriminate H.
  - intros m fuel choices. reflexivity.
Qed.
Example C235_nonvacuous : exists B1 B2, calls empty_base (removelast demo_log) B1 /\ In (Added (Alternative [3; 5]) 6) (removelast demo_log) /\
  DefineRule (lit "Expr") false 6 B1 = inl B2 /\ In (Declared (lit "expr") 0) (removelast demo_log) /\ lowers (lit "expr") = lowers (lit "Expr").
Proof.
  eexists _, _. split.
  - unfold demo_log. cbn [removelast]. eapply calls_declare; [vm_compute; reflexivity|].
    do 6 (eapply calls_add; [discriminate | vm_compute; reflexivity|]). apply calls_none.
  - split; [cbn; tauto|]. split; [vm_compute; reflexivity|]. split; [left; reflexivity | reflexivity].
Qed.

(** ** C236: incremental alternatives *)
Lemma derive_grow R R' : (forall r nm b, nth_error R r = Some (nm, b) -> exists nm', nth_error R' r = Some (nm', b)) ->
  forall r s, derive R r s -> derive R' r s.
Proof.
  intro G. apply (derive_ind2 R (fun r s _ => derive R' r s) (fun l s _ => derives R' l s)); intros;
    try (match goal with H : nth_error R _ = Some _ |- _ => destruct (G _ _ _ H) as [nm' N'] end).
  - eapply derive_terminal; eassumption.
  - eapply derive_literal; eassumption.
  - eapply derive_range; eassumption.
  - eapply derive_sequence; eassumption.
  - eapply derive_alternative; eassumption.
  - eapply derive_repeat; eassumption.
  - eapply derive_alias; eassumption.
  - constructor.
  - constructor; assumption.
Qed.
Lemma derive_shrink B R' : closed B ->
  (forall r nm b, r < length (rules B) -> nth_error R' r = Some (nm, b) -> exists nm', nth_error (rules B) r = Some (nm', b)) ->
  forall r s, derive R' r s -> r < length (rules B) -> derive (rules B) r s.
Proof.
  intros [_ CL] G. set (R := rules B) in *.
  apply (derive_ind2 R' (fun r s _ => r < length R -> derive R r s) (fun l s _ => (forall q, In q l -> q < length R) -> derives R l s)).
  - intros r n s N L. destruct (G _ _ _ L N) as [nm' N']. eapply derive_terminal; eassumption.
  - intros r n s t N F L. destruct (G _ _ _ L N) as [nm' N']. eapply derive_literal; eassumption.
  - intros r n lo hi c N L1 L2 L. destruct (G _ _ _ L N) as [nm' N']. eapply derive_range; eassumption.
  - intros r n l s N D IH L. destruct (G _ _ _ L N) as [nm' N']. pose proof (CL _ _ _ N') as K. cbn in K. eapply derive_sequence; [exact N' | exact (IH K)].
  - intros r n l q s N I D IH L. destruct (G _ _ _ L N) as [nm' N']. pose proof (CL _ _ _ N') as K. cbn in K. eapply derive_alternative; [exact N' | exact I | exact (IH (K _ I))].
  - intros r n mn mx q k s N L1 L2 D IH L. destruct (G _ _ _ L N) as [nm' N']. pose proof (CL _ _ _ N') as K. cbn in K.
    eapply derive_repeat; [exact N' | exact L1 | exact L2|]. apply IH. intros q' I. apply repeat_spec in I. subst q'. exact K.
  - intros r n q s N D IH L. destruct (G _ _ _ L N) as [nm' N']. pose proof (CL _ _ _ N') as K. cbn in K. eapply derive_alias; [exact N' | exact (IH K)].
  - intros _. constructor.
  - intros q l s t D IH E IH2 H. constructor; [apply IH, H; left; reflexivity | apply IH2; intros q' I; apply H; right; exact I].
Qed.
Definition low_keys (B : rulebase) : Prop := forall k r, lookup k (ids B) = Some r -> lowers k = k.
Lemma lowers_lowers s : lowers (lowers s) = lowers s.
Proof. unfold lowers. rewrite map_map. apply map_ext. apply lower_lower. Qed.
Lemma low_store n r l : (forall k q, lookup k l = Some q -> lowers k = k) -> forall k q, lookup k (store (lowers n) r l) = Some q -> lowers k = k.
Proof.
  intros H k q L. destruct (str_dec k (lowers n)) as [->|NE]; [apply lowers_lowers|]. rewrite lookup_store_other in L by exact NE. exact (H _ _ L).
Qed.
Lemma calls_low B log B' : calls B log B' -> low_keys B -> low_keys B'.
Proof.
  induction 1 as [B|B b' r B' log1 B'' NU' A C IH|B n r B' log1 B'' D C IH|B n i r B' log1 B'' D C IH|B n i r e log1 B'' D C IH]; intro LK; [exact LK| | | |exact (IH LK)]; apply IH.
  - unfold AddRule in A. destruct (place b' (rules B)); injection A as <- _; exact LK.
  - unfold DeclareRule in D. destruct (lookup (lowers n) (ids B)); injection D as <- _; [exact LK|]. unfold low_keys. cbn [ids]. apply low_store. exact LK.
  - destruct (define_cases _ _ _ _ _ D) as (rname & rb & NR & [(-> & old & onm & ob & L0 & NO & NU0 & ->)|(-> & [(old & onm & L0 & NO & [(E & ->)|(E & ->)])|(L0 & [(E & ->)|(E & ->)])])]);
      unfold low_keys; cbn [ids]; apply low_store; exact LK.
Qed.
(** Missing: that it works for names that are not in lower case, and that rules that refer to the name already get the new alternative. *)
Theorem C236_partial log B name r B' : calls empty_base log B -> closed B -> DefineRule name true r B = inl B' -> forall s,
  (language B' name s <-> language B name s \/ derive (rules B) r s) /\
  forall other, lowers other <> lowers name -> (language B' other s <-> language B other s).
Proof.
  intros C CL D s. assert (LK : low_keys B) by (apply (calls_low _ _ _ C); intros k q H; discriminate H).
  destruct (define_cases _ _ _ _ _ D) as (rname & rb & NR & [(_ & old & onm & ob & L & NO & NU & ->)|(X & _)]); [|discriminate X].
  pose proof (LK _ _ L) as LN. rewrite LN in *.
  set (R' := set_nth old (None, ob) (rules B ++ [(Some name, Alternative [old; r])])).
  assert (OL : old < length (rules B)) by exact (nth_lt _ _ _ NO). assert (RL : r < length (rules B)) by exact (nth_lt _ _ _ NR).
  assert (NTH : forall q, nth_error R' q = if q =? old then Some (None, ob) else nth_error (rules B ++ [(Some name, Alternative [old; r])]) q).
  { intro q. unfold R'. apply nth_error_set_nth. rewrite app_length. cbn [length]. lia. }
  assert (EQ : forall q, q < length (rules B) -> (derive R' q s <-> derive (rules B) q s)).
  { intros q LQ. split.
    - intro DQ. apply (derive_shrink B R' CL); [|exact DQ | exact LQ]. intros r0 nm b L0 N. rewrite NTH in N. destruct (Nat.eqb_spec r0 old) as [->|NE].
      + injection N as _ <-. eauto.
      + rewrite nth_error_app1 in N by exact L0. eauto.
    - apply derive_grow. intros r0 nm b N. rewrite NTH. destruct (Nat.eqb_spec r0 old) as [->|NE].
      + rewrite NO in N. injection N as _ <-. eauto.
      + rewrite nth_error_app1 by exact (nth_lt _ _ _ N). eauto. }
  split.
  - unfold language. cbn [ids rules]. rewrite LN, lookup_store_same, L.
    assert (TOP : nth_error R' (length (rules B)) = Some (Some name, Alternative [old; r])).
    { rewrite NTH. destruct (Nat.eqb_spec (length (rules B)) old); [lia | apply nth_app_last]. }
    fold R'. split.
    + intros (q & [= <-] & DQ). rewrite (derive_means _ _ _ _ s TOP) in DQ. destruct DQ as (q & [<-|[<-|[]]] & DQ).
      * left. exists old. split; [reflexivity | apply EQ; assumption].
      * right. apply EQ; assumption.
    + intro H. exists (length (rules B)). split; [reflexivity|]. rewrite (derive_means _ _ _ _ s TOP). cbn.
      destruct H as [(q & [= <-] & DQ)|DQ]; [exists old | exists r]; (split; [auto|]); apply EQ; assumption.
  - intros other NE. unfold language. cbn [ids rules]. fold R'. rewrite lookup_store_other by exact NE. split; intros (q & LQ & DQ); exists q; (split; [exact LQ|]);
      apply EQ; try exact DQ; exact (proj1 CL _ _ LQ).
Qed.
Definition inc_log (name : str) : list call :=
  [Declared name 0; Added (Literal (lit "x")) 1; Defined name false 1; Added (Literal (lit "y")) 2].
Definition inc_base (name : str) : rulebase :=
  mkBase [(None, Alias 1); (Some name, Literal (lit "x")); (None, Literal (lit "y"))] [(lowers name, 1)].
Lemma inc_calls name : name = lit "A" \/ name = lit "a" -> calls empty_base (inc_log name) (inc_base name).
Proof.
  intros [->| ->]; (eapply calls_declare; [vm_compute; reflexivity|]; eapply calls_add; [discriminate | vm_compute; reflexivity|];
    eapply calls_define; [vm_compute; reflexivity|]; eapply calls_add; [discriminate | vm_compute; reflexivity|]; apply calls_none).
Qed.
Lemma inc_closed name : closed (inc_base name).
Proof.
  split.
  - intros n r H. unfold lookup, inc_base in H. cbn [ids find fst] in H. destruct (str_eqb (lowers name) n); [injection H as <-; cbn; lia | discriminate H].
  - intros [|[|[|r]]] n b H; cbn in H; try (destruct r; discriminate H); injection H as <- <-; cbn; try exact I. lia.
Qed.
Theorem C236_refuted :
  (exists B, calls empty_base (inc_log (lit "A")) B /\ language B (lit "A") (lit "x") /\ DefineRule (lit "A") true 2 B = inr KeyError) /\
  (exists B B', calls empty_base (inc_log (lit "a")) B /\ DefineRule (lit "a") true 2 B = inl B' /\
     language B' (lit "a") (lit "y") /\ ~ derive (rules B') 0 (lit "y")).
Proof.
  split.
  - exists (inc_base (lit "A")). split; [apply inc_calls; left; reflexivity|]. split; [|vm_compute; reflexivity].
    exists 1. split; [reflexivity|]. eapply derive_literal; [reflexivity|]. constructor; [left; reflexivity | constructor].
  - exists (inc_base (lit "a")). eexists. split; [apply inc_calls; right; reflexivity|]. split; [vm_compute; reflexivity|]. split.
    + exists 3. split; [reflexivity|]. eapply derive_alternative; [reflexivity | right; left; reflexivity|].
      eapply derive_literal; [reflexivity|]. constructor; [left; reflexivity | constructor].
    + intro D. rewrite (derive_means _ 0 None (Alias 1)) in D by reflexivity. cbn [means] in D.
      rewrite (derive_means _ 1 None (Literal (lit "x"))) in D by reflexivity. cbn [means] in D.
      inversion D as [|a b x y S _]; subst. destruct S as [S|[[S1 S]|[S1 S]]]; [discriminate S | lia | discriminate S].
Qed.
Example C236_nonvacuous : calls empty_base (inc_log (lit "a")) (inc_base (lit "a")) /\ closed (inc_base (lit "a")) /\
  exists B', DefineRule (lit "a") true 2 (inc_base (lit "a")) = inl B'.
Proof. split; [apply inc_calls; right; reflexivity|]. split; [apply inc_closed|]. eexists. vm_compute. reflexivity. Qed.

Print Assumptions C231_generated.
Print Assumptions C232_all.
Print Assumptions C233_partial.
Print Assumptions C233_rejected.
Print Assumptions C233_refuted.
Print Assumptions C234_added.
Print Assumptions C234_again.
Print Assumptions C235_partial.
Print Assumptions C235_refuted.
Print Assumptions C236_partial.
Print Assumptions C236_refuted.
