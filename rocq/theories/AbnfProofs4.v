(** Proofs about building rule bases. *)
From Coq Require Import List Arith Bool ZArith Lia.
From Verif Require Import Py Abnf AbnfSpec AbnfProofs AbnfProofs2.
Import ListNotations.
Open Scope nat_scope.

Lemma list_eqb_eq {A} (eqb : A -> A -> bool) (E : forall x y, eqb x y = true <-> x = y) : forall a b, list_eqb eqb a b = true <-> a = b.
Proof.
  induction a as [|x a IH]; intros [|y b]; cbn; try (split; [discriminate | discriminate]); [tauto|].
  rewrite andb_true_iff, E, IH. split; [intros [-> ->]; reflexivity | intros [= -> ->]; auto].
Qed.
Lemma opt_eqb_eq a b : opt_eqb a b = true <-> a = b.
Proof. destruct a, b; cbn; try rewrite Nat.eqb_eq; split; congruence. Qed.
Lemma body_eqb_eq a b : body_eqb a b = true <-> a = b.
Proof.
  destruct a, b; cbn; try (split; [discriminate | discriminate]); try tauto;
    rewrite ?andb_true_iff, ?Py.str_eqb_eq, ?Z.eqb_eq, ?(list_eqb_eq _ Nat.eqb_eq), ?Nat.eqb_eq, ?opt_eqb_eq; split; intro H;
    try (destruct H as [[-> ->] ->]; reflexivity); try (destruct H as [-> ->]; reflexivity); try congruence; injection H as; subst; auto.
Qed.
Lemma place_some b : forall l n, place b l = Some n -> exists nm, nth_error l n = Some (nm, b).
Proof.
  induction l as [|[nm c] l IH]; intros n H; [discriminate H|]. cbn in H. destruct (body_eqb b c) eqn:E.
  - injection H as <-. apply body_eqb_eq in E. subst. eexists; reflexivity.
  - destruct (place b l) as [m|]; [|discriminate H]. injection H as <-. apply IH. reflexivity.
Qed.
Lemma lookup_store_same n r l : lookup n (store n r l) = Some r.
Proof. unfold lookup, store. cbn. rewrite (proj2 (Py.str_eqb_eq n n) eq_refl). reflexivity. Qed.
Lemma lookup_store_other n m r l : n <> m -> lookup n (store m r l) = lookup n l.
Proof.
  intro NE. unfold lookup, store. cbn [find fst]. rewrite (proj2 (Py.str_eqb_neq m n)) by congruence.
  enough (F : find (fun p : str * nat => str_eqb (fst p) n) (filter (fun p : str * nat => negb (str_eqb (fst p) m)) l) = find (fun p : str * nat => str_eqb (fst p) n) l) by (rewrite F; reflexivity).
  induction l as [|[k x] l IH]; [reflexivity|]. cbn [filter find fst].
  destruct (str_eqb k m) eqn:E; cbn [negb].
  - apply Py.str_eqb_eq in E. subst k. rewrite (proj2 (Py.str_eqb_neq m n)) by congruence. exact IH.
  - cbn [find fst]. destruct (str_eqb k n); [reflexivity | exact IH].
Qed.
Lemma lower_lower c : lower (lower c) = lower c.
Proof.
  unfold lower. destruct ((65 <=? c) && (c <=? 90))%Z eqn:E; [|rewrite E; reflexivity].
  apply andb_true_iff in E. destruct (Z.leb_spec (c + 32) 90); [lia | rewrite andb_false_r; reflexivity].
Qed.

(** ** What the strings of a rule are follows from its body *)
Lemma derive_means R r nm b s : nth_error R r = Some (nm, b) -> (derive R r s <-> means R b s).
Proof.
  intro N. split.
  - intro D. destruct D as [r n t H|r n t u H F|r n lo hi c H L1 L2|r n l t H D|r n l q t H I D|r n mn mx q k t H L1 L2 D|r n q t H D];
      rewrite N in H; injection H as _ ->; cbn; eauto.
  - destruct b as [|t|t|lo hi|l|l|mn mx q|t|q]; cbn; intro M; try contradiction.
    + subst. eapply derive_terminal; exact N.
    + eapply derive_literal; eauto.
    + destruct M as (c & -> & L1 & L2). eapply derive_range; eauto.
    + eapply derive_sequence; eauto.
    + destruct M as (q & I & D). eapply derive_alternative; eauto.
    + destruct M as (k & L1 & L2 & D). eapply derive_repeat; eauto.
    + eapply derive_alias; eauto.
Qed.

(** ** Bodies stay *)
Definition stays (R R' : list (option str * body)) : Prop :=
  forall r nm b, nth_error R r = Some (nm, b) -> b <> Undefined -> exists nm', nth_error R' r = Some (nm', b).
Lemma stays_refl R : stays R R.
Proof. intros r nm b H _. eauto. Qed.
Lemma stays_trans R R' R'' : stays R R' -> stays R' R'' -> stays R R''.
Proof. intros A B r nm b H N. destruct (A _ _ _ H N) as [nm' H']. exact (B _ _ _ H' N). Qed.
Lemma stays_app R l : stays R (R ++ l).
Proof. intros r nm b H _. exists nm. rewrite nth_error_app1; [exact H|]. apply nth_error_Some. rewrite H. discriminate. Qed.
Lemma nth_lt {A} (l : list A) n x : nth_error l n = Some x -> n < length l.
Proof. intro H. apply nth_error_Some. rewrite H. discriminate. Qed.
Lemma stays_name R r nm nm' b : nth_error R r = Some (nm, b) -> stays R (set_nth r (nm', b) R).
Proof.
  intros H q n c Q _. rewrite nth_error_set_nth by exact (nth_lt _ _ _ H). destruct (Nat.eqb_spec q r) as [->|NE]; [|eauto].
  rewrite H in Q. injection Q as _ <-. eauto.
Qed.
Lemma stays_undefined R r nm x : nth_error R r = Some (nm, Undefined) -> stays R (set_nth r x R).
Proof.
  intros H q n c Q NU. rewrite nth_error_set_nth by exact (nth_lt _ _ _ H). destruct (Nat.eqb_spec q r) as [->|NE]; [|eauto].
  rewrite H in Q. injection Q as _ <-. congruence.
Qed.
Lemma add_stays b B B' r : AddRule b B = (B', r) -> stays (rules B) (rules B').
Proof. unfold AddRule. destruct (place b (rules B)); intros [= <- <-]; [apply stays_refl | apply stays_app]. Qed.
Lemma add_body b B B' r : AddRule b B = (B', r) -> exists nm, nth_error (rules B') r = Some (nm, b).
Proof.
  unfold AddRule. destruct (place b (rules B)) as [n|] eqn:P; intros [= <- <-]; [exact (place_some _ _ _ P)|].
  exists None. cbn. rewrite nth_error_app2, Nat.sub_diag by lia. reflexivity.
Qed.
Lemma declare_stays n B B' r : DeclareRule n B = (B', r) -> stays (rules B) (rules B').
Proof. unfold DeclareRule. destruct (lookup _ _); intros [= <- <-]; [apply stays_refl | apply stays_app]. Qed.
(** the cases of DefineRule that succeed *)
Lemma define_cases n i r B B' : DefineRule n i r B = inl B' ->
  exists rname rb, nth_error (rules B) r = Some (rname, rb) /\
  ((i = true /\ exists old onm ob, lookup n (ids B) = Some old /\ nth_error (rules B) old = Some (onm, ob) /\ ob <> Undefined /\
      B' = mkBase (set_nth old (None, ob) (rules B ++ [(Some n, Alternative [old; r])])) (store (lowers n) (length (rules B)) (ids B))) \/
   (i = false /\
     ((exists old onm, lookup (lowers n) (ids B) = Some old /\ nth_error (rules B) old = Some (onm, Undefined) /\
        ((named rname = true /\ B' = mkBase (set_nth old (Some n, rb) (rules B)) (store (lowers n) old (ids B))) \/
         (named rname = false /\ B' = mkBase (set_nth old (None, Alias r) (set_nth r (Some n, rb) (rules B))) (store (lowers n) r (ids B))))) \/
      (lookup (lowers n) (ids B) = None /\
        ((named rname = true /\ B' = mkBase (rules B ++ [(Some n, rb)]) (store (lowers n) (length (rules B)) (ids B))) \/
         (named rname = false /\ B' = mkBase (set_nth r (Some n, rb) (rules B)) (store (lowers n) r (ids B)))))))).
Proof.
  unfold DefineRule. intro H. destruct (nth_error (rules B) r) as [[rname rb]|] eqn:NR; [|discriminate H]. exists rname, rb. split; [reflexivity|].
  destruct i.
  - left. split; [reflexivity|]. destruct (lookup (lowers n) (ids B)); [|discriminate H]. destruct (lookup n (ids B)) as [old|]; [|discriminate H].
    destruct (nth_error (rules B) old) as [[onm ob]|] eqn:NO; [|discriminate H]. exists old, onm, ob. split; [reflexivity|]. split; [exact NO|].
    destruct ob; try discriminate H; injection H as <-; (split; [discriminate | reflexivity]).
  - right. split; [reflexivity|]. destruct (lookup (lowers n) (ids B)) as [old|].
    + left. destruct (nth_error (rules B) old) as [[onm ob]|] eqn:NO; [|discriminate H]. exists old, onm. split; [reflexivity|].
      destruct ob; try discriminate H. split; [exact NO|]. destruct (named rname); injection H as <-; [left | right]; auto.
    + right. split; [reflexivity|]. destruct (named rname); injection H as <-; [left | right]; auto.
Qed.
Lemma define_stays n i r B B' : DefineRule n i r B = inl B' -> stays (rules B) (rules B').
Proof.
  intro H. destruct (define_cases _ _ _ _ _ H) as (rname & rb & NR & [(-> & old & onm & ob & L & NO & NU & ->)|(-> & [(old & onm & L & NO & [(E & ->)|(E & ->)])|(L & [(E & ->)|(E & ->)])])]); cbn [rules].
  - eapply stays_trans; [apply stays_app|]. eapply stays_name. rewrite nth_error_app1 by exact (nth_lt _ _ _ NO). exact NO.
  - eapply stays_undefined; exact NO.
  - intros q nm b Q NU.
    assert (LO : old < length (set_nth r (Some n, rb) (rules B))) by (rewrite set_nth_length; exact (nth_lt _ _ _ NO) || exact (nth_lt _ _ _ NR)).
    rewrite nth_error_set_nth by exact LO. destruct (Nat.eqb_spec q old) as [->|NE]; [rewrite NO in Q; congruence|].
    exact (stays_name _ _ _ (Some n) _ NR q nm b Q NU).
  - apply stays_app.
  - eapply stays_name; exact NR.
Qed.
Lemma calls_stays B log B' : calls B log B' -> stays (rules B) (rules B').
Proof.
  induction 1; [apply stays_refl | | | |assumption]; (eapply stays_trans; [|eassumption]);
    [eapply add_stays | eapply declare_stays | eapply define_stays]; eassumption.
Qed.
Lemma calls_added B log B' b r : calls B log B' -> In (Added b r) log -> exists nm, nth_error (rules B') r = Some (nm, b).
Proof.
  induction 1; intro I; [destruct I| | | |]; destruct I as [E|I]; try discriminate E; auto.
  injection E as -> ->. destruct (add_body _ _ _ _ H0) as [nm N]. eapply calls_stays; eassumption.
Qed.
Lemma calls_app B log B' log' B'' : calls B log B' -> calls B' log' B'' -> calls B (log ++ log') B''.
Proof. induction 1; intro C; cbn; [exact C | econstructor; eauto ..]. Qed.

(** ** Names *)
Inductive leads (R : list (option str * body)) : nat -> nat -> Prop :=
| leads_here q : leads R q q
| leads_alias q nm q' t : nth_error R q = Some (nm, Alias q') -> leads R q' t -> leads R q t.
Lemma leads_stays R R' q t : stays R R' -> leads R q t -> leads R' q t.
Proof. intros S L. induction L as [q|q nm q' t N L IH]; [constructor|]. destruct (S _ _ _ N ltac:(discriminate)) as [nm' N']. econstructor; eassumption. Qed.
Lemma leads_trans R q t u : leads R q t -> leads R t u -> leads R q u.
Proof. intros L M. induction L; [exact M | econstructor; eauto]. Qed.
Lemma leads_derive R q t s : leads R q t -> derive R q s <-> derive R t s.
Proof. intro L. induction L as [q|q nm q' t N L IH]; [reflexivity|]. rewrite (derive_means _ _ _ _ s N). exact IH. Qed.
Definition has_body (R : list (option str * body)) (t : nat) : Prop := exists nm b, nth_error R t = Some (nm, b) /\ b <> Undefined.
(** as long as a name has no body, everything declared for it leads to its rule *)
Definition tracked (k : str) (log : list call) (B : rulebase) : Prop :=
  match lookup k (ids B) with
  | None => forall n q, In (Declared n q) log -> lowers n <> k
  | Some t => has_body (rules B) t \/ forall n q, In (Declared n q) log -> lowers n = k -> leads (rules B) q t
  end.
Lemma has_stays R R' t : stays R R' -> has_body R t -> has_body R' t.
Proof. intros S (nm & b & N & NU). destruct (S _ _ _ N NU) as [nm' N']. exists nm', b. auto. Qed.
(** a step that keeps the rule of the name *)
Lemma tracked_keep k log c B B' : stays (rules B) (rules B') -> lookup k (ids B') = lookup k (ids B) ->
  (forall n q, c <> Declared n q) -> tracked k log B -> tracked k (log ++ [c]) B'.
Proof.
  intros S E NC T. unfold tracked in *. rewrite E. destruct (lookup k (ids B)) as [t|].
  - destruct T as [H|H]; [left; eapply has_stays; eassumption|]. right. intros n q I EN. apply in_app_iff in I. destruct I as [I|[I|[]]]; [|destruct (NC _ _ I)].
    eapply leads_stays; [exact S|]. eapply H; eassumption.
  - intros n q I. apply in_app_iff in I. destruct I as [I|[I|[]]]; [eapply T; exact I | destruct (NC _ _ I)].
Qed.
Lemma nth_app_last {A} (l : list A) x : nth_error (l ++ [x]) (length l) = Some x.
Proof. rewrite nth_error_app2, Nat.sub_diag by lia. reflexivity. Qed.
Lemma str_dec (a b : str) : {a = b} + {a <> b}.
Proof. destruct (str_eqb a b) eqn:E; [left; apply Py.str_eqb_eq; exact E | right; intro H; apply Py.str_eqb_eq in H; congruence]. Qed.
Lemma tracked_declare k log n r B B' : DeclareRule n B = (B', r) -> tracked k log B -> tracked k (log ++ [Declared n r]) B'.
Proof.
  intros D T. pose proof (declare_stays _ _ _ _ D) as S. unfold DeclareRule in D.
  destruct (lookup (lowers n) (ids B)) as [t|] eqn:L; injection D as <- <-.
  - unfold tracked in *. destruct (lookup k (ids B)) as [u|] eqn:LK.
    + destruct T as [H|H]; [left; exact H|]. right. intros m q I EM. apply in_app_iff in I. destruct I as [I|[I|[]]]; [eapply H; eassumption|].
      injection I as <- <-. subst k. rewrite L in LK. injection LK as <-. constructor.
    + intros m q I. apply in_app_iff in I. destruct I as [I|[I|[]]]; [eapply T; exact I|]. injection I as <- <-. intro E. subst k. congruence.
  - unfold tracked in *. cbn [ids rules] in *. destruct (str_dec k (lowers n)) as [->|NE].
    + rewrite lookup_store_same. right. rewrite L in T. intros m q I EM. apply in_app_iff in I. destruct I as [I|[I|[]]]; [destruct (T _ _ I EM)|].
      injection I as <- <-. constructor.
    + rewrite lookup_store_other by exact NE. destruct (lookup k (ids B)) as [u|].
      * destruct T as [H|H]; [left; eapply has_stays; eassumption|]. right. intros m q I EM. apply in_app_iff in I. destruct I as [I|[I|[]]]; [eapply leads_stays; [exact S | eapply H; eassumption]|].
        injection I as <- <-. congruence.
      * intros m q I. apply in_app_iff in I. destruct I as [I|[I|[]]]; [eapply T; exact I|]. injection I as <- <-. congruence.
Qed.
Lemma tracked_define k log n i r B B' : DefineRule n i r B = inl B' -> tracked k log B -> tracked k (log ++ [Defined n i r]) B'.
Proof.
  intros D T. pose proof (define_stays _ _ _ _ _ D) as S.
  destruct (str_dec k (lowers n)) as [->|NE].
  2:{ apply (tracked_keep _ _ _ _ _ S); [|discriminate | exact T].
      destruct (define_cases _ _ _ _ _ D) as (rname & rb & NR & [(-> & old & onm & ob & L & NO & NU & ->)|(-> & [(old & onm & L & NO & [(E & ->)|(E & ->)])|(L & [(E & ->)|(E & ->)])])]); cbn [ids]; apply lookup_store_other; exact NE. }
  unfold tracked in *.
  assert (SPLIT : forall m q, In (Declared m q) (log ++ [Defined n i r]) -> In (Declared m q) log).
  { intros m q I. apply in_app_iff in I. destruct I as [I|[I|[]]]; [exact I | discriminate I]. }
  destruct (define_cases _ _ _ _ _ D) as (rname & rb & NR & [(-> & old & onm & ob & L & NO & NU & ->)|(-> & [(old & onm & L & NO & [(E & ->)|(E & ->)])|(L & [(E & ->)|(E & ->)])])]); cbn [ids rules] in *; rewrite lookup_store_same.
  - left. exists (Some n), (Alternative [old; r]). split; [|discriminate].
    assert (OL : old < length (rules B)) by exact (nth_lt _ _ _ NO).
    rewrite nth_error_set_nth by (rewrite app_length; lia). destruct (Nat.eqb_spec (length (rules B)) old); [lia | apply nth_app_last].
  - rewrite L in T. right. destruct T as [(nm & b & N & NU)|T]; [rewrite NO in N; congruence|]. intros m q I EM.
    eapply leads_stays; [exact S|]. eapply T; [apply SPLIT; exact I | exact EM].
  - rewrite L in T. right. destruct T as [(nm & b & N & NU)|T]; [rewrite NO in N; congruence|]. intros m q I EM.
    eapply leads_trans; [eapply leads_stays; [exact S|]; eapply T; [apply SPLIT; exact I | exact EM]|].
    econstructor; [|constructor]. rewrite nth_error_set_nth by (rewrite set_nth_length; [exact (nth_lt _ _ _ NO) | exact (nth_lt _ _ _ NR)]). rewrite Nat.eqb_refl. reflexivity.
  - rewrite L in T. right. intros m q I EM. destruct (T _ _ (SPLIT _ _ I) EM).
  - rewrite L in T. right. intros m q I EM. destruct (T _ _ (SPLIT _ _ I) EM).
Qed.
Lemma tracked_calls k B log' B' : calls B log' B' -> forall log, tracked k log B -> tracked k (log ++ log') B'.
Proof.
  induction 1 as [B|B b r B' log1 B'' NU A C IH|B n r B' log1 B'' D C IH|B n i r B' log1 B'' D C IH|B n i r e log1 B'' D C IH]; intros log T.
  - rewrite app_nil_r. exact T.
  - replace (log ++ Added b r :: log1) with ((log ++ [Added b r]) ++ log1) by (rewrite <- app_assoc; reflexivity). apply IH.
    apply (tracked_keep _ _ _ B); [eapply add_stays; exact A | | discriminate | exact T].
    unfold AddRule in A. destruct (place b (rules B)); injection A as <- _; reflexivity.
  - replace (log ++ Declared n r :: log1) with ((log ++ [Declared n r]) ++ log1) by (rewrite <- app_assoc; reflexivity). apply IH. eapply tracked_declare; eassumption.
  - replace (log ++ Defined n i r :: log1) with ((log ++ [Defined n i r]) ++ log1) by (rewrite <- app_assoc; reflexivity). apply IH. eapply tracked_define; eassumption.
  - replace (log ++ Refused n i r :: log1) with ((log ++ [Refused n i r]) ++ log1) by (rewrite <- app_assoc; reflexivity). apply IH.
    apply (tracked_keep _ _ _ B); [apply stays_refl | reflexivity | discriminate | exact T].
Qed.

(** after the definition *)
Definition settled (k : str) (log : list call) (t : nat) (b : body) (B : rulebase) : Prop :=
  lookup k (ids B) = Some t /\ (exists nm, nth_error (rules B) t = Some (nm, b)) /\
  forall n q, In (Declared n q) log -> lowers n = k -> leads (rules B) q t.
Lemma settled_step k log c t b B B' : b <> Undefined -> settled k log t b B -> stays (rules B) (rules B') ->
  lookup k (ids B') = Some t -> (forall n q, c = Declared n q -> lowers n = k -> q = t) -> settled k (log ++ [c]) t b B'.
Proof.
  intros NU (L & (nm & N) & D) S L' C. split; [exact L'|]. split; [eapply S; eassumption|].
  intros n q I E. apply in_app_iff in I. destruct I as [I|[I|[]]]; [eapply leads_stays; [exact S | eapply D; eassumption]|].
  rewrite (C _ _ I E). constructor.
Qed.
Lemma settled_calls k t b (NU : b <> Undefined) B log' B' : calls B log' B' ->
  (forall n r, In (Defined n true r) log' -> lowers n <> k) ->
  forall log, settled k log t b B -> settled k (log ++ log') t b B'.
Proof.
  induction 1 as [B|B b' r B' log1 B'' NU' A C IH|B n r B' log1 B'' D C IH|B n i r B' log1 B'' D C IH|B n i r e log1 B'' D C IH]; intros NI log T.
  - rewrite app_nil_r. exact T.
  - replace (log ++ Added b' r :: log1) with ((log ++ [Added b' r]) ++ log1) by (rewrite <- app_assoc; reflexivity).
    apply IH; [intros; apply (NI _ r0); right; assumption|].
    apply (settled_step _ _ _ _ _ B _ NU T); [eapply add_stays; exact A | | discriminate].
    destruct T as [L _]. unfold AddRule in A. destruct (place b' (rules B)); injection A as <- _; exact L.
  - replace (log ++ Declared n r :: log1) with ((log ++ [Declared n r]) ++ log1) by (rewrite <- app_assoc; reflexivity).
    apply IH; [intros; apply (NI _ r0); right; assumption|].
    pose proof (declare_stays _ _ _ _ D) as S. pose proof T as (L & _). unfold DeclareRule in D.
    destruct (lookup (lowers n) (ids B)) as [u|] eqn:LN; injection D as <- <-.
    + apply (settled_step _ _ _ _ _ B _ NU T S L). intros m q [= <- <-] E. rewrite E in LN. congruence.
    + assert (NK : lowers n <> k) by (intro E; rewrite E in LN; congruence).
      apply (settled_step _ _ _ _ _ B _ NU T S); [cbn [ids]; rewrite lookup_store_other by congruence; exact L|].
      intros m q [= <- <-] E. congruence.
  - replace (log ++ Defined n i r :: log1) with ((log ++ [Defined n i r]) ++ log1) by (rewrite <- app_assoc; reflexivity).
    apply IH; [intros; apply (NI _ r0); right; assumption|].
    pose proof (define_stays _ _ _ _ _ D) as S. pose proof T as (L & (nm & N) & _).
    assert (NK : lowers n <> k).
    { intro E. destruct i; [exact (NI n r (or_introl eq_refl) E)|].
      destruct (define_cases _ _ _ _ _ D) as (rname & rb & NR & [(X & _)|(_ & [(old & onm & LO & NO & _)|(LO & _)])]); [discriminate X | | ]; rewrite E in LO; [|congruence].
      rewrite L in LO. injection LO as <-. rewrite N in NO. congruence. }
    apply (settled_step _ _ _ _ _ B _ NU T S); [|discriminate].
    destruct (define_cases _ _ _ _ _ D) as (rname & rb & NR & [(-> & old & onm & ob & L0 & NO & NU0 & ->)|(-> & [(old & onm & L0 & NO & [(E & ->)|(E & ->)])|(L0 & [(E & ->)|(E & ->)])])]); cbn [ids]; rewrite lookup_store_other by congruence; exact L.
  - replace (log ++ Refused n i r :: log1) with ((log ++ [Refused n i r]) ++ log1) by (rewrite <- app_assoc; reflexivity).
    apply IH; [intros; apply (NI _ r0); right; assumption|].
    destruct T as (L & N & T). apply (settled_step _ _ _ _ _ B _ NU (conj L (conj N T))); [apply stays_refl | exact L | discriminate].
Qed.
Lemma define_settles log n r B B' b : DefineRule n false r B = inl B' -> tracked (lowers n) log B ->
  (exists nm, nth_error (rules B) r = Some (nm, b)) -> b <> Undefined -> exists t, settled (lowers n) (log ++ [Defined n false r]) t b B'.
Proof.
  intros D T (nm & N) NU. pose proof (tracked_define _ _ _ _ _ _ _ D T) as T'.
  pose proof (define_stays _ _ _ _ _ D) as S.
  assert (SPLIT : forall m q, In (Declared m q) (log ++ [Defined n false r]) -> In (Declared m q) log).
  { intros m q I. apply in_app_iff in I. destruct I as [I|[I|[]]]; [exact I | discriminate I]. }
  unfold tracked in T.
  destruct (define_cases _ _ _ _ _ D) as (rname & rb & NR & [(X & _)|(_ & [(old & onm & L & NO & [(E & ->)|(E & ->)])|(L & [(E & ->)|(E & ->)])])]); [discriminate X| | | |];
    rewrite N in NR; injection NR as <- <-; rewrite L in T; cbn [ids rules] in *.
  - exists old. split; [apply lookup_store_same|]. cbn [ids rules]. split; [exists (Some n); rewrite nth_error_set_nth, Nat.eqb_refl by exact (nth_lt _ _ _ NO); reflexivity|].
    destruct T as [(nm' & b' & N' & NU')|T]; [congruence|]. intros m q I EM. eapply leads_stays; [exact S|]. eapply T; [apply SPLIT; exact I | exact EM].
  - exists r. split; [apply lookup_store_same|]. cbn [ids rules]. split; [eapply S; eassumption|].
    destruct T as [(nm' & b' & N' & NU')|T]; [congruence|]. intros m q I EM.
    eapply leads_trans; [eapply leads_stays; [exact S|]; eapply T; [apply SPLIT; exact I | exact EM]|].
    econstructor; [|constructor]. rewrite nth_error_set_nth by (rewrite set_nth_length; [exact (nth_lt _ _ _ NO) | exact (nth_lt _ _ _ N)]). rewrite Nat.eqb_refl. reflexivity.
  - exists (length (rules B)). split; [apply lookup_store_same|]. cbn [ids rules]. split; [exists (Some n); apply nth_app_last|].
    intros m q I EM. destruct (T _ _ (SPLIT _ _ I) EM).
  - exists r. split; [apply lookup_store_same|]. cbn [ids rules]. split; [eapply S; eassumption|].
    intros m q I EM. destruct (T _ _ (SPLIT _ _ I) EM).
Qed.
