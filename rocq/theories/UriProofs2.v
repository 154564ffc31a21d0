(** Proofs about URI parsing, composition, Resolve and Relative. *)
From Verif Require Import Py Uri UriSpec UriProofs.
Ltac Zify.zify_convert_to_euclidean_division_equations_flag ::= constr:(true).

(** ** Strings of URI characters *)
Inductive uok : str -> Prop :=
| uok_nil : uok []
| uok_pct h l s : IsHex h = true -> IsHex l = true -> uok s -> uok (37 :: h :: l :: s)
| uok_chr c s : IsReserved c || IsUnreserved c = true -> uok s -> uok (c :: s).

Lemma uok_app a b : uok a -> uok b -> uok (a ++ b).
Proof. induction 1; intros Hb; cbn; [exact Hb| |]; constructor; auto. Qed.

Definition delim (c : Z) : Prop := c = 47 \/ c = 63 \/ c = 58.

Lemma uok_delim c s : delim c -> uok s -> uok (c :: s).
Proof. intros [->|[->| ->]] H; apply uok_chr; auto. Qed.

Lemma delim_not_hex c : delim c -> IsHex c = false.
Proof. intros [->|[->| ->]]; reflexivity. Qed.

Lemma uok_split a c b : delim c -> uok (a ++ c :: b) -> uok a /\ uok b.
Proof.
  intros Hc H. remember (a ++ c :: b) as s eqn:Es. revert a Es.
  induction H as [|h l s Hh Hl Hs IH|x s Hx Hs IH]; intros a Es.
  - destruct a; discriminate.
  - apply delim_not_hex in Hc as Hd.
    destruct a as [|a1 [|a2 [|a3 a]]]; cbn in Es; injection Es.
    + intros _ <-. destruct Hc as [?|[?|?]]; discriminate.
    + intros _ <- <-. congruence.
    + intros _ <- <- <-. congruence.
    + intros -> <- <- <-. destruct (IH a eq_refl) as [H1 H2]. split; [|exact H2].
      constructor; assumption.
  - destruct a as [|a1 a]; cbn in Es; injection Es.
    + intros -> <-. split; [constructor|exact Hs].
    + intros -> <-. destruct (IH a eq_refl) as [H1 H2]. split; [|exact H2].
      apply uok_chr; assumption.
Qed.

Lemma not37 c : IsReserved c || IsUnreserved c = true -> c =? 37 = false.
Proof. uchr; lia. Qed.

Lemma parse_uric_app a b : uok a -> forall n,
  parse_uric_loop UNone (a ++ b) n = parse_uric_loop UNone b (n + length a).
Proof.
  induction 1 as [|h l s Hh Hl Hs IH|x s Hx Hs IH]; intros n; cbn [app length].
  - rewrite Nat.add_0_r. reflexivity.
  - cbn [parse_uric_loop]. change (IsReserved 37 || IsUnreserved 37) with false.
    change (37 =? 37) with true. cbn iota. rewrite Hh, Hl, IH. f_equal. lia.
  - cbn [parse_uric_loop]. rewrite Hx, IH. f_equal. lia.
Qed.

Lemma parse_uric_prefix : forall m s, (length s <= m)%nat -> forall n,
  exists a b, s = a ++ b /\ uok a /\ parse_uric_loop UNone s n = (n + length a)%nat.
Proof.
  induction m as [|m IH]; intros s Hm n.
  - destruct s; [|cbn in Hm; lia]. exists [], []. repeat split; [constructor|cbn; lia].
  - destruct s as [|c s]. { exists [], []. repeat split; [constructor|cbn; lia]. }
    cbn [parse_uric_loop]. cbn in Hm.
    destruct (IsReserved c || IsUnreserved c) eqn:E1.
    { destruct (IH s ltac:(lia) (n + 1)%nat) as (a & b & -> & Ha & Hp).
      exists (c :: a), b. split; [reflexivity|]. split; [apply uok_chr; assumption|].
      rewrite Hp. cbn. lia. }
    destruct (c =? 37) eqn:E2.
    2: { exists [], (c :: s). repeat split; [constructor|cbn; lia]. }
    apply Z.eqb_eq in E2. subst c.
    destruct s as [|h s]. { exists [], [37]. repeat split; [constructor|cbn; lia]. }
    cbn [parse_uric_loop]. destruct (IsHex h) eqn:Eh.
    2: { exists [], (37 :: h :: s). repeat split; [constructor|cbn; lia]. }
    destruct s as [|l s]. { exists [], [37; h]. repeat split; [constructor|cbn; lia]. }
    cbn [parse_uric_loop]. destruct (IsHex l) eqn:El.
    2: { exists [], (37 :: h :: l :: s). repeat split; [constructor|cbn; lia]. }
    cbn in Hm. destruct (IH s ltac:(lia) (n + 3)%nat) as (a & b & -> & Ha & Hp).
    exists (37 :: h :: l :: a), b. split; [reflexivity|].
    split; [apply uok_pct; assumption|]. rewrite Hp. cbn. lia.
Qed.

(** ** Parsing *)
Definition parse_oct (a : str) (f : option str) : uri :=
  match ParseScheme a with
  | Some sch =>
      let ssp := skipn (length sch + 1) a in
      let k := ParseSchemeSpecificPart ssp in
      mkURI a f (Some sch) (Some ssp) (c_opaque k) (c_auth k) (c_abs k) (c_rel k) (c_query k)
  | None =>
      let k := ParseRelativeURI a in
      mkURI a f None None (c_opaque k) (c_auth k) (c_abs k) (c_rel k) (c_query k)
  end.

Definition frag_text (f : option str) : str := opt_app [35] f.

Lemma skipn_length_app {A} (a b : list A) : skipn (length a) (a ++ b) = b.
Proof. induction a; [reflexivity|assumption]. Qed.
Lemma firstn_length_app {A} (a b : list A) : firstn (length a) (a ++ b) = a.
Proof. induction a; [reflexivity|cbn; congruence]. Qed.

Lemma parse_uric_hash f n : parse_uric_loop UNone (frag_text f) n = n.
Proof. destruct f as [f|]; reflexivity. Qed.

Lemma URI_intro a f : uok a -> URI (a ++ frag_text f) = Ok (parse_oct a f).
Proof.
  intros Ha. unfold URI, ParseURIC, parse_oct. rewrite parse_uric_app by exact Ha.
  rewrite parse_uric_hash. cbn [Nat.add]. rewrite skipn_length_app, firstn_length_app.
  destruct f as [f|]; cbn [frag_text opt_app app bind].
  - change (35 =? 35) with true. cbn [bind]. destruct (ParseScheme a); reflexivity.
  - destruct (ParseScheme a); reflexivity.
Qed.

Lemma URI_elim s u : URI s = Ok u ->
  exists a f, s = a ++ frag_text f /\ uok a /\ u = parse_oct a f.
Proof.
  unfold URI, ParseURIC, parse_oct.
  destruct (parse_uric_prefix (length s) s ltac:(lia) 0) as (a & b & Es & Ha & Hp).
  rewrite Hp. cbn [Nat.add]. subst s. rewrite skipn_length_app, firstn_length_app.
  destruct b as [|c b]; cbn [bind].
  - intros H. exists a, None. split; [reflexivity|]. split; [exact Ha|].
    destruct (ParseScheme a); injection H as <-; reflexivity.
  - destruct (c =? 35) eqn:Ec; cbn [bind]; [|discriminate]. apply Z.eqb_eq in Ec. subst c.
    intros H. exists a, (Some b). split; [reflexivity|]. split; [exact Ha|].
    destruct (ParseScheme a); injection H as <-; reflexivity.
Qed.

(** *** Schemes *)
Lemma parse_scheme_elim s : forall pre r, parse_scheme_loop pre s = Some r ->
  exists a t, s = a ++ 58 :: t /\ r = rev pre ++ a /\
    forall t', parse_scheme_loop pre (a ++ 58 :: t') = Some r.
Proof.
  induction s as [|c s IH]; intros pre r; cbn [parse_scheme_loop]; [discriminate|].
  destruct (_ || IsAlpha c) eqn:E1.
  - intros H. destruct (IH _ _ H) as (a & t & -> & -> & Ht).
    exists (c :: a), t. split; [reflexivity|]. split; [cbn [rev]; rewrite <- app_assoc; reflexivity|].
    intros t'. cbn [app parse_scheme_loop]. rewrite E1. apply Ht.
  - destruct (c =? 58) eqn:E2; [|discriminate]. apply Z.eqb_eq in E2. subst c.
    injection 1 as <-. exists [], s. split; [reflexivity|]. split; [rewrite app_nil_r; reflexivity|].
    intros t'. cbn [app parse_scheme_loop]. rewrite E1. reflexivity.
Qed.

Lemma ParseScheme_elim s r : ParseScheme s = Some r ->
  exists t, s = r ++ 58 :: t /\ forall t', ParseScheme (r ++ 58 :: t') = Some r.
Proof.
  intros H. apply parse_scheme_elim in H as (a & t & -> & -> & Ht). exists t. auto.
Qed.

Lemma parse_scheme_none a t : forall pre, ~ In 58 a ->
  (t = [] \/ exists c t', t = c :: t' /\ (c = 47 \/ c = 63)) ->
  parse_scheme_loop pre (a ++ t) = None.
Proof.
  induction a as [|c a IH]; intros pre Ha Ht; cbn [app parse_scheme_loop].
  - destruct Ht as [->|(c & t' & -> & [-> | ->])]; [reflexivity| |]; destruct pre; reflexivity.
  - destruct (_ || IsAlpha c); [apply IH; [|exact Ht]; intros H; apply Ha; right; exact H|].
    replace (c =? 58) with false; [reflexivity|]. symmetry. apply Z.eqb_neq. intros ->.
    apply Ha. left; reflexivity.
Qed.

(** *** Components *)
Definition rc (k : comps) : str :=
  opt_app [] (c_opaque k) ++ opt_app [47; 47] (c_auth k) ++ opt_app [] (c_abs k) ++
  opt_app [] (c_rel k) ++ opt_app [63] (c_query k).

(** What the component parsers guarantee. *)
Definition no (c : Z) (s : str) : Prop := ~ In c s.
Record comps_ok (k : comps) : Prop := {
  ok_auth : forall a, c_auth k = Some a -> no 47 a /\ no 63 a;
  ok_abs : forall p, c_abs k = Some p -> (exists p', p = 47 :: p') /\ no 63 p;
  ok_rel : forall p, c_rel k = Some p -> no 63 p /\ forall p', p <> 47 :: p'
}.

Lemma path_loop_query s : forall acc k,
  path_loop (PQuery acc) s k =
    mkComps (c_opaque k) (c_auth k) (c_abs k) (c_rel k) (Some (rev acc ++ s)).
Proof.
  induction s as [|c s IH]; intros acc k; cbn [path_loop].
  - rewrite app_nil_r. reflexivity.
  - rewrite IH. cbn [rev]. rewrite <- app_assoc. reflexivity.
Qed.

(** The text [s] cut at the first '?'. *)
Definition cut (s p : str) (q : option str) : Prop := s = p ++ opt_app [63] q /\ no 63 p.

Lemma cut_cons c s p q : c <> 63 -> cut s p q -> cut (c :: s) (c :: p) q.
Proof. intros Hc [-> H]. split; [reflexivity|]. intros [->|Hi]; [congruence|exact (H Hi)]. Qed.

Lemma cut_exists s : exists p q, cut s p q.
Proof.
  induction s as [|c s (p & q & H)].
  - exists [], None. split; [reflexivity|intros []].
  - destruct (Z.eq_dec c 63) as [->|Hc].
    + exists [], (Some s). split; [reflexivity|intros []].
    + exists (c :: p), q. apply cut_cons; assumption.
Qed.

Lemma cut_tail c s p q : c <> 63 -> cut (c :: s) p q -> exists p', p = c :: p' /\ cut s p' q.
Proof.
  intros Hc [He Hn]. destruct p as [|x p].
  - destruct q; cbn in He; [injection He as -> _; congruence|discriminate].
  - injection He as <- He. exists p. split; [reflexivity|]. split; [exact He|].
    intros Hi. apply Hn. right; exact Hi.
Qed.

Definition or_else {A} (o : option A) (k : option A) : option A :=
  match o with Some x => Some x | None => k end.

Lemma path_loop_path s : forall acc k p q, cut s p q ->
  path_loop (PPath acc) s k =
    mkComps (c_opaque k) (c_auth k) (Some (rev acc ++ p)) (c_rel k) (or_else q (c_query k)).
Proof.
  induction s as [|c s IH]; intros acc k p q H; cbn [path_loop].
  - destruct H as [He _]. destruct p; [|discriminate]. destruct q; [discriminate|].
    rewrite app_nil_r. reflexivity.
  - destruct (c =? 63) eqn:Ec.
    + apply Z.eqb_eq in Ec. subst c. destruct H as [He Hn]. destruct p as [|x p].
      * destruct q as [q|]; [|discriminate]. injection He as ->.
        rewrite path_loop_query, app_nil_r. reflexivity.
      * injection He as <- _. exfalso. apply Hn. left; reflexivity.
    + apply Z.eqb_neq in Ec. destruct (cut_tail _ _ _ _ Ec H) as (p' & -> & H').
      rewrite (IH _ _ _ _ H'). cbn [rev]. rewrite <- app_assoc. reflexivity.
Qed.

Lemma path_loop_rel s : forall acc k p q, cut s p q ->
  path_loop (PRel acc) s k =
    mkComps (c_opaque k) (c_auth k) (c_abs k) (Some (rev acc ++ p)) (or_else q (c_query k)).
Proof.
  induction s as [|c s IH]; intros acc k p q H; cbn [path_loop].
  - destruct H as [He _]. destruct p; [|discriminate]. destruct q; [discriminate|].
    rewrite app_nil_r. reflexivity.
  - destruct (c =? 63) eqn:Ec.
    + apply Z.eqb_eq in Ec. subst c. destruct H as [He Hn]. destruct p as [|x p].
      * destruct q as [q|]; [|discriminate]. injection He as ->.
        rewrite path_loop_query, app_nil_r. reflexivity.
      * injection He as <- _. exfalso. apply Hn. left; reflexivity.
    + apply Z.eqb_neq in Ec. destruct (cut_tail _ _ _ _ Ec H) as (p' & -> & H').
      rewrite (IH _ _ _ _ H'). cbn [rev]. rewrite <- app_assoc. reflexivity.
Qed.

Lemma path_loop_auth a : forall acc k t, no 47 a -> no 63 a ->
  path_loop (PAuth acc) (a ++ t) k = path_loop (PAuth (rev a ++ acc)) t k.
Proof.
  induction a as [|c a IH]; intros acc k t H1 H2; [reflexivity|].
  cbn [app path_loop].
  replace (c =? 47) with false by (symmetry; apply Z.eqb_neq; intros ->; apply H1; left; reflexivity).
  replace (c =? 63) with false by (symmetry; apply Z.eqb_neq; intros ->; apply H2; left; reflexivity).
  rewrite IH by (intros Hi; (apply H1 + apply H2); right; exact Hi).
  cbn [rev]. rewrite <- app_assoc. reflexivity.
Qed.

(** An optional absolute path: text that is empty or starts with '/'. *)
Definition abs_text (p : option str) : Prop :=
  forall x, p = Some x -> (exists y, x = 47 :: y) /\ no 63 x.

Lemma path_loop_slashslash a p q : no 47 a -> no 63 a -> abs_text p ->
  path_loop PSlash (47 :: a ++ opt_app [] p ++ opt_app [63] q) no_comps =
    mkComps None (Some a) p None q.
Proof.
  intros H1 H2 Hp. cbn [path_loop]. change (47 =? 47) with true. cbn iota.
  rewrite path_loop_auth by assumption. rewrite app_nil_r.
  destruct p as [p|].
  - destruct (Hp p eq_refl) as [(y & ->) Hn]. cbn [opt_app app path_loop].
    change (47 =? 47) with true. cbn iota. rewrite rev_involutive.
    rewrite (path_loop_path _ _ _ y q).
    + cbn. destruct q; reflexivity.
    + split; [reflexivity|]. intros Hi; apply Hn; right; exact Hi.
  - destruct q as [q|]; cbn [opt_app app path_loop]; rewrite rev_involutive; [|reflexivity].
    change (63 =? 47) with false. change (63 =? 63) with true. cbn iota.
    rewrite path_loop_query. reflexivity.
Qed.

(** A single slash that does not start an authority *)
Lemma path_loop_slash p q : no 63 p -> (forall p', p <> 47 :: p') ->
  path_loop PSlash (p ++ opt_app [63] q) no_comps = mkComps None None (Some (47 :: p)) None q.
Proof.
  intros Hn Hs. destruct p as [|c p].
  - destruct q as [q|]; [|reflexivity]. cbn [opt_app app path_loop].
    change (63 =? 47) with false. change (63 =? 63) with true. cbn iota.
    rewrite path_loop_query. reflexivity.
  - cbn [app path_loop].
    replace (c =? 47) with false
      by (symmetry; apply Z.eqb_neq; intros ->; apply (Hs p); reflexivity).
    replace (c =? 63) with false
      by (symmetry; apply Z.eqb_neq; intros ->; apply Hn; left; reflexivity).
    rewrite (path_loop_path _ _ _ p q).
    + cbn. destruct q; reflexivity.
    + split; [reflexivity|]. intros Hi; apply Hn; right; exact Hi.
Qed.

Lemma path_loop_rel0 c p q : no 63 (c :: p) -> c <> 47 ->
  ParseRelativeURI (c :: p ++ opt_app [63] q) = mkComps None None None (Some (c :: p)) q.
Proof.
  intros Hn Hc. cbn [ParseRelativeURI].
  replace (c =? 47) with false by (symmetry; apply Z.eqb_neq; exact Hc).
  replace (c =? 63) with false
    by (symmetry; apply Z.eqb_neq; intros ->; apply Hn; left; reflexivity).
  rewrite (path_loop_rel _ _ _ p q).
  - cbn. destruct q; reflexivity.
  - split; [reflexivity|]. intros Hi; apply Hn; right; exact Hi.
Qed.

(** The text after an authority's slashes, cut into authority, path and query. *)
Lemma auth_cut s : exists a p q, s = a ++ opt_app [] p ++ opt_app [63] q /\ no 47 a /\ no 63 a /\ abs_text p.
Proof.
  induction s as [|c s (a & p & q & -> & H1 & H2 & Hp)].
  - exists [], None, None. repeat split; try (intros []); discriminate.
  - destruct (Z.eq_dec c 47) as [->|C1].
    + destruct (cut_exists (a ++ opt_app [] p ++ opt_app [63] q)) as (p' & q' & He & Hn).
      exists [], (Some (47 :: p')), q'. rewrite He. refine (conj _ (conj _ (conj _ _))).
      * reflexivity.
      * intros [].
      * intros [].
      * intros x Hx. injection Hx as <-. split; [eexists; reflexivity|].
        intros [Hi|Hi]; [discriminate|exact (Hn Hi)].
    + destruct (Z.eq_dec c 63) as [->|C2].
      * exists [], None, (Some (a ++ opt_app [] p ++ opt_app [63] q)).
        refine (conj _ (conj _ (conj _ _))); [reflexivity|intros []|intros []|].
        intros x Hx; discriminate.
      * exists (c :: a), p, q. refine (conj _ (conj _ (conj _ _))); [reflexivity| | |exact Hp].
        -- intros [Hi|Hi]; [congruence|exact (H1 Hi)].
        -- intros [Hi|Hi]; [congruence|exact (H2 Hi)].
Qed.

(** Shapes of the components found after a leading slash. *)
Lemma slash_shape s :
  let k := path_loop PSlash s no_comps in
  c_opaque k = None /\ c_rel k = None /\ rc k = 47 :: s /\ comps_ok k /\
  (c_auth k = None -> exists p, c_abs k = Some p).
Proof.
  destruct s as [|c s].
  { cbn. refine (conj eq_refl (conj eq_refl (conj eq_refl (conj _ _)))).
    - split; cbn; intros x Hx; try discriminate. injection Hx as <-.
      split; [eexists; reflexivity|]. intros [H|[]]; discriminate.
    - intros _. eexists; reflexivity. }
  destruct (Z.eq_dec c 47) as [->|Hc].
  - destruct (auth_cut s) as (a & p & q & -> & H1 & H2 & Hp).
    rewrite path_loop_slashslash by assumption. cbn.
    refine (conj eq_refl (conj eq_refl (conj _ (conj _ _)))).
    + reflexivity.
    + split; cbn; intros x Hx; try discriminate.
      * injection Hx as <-; auto.
      * apply Hp, Hx.
    + discriminate.
  - destruct (cut_exists (c :: s)) as (p & q & He & Hn).
    assert (Hs : forall p', p <> 47 :: p').
    { intros p' ->. injection He as -> _. congruence. }
    rewrite He, path_loop_slash by assumption. cbn.
    refine (conj eq_refl (conj eq_refl (conj _ (conj _ _)))).
    + unfold rc; cbn. reflexivity.
    + split; cbn; intros x Hx; try discriminate. injection Hx as <-.
      split; [eexists; reflexivity|]. intros [H|H]; [discriminate|exact (Hn H)].
    + intros _. eexists; reflexivity.
Qed.

Lemma rel_shape s :
  let k := ParseRelativeURI s in
  c_opaque k = None /\ rc k = s /\ comps_ok k /\
  ((c_rel k = None /\ (c_auth k = None -> exists p, c_abs k = Some p)) \/
   (c_auth k = None /\ c_abs k = None /\ exists p, c_rel k = Some p)).
Proof.
  destruct s as [|c s].
  { cbn. refine (conj eq_refl (conj eq_refl (conj _ _))).
    - split; cbn; intros x Hx; try discriminate. injection Hx as <-.
      split; [intros []|discriminate].
    - right. repeat split. eexists; reflexivity. }
  destruct (Z.eq_dec c 47) as [->|C1].
  { cbn [ParseRelativeURI]. change (47 =? 47) with true. cbn iota.
    destruct (slash_shape s) as (H1 & H2 & H3 & H4 & H5). exact (conj H1 (conj H3 (conj H4 (or_introl (conj H2 H5))))). }
  destruct (Z.eq_dec c 63) as [->|C2].
  { cbn [ParseRelativeURI]. change (63 =? 47) with false. change (63 =? 63) with true. cbn iota.
    rewrite path_loop_query. cbn. refine (conj eq_refl (conj eq_refl (conj _ _))).
    - split; cbn; intros x Hx; try discriminate. injection Hx as <-.
      split; [intros []|discriminate].
    - right. repeat split. eexists; reflexivity. }
  destruct (cut_exists s) as (p & q & -> & Hn).
  assert (Hn' : no 63 (c :: p)) by (intros [H|H]; [congruence|exact (Hn H)]).
  rewrite path_loop_rel0 by assumption. cbn.
  refine (conj eq_refl (conj eq_refl (conj _ _))).
  - split; cbn; intros x Hx; try discriminate. injection Hx as <-.
    split; [exact Hn'|]. intros p' Hp. injection Hp as -> _. congruence.
  - right. repeat split. eexists; reflexivity.
Qed.

(** ** Recomposition *)

Lemma parse_oct_compose a f :
  let u := parse_oct a f in
  compose (scheme u) (authority u) (path_of u) (query u) (fragment u) = a ++ frag_text f /\
  str_of u = a ++ frag_text f.
Proof.
  cbv zeta. split.
  2: { unfold parse_oct, str_of. destruct (ParseScheme a); cbn;
       destruct f; cbn; rewrite ?app_nil_r; reflexivity. }
  unfold parse_oct. destruct (ParseScheme a) as [sch|] eqn:Es.
  - destruct (ParseScheme_elim _ _ Es) as (t & -> & _).
    replace (skipn (length sch + 1) (sch ++ 58 :: t)) with t.
    2: { change (58 :: t) with ([58] ++ t). rewrite app_assoc.
         replace (length sch + 1)%nat with (length (sch ++ [58])) by (rewrite app_length; reflexivity).
         rewrite skipn_length_app. reflexivity. }
    cbn [scheme authority query fragment].
    change (compose (Some sch)) with
      (fun au p q g => (sch ++ [58]) ++ compose None au p q g).
    cbv beta. rewrite <- !app_assoc. f_equal. cbn [app]. f_equal.
    destruct t as [|c t]; [destruct f; reflexivity|].
    unfold path_of; cbn [ParseSchemeSpecificPart]. destruct (c =? 47) eqn:Ec.
    + apply Z.eqb_eq in Ec. subst c.
      destruct (slash_shape t) as (H1 & H2 & H3 & _). cbv zeta in *.
      destruct (path_loop PSlash t no_comps) as [ko ka kp kr kq]. cbn in *. subst ko kr.
      unfold rc in H3; cbn in H3. unfold compose, frag_text, opt_app in *. cbn [app] in *.
      rewrite app_comm_cons, <- H3. rewrite <- !app_assoc.
      destruct ka, kp, kq, f; cbn; rewrite ?app_nil_r; reflexivity.
    + cbn. destruct f; cbn; rewrite ?app_nil_r; reflexivity.
  - cbn [scheme authority query fragment]. unfold path_of; cbn.
    destruct (rel_shape a) as (H1 & H3 & _ & H4). cbv zeta in *.
    destruct (ParseRelativeURI a) as [ko ka kp kr kq]. cbn in *. subst ko.
    unfold rc in H3; cbn in H3. unfold compose, frag_text, opt_app in *. cbn [app] in *.
    rewrite <- H3. rewrite <- !app_assoc.
    destruct H4 as [[-> _]|(-> & -> & _)]; [destruct ka, kp, kq, f|destruct kr, kq, f];
      cbn; rewrite ?app_nil_r, <- ?app_assoc; reflexivity.
Qed.

Lemma recompose s u : URI s = Ok u ->
  compose (scheme u) (authority u) (path_of u) (query u) (fragment u) = s /\ str_of u = s.
Proof.
  intros H. apply URI_elim in H as (a & f & -> & _ & ->). apply parse_oct_compose.
Qed.

Lemma parse_oct_fields a f :
  octets (parse_oct a f) = a /\ fragment (parse_oct a f) = f.
Proof. unfold parse_oct. destruct (ParseScheme a); auto. Qed.

(** Facts about a parsed URI. *)
Record uri_facts (u : uri) : Prop := {
  uf_auth : forall a, authority u = Some a -> no 47 a /\ no 63 a;
  uf_abs : abs_text (absPath u);
  uf_rel : forall p, relPath u = Some p -> no 63 p /\ forall p', p <> 47 :: p';
  uf_one : opaquePart u = None ->
    (relPath u = None /\
       (authority u = None -> (exists p, absPath u = Some p) \/ (scheme u <> None /\ query u = None))) \/
    (scheme u = None /\ authority u = None /\ absPath u = None /\ exists p, relPath u = Some p);
  uf_opq : forall o, opaquePart u = Some o ->
    scheme u <> None /\ authority u = None /\ absPath u = None /\ relPath u = None /\ query u = None
    /\ exists c o', o = c :: o' /\ c <> 47;
  uf_scheme : forall s, scheme u = Some s -> forall t, ParseScheme (s ++ 58 :: t) = Some s
}.

Lemma parse_oct_facts a f : uri_facts (parse_oct a f).
Proof.
  unfold parse_oct. destruct (ParseScheme a) as [sch|] eqn:Es.
  - destruct (ParseScheme_elim _ _ Es) as (t & _ & Hsch).
    destruct (skipn (length sch + 1) a) as [|c s]; [|cbn [ParseSchemeSpecificPart];
      destruct (c =? 47) eqn:Ec].
    + cbn. split; cbn; try discriminate.
      * intros _. left. split; [reflexivity|]. intros _. right. split; [discriminate|reflexivity].
      * intros s Hs. injection Hs as <-. exact Hsch.
    + destruct (slash_shape s) as (H1 & H2 & H3 & H4 & H5). cbv zeta in *.
      destruct H4 as [A1 A2 A3]. split; cbn.
      * exact A1.
      * exact A2.
      * exact A3.
      * intros _. left. split; [exact H2|]. intros H. left. apply H5, H.
      * rewrite H1. discriminate.
      * intros x Hx. injection Hx as <-. exact Hsch.
    + cbn. split; cbn; try discriminate.
      * intros o Ho. injection Ho as <-. repeat split; try discriminate.
        exists c, s. split; [reflexivity|]. apply Z.eqb_neq, Ec.
      * intros x Hx. injection Hx as <-. exact Hsch.
  - destruct (rel_shape a) as (H1 & H3 & [A1 A2 A3] & H4). cbv zeta in *. split; cbn.
    + exact A1.
    + exact A2.
    + exact A3.
    + intros _. destruct H4 as [[B1 B2]|(B1 & B2 & B3)].
      * left. split; [exact B1|]. intros H. left. apply B2, H.
      * right. auto.
    + rewrite H1. discriminate.
    + discriminate.
Qed.

Lemma uri_facts_of s u : URI s = Ok u -> uri_facts u.
Proof. intros H. apply URI_elim in H as (a & f & _ & _ & ->). apply parse_oct_facts. Qed.

(** Parsing a composed absolute URI gives its components back. *)
Lemma parse_compose_abs sch au p q f :
  (forall t, ParseScheme (sch ++ 58 :: t) = Some sch) -> no 47 au -> no 63 au -> abs_text p ->
  let a := sch ++ 58 :: 47 :: 47 :: au ++ opt_app [] p ++ opt_app [63] q in
  parse_oct a f = mkURI a f (Some sch) (Some (47 :: 47 :: au ++ opt_app [] p ++ opt_app [63] q))
                    None (Some au) p None q.
Proof.
  intros Hs H1 H2 Hp. cbv zeta. unfold parse_oct. rewrite Hs.
  set (t := 47 :: 47 :: au ++ opt_app [] p ++ opt_app [63] q).
  replace (skipn (length sch + 1) (sch ++ 58 :: t)) with t.
  2: { change (58 :: t) with ([58] ++ t). rewrite app_assoc.
       replace (length sch + 1)%nat with (length (sch ++ [58])) by (rewrite app_length; reflexivity).
       rewrite skipn_length_app. reflexivity. }
  unfold t. cbn [ParseSchemeSpecificPart]. change (47 =? 47) with true. cbn iota.
  rewrite path_loop_slashslash by assumption. reflexivity.
Qed.

(** The text of a URI's components consists of URI characters. *)
Lemma uok_opt_split pre q : delim pre -> forall a, uok (a ++ opt_app [pre] q) ->
  uok a /\ (forall x, q = Some x -> uok x).
Proof.
  intros Hd a H. destruct q as [q|]; cbn in H.
  - apply uok_split in H; [|exact Hd]. destruct H. split; [assumption|].
    intros x Hx. injection Hx as <-. assumption.
  - rewrite app_nil_r in H. split; [exact H|discriminate].
Qed.

Lemma uok_opt_app pre q : delim pre -> (forall x, q = Some x -> uok x) -> uok (opt_app [pre] q).
Proof.
  intros Hd H. destruct q as [q|]; cbn; [|constructor]. apply uok_delim; [exact Hd|]. apply H; reflexivity.
Qed.

Lemma uok_opt q : (forall x, q = Some x -> uok x) -> uok (opt_app [] q).
Proof. intros H. destruct q as [q|]; cbn; [|constructor]. apply H; reflexivity. Qed.

Definition d47 : delim 47 := or_introl eq_refl.
Definition d63 : delim 63 := or_intror (or_introl eq_refl).
Definition d58 : delim 58 := or_intror (or_intror eq_refl).

Lemma uri_uok s u : URI s = Ok u ->
  (forall x, scheme u = Some x -> uok x) /\
  (forall x, authority u = Some x -> uok x) /\
  (forall x, absPath u = Some x -> uok x) /\
  (forall x, relPath u = Some x -> uok x) /\
  (forall x, query u = Some x -> uok x) /\ uok (octets u).
Proof.
  intros H. destruct (recompose s u H) as [Hc Hs]. assert (Hf := uri_facts_of s u H).
  apply URI_elim in H as (a & f & E & Ha & Eu).
  assert (Ho : octets u = a) by (subst u; apply parse_oct_fields).
  assert (Hg : fragment u = f) by (subst u; apply parse_oct_fields).
  clear Eu. rewrite Hg in Hc. rewrite E in Hc. clear E s Hs. rewrite Ho.
  unfold compose in Hc. fold (opt_app (lit "#") f) in Hc. change (lit "#") with [35] in Hc.
  fold (frag_text f) in Hc. rewrite !app_assoc in Hc. apply app_inv_tail in Hc.
  rewrite <- !app_assoc in Hc.
  fold (opt_app (lit "?") (query u)) in Hc. change (lit "?") with [63] in Hc.
  fold (opt_app (lit "//") (authority u)) in Hc. change (lit "//") with [47;47] in Hc.
  fold (opt_app [] (path_of u)) in Hc. change (lit ":") with [58] in Hc.
  assert (Hrest : (forall x, scheme u = Some x -> uok x) /\
     uok (opt_app [47;47] (authority u) ++ opt_app [] (path_of u) ++ opt_app [63] (query u))).
  { destruct (scheme u) as [sc|].
    - rewrite <- app_assoc in Hc. cbn [app] in Hc. rewrite <- Hc in Ha.
      apply uok_split in Ha; [|exact d58]. destruct Ha. split; [|assumption].
      intros x Hx. injection Hx as <-. assumption.
    - cbn [app] in Hc. rewrite <- Hc in Ha. split; [discriminate|exact Ha]. }
  destruct Hrest as [R1 R2]. split; [exact R1|].
  rewrite app_assoc in R2. apply uok_opt_split in R2; [|exact d63]. destruct R2 as [R2 R3].
  destruct Hf as [F1 F2 F3 F4 F5 F6].
  destruct (opaquePart u) as [o|] eqn:Eo.
  { destruct (F5 o eq_refl) as (_ & -> & -> & -> & -> & _).
    repeat split; try discriminate. exact Ha. }
  unfold path_of in R2. rewrite Eo in R2. refine (conj _ (conj _ (conj _ (conj R3 Ha)))).
  - intros x Hx. rewrite Hx in R2. cbn in R2.
    apply (uok_split [] 47 _ d47) in R2. destruct R2 as [_ R2].
    apply (uok_split [] 47 _ d47) in R2. destruct R2 as [_ R2].
    destruct (absPath u) as [p|] eqn:Ep.
    + destruct (F2 p eq_refl) as [(y & ->) _]. cbn in R2. apply uok_split in R2; [|exact d47].
      destruct R2; assumption.
    + destruct (F4 eq_refl) as [[Hr _]|(_ & Hx' & _)]; [|congruence]. rewrite Hr in R2. cbn in R2.
      rewrite app_nil_r in R2. exact R2.
  - intros x Hx. rewrite Hx in R2. cbn in R2. destruct (F2 x Hx) as [(y & ->) _].
    destruct (authority u) as [au|]; cbn in R2.
    + apply (uok_split [] 47 _ d47) in R2. destruct R2 as [_ R2].
      apply (uok_split [] 47 _ d47) in R2. destruct R2 as [_ R2].
      apply uok_split in R2; [|exact d47]. apply uok_delim; [exact d47|]. destruct R2; assumption.
    + exact R2.
  - intros x Hx. destruct (F4 eq_refl) as [[Hr _]|(_ & Hau & Hab & _)]; [congruence|].
    rewrite Hau, Hab, Hx in R2. cbn in R2. exact R2.
Qed.

(** ** Paths made of URI characters *)
Lemma uok_split_segs p : forall g, uok (rev g ++ p) -> Forall uok (split_path_loop (Some g) p).
Proof.
  induction p as [|c p IH]; intros g H; cbn [split_path_loop].
  - constructor; [|constructor]. rewrite app_nil_r in H. exact H.
  - destruct (c =? 47) eqn:E.
    + apply Z.eqb_eq in E. subst c. apply uok_split in H; [|exact d47]. destruct H.
      constructor; [assumption|]. apply IH. exact H0.
    + apply IH. cbn [rev]. rewrite <- app_assoc. exact H.
Qed.

Lemma uok_join l : Forall uok l -> uok (join_slash l).
Proof.
  induction l as [|s l IH]; intros H; [constructor|]. inversion H; subst.
  destruct l as [|t l]; [exact H2|].
  change (join_slash (s :: t :: l)) with (s ++ 47 :: join_slash (t :: l)).
  apply uok_app; [assumption|]. apply uok_delim; [exact d47|]. apply IH. assumption.
Qed.

Lemma no_join c l : c <> 47 -> Forall (no c) l -> no c (join_slash l).
Proof.
  intros Hc. induction l as [|s l IH]; intros H; [intros []|]. inversion H; subst.
  destruct l as [|t l]; [assumption|].
  change (join_slash (s :: t :: l)) with (s ++ 47 :: join_slash (t :: l)).
  unfold no. rewrite in_app_iff. intros [Hi|[Hi|Hi]]; [exact (H2 Hi)|congruence|].
  exact (IH H3 Hi).
Qed.

Lemma no_split_segs c p : forall g, no c (rev g ++ p) -> Forall (no c) (split_path_loop (Some g) p).
Proof.
  unfold no. induction p as [|x p IH]; intros g H; cbn [split_path_loop].
  - constructor; [|constructor]. rewrite app_nil_r in H. exact H.
  - destruct (x =? 47) eqn:E.
    + rewrite in_app_iff in H. constructor; [tauto|]. apply IH. cbn. intros Hi. apply H. right; right; exact Hi.
    + apply IH. cbn [rev]. rewrite <- app_assoc. exact H.
Qed.

(** NormalizeSegments only keeps, drops and adds empty segments. *)
Lemma normalize_loop_incl rest : forall done x,
  In x (normalize_loop done rest) -> In x done \/ In x rest \/ x = [].
Proof.
  induction rest as [|s rest IH]; intros done x; cbn [normalize_loop].
  - rewrite <- in_rev. auto.
  - assert (Hrev : forall d, In x (rev d ++ [[]]) -> In x d \/ x = []).
    { intros d. rewrite in_app_iff, <- in_rev. cbn. tauto || (intros [?|[?|[]]]; auto). }
    destruct (str_eqb s dot).
    { destruct rest; intros H; [apply Hrev in H; tauto|]. apply IH in H. cbn in *. tauto. }
    destruct done as [|p done].
    { intros H. apply IH in H. cbn in *. tauto. }
    destruct (str_eqb s dotdot && negb (str_eqb p dotdot)).
    + destruct rest; intros H; [apply Hrev in H; cbn; tauto|]. apply IH in H. cbn in *. tauto.
    + intros H. apply IH in H. cbn in *. tauto.
Qed.

Lemma normalize_incl segs x : In x (NormalizeSegments segs) -> In x segs \/ x = [].
Proof.
  unfold NormalizeSegments.
  assert (H := normalize_loop_incl segs [] x).
  destruct (normalize_loop [] segs) as [|y l] eqn:E; [intros []|].
  destruct (str_eqb _ _).
  - rewrite in_app_iff. cbn in H |- *. intros [Hi|[Hi|[]]]; [|auto].
    destruct (H Hi) as [[]|Hx]; exact Hx.
  - intros Hi. destruct (H Hi) as [[]|Hx]; exact Hx.
Qed.

Lemma normalize_Forall (P : str -> Prop) segs :
  P [] -> Forall P segs -> Forall P (NormalizeSegments segs).
Proof.
  intros H0 H. apply Forall_forall. intros x Hx. apply normalize_incl in Hx as [Hx| ->]; [|exact H0].
  rewrite Forall_forall in H. apply H, Hx.
Qed.

Lemma in_removelast {A} (x : A) l : In x (removelast l) -> In x l.
Proof.
  induction l as [|y l IH]; [intros []|]. destruct l; [intros []|].
  change (removelast (y :: a :: l)) with (y :: removelast (a :: l)).
  intros [->|H]; [left; reflexivity|right; auto].
Qed.

Lemma Forall_removelast {A} (P : A -> Prop) l : Forall P l -> Forall P (removelast l).
Proof. rewrite !Forall_forall. intros H x Hx. apply H, in_removelast, Hx. Qed.

(** ** Resolve *)

Lemma truthy_false o : truthy o = false -> o = None \/ o = Some [].
Proof. destruct o as [[|c s]|]; [auto|discriminate|auto]. Qed.
Lemma is_none_true {A} (o : option A) : is_none o = true -> o = None.
Proof. destruct o; [discriminate|reflexivity]. Qed.

(** Composing and parsing again, for an absolute base with an authority *)
Lemma resolve_compose sch au p q f :
  (forall t, ParseScheme (sch ++ 58 :: t) = Some sch) -> uok sch -> uok au -> no 47 au -> no 63 au ->
  abs_text p -> (forall x, p = Some x -> uok x) -> (forall x, q = Some x -> uok x) ->
  exists u, URI ((sch ++ [58]) ++ opt_app [47; 47] (Some au) ++ opt_app [] p ++ opt_app [63] q ++
                  opt_app [35] f) = Ok u /\
    scheme u = Some sch /\ authority u = Some au /\ absPath u = p /\ relPath u = None /\
    opaquePart u = None /\ query u = q /\ fragment u = f.
Proof.
  intros Hs U1 U2 N1 N2 Hp U3 U4.
  set (a := sch ++ 58 :: 47 :: 47 :: au ++ opt_app [] p ++ opt_app [63] q).
  replace ((sch ++ [58]) ++ opt_app [47; 47] (Some au) ++ opt_app [] p ++ opt_app [63] q ++
                  opt_app [35] f) with (a ++ frag_text f).
  2: { unfold a, frag_text. rewrite <- !app_assoc. cbn [app opt_app]. rewrite <- !app_assoc. reflexivity. }
  rewrite URI_intro.
  - exists (parse_oct a f). split; [reflexivity|]. unfold a. rewrite parse_compose_abs by assumption.
    cbn. repeat split.
  - unfold a. apply uok_app; [assumption|]. apply uok_delim; [exact d58|].
    apply uok_delim; [exact d47|]. apply uok_delim; [exact d47|].
    apply uok_app; [assumption|]. apply uok_app; [apply uok_opt; assumption|].
    apply uok_opt_app; [exact d63|assumption].
Qed.

Lemma segments_unique l : l <> [] -> Forall slash_free l ->
  SplitRelPath (join l) = l /\ SplitAbsPath (47 :: join l) = l.
Proof. intros. split; [apply rel_join_split|apply abs_join_split]; assumption. Qed.

Lemma resolve_general bs base rs ref sch ba bp :
  URI bs = Ok base -> URI rs = Ok ref ->
  scheme base = Some sch -> authority base = Some ba -> absPath base = Some bp ->
  scheme ref = None -> ~ same_document ref ->
  exists u, Resolve ref base = Ok u /\
    scheme u = Some sch /\
    authority u = match authority ref with Some a => Some a | None => Some ba end /\
    relPath u = None /\ opaquePart u = None /\ query u = query ref /\ fragment u = fragment ref /\
    (authority ref <> None \/ absPath ref <> None -> absPath u = absPath ref) /\
    (forall bsegs rsegs, authority ref = None -> absPath ref = None ->
       bsegs <> [] -> Forall slash_free bsegs -> bp = 47 :: join bsegs ->
       rsegs <> [] -> Forall slash_free rsegs -> relPath ref = Some (join rsegs) ->
       exists segs, absPath u = Some (47 :: join segs) /\ normal segs /\ Forall slash_free segs /\
         destination segs = destination (removelast bsegs ++ rsegs)).
Proof.
  intros Hb Hr Es Ea Ep Ers Hnd.
  assert (Fb := uri_facts_of _ _ Hb). assert (Fr := uri_facts_of _ _ Hr).
  destruct (uri_uok _ _ Hb) as (Ub1 & Ub2 & Ub3 & _ & _ & _).
  destruct (uri_uok _ _ Hr) as (_ & Ur2 & Ur3 & Ur4 & Ur5 & _).
  assert (Oref : opaquePart ref = None).
  { destruct (opaquePart ref) eqn:E; [|reflexivity].
    destruct (uf_opq _ Fr _ E) as [H _]. congruence. }
  unfold Resolve.
  destruct (negb (truthy (absPath ref) || truthy (relPath ref)) && is_none (scheme ref) &&
            is_none (authority ref) && is_none (query ref)) eqn:Eg.
  { exfalso. apply Hnd. rewrite !andb_true_iff, negb_true_iff, orb_false_iff in Eg.
    destruct Eg as [[[[G1 G2] G3] G4] G5].
    split; [exact Ers|]. split; [apply is_none_true, G4|]. split; [apply is_none_true, G5|].
    split; apply truthy_false; assumption. }
  clear Eg. rewrite Ers. cbn [is_none negb]. rewrite Es, Ea, Ep.
  destruct (uf_auth _ Fb _ Ea) as [Nb1 Nb2].
  destruct (uf_abs _ Fb _ Ep) as [(bq & ->) Nbp].
  destruct (authority ref) as [ra|] eqn:Era.
  - destruct (uf_auth _ Fr _ Era) as [Nr1 Nr2].
    destruct (resolve_compose sch ra (absPath ref) (query ref) (fragment ref)) as
      (u & Hu & V1 & V2 & V3 & V4 & V5 & V6 & V7); auto.
    + exact (uf_scheme _ Fb _ Es).
    + exact (uf_abs _ Fr).
    + exists u. refine (conj Hu (conj V1 (conj V2 (conj V4 (conj V5 (conj V6 (conj V7 (conj _ _)))))))).
      * intros _. exact V3.
      * discriminate.
  - destruct (absPath ref) as [rp|] eqn:Erp.
    + destruct (resolve_compose sch ba (Some rp) (query ref) (fragment ref)) as
        (u & Hu & V1 & V2 & V3 & V4 & V5 & V6 & V7); auto.
      * exact (uf_scheme _ Fb _ Es).
      * rewrite <- Erp. exact (uf_abs _ Fr).
      * exists u. refine (conj Hu (conj V1 (conj V2 (conj V4 (conj V5 (conj V6 (conj V7 (conj _ _)))))))).
        -- intros _. exact V3.
        -- discriminate.
    + destruct (uf_one _ Fr Oref) as [[Hrel Habs]|(_ & _ & _ & rp & Hrel)].
      { destruct (Habs Era) as [(p & Hp)|[Hp _]]; congruence. }
      rewrite Hrel. cbn [split_rel_opt].
      set (segs := NormalizeSegments (removelast (SplitAbsPath (47 :: bq)) ++ SplitRelPath rp)).
      assert (Useg : Forall uok segs).
      { apply normalize_Forall; [constructor|]. apply Forall_app. split.
        - apply Forall_removelast. rewrite SplitAbsPath_loop. apply uok_split_segs. cbn.
          apply (uok_split [] 47 bq d47). apply Ub3, Ep.
        - rewrite SplitRelPath_loop. apply uok_split_segs. cbn. apply Ur4, Hrel. }
      assert (Nseg : Forall (no 63) segs).
      { apply normalize_Forall; [intros []|]. apply Forall_app. split.
        - apply Forall_removelast. rewrite SplitAbsPath_loop. apply no_split_segs. cbn.
          intros Hi. apply Nbp. right; exact Hi.
        - rewrite SplitRelPath_loop. apply no_split_segs. cbn.
          destruct (uf_rel _ Fr _ Hrel) as [H _]. exact H. }
      assert (Sseg : Forall slash_free segs).
      { apply normalize_Forall; [intros []|]. apply Forall_app. split.
        - apply Forall_removelast. apply abs_split_join.
        - apply rel_split_join. }
      destruct (resolve_compose sch ba (Some (47 :: join_slash segs)) (query ref) (fragment ref)) as
        (u & Hu & V1 & V2 & V3 & V4 & V5 & V6 & V7); auto.
      * exact (uf_scheme _ Fb _ Es).
      * intros x Hx. injection Hx as <-. split; [eexists; reflexivity|].
        intros [Hi|Hi]; [discriminate|]. revert Hi. apply no_join; [discriminate|exact Nseg].
      * intros x Hx. injection Hx as <-. apply uok_delim; [exact d47|]. apply uok_join, Useg.
      * exists u. refine (conj Hu (conj V1 (conj V2 (conj V4 (conj V5 (conj V6 (conj V7 (conj _ _)))))))).
        -- intros [H|H]; congruence.
        -- intros bsegs rsegs _ _ B1 B2 B3 R1 R2 R3. exists segs.
           rewrite <- join_slash_join. split; [exact V3|].
           assert (Esegs : segs = NormalizeSegments (removelast bsegs ++ rsegs)).
           { unfold segs. injection R3 as ->. rewrite B3.
             destruct (segments_unique bsegs B1 B2) as [_ ->].
             destruct (segments_unique rsegs R1 R2) as [-> _]. reflexivity. }
           assert (Hne : removelast bsegs ++ rsegs <> []).
           { intros H. apply app_eq_nil in H as [_ H]. congruence. }
           destruct (normalize_property _ Hne) as (P1 & P2 & _).
           rewrite Esegs at 1. rewrite Esegs at 2. split; [exact P1|]. split; [exact Sseg|exact P2].
Qed.

Lemma resolve_absolute rs ref base : URI rs = Ok ref -> scheme ref <> None -> Resolve ref base = Ok ref.
Proof.
  intros Hr Hs. unfold Resolve. destruct (scheme ref) eqn:E; [|congruence].
  cbn [is_none negb]. rewrite andb_false_r. cbn [andb].
  destruct (recompose _ _ Hr) as [_ ->]. exact Hr.
Qed.

Lemma resolve_same_document bs base ref :
  URI bs = Ok base -> same_document ref ->
  Resolve ref base = Ok (mkURI (octets base) (fragment ref) (scheme base) (schemeSpecificPart base)
    (opaquePart base) (authority base) (absPath base) (relPath base) (query base)).
Proof.
  intros Hb (D1 & D2 & D3 & D4 & D5). unfold Resolve. rewrite D1, D2, D3. cbn [is_none].
  assert (T1 : truthy (absPath ref) = false) by (destruct D4 as [-> | ->]; reflexivity).
  assert (T2 : truthy (relPath ref) = false) by (destruct D5 as [-> | ->]; reflexivity).
  rewrite T1, T2. cbn [orb negb andb].
  assert (Uo := proj2 (proj2 (proj2 (proj2 (proj2 (uri_uok _ _ Hb)))))).
  apply URI_elim in Hb as (a & f & _ & _ & ->).
  assert (Ho : octets (parse_oct a f) = a) by apply parse_oct_fields. rewrite Ho in *.
  transitivity (URI (a ++ frag_text (fragment ref))).
  { destruct (fragment ref); cbn; [reflexivity|]. rewrite app_nil_r. reflexivity. }
  rewrite URI_intro by exact Uo. unfold parse_oct. destruct (ParseScheme a); reflexivity.
Qed.
