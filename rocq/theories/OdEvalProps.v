(** Theorems about the evaluation of $filter and $orderby (C147-C158).  The model is OdEval.v, the
    specification OdEvalSpec.v, OdEvalSpecF.v and OdEvalTypes.v. *)
From Coq Require Import ZArith Reals QArith Qreals List Lia Lra Bool String Floats.SpecFloat.
From Flocq Require Import Core BinarySingleNaN.
From Verif Require Import Py Iso IsoSpec IsoProofs OdExpr OdEval OdEvalSpec OdEvalSpecF OdEvalTypes OdEvalFloat2 OdEvalFloat3 OdEvalFloat4 OdEvalProofs OdEvalProofs2 OdEvalProofs3 OdEvalProofs4 OdEvalProofs5 OdEvalProofs6 OdEvalProofs7 OdEvalProofs8 OdEvalProofs9 OdEvalProofs10.
Import ListNotations.
Open Scope Z_scope.
Open Scope list_scope.

Section Props.
Variable lower_char upper_char : Z -> Z.
Variable space : Z -> bool.
Variable E : Type.
Variable property : E -> str -> option (field E).
Variable e_len : E -> Z.
Variable e_type : E -> str.
Variable e_set : E -> Z.
Variable e_key : E -> result (list (option pyv)).
Notation Ev := (Evaluate lower_char upper_char space E property e_len e_type e_set e_key).
Notation CF := (CheckFilter lower_char upper_char space E property e_len e_type e_set e_key).
Notation lemma f := (f lower_char upper_char space E property e_len e_type e_set e_key).

(** ** C147: promotion *)
Theorem C147_promotes : forall a b t, PromoteTypes (Some a) (Some b) = Ok (Some t) <-> joins a b t.
Proof. exact promote_joins. Qed.
Theorem C147_null : forall t, PromoteTypes (Some t) None = Ok (Some t) /\ PromoteTypes None (Some t) = Ok (Some t).
Proof. intros []; split; reflexivity. Qed.
(** Every operator refuses two types that have no common one *)
Theorem C147_mismatch : forall o p q ctx a b u w, In o binaries ->
  Ev p ctx = Ok (DSimple E (mkV (Some a) u)) -> Ev q ctx = Ok (DSimple E (mkV (Some b) w)) ->
  (forall t, ~ joins a b t) -> Ev (bin o p q) ctx = Err EvaluationError.
Proof. exact (lemma mismatch). Qed.

(** ** C148: sums, differences, products and negation *)
Theorem C148_integers_partial : forall o p q ctx a b t x y, In o sums ->
  Ev p ctx = Ok (int_v a x) -> Ev q ctx = Ok (int_v b y) -> in_type a x -> in_type b y ->
  joins a b t -> t = TInt32 \/ t = TInt64 ->
  (in_type t (z_op o x y) -> Ev (bin o p q) ctx = Ok (int_v t (z_op o x y))) /\
  (~ in_type t (z_op o x y) -> Ev (bin o p q) ctx = Err ValueError).
Proof. exact (lemma sum_ints). Qed.
Theorem C148_decimals_partial : forall o p q ctx x y a b r s, In o sums -> Ev p ctx = Ok x -> Ev q ctx = Ok y ->
  exact x a r -> exact y b s -> joins a b TDecimal -> decimal_result unit_28 (q_op o r s) (Ev (bin o p q) ctx).
Proof. exact (lemma sum_decs). Qed.
Theorem C148_doubles : forall o p q ctx x y a b r s, In o sums -> Ev p ctx = Ok x -> Ev q ctx = Ok y ->
  as_real x a r -> as_real y b s -> joins a b TDouble ->
  exists z, Ev (bin o p q) ctx = Ok (fl_v TDouble z) /\ rounds (r_op o r s) z.
Proof. exact (lemma sum_doubles). Qed.
Theorem C148_negate_integers : forall p ctx a t x, Ev p ctx = Ok (int_v a x) -> in_type a x ->
  (In a [TByte; TInt16; TInt32] /\ t = TInt32) \/ (a = TInt64 /\ t = TInt64) ->
  (in_type t (- x) -> Ev (un ONegate p) ctx = Ok (int_v t (- x))) /\
  (~ in_type t (- x) -> Ev (un ONegate p) ctx = Err ValueError).
Proof. exact (lemma negate_int). Qed.
Theorem C148_negate_decimals_partial : forall p ctx d, Ev p ctx = Ok (dec_v d) ->
  decimal_result unit_28 (- dec_value d) (Ev (un ONegate p) ctx).
Proof. exact (lemma negate_dec). Qed.
Theorem C148_negate_doubles : forall p ctx t f, Ev p ctx = Ok (fl_v t f) -> t = TDouble \/ t = TSingle -> valid f -> finite f ->
  exists z, Ev (un ONegate p) ctx = Ok (fl_v TDouble z) /\ valid z /\ finite z /\ real z = (- real f)%R.
Proof. exact (lemma negate_double). Qed.

(** ** C149: quotients and remainders *)
(** Integers of at most 53 bits *)
Theorem C149_integers_partial : forall p q ctx a b t x y, Ev p ctx = Ok (int_v a x) -> Ev q ctx = Ok (int_v b y) ->
  in_type a x -> in_type b y -> joins a b t -> t = TInt32 \/ t = TInt64 -> Z.abs x < 2 ^ 53 -> Z.abs y < 2 ^ 53 -> y <> 0 ->
  Ev (bin OMod p q) ctx = Ok (int_v t (Z.rem x y)) /\
  (in_type t (Z.quot x y) -> Ev (bin ODiv p q) ctx = Ok (int_v t (Z.quot x y))) /\
  (~ in_type t (Z.quot x y) -> Ev (bin ODiv p q) ctx = Err ValueError).
Proof.
  intros p q ctx a b t x y Hp Hq Ia Ib J T Bx By N. rewrite (lemma bin_eval OMod _ p q _ _ ctx eq_refl Hp Hq), (lemma bin_eval ODiv _ p q _ _ ctx eq_refl Hp Hq).
  split; [apply mod_ints with (a := a) (b := b); assumption|]. rewrite (div_ints E a b t x y Ia Ib J T Bx By N).
  split; intros K; [apply new_int_in; exact K|apply new_int_out; [apply (computes_int t T)|exact K]].
Qed.
Theorem C149_integers_zero : forall o p q ctx a b t x, In o [ODiv; OMod] -> Ev p ctx = Ok (int_v a x) -> Ev q ctx = Ok (int_v b 0) ->
  in_type a x -> in_type b 0 -> joins a b t -> t = TInt32 \/ t = TInt64 -> Ev (bin o p q) ctx = Err EvaluationError.
Proof.
  intros o p q ctx a b t x [<-|[<-|[]]] Hp Hq Ia Ib J T.
  - rewrite (lemma bin_eval ODiv _ p q _ _ ctx eq_refl Hp Hq). eapply div_ints_zero; eassumption.
  - rewrite (lemma bin_eval OMod _ p q _ _ ctx eq_refl Hp Hq). eapply mod_ints_zero; eassumption.
Qed.
Theorem C149_decimals_partial : forall p q ctx x y a b r s, Ev p ctx = Ok x -> Ev q ctx = Ok y ->
  exact x a r -> exact y b s -> joins a b TDecimal ->
  (~ (s == 0)%Q -> decimal_result unit_27 (r / s) (Ev (bin ODiv p q) ctx)) /\
  ((s == 0)%Q -> ~ (r == 0)%Q -> Ev (bin ODiv p q) ctx = Err EvaluationError).
Proof.
  intros p q ctx x y a b r s Hp Hq Hx Hy J. rewrite (lemma bin_eval ODiv _ p q _ _ ctx eq_refl Hp Hq). split.
  - eapply div_decs; eassumption.
  - eapply div_decs_zero; eassumption.
Qed.
Theorem C149_doubles : forall p q ctx x y a b r s, Ev p ctx = Ok x -> Ev q ctx = Ok y ->
  as_real x a r -> as_real y b s -> joins a b TDouble ->
  (s <> 0%R -> (exists z, Ev (bin ODiv p q) ctx = Ok (fl_v TDouble z) /\ rounds (r / s) z) /\
               (exists z, Ev (bin OMod p q) ctx = Ok (fl_v TDouble z) /\ finite z /\ real z = remainder r s)) /\
  (s = 0%R -> Ev (bin ODiv p q) ctx = Err EvaluationError /\ Ev (bin OMod p q) ctx = Err EvaluationError).
Proof.
  intros p q ctx x y a b r s Hp Hq Hx Hy J.
  rewrite (lemma bin_eval ODiv _ p q _ _ ctx eq_refl Hp Hq), (lemma bin_eval OMod _ p q _ _ ctx eq_refl Hp Hq).
  destruct (div_double x y a b r s Hx Hy J) as [D1 D2], (mod_double x y a b r s Hx Hy J) as [M1 M2]. split; intros S; split; auto.
Qed.
(** Decimals: the remainder is that of the nearest floats, exactly *)
Theorem C149_mod_decimals_partial : forall p q ctx x y a b r s, Ev p ctx = Ok x -> Ev q ctx = Ok y ->
  exact x a r -> exact y b s -> joins a b TDecimal ->
  (rnd (Q2R s) <> 0%R -> exists d, Q2R (dec_value d) = remainder (rnd (Q2R r)) (rnd (Q2R s)) /\
     ((dec_ok d /\ Ev (bin OMod p q) ctx = Ok (dec_v d)) \/ (~ dec_ok d /\ Ev (bin OMod p q) ctx = Err EvaluationError))) /\
  (rnd (Q2R s) = 0%R -> Ev (bin OMod p q) ctx = Err EvaluationError).
Proof.
  intros p q ctx x y a b r s Hp Hq Hx Hy J. rewrite (lemma bin_eval OMod _ p q _ _ ctx eq_refl Hp Hq).
  exact (mod_decs E x y a b r s Hx Hy J).
Qed.

(** ** C150: comparisons *)
(** Integers and Decimals, compared as numbers *)
Theorem C150_numbers_partial : forall o p q ctx x y a b t r s, In o comparisons -> Ev p ctx = Ok x -> Ev q ctx = Ok y ->
  exact x a r -> exact y b s -> joins a b t -> t = TInt32 \/ t = TInt64 \/ t = TDecimal ->
  exists c, Ev (bin o p q) ctx = Ok (bool_v c) /\ (c = true <-> q_rel o r s).
Proof.
  intros o p q ctx x y a b t r s Ho Hp Hq Hx Hy J T.
  destruct (compare_exact e_set e_key o x y a b t r s Ho Hx Hy J T) as (f & c & Hf & Hv & K).
  exists c. split; [rewrite (lemma bin_eval o f p q _ _ ctx Hf Hp Hq); exact Hv|exact K].
Qed.
Theorem C150_doubles : forall o p q ctx x y a b r s, In o comparisons -> Ev p ctx = Ok x -> Ev q ctx = Ok y ->
  as_real x a r -> as_real y b s -> joins a b TDouble -> exists c, Ev (bin o p q) ctx = Ok (bool_v c) /\ (c = true <-> r_rel o r s).
Proof.
  intros o p q ctx x y a b r s Ho Hp Hq Hx Hy J.
  destruct (compare_double e_set e_key o x y a b r s Ho Hx Hy J) as (f & c & Hf & Hv & K).
  exists c. split; [rewrite (lemma bin_eval o f p q _ _ ctx Hf Hp Hq); exact Hv|exact K].
Qed.
(** A Double that is not a number differs from all others and from itself, and is not ordered *)
Theorem C150_nan : forall o p q ctx f g, In o comparisons -> Ev p ctx = Ok (fl_v TDouble f) -> Ev q ctx = Ok (fl_v TDouble g) ->
  f = S754_nan \/ g = S754_nan -> Ev (bin o p q) ctx = Ok (bool_v (match o with ONe => true | _ => false end)).
Proof.
  intros o p q ctx f g Ho Hp Hq N.
  assert (P : PromoteTypes (Some TDouble) (Some TDouble) = Ok (Some TDouble)) by reflexivity.
  assert (PC : py_compare (Some (PX (XF f))) (Some (PX (XF g))) = Ok None) by (cbn [py_compare num_of]; destruct N as [-> | ->]; [|destruct f]; reflexivity).
  destruct (compare_computes (E := E) e_set e_key o (mkV (Some TDouble) (Some (PX (XF f)))) (mkV (Some TDouble) (Some (PX (XF g)))) TDouble _ _ _ _ _ Ho P eq_refl eq_refl eq_refl eq_refl eq_refl PC) as (h & Hf & R).
  rewrite (lemma bin_eval o h p q _ _ ctx Hf Hp Hq). unfold fl_v. rewrite R. destruct Ho as [<- |[<- |[<- |[<- |[<- |[<- |[]]]]]]]; reflexivity.
Qed.
Theorem C150_texts : forall o p q ctx s t, In o comparisons -> Ev p ctx = Ok (str_v s) -> Ev q ctx = Ok (str_v t) ->
  exists c, Ev (bin o p q) ctx = Ok (bool_v c) /\ (c = true <-> s_rel o s t).
Proof.
  intros o p q ctx s t Ho Hp Hq. destruct (compare_str (E := E) e_set e_key o s t Ho) as (f & c & Hf & Hv & K).
  exists c. split; [rewrite (lemma bin_eval o f p q _ _ ctx Hf Hp Hq); exact Hv|exact K].
Qed.
(** DateTime values that are complete: no 24:00 and no leap second *)
Theorem C150_dates_partial : forall o p q ctx a b i j, In o comparisons -> Ev p ctx = Ok (time_v a) -> Ev q ctx = Ok (time_v b) ->
  plain_time (p_time a) -> plain_time (p_time b) -> zone_of (p_time a) = None -> zone_of (p_time b) = None ->
  local a i -> local b j -> exists c, Ev (bin o p q) ctx = Ok (bool_v c) /\ (c = true <-> z_rel o i j).
Proof. exact (lemma compare_moments). Qed.
Theorem C150_guids : forall o p q ctx x y, In o comparisons ->
  Ev p ctx = Ok (DSimple E (mkV (Some TGuid) (Some (PX (XG x))))) -> Ev q ctx = Ok (DSimple E (mkV (Some TGuid) (Some (PX (XG y))))) ->
  exists c, Ev (bin o p q) ctx = Ok (bool_v c) /\ (c = true <-> z_rel o x y).
Proof. exact (lemma compare_guids). Qed.
(** ne is the opposite of eq, whatever the operands are *)
Theorem C150_ne : forall p q ctx,
  (forall d, Ev (bin OEq p q) ctx = Ok d -> exists b, d = bool_v b /\ Ev (bin ONe p q) ctx = Ok (bool_v (negb b))) /\
  (forall e, Ev (bin OEq p q) ctx = Err e -> Ev (bin ONe p q) ctx = Err e).
Proof.
  intros p q ctx. cbn [Evaluate bin]. destruct (Ev p ctx) as [x|e]; cbn [bind]; [|split; [discriminate|auto]]. destruct (Ev q ctx) as [y|e]; cbn [bind]; [|split; [discriminate|auto]].
  cbn [binary_method]. rewrite (ne_negates e_set e_key x y). split.
  - intros d H. destruct (eq_boolean e_set e_key x y d H) as (b & ->). exists b. split; [reflexivity|]. rewrite H. reflexivity.
  - intros e H. rewrite H. reflexivity.
Qed.

(** ** C151: and, or, not; filters *)
Theorem C151_and_or_partial : forall o p q ctx a b, In o [OAnd; OOr] -> Ev p ctx = Ok (bool_v a) -> Ev q ctx = Ok (bool_v b) ->
  Ev (bin o p q) ctx = Ok (bool_v (match o with OAnd => a && b | _ => a || b end)).
Proof. exact (lemma logic_bool). Qed.
Theorem C151_not : forall p ctx x b, Ev p ctx = Ok x -> truth_value x b ->
  Ev (un ONot p) ctx = Ok (match b with Some b => bool_v (negb b) | None => null_v (Some TBoolean) end).
Proof. exact (lemma not_bool). Qed.
(** An entity passes a filter of type Boolean if, and only if, the filter is true for it *)
Theorem C151_passes : forall f e d b, Ev f (Some (DEntity E e)) = Ok d -> d = bool_v b \/ (d = null_v (Some TBoolean) /\ b = false) ->
  CF (Some f) e = Ok b.
Proof. intros f e d b H [->|[-> ->]]; unfold CheckFilter; rewrite H; reflexivity. Qed.
Theorem C151_no_filter : forall e, CF None e = Ok true.
Proof. reflexivity. Qed.
(** A filter that is not a Boolean is refused, and an exception is not hidden *)
Theorem C151_refused : forall f e,
  (forall d, Ev f (Some (DEntity E e)) = Ok d -> (forall u, d <> DSimple E (mkV (Some TBoolean) u)) -> CF (Some f) e = Err ValueError) /\
  (forall x, Ev f (Some (DEntity E e)) = Err x -> CF (Some f) e = Err x).
Proof.
  intros f e. unfold CheckFilter. split.
  - intros d H N. rewrite H. cbn [bind]. destruct d as [[[[]|] u]| |]; try reflexivity. exfalso. apply (N u). reflexivity.
  - intros x H. rewrite H. reflexivity.
Qed.
(** two filters, one after the other, are the same as both in one *)
Theorem C151_both : forall f g e x y a b, Ev f (Some (DEntity E e)) = Ok x -> Ev g (Some (DEntity E e)) = Ok y ->
  truth_value x (Some a) \/ x = null_v (Some TBoolean) /\ a = false -> truth_value y (Some b) \/ y = null_v (Some TBoolean) /\ b = false ->
  CF (Some f) e = Ok a /\ CF (Some g) e = Ok b /\ CF (Some (bin OAnd f g)) e = Ok (a && b).
Proof.
  intros f g e x y a b Hf Hg X Y. split; [apply (C151_passes f e x a Hf X)|]. split; [apply (C151_passes g e y b Hg Y)|].
  destruct X as [X|[-> ->]], Y as [Y|[-> ->]]; cbn [truth_value] in *; subst; eapply C151_passes; try (left; reflexivity).
  - apply (C151_and_or_partial OAnd f g _ a b (or_introl eq_refl) Hf Hg).
  - rewrite (lemma logic_null OAnd f g _ _ _ (Some a) None (or_introl eq_refl) Hf Hg eq_refl (or_introl eq_refl) (or_intror eq_refl)). rewrite andb_false_r. reflexivity.
  - rewrite (lemma logic_null OAnd f g _ _ _ None (Some b) (or_introl eq_refl) Hf Hg (or_introl eq_refl) eq_refl (or_introl eq_refl)). reflexivity.
  - rewrite (lemma logic_null OAnd f g _ _ _ None None (or_introl eq_refl) Hf Hg (or_introl eq_refl) (or_introl eq_refl) (or_introl eq_refl)). reflexivity.
Qed.

(** ** C152: methods of texts *)
Theorem C152_tests : forall p q ctx s t, Ev p ctx = Ok (str_v s) -> Ev q ctx = Ok (str_v t) ->
  (exists b, Ev (call "endswith" [p; q]) ctx = Ok (bool_v b) /\ (b = true <-> exists u, s = u ++ t)) /\
  (exists b, Ev (call "startswith" [p; q]) ctx = Ok (bool_v b) /\ (b = true <-> exists u, s = t ++ u)) /\
  (exists b, Ev (call "substringof" [p; q]) ctx = Ok (bool_v b) /\ (b = true <-> exists u v, t = u ++ s ++ v)).
Proof.
  intros p q ctx s t Hp Hq. split; [|split].
  - exact (lemma endswith_v ctx p q s t Hp Hq).
  - exact (lemma startswith_v ctx p q s t Hp Hq).
  - exact (lemma substringof_v ctx p q s t Hp Hq).
Qed.
Theorem C152_places : forall p q ctx s t, Ev p ctx = Ok (str_v s) -> Ev q ctx = Ok (str_v t) -> Z.of_nat (List.length s) < 2 ^ 31 ->
  (exists i, Ev (call "indexof" [p; q]) ctx = Ok (int_v TInt32 i) /\ first_place t s i) /\
  Ev (call "length" [p]) ctx = Ok (int_v TInt32 (Z.of_nat (List.length s))).
Proof. intros p q ctx s t Hp Hq L. split; [exact (lemma indexof_v ctx p q s t Hp Hq L)|exact (lemma length_v ctx p s Hp L)]. Qed.
Theorem C152_changes_partial : forall p q r ctx s t w, Ev p ctx = Ok (str_v s) -> Ev q ctx = Ok (str_v t) -> Ev r ctx = Ok (str_v w) ->
  Ev (call "concat" [p; q]) ctx = Ok (str_v (s ++ t)) /\
  (t <> [] -> exists u, Ev (call "replace" [p; q; r]) ctx = Ok (str_v u) /\ replaced t w s u) /\
  (exists u, Ev (call "trim" [p]) ctx = Ok (str_v u) /\ trimmed space s u) /\
  Ev (call "tolower" [p]) ctx = Ok (str_v (map lower_char s)) /\ Ev (call "toupper" [p]) ctx = Ok (str_v (map upper_char s)).
Proof.
  intros p q r ctx s t w Hp Hq Hr. split; [exact (lemma concat_v ctx p q s t Hp Hq)|]. split; [exact (lemma replace_v ctx p q r s t w Hp Hq Hr)|].
  split; [exact (lemma trim_v ctx p s Hp)|]. split; [exact (lemma tolower_v ctx p s Hp)|exact (lemma toupper_v ctx p s Hp)].
Qed.
Theorem C152_substring_partial : forall p q r ctx s i n, Ev p ctx = Ok (str_v s) -> Ev q ctx = Ok (int_v TInt32 i) -> Ev r ctx = Ok (int_v TInt32 n) ->
  0 <= i -> 0 <= n ->
  Ev (call "substring" [p; q]) ctx = Ok (str_v (skipn (Z.to_nat i) s)) /\
  Ev (call "substring" [p; q; r]) ctx = Ok (str_v (firstn (Z.to_nat n) (skipn (Z.to_nat i) s))).
Proof. intros p q r ctx s i n Hp Hq Hr I N. split; [exact (lemma substring2_v ctx p q s i Hp Hq I)|exact (lemma substring3_v ctx p q r s i n Hp Hq Hr I N)]. Qed.

(** ** C153: round, floor and ceiling *)
Theorem C153_decimals : forall m P F p ctx x a r, In (m, P, F) roundings -> Ev p ctx = Ok x -> exact x a r -> In a [TInt16; TInt32; TInt64; TDecimal] ->
  exists d k, Ev (call m [p]) ctx = Ok (dec_v d) /\ (dec_value d == inject_Z k)%Q /\ P r k.
Proof. exact (lemma round_exact). Qed.
Theorem C153_doubles_partial : forall m P F p ctx x a r, In (m, P, F) roundings -> Ev p ctx = Ok x -> as_real x a r -> In a [TByte; TSingle; TDouble] ->
  exists z, Ev (call m [p]) ctx = Ok (fl_v TDouble z) /\ finite z /\ real z = IZR (F r).
Proof. exact (lemma round_double). Qed.

(** ** C154: parts of dates *)
Theorem C154_parts : forall name p ctx y m d h mi s, In name parts -> Ev p ctx = Ok (time_v (moment y m d h mi s)) ->
  valid_ymd y m d -> 0 <= h <= 24 -> 0 <= mi < 60 -> 0 <= s <= 60 ->
  exists n, part name y m d h mi s = Some n /\ Ev (call name [p]) ctx = Ok (int_v TInt32 n).
Proof. exact (lemma part_v). Qed.

(** ** C155: NULL *)
Theorem C155_arithmetic : forall o p q ctx a b t u w, In o [OAdd; OSub; OMul; ODiv; OMod] ->
  Ev p ctx = Ok (DSimple E (mkV a u)) -> Ev q ctx = Ok (DSimple E (mkV b w)) -> typed (mkV a u) -> typed (mkV b w) ->
  promoted a b t -> In t arithmetic_types -> u = None \/ w = None -> Ev (bin o p q) ctx = Ok (null_v (Some t)).
Proof. exact (lemma null_arith). Qed.
Theorem C155_relations_partial : forall o p q ctx a b t u w, In o [OLt; OGt; OLe; OGe] ->
  Ev p ctx = Ok (DSimple E (mkV a u)) -> Ev q ctx = Ok (DSimple E (mkV b w)) -> typed (mkV a u) -> typed (mkV b w) ->
  promoted a b t -> In t arithmetic_types -> u = None \/ w = None -> Ev (bin o p q) ctx = Ok (bool_v false).
Proof. exact (lemma null_relation). Qed.
Theorem C155_equality_partial : forall p q ctx a b t u w, Ev p ctx = Ok (DSimple E (mkV a u)) -> Ev q ctx = Ok (DSimple E (mkV b w)) ->
  typed (mkV a u) -> typed (mkV b w) -> promoted a b t -> In t (TString :: TGuid :: TBinary :: arithmetic_types) -> u = None \/ w = None ->
  exists c, Ev (bin OEq p q) ctx = Ok (bool_v c) /\ Ev (bin ONe p q) ctx = Ok (bool_v (negb c)) /\ (c = true <-> u = None /\ w = None).
Proof. exact (lemma null_eq). Qed.
Theorem C155_methods_partial : forall m ts r ps vs ctx, In (m, ts, r) signatures ->
  Forall2 (fun p v => Ev p ctx = Ok (DSimple E v)) ps vs -> Forall2 (fun t v => v_type v = Some t /\ typed v) ts vs ->
  Exists (fun v => v_val v = None) vs -> Ev (call m ps) ctx = Ok (null_v (Some r)).
Proof.
  intros m ts r ps vs ctx Hm Hp Ht Hx.
  rewrite (lemma method_eval m ps (map (DSimple E) vs) ctx (signature_found _ _ _ _ m ts r Hm)).
  - apply (signature_spec lower_char upper_char space E m ts r vs Hm Ht). exact Hx.
  - clear Ht Hx. induction Hp; constructor; assumption.
Qed.

(** ** C156: the types of values *)
Theorem C156_typed : forall e ctx d, literals typed e ->
  (forall x n y, property x n = Some (FData E y) -> well E y) -> (forall x, ctx = Some x -> well E x) -> Ev e ctx = Ok d -> well E d.
Proof. intros e ctx d L P W H. eapply (lemma evaluate_well); eassumption. Qed.
Theorem C156_methods : forall m ts r ps vs ctx d, In (m, ts, r) signatures ->
  Forall2 (fun p v => Ev p ctx = Ok (DSimple E v)) ps vs -> Forall2 (fun t v => v_type v = Some t /\ typed v) ts vs ->
  Ev (call m ps) ctx = Ok d -> exists u, d = DSimple E (mkV (Some r) u).
Proof.
  intros m ts r ps vs ctx d Hm Hp Ht Hd.
  rewrite (lemma method_eval m ps (map (DSimple E) vs) ctx (signature_found _ _ _ _ m ts r Hm)) in Hd.
  - apply (signature_spec lower_char upper_char space E m ts r vs Hm Ht). exact Hd.
  - clear Ht Hd. induction Hp; constructor; assumption.
Qed.

(** ** C157: members *)
Theorem C157_paths_partial : forall d n l d', (forall e, e_len e <> 0) -> path E property d (n :: l) d' -> Ev (path_expr n l) (Some d) = Ok d'.
Proof. exact (lemma path_v). Qed.

(** ** C158: isof and cast *)
Section Names.
Hypothesis printable : forall c, 33 <= c <= 126 -> space c = false.
Theorem C158_isof : forall p ctx a u t, Ev p ctx = Ok (DSimple E (mkV (Some a) u)) ->
  exists b, Ev (bin OIsof p (type_text t)) ctx = Ok (bool_v b) /\ (b = true <-> u <> None /\ (a = t \/ wider a t)).
Proof. intros. eapply (lemma isof_v); eassumption. Qed.
Theorem C158_cast_exact : forall p ctx x a t q, Ev p ctx = Ok x -> exact x a q -> a = t \/ wider a t ->
  (t = TByte \/ t = TSByte \/ t = TInt16 \/ t = TInt32 \/ t = TInt64) \/ t = TDecimal ->
  exists y q', Ev (bin OCast p (type_text t)) ctx = Ok y /\ exact y t q' /\ (q' == q)%Q.
Proof. intros. eapply (lemma cast_exact); eassumption. Qed.
Theorem C158_cast_double : forall p ctx x a r, Ev p ctx = Ok x -> as_real x a r -> a = TDouble \/ wider a TDouble ->
  exists z, Ev (bin OCast p (type_text TDouble)) ctx = Ok (fl_v TDouble z) /\ valid z /\ finite z /\ real z = r.
Proof. intros. eapply (lemma cast_double); eassumption. Qed.
Theorem C158_cast_single : forall p ctx x a q, Ev p ctx = Ok x -> exact x a q -> wider a TSingle ->
  exists z, Ev (bin OCast p (type_text TSingle)) ctx = Ok (fl_v TSingle z) /\ valid z /\ finite z /\ real z = rnd (Q2R q).
Proof. intros. eapply (lemma cast_single); eassumption. Qed.
Theorem C158_cast_same : forall p ctx t u, Ev p ctx = Ok (DSimple E (mkV (Some t) (Some u))) -> of_type t u ->
  In t [TString; TBinary; TBoolean; TGuid] -> Ev (bin OCast p (type_text t)) ctx = Ok (DSimple E (mkV (Some t) (Some u))).
Proof. intros. eapply (lemma cast_same); eassumption. Qed.
Theorem C158_cast_null : forall p ctx x t, Ev p ctx = Ok (null_v x) -> Ev (bin OCast p (type_text t)) ctx = Ok (null_v (Some t)).
Proof. intros. eapply (lemma cast_null); eassumption. Qed.
Theorem C158_cast_refused : forall p ctx a u t, Ev p ctx = Ok (DSimple E (mkV (Some a) (Some u))) -> a <> t -> ~ wider a t ->
  Ev (bin OCast p (type_text t)) ctx = Err EvaluationError.
Proof. intros. eapply (lemma cast_refused); eassumption. Qed.
End Names.
Theorem C158_entities : forall p e n, e_len e <> 0 -> Ev p (Some (DEntity E e)) = Ok (str_v n) ->
  (exists b, Ev (EOp false OIsof [Some p]) (Some (DEntity E e)) = Ok (bool_v b) /\ (b = true <-> e_type e = n)) /\
  (e_type e = n -> Ev (EOp false OCast [Some p]) (Some (DEntity E e)) = Ok (DEntity E e)) /\
  (e_type e <> n -> Ev (EOp false OCast [Some p]) (Some (DEntity E e)) = Err EvaluationError).
Proof. intros p e n L Hp. split; [eapply (lemma isof_entity); eauto|eapply (lemma cast_entity); eauto]. Qed.
End Props.

(** ** An instance: an entity with a number, a text, a NULL and a neighbour *)
Inductive demo := Here | There.
Definition demo_prop (e : demo) (n : str) : option (field demo) :=
  if str_eqb n (lit "n") then Some (FData demo (int_v TInt32 (match e with Here => 7 | There => 8 end)))
  else if str_eqb n (lit "s") then Some (FData demo (str_v (lit "a b")))
  else if str_eqb n (lit "z") then Some (FData demo (null_v (Some TString)))
  else if str_eqb n (lit "c") then Some (FData demo (DComplex demo [(lit "x", bool_v true); (lit "y", int_v TInt64 5)]))
  else if str_eqb n (lit "next") then Some (FOne demo (Ok (match e with Here => Some There | There => None end)))
  else if str_eqb n (lit "all") then Some (FMany demo)
  else None.
Definition Ev0 := Evaluate (fun c => c) (fun c => c) (fun c => c =? 32) demo demo_prop (fun _ => 6) (fun _ => lit "Demo.T") (fun _ => 0) (fun _ => Ok []).
Definition CF0 := CheckFilter (fun c => c) (fun c => c) (fun c => c =? 32) demo demo_prop (fun _ => 6) (fun _ => lit "Demo.T") (fun _ => 0) (fun _ => Ok []).
Definition here := Some (DEntity demo Here).
Definition n_ := EProp (X := ext) (lit "n").
Definition int_ (t : edm_type) (n : Z) : expr ext := ELit (mkV (Some t) (Some (PInt n))).
Definition dec_ (c e : Z) : expr ext := ELit (mkV (Some TDecimal) (Some (PX (XD (mkDec c e))))).
Definition fl_ (m : Z) (e : Z) : expr ext := ELit (mkV (Some TDouble) (Some (PX (XF (SpecFloat.binary_normalize 53 1024 m e false))))).
Definition str_ (s : str) : expr ext := ELit (mkV (Some TString) (Some (PStr s))).
Definition bool_ (b : bool) : expr ext := ELit (mkV (Some TBoolean) (Some (PBool b))).
Definition null_ (t : option edm_type) : expr ext := ELit (mkV t None).
Definition time_ (p : timepoint) : expr ext := ELit (mkV (Some TDateTime) (Some (PX (XT p)))).

(** *** The hypotheses of the theorems can be met *)
Example C147_ex : joins TInt16 TDecimal TDecimal /\ (forall t, ~ joins TString TInt32 t) /\ Ev0 (bin OAdd (str_ (lit "a")) n_) here = Err EvaluationError.
Proof.
  split; [right; left; split; [exists [TByte], [TInt32; TInt64], [TSingle; TDouble]; reflexivity|reflexivity]|]. split; [|reflexivity].
  intros t J. apply promote_joins in J. discriminate J.
Qed.
Example C148_ex : Ev0 (bin OAdd n_ (int_ TInt64 3000000000)) here = Ok (int_v TInt64 3000000007) /\ Ev0 (bin OMul n_ (int_ TInt32 2000000000)) here = Err ValueError /\
  Ev0 (bin OSub (dec_ 15 (-1)) n_) here = Ok (dec_v (mkDec (-55) (-1))) /\ Ev0 (bin OAdd (fl_ 3 (-1)) (dec_ 5 (-1))) here = Ev0 (fl_ 2 0) here /\
  Ev0 (un ONegate (int_ TByte 5)) here = Ok (int_v TInt32 (-5)).
Proof. repeat split; vm_compute; reflexivity. Qed.
Example C149_mod_decimals_ex : exists d, Ev0 (bin OMod (dec_ 75 (-1)) (dec_ 2 0)) here = Ok (dec_v d) /\ (dec_value d == 3 # 2)%Q.
Proof. eexists. split; vm_compute; reflexivity. Qed.
Example C149_ex : Ev0 (bin ODiv (int_ TInt32 (-7)) (int_ TInt32 2)) here = Ok (int_v TInt32 (-3)) /\ Ev0 (bin OMod (int_ TInt32 (-7)) (int_ TInt32 2)) here = Ok (int_v TInt32 (-1)) /\
  Ev0 (bin ODiv n_ (int_ TInt32 0)) here = Err EvaluationError /\ Ev0 (bin ODiv (dec_ 1 0) (dec_ 8 0)) here = Ok (dec_v (mkDec 125 (-3))) /\
  Ev0 (bin OMod (fl_ 11 (-1)) (fl_ 1 1)) here = Ev0 (fl_ 3 (-1)) here.
Proof. repeat split; vm_compute; reflexivity. Qed.
Example C150_ex : Ev0 (bin OLt n_ (dec_ 75 (-1))) here = Ok (bool_v true) /\ Ev0 (bin OGe (str_ (lit "b")) (EProp (lit "s"))) here = Ok (bool_v true) /\
  Ev0 (bin OGt (fl_ 1 (-1)) (int_ TInt32 0)) here = Ok (bool_v true) /\
  Ev0 (bin OLt (time_ (moment 2012 2 29 23 59 59)) (time_ (moment 2012 3 1 0 0 0))) here = Ok (bool_v true).
Proof. repeat split; vm_compute; reflexivity. Qed.
Example C150_nan_ex : let nan := ELit (mkV (Some TDouble) (Some (PX (XF S754_nan)))) in
  Ev0 nan here = Ok (fl_v TDouble S754_nan) /\ Ev0 (bin ONe nan nan) here = Ok (bool_v true) /\ Ev0 (bin OGe nan (fl_ 1 0)) here = Ok (bool_v false).
Proof. repeat split; vm_compute; reflexivity. Qed.
Example C150_local_ex : exists i j, local (moment 2012 2 29 23 59 59) i /\ local (moment 2012 3 1 0 0 0) j /\ j = i + 1.
Proof.
  assert (V : valid_ymd 2012 2 29) by (repeat split; vm_compute; discriminate). assert (W : valid_ymd 2012 3 1) by (repeat split; vm_compute; discriminate).
  do 2 eexists. split; [|split].
  - exists 2012, 2, 29, (absn 2012 2 29). split; [reflexivity|]. split; [exact V|]. split; [apply IsoProofs2.gregorian_valid; exact V|reflexivity].
  - exists 2012, 3, 1, (absn 2012 3 1). split; [reflexivity|]. split; [exact W|]. split; [apply IsoProofs2.gregorian_valid; exact W|reflexivity].
  - vm_compute. reflexivity.
Qed.
Example C151_ex : CF0 (Some (bin OAnd (bin OGt n_ (int_ TInt32 5)) (un ONot (bin OEq (EProp (lit "s")) (str_ (lit "x")))))) Here = Ok true /\
  CF0 (Some n_) Here = Err ValueError /\ CF0 (Some (un ONot (null_ (Some TBoolean)))) Here = Ok false.
Proof. repeat split; vm_compute; reflexivity. Qed.
Example C152_ex : Ev0 (call "indexof" [EProp (lit "s"); str_ (lit "b")]) here = Ok (int_v TInt32 2) /\
  Ev0 (call "replace" [str_ (lit "aaa"); str_ (lit "aa"); str_ (lit "b")]) here = Ok (str_v (lit "ba")) /\
  Ev0 (call "trim" [str_ (lit "  a b ")]) here = Ok (str_v (lit "a b")) /\
  Ev0 (call "substring" [str_ (lit "abcd"); int_ TInt32 1; int_ TInt32 2]) here = Ok (str_v (lit "bc")).
Proof. repeat split; vm_compute; reflexivity. Qed.
Example C153_ex : Ev0 (call "round" [dec_ (-25) (-1)]) here = Ok (dec_v (mkDec (-3) 0)) /\ Ev0 (call "floor" [dec_ (-25) (-1)]) here = Ok (dec_v (mkDec (-3) 0)) /\
  Ev0 (call "ceiling" [fl_ (-5) (-1)]) here = Ev0 (fl_ (-2) 0) here /\ Ev0 (call "round" [int_ TInt16 4]) here = Ok (dec_v (mkDec 4 0)).
Proof. repeat split; vm_compute; reflexivity. Qed.
Example C154_ex : valid_ymd 2012 2 29 /\ map (fun m => Ev0 (call m [time_ (moment 2012 2 29 13 14 15)]) here) parts =
  map (fun n => Ok (int_v TInt32 n)) [2012; 2; 29; 13; 14; 15].
Proof. split; [repeat split; vm_compute; discriminate|vm_compute; reflexivity]. Qed.
Example C155_ex : Ev0 (bin OAdd (null_ (Some TInt64)) n_) here = Ok (null_v (Some TInt64)) /\ Ev0 (bin OLt (null_ None) n_) here = Ok (bool_v false) /\
  Ev0 (bin OEq (EProp (lit "z")) (null_ None)) here = Ok (bool_v true) /\ Ev0 (call "length" [EProp (lit "z")]) here = Ok (null_v (Some TInt32)).
Proof. repeat split; vm_compute; reflexivity. Qed.
Example C156_ex : literals typed (bin OAdd n_ (int_ TInt64 3)) /\ (forall x n y, demo_prop x n = Some (FData demo y) -> well demo y) /\ well demo (DEntity demo Here).
Proof.
  split; [|split; [|constructor]].
  - apply L_op. intros e [H|[H|[]]]; injection H as <-; constructor. unfold typed. cbn. lia.
  - intros x n y. unfold demo_prop. repeat (destruct (str_eqb _ _)); try discriminate; intros H; injection H as <-; repeat constructor; unfold typed; cbn; destruct x; lia.
Qed.
Example C157_ex : path demo demo_prop (DEntity demo Here) [lit "next"; lit "c"; lit "y"] (int_v TInt64 5) /\
  Ev0 (path_expr (lit "next") [lit "c"; lit "y"]) here = Ok (int_v TInt64 5).
Proof.
  split; [|vm_compute; reflexivity]. eapply P_step; [eapply M_one; reflexivity|]. eapply P_step; [eapply M_data; reflexivity|]. apply P_end.
  apply (M_field demo demo_prop [(lit "x", bool_v true)] []). intros p [<-|[]]. discriminate.
Qed.
Example C158_ex : (forall c, 33 <= c <= 126 -> (c =? 32) = false) /\ Ev0 (bin OIsof n_ (type_text TInt64)) here = Ok (bool_v true) /\
  Ev0 (bin OIsof (int_ TInt64 1) (type_text TInt32)) here = Ok (bool_v false) /\ Ev0 (bin OCast n_ (type_text TDecimal)) here = Ok (dec_v (mkDec 7 0)) /\
  Ev0 (EOp false OIsof [Some (str_ (lit "Demo.T"))]) here = Ok (bool_v true).
Proof. repeat split; try (vm_compute; reflexivity). intros c H. destruct (Z.eqb_spec c 32); [lia|reflexivity]. Qed.

(** *** What does not hold *)
(** Two Byte or Int16 operands are refused, though they are promoted to their own type *)
Theorem C148_bytes_refuted : Forall (fun t => joins t t t /\ in_type t 1 /\ in_type t 2 /\
  Ev0 (bin OAdd (int_ t 1) (int_ t 2)) here = Err EvaluationError /\ Ev0 (bin OLt (int_ t 1) (int_ t 2)) here = Err EvaluationError /\
  Ev0 (bin OEq (int_ t 1) (int_ t 1)) here = Err EvaluationError) [TByte; TInt16; TSByte].
Proof. repeat constructor; try (vm_compute; reflexivity); try (vm_compute; discriminate); left; split; reflexivity. Qed.
(** A Decimal of 29 digits is changed when 0 is added to it, and negation changes its size *)
Theorem C148_digits_refuted : let d := mkDec (10 ^ 28 + 1) 0 in dec_ok d /\
  (exists d', Ev0 (bin OAdd (dec_ (10 ^ 28 + 1) 0) (dec_ 0 0)) here = Ok (dec_v d') /\ ~ (dec_value d' == dec_value d)%Q) /\
  (exists d', Ev0 (un ONegate (dec_ (10 ^ 28 + 1) 0)) here = Ok (dec_v d') /\ ~ (dec_value d' == - dec_value d)%Q).
Proof.
  split; [split; vm_compute; discriminate|]. split.
  - eexists. split; [vm_compute; reflexivity|]. vm_compute. discriminate.
  - eexists. split; [vm_compute; reflexivity|]. vm_compute. discriminate.
Qed.
(** Integers beyond 53 bits: the quotient and the remainder go through floats *)
Theorem C149_int64_refuted : in_type TInt64 9007199254740993 /\
  Ev0 (bin ODiv (int_ TInt64 9007199254740993) (int_ TInt64 1)) here = Ok (int_v TInt64 9007199254740992) /\
  Ev0 (bin OMod (int_ TInt64 9007199254740993) (int_ TInt64 2)) here = Ok (int_v TInt64 0).
Proof. repeat split; vm_compute; try reflexivity; discriminate. Qed.
(** The remainder of two Decimals is that of two floats; 0 div 0 raises InvalidOperation *)
Theorem C149_decimals_refuted :
  (exists d, Ev0 (bin OMod (dec_ 1 0) (dec_ 1 (-1))) here = Ok (dec_v d) /\ ~ (dec_value d == 0)%Q) /\
  Ev0 (bin ODiv (dec_ 0 0) (dec_ 0 0)) here = Err InvalidOperation.
Proof. split; [eexists; split; [vm_compute; reflexivity|vm_compute; discriminate]|vm_compute; reflexivity]. Qed.
(** Booleans, times with a zone and times of day are not compared at all *)
Theorem C150_types_refuted : Ev0 (bin OEq (bool_ true) (bool_ true)) here = Err EvaluationError /\
  Ev0 (bin OEq (ELit (mkV (Some TTime) (Some (PX (XC (mkTime 1 (Some 2) (Some 3) None None)))))) (ELit (mkV (Some TTime) (Some (PX (XC (mkTime 1 (Some 2) (Some 3) None None))))))) here = Err EvaluationError /\
  (let p := mkTP (of_ymd 2012 2 29) (mkTime 1 (Some 2) (Some 3) (Some 0) (Some 0)) in
   Ev0 (bin OEq (ELit (mkV (Some TDateTimeOffset) (Some (PX (XT p))))) (ELit (mkV (Some TDateTimeOffset) (Some (PX (XT p)))))) here = Err EvaluationError).
Proof. repeat split; vm_compute; reflexivity. Qed.
(** An Int64 and a Double are compared as Doubles: two numbers that differ are equal *)
Theorem C150_int64_refuted : Ev0 (bin OEq (int_ TInt64 9007199254740993) (fl_ 9007199254740992 0)) here = Ok (bool_v true).
Proof. vm_compute. reflexivity. Qed.
(** NULL is less than every text, and an absent date is 0001-01-01 *)
Theorem C155_texts_refuted : Ev0 (bin OGt (str_ (lit "a")) (null_ None)) here = Ok (bool_v true) /\
  Ev0 (bin OLt (EProp (lit "z")) (str_ [])) here = Ok (bool_v true) /\
  Ev0 (bin OEq (time_ (moment 1 1 1 0 0 0)) (null_ None)) here = Ok (bool_v true).
Proof. repeat split; vm_compute; reflexivity. Qed.
(** some methods refuse a NULL without a type; the third argument of substring may be NULL *)
Theorem C155_methods_refuted : Ev0 (call "length" [null_ None]) here = Err EvaluationError /\ Ev0 (call "year" [null_ None]) here = Err EvaluationError /\
  Ev0 (call "trim" [null_ None]) here = Ok (null_v (Some TString)) /\
  Ev0 (call "substring" [str_ (lit "abc"); int_ TInt32 1; null_ (Some TInt32)]) here = Ok (str_v (lit "bc")).
Proof. repeat split; vm_compute; reflexivity. Qed.
(** [true or null] is false; a filter that is NULL without a type is refused *)
Theorem C151_or_null_refuted : CF0 (Some (bool_ true)) Here = Ok true /\ CF0 (Some (bin OOr (bool_ true) (null_ (Some TBoolean)))) Here = Ok false /\
  CF0 (Some (null_ None)) Here = Err ValueError.
Proof. repeat split; vm_compute; reflexivity. Qed.
(** A negative start counts from the end *)
Theorem C152_negative_refuted : Ev0 (call "substring" [str_ (lit "abcd"); int_ TInt32 (-1)]) here = Ok (str_v (lit "d")) /\
  Ev0 (call "substring" [str_ (lit "abcd"); int_ TInt32 (-3); int_ TInt32 3]) here = Ok (str_v []).
Proof. repeat split; vm_compute; reflexivity. Qed.
(** The same number is rounded in two ways *)
Theorem C153_round_refuted : Ev0 (bin OEq (dec_ 25 (-1)) (fl_ 5 (-1))) here = Ok (bool_v true) /\
  Ev0 (bin OEq (call "round" [dec_ 25 (-1)]) (int_ TInt32 3)) here = Ok (bool_v true) /\
  Ev0 (bin OEq (call "round" [fl_ 5 (-1)]) (int_ TInt32 2)) here = Ok (bool_v true).
Proof. repeat split; vm_compute; reflexivity. Qed.
(** An unknown name is a KeyError, and the members of an absent entity are not NULL but refused *)
Theorem C157_absent_refuted : Ev0 (EProp (lit "nobody")) here = Err KeyError /\
  Ev0 (path_expr (lit "next") [lit "next"]) here = Ok (null_v None) /\
  Ev0 (path_expr (lit "next") [lit "next"; lit "n"]) here = Err EvaluationError.
Proof. repeat split; vm_compute; reflexivity. Qed.

Print Assumptions C147_promotes.
Print Assumptions C147_null.
Print Assumptions C147_mismatch.
Print Assumptions C148_integers_partial.
Print Assumptions C148_decimals_partial.
Print Assumptions C148_doubles.
Print Assumptions C148_negate_integers.
Print Assumptions C148_negate_decimals_partial.
Print Assumptions C148_negate_doubles.
Print Assumptions C149_integers_partial.
Print Assumptions C149_integers_zero.
Print Assumptions C149_decimals_partial.
Print Assumptions C149_doubles.
Print Assumptions C149_mod_decimals_partial.
Print Assumptions C150_numbers_partial.
Print Assumptions C150_doubles.
Print Assumptions C150_nan.
Print Assumptions C150_texts.
Print Assumptions C150_dates_partial.
Print Assumptions C150_guids.
Print Assumptions C150_ne.
Print Assumptions C151_and_or_partial.
Print Assumptions C151_not.
Print Assumptions C151_passes.
Print Assumptions C151_no_filter.
Print Assumptions C151_refused.
Print Assumptions C151_both.
Print Assumptions C152_tests.
Print Assumptions C152_places.
Print Assumptions C152_changes_partial.
Print Assumptions C152_substring_partial.
Print Assumptions C153_decimals.
Print Assumptions C153_doubles_partial.
Print Assumptions C154_parts.
Print Assumptions C155_arithmetic.
Print Assumptions C155_relations_partial.
Print Assumptions C155_equality_partial.
Print Assumptions C155_methods_partial.
Print Assumptions C156_typed.
Print Assumptions C156_methods.
Print Assumptions C157_paths_partial.
Print Assumptions C158_isof.
Print Assumptions C158_cast_exact.
Print Assumptions C158_cast_double.
Print Assumptions C158_cast_single.
Print Assumptions C158_cast_same.
Print Assumptions C158_cast_null.
Print Assumptions C158_cast_refused.
Print Assumptions C158_entities.
Print Assumptions C148_bytes_refuted.
Print Assumptions C148_digits_refuted.
Print Assumptions C149_int64_refuted.
Print Assumptions C149_decimals_refuted.
Print Assumptions C150_types_refuted.
Print Assumptions C150_int64_refuted.
Print Assumptions C155_texts_refuted.
Print Assumptions C155_methods_refuted.
Print Assumptions C151_or_null_refuted.
Print Assumptions C152_negative_refuted.
Print Assumptions C153_round_refuted.
Print Assumptions C157_absent_refuted.
