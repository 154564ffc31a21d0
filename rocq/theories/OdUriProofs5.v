(** Query options and keys that are written and read again. *)
From Verif Require Import Py Iso Dec Shapes XmlChars Xsd Imscp Uri UriSpec UriProofs UriProofs2 ImscpProofs XsdSpec XsdProofs2 OdExpr OdExprSpec OdExprProofs OdExprProofs2.
From Verif Require Import OdUri OdUriSpec OdUriProofs OdUriProofs4.
Open Scope Z_scope.
Open Scope list_scope.
Notation join := OdExpr.join.

(** ** Characters *)
Definition uric (c : Z) : Prop := IsUnreserved c = true \/ IsReserved c = true.
Lemma uric_ascii c : uric c -> 0 <= c < 128 /\ c <> 37 /\ c <> 32.
Proof. unfold uric, IsUnreserved, IsReserved, IsAlphaNum, IsUpAlpha, IsLowAlpha, IsDigit, IsMark. cbn [mem existsb]. intros H. lia. Qed.
Lemma uric_uok s : Forall uric s -> uok s.
Proof. induction 1 as [|c s H F IH]; constructor; [destruct H as [-> | ->]; auto using orb_true_r|exact IH]. Qed.
Lemma uric_unescape s t : Forall uric s -> UnescapeData (s ++ t) = s ++ UnescapeData t.
Proof.
  induction 1 as [|c s H F IH]; [reflexivity|]. unfold UnescapeData in *. cbn [app unescape_loop]. apply uric_ascii in H.
  replace (c =? 37) with false by lia. now rewrite IH.
Qed.
Lemma uric_unescaped s : Forall uric s -> unescaped s = Ok s.
Proof.
  intros H. unfold unescaped. rewrite <- (app_nil_r s), uric_unescape, app_nil_r by exact H. cbn [UnescapeData unescape_loop]. rewrite app_nil_r.
  apply utf8_ascii. apply Forall_impl with (2 := H). intros c Hc. now apply uric_ascii in Hc.
Qed.
Lemma simple_reserved c : simple_char c -> IsReserved c = false.
Proof. unfold simple_char, IsUnreserved, IsReserved, IsAlphaNum, IsUpAlpha, IsLowAlpha, IsDigit, IsMark. cbn [mem existsb]. intros H. lia. Qed.
Lemma simple_escape s : Forall simple_char s -> EscapeData IsReserved s = s.
Proof.
  induction 1 as [|c s H F IH]; [reflexivity|]. cbn [EscapeData]. rewrite (simple_reserved c H). unfold simple_char in H. rewrite H, IH. reflexivity.
Qed.
Lemma simple_uric c : simple_char c -> uric c. Proof. now left. Qed.
Lemma not_in_simple c s : IsUnreserved c = false -> Forall simple_char s -> ~ In c s.
Proof. intros H F I. rewrite Forall_forall in F. apply F in I. unfold simple_char in I. congruence. Qed.

Lemma cut_at_app c s t : ~ In c s -> cut_at c (s ++ c :: t) = Some (s, t).
Proof.
  induction s as [|x s IH]; intros H; cbn [app cut_at].
  - now rewrite Z.eqb_refl.
  - replace (x =? c) with false by (destruct (Z.eqb_spec x c); [subst; exfalso; apply H; now left|reflexivity]).
    rewrite IH; [reflexivity|]. intros I. apply H. now right.
Qed.
Lemma cut_at_none c s : ~ In c s -> cut_at c s = None.
Proof.
  induction s as [|x s IH]; intros H; cbn [cut_at]; [reflexivity|].
  replace (x =? c) with false by (destruct (Z.eqb_spec x c); [subst; exfalso; apply H; now left|reflexivity]).
  rewrite IH; [reflexivity|]. intros I. apply H. now right.
Qed.
Lemma join_split x l : l <> [] -> Forall (fun p => ~ In x p) l -> split_on x (join [x] l) = l.
Proof.
  intros N H. induction H as [|p l Hp H IH]; [contradiction|]. destruct l as [|q l]; cbn [join].
  - now apply split_no.
  - cbn [app]. rewrite split_app_no by exact Hp. f_equal. apply IH. discriminate.
Qed.
Lemma not_dollar c (A : Type) (f : str -> A) (g : str -> A) s : c <> 36 -> match c :: s with 36 :: s' => f s' | l => g l end = g (c :: s).
Proof. intros H. destruct c as [|c|c]; try reflexivity. do 6 (destruct c as [c|c|]; try reflexivity). congruence. Qed.
Lemma not_dollar2 c (A : Type) (f : A) (g : A) (s : str) : c <> 36 -> match c :: s with 36 :: _ => f | _ => g end = g.
Proof. intros H. destruct c as [|c|c]; try reflexivity. do 6 (destruct c as [c|c|]; try reflexivity). congruence. Qed.

(** ** URIs with an absolute path *)
Definition abs_path (a : str) : Prop := exists c t, a = 47 :: c :: t /\ c <> 47 /\ ~ In 63 (c :: t).
Lemma uri_abs a q : abs_path a -> uok a -> uok (opt_app [63] q) -> exists u, Uri.URI (a ++ opt_app [63] q) = Ok u /\ absPath u = Some a /\ Uri.query u = q.
Proof.
  intros (c & t & -> & Hc & Hq) Ha Hu. pose proof (URI_intro ((47 :: c :: t) ++ opt_app [63] q) None) as K. unfold frag_text in K. cbn [opt_app] in K.
  rewrite app_nil_r in K. rewrite K by (apply uok_app; assumption). eexists. split; [reflexivity|]. unfold parse_oct.
  assert (ParseScheme ((47 :: c :: t) ++ opt_app [63] q) = None) as -> by reflexivity.
  assert (ParseRelativeURI ((47 :: c :: t) ++ opt_app [63] q) = mkComps None None (Some (47 :: c :: t)) None q) as ->.
  { change (ParseRelativeURI ((47 :: c :: t) ++ opt_app [63] q)) with (Uri.path_loop PSlash ((c :: t) ++ opt_app [63] q) no_comps).
    apply path_loop_slash; [exact Hq|congruence]. }
  split; reflexivity.
Qed.

Section RoundTrip.
Context {X : Type}.
Variable number : edm_type -> numeric -> result X.
Variable quoted : edm_type -> str -> result (X * str).
Variable show : edm_type -> X -> str.
Variable start id : Z -> bool.
Hypothesis Hcl : classes start id.
Variable V : Type.
Variable read_option : sysopt -> str -> result V.
Notation value := (value X).
Notation mkPath := (mkPath X).
Notation mkQuery := (mkQuery V).
Notation mkRequest := (mkRequest X V).
Notation ODataURI_text := (ODataURI_text X number quoted start id V read_option).
Notation server_request := (server_request X number quoted start id V read_option).
Notation option_value := (option_value start id V read_option).
Notation read_query := (read_query start id V read_option).
Notation query_loop := (query_loop start id V read_option).
Notation query_step := (query_step start id V read_option).
Notation RawLiteral := (RawLiteral X number quoted start id).
Notation SplitSegment := (SplitSegment X number quoted start id).
Notation key_loop := (key_loop X number quoted start id).
Notation literal_text := (literal_text X show).
Notation location_path := (location_path X show).
Notation read_path := (read_path X number quoted start id).

Lemma read_uri prefix r q a qq p : a = prefix ++ r -> abs_path a -> uok a -> uok (opt_app [63] q) ->
  read_query q = UOk qq -> read_path r = UOk p -> check_options X V p qq = UOk tt ->
  ODataURI_text (a ++ opt_app [63] q) prefix = UOk (mkRequest (Some r) p qq).
Proof.
  intros -> Ha Hu Hq Q P C. destruct (uri_abs _ q Ha Hu Hq) as (u & E & Ea & Eq). unfold OdUri.ODataURI_text. rewrite E. cbn [lift ubind].
  unfold ODataURI. rewrite Ea. cbn [ubind]. rewrite Ea, Eq. rewrite firstn_length_app, str_eqb_refl. cbn [negb]. rewrite skipn_length_app, Q. cbn [ubind].
  rewrite P. cbn [ubind]. rewrite C. reflexivity.
Qed.

(** ** Query options *)
Notation good := code_points.
Lemma unescaped_escape s : good s -> unescaped (EscapeData IsReserved (utf8 s)) = Ok s.
Proof. intros H. unfold unescaped. rewrite unescape_escape by (apply utf8_octets, H). now apply utf8_round. Qed.
Lemma escape_no c s : good s -> IsReserved c = true -> ~ In c (EscapeData IsReserved (utf8 s)).
Proof.
  intros H R I. apply escape_clean in I; [|apply utf8_octets, H]. destruct I as [-> |[I|[I _]]]; [discriminate| |congruence].
  apply hex_digit_iff in I. unfold IsHex, IsReserved, IsDigit in *. cbn [mem existsb] in R. lia.
Qed.
Lemma escape_uok s : is_octets s -> uok (EscapeData IsReserved s).
Proof.
  induction 1 as [|c s Hc Hs IH]; [constructor|]. cbn [EscapeData]. destruct (IsReserved c || negb (IsUnreserved c || IsReserved c)) eqn:E.
  - unfold pct. cbn [app]. constructor; [apply hexdigit_IsHex|apply hexdigit_IsHex|exact IH].
    + split; [apply Z.div_pos; lia|apply Z.div_lt_upper_bound; lia].
    + apply Z.mod_pos_bound. lia.
  - constructor; [|exact IH]. destruct (IsReserved c); [reflexivity|]. cbn in *. destruct (IsUnreserved c); [reflexivity|discriminate].
Qed.
Lemma name_simple o : Forall simple_char (sysopt_name o). Proof. destruct o; repeat constructor. Qed.
Lemma sysopt_of_name o : sysopt_of (sysopt_name o) = Ok o. Proof. destruct o; reflexivity. Qed.
Lemma set_opt_new o v d : ~ In o (map fst d) -> set_opt V o v d = d ++ [(o, v)].
Proof.
  induction d as [|[m w] d IH]; intros H; cbn [set_opt app]; [reflexivity|].
  destruct (sysopt_eqb m o) eqn:E; [exfalso; apply H; left; now apply sysopt_eqb_iff in E|]. rewrite IH; [reflexivity|]. intros I. apply H. now right.
Qed.
Definition opt_text (p : sysopt * str) : str := 36 :: sysopt_name (fst p) ++ 61 :: EscapeData IsReserved (utf8 (snd p)).
Lemma step_option qs o s x : good s -> option_value o s = Ok x -> ~ In o (map fst qs) ->
  query_step (mkQuery qs [] []) (opt_text (o, s)) = UOk (mkQuery (qs ++ [(o, x)]) [] []).
Proof.
  intros G E N. unfold opt_text, OdUri.query_step. cbn [fst snd]. rewrite cut_at_app by (apply not_in_simple; [reflexivity|apply name_simple]).
  rewrite (uric_unescaped (sysopt_name o)) by (apply Forall_impl with (2 := name_simple o), simple_uric). cbn [lift ubind]. rewrite unescaped_escape by exact G. cbn [lift ubind].
  unfold OdUri.ParseSystemQueryOption. rewrite sysopt_of_name. cbn [bind]. rewrite E. cbn [bind ubind q_sys q_other q_params]. now rewrite set_opt_new.
Qed.
Lemma loop_options l xs : Forall2 (fun p x => good (snd p) /\ option_value (fst p) (snd p) = Ok x) l xs -> forall qs, NoDup (map fst qs ++ map fst l) ->
  query_loop (mkQuery qs [] []) (map opt_text l) = UOk (mkQuery (qs ++ combine (map fst l) xs) [] []).
Proof.
  induction 1 as [|[o s] x l xs [G E] F IH]; intros qs N; cbn [map OdUri.query_loop fst snd combine] in *; [now rewrite app_nil_r|].
  rewrite (step_option qs o s x G E) by (apply NoDup_remove_2 in N; rewrite in_app_iff in N; tauto). cbn [ubind]. rewrite IH.
  - now rewrite <- app_assoc.
  - rewrite map_app, <- app_assoc. exact N.
Qed.
Theorem query_round l xs : l <> [] -> NoDup (map fst l) -> Forall2 (fun p x => good (snd p) /\ option_value (fst p) (snd p) = Ok x) l xs ->
  read_query (Some (FormatSysQueryOptions l)) = UOk (mkQuery (combine (map fst l) xs) [] []).
Proof.
  intros N D F. unfold OdUri.read_query, FormatSysQueryOptions. fold opt_text. change (fun p => 36 :: _) with opt_text. rewrite join_split.
  - now rewrite (loop_options l xs F []).
  - destruct l; [contradiction|discriminate].
  - apply Forall_forall. intros t I. apply in_map_iff in I. destruct I as ([o s] & <- & I).
    assert (good s) as G. { clear - F I. induction F as [|p x l xs [G _] F IH]; [contradiction|]. destruct I as [-> |I]; auto. }
    unfold opt_text. cbn [fst snd]. intros [I'|I']; [discriminate|]. rewrite in_app_iff in I'. destruct I' as [I'|[I'|I']]; [|discriminate|].
    + revert I'. apply not_in_simple; [reflexivity|apply name_simple].
    + revert I'. apply escape_no; [exact G|reflexivity].
Qed.
Lemma format_uok l : Forall (fun p => good (snd p)) l -> uok (FormatSysQueryOptions l).
Proof.
  intros H. unfold FormatSysQueryOptions. change (fun p => 36 :: _) with opt_text.
  assert (forall p, good (snd p) -> uok (opt_text p)) as K.
  { intros [o s] G. unfold opt_text. constructor; [reflexivity|]. apply uok_app; [apply uric_uok, Forall_impl with (2 := name_simple o), simple_uric|].
    constructor; [reflexivity|]. apply escape_uok, utf8_octets, G. }
  induction H as [|p l G H IH]; [constructor|]. destruct l as [|p' l]; cbn [map join] in *; [now apply K|].
  apply uok_app; [now apply K|]. apply (uok_chr 38); [reflexivity|exact IH].
Qed.

(** ** Keys *)
Lemma in_double c s : In c s -> In c (double_quotes s).
Proof.
  induction s as [|x s IH]; [easy|]. intros H. assert (double_quotes (x :: s) = if x =? 39 then 39 :: 39 :: double_quotes s else x :: double_quotes s) as ->.
  { destruct (Z.eqb_spec x 39) as [->|Hx]; [reflexivity|]. cbn. destruct x as [|x|x]; try reflexivity. do 6 (destruct x as [x|x|]; try reflexivity). congruence. }
  destruct (Z.eqb_spec x 39) as [->|Hx]; cbn [In] in *; intuition.
Qed.
Lemma raw_literal v : literal_ok number quoted show v -> Forall uric (literal_text v) -> RawLiteral (literal_text v) = Ok v.
Proof.
  intros L U. unfold OdUri.RawLiteral. pose proof (literal_read number quoted start id Hcl v _ [] L I) as R. rewrite app_nil_r in R. rewrite R. cbn [bind].
  destruct v as [t [[]|]]; try reflexivity. assert (of_utf8 s = Ok s) as ->; [|reflexivity].
  unfold literal_ok in L. inversion L; subst. unfold OdExpr.literal_text in U. cbn [v_val v_type] in U.
  apply utf8_ascii. apply Forall_forall. intros c I. rewrite Forall_forall in U. apply uric_ascii. apply U. apply in_or_app. right. apply in_or_app. left. now apply in_double.
Qed.
Lemma literal_nonempty v : literal_ok number quoted show v -> literal_text v <> [].
Proof.
  intros L E. unfold literal_ok in L. rewrite E in L. pose proof (literal_read number quoted start id Hcl v _ [] L I) as R. discriminate R.
Qed.
Notation key_ok := (key_ok number quoted show).
Notation keys_ok := (keys_ok number quoted show).
Definition part_text (p : str * value) : str := fst p ++ 61 :: literal_text (snd p).
Lemma key_uric c : key_char c -> uric c. Proof. intros [H _]. exact H. Qed.
Lemma key_no c s : In c (lit "/?,=") -> Forall key_char s -> ~ In c s.
Proof. intros H F I. rewrite Forall_forall in F. apply F in I. destruct I as [_ I]. contradiction. Qed.
Lemma set_key_new {A} k (v : A) d : ~ In k (map fst d) -> set_key k v d = d ++ [(k, v)].
Proof.
  induction d as [|[m w] d IH]; intros H; cbn [set_key app]; [reflexivity|].
  destruct (str_eqb m k) eqn:E; [exfalso; apply H; left; now apply str_eqb_eq in E|]. rewrite IH; [reflexivity|]. intros I. apply H. now right.
Qed.
Lemma key_parts l : Forall key_ok l -> forall d, NoDup (map fst d ++ map fst l) -> key_loop (map part_text l) d = Ok (d ++ l).
Proof.
  induction 1 as [|[n v] l (Nn & Kn & L & Kv) F IH]; intros d N; cbn [map OdUri.key_loop fst snd] in *; [now rewrite app_nil_r|].
  unfold part_text at 1. cbn [fst snd]. rewrite split_app_no by (apply key_no; [cbn; tauto|exact Kn]).
  rewrite split_no by (apply key_no; [cbn; tauto|exact Kv]).
  rewrite uric_unescaped by (apply Forall_impl with (2 := Kn), key_uric). cbn [bind]. rewrite raw_literal; [|exact L|apply Forall_impl with (2 := Kv), key_uric]. cbn [bind].
  rewrite set_key_new by (apply NoDup_remove_2 in N; rewrite in_app_iff in N; tauto). rewrite IH; [now rewrite <- app_assoc|]. rewrite map_app, <- app_assoc. exact N.
Qed.
Lemma mem_no c s : ~ In c s -> mem c s = false.
Proof. intros H. destruct (mem c s) eqn:E; [apply mem_In in E; contradiction|reflexivity]. Qed.
Lemma head_name n s : set_name n -> exists c t, n ++ s = c :: t /\ c <> 36 /\ c <> 47.
Proof.
  intros (N & F & _). destruct F as [|c n H F]; [contradiction|]. exists c, (n ++ s). split; [reflexivity|]. unfold simple_char in H. split; intros ->; discriminate.
Qed.
Lemma split_key n t : set_name n -> SplitSegment (n ++ 40 :: t ++ [41]) =
  match t with
  | [] => Ok (n, Some [])
  | _ => match split_on 44 t with
         | [k1] => if mem 61 k1 then d <- key_loop [k1] [] ;; Ok (n, Some d) else v <- RawLiteral k1 ;; Ok (n, Some [([], v)])
         | l => d <- key_loop l [] ;; Ok (n, Some d)
         end
  end.
Proof.
  intros Hn. unfold OdUri.SplitSegment. destruct (head_name n (40 :: t ++ [41]) Hn) as (c & s & E & Hc & _). rewrite E. rewrite (not_dollar2 c _ _ _ [] Hc). rewrite <- E.
  destruct Hn as (_ & F & N). rewrite cut_at_app by exact N. replace (last (n ++ 40 :: t ++ [41]) 0) with 41 by (rewrite app_comm_cons, app_assoc, last_last; reflexivity).
  rewrite Z.eqb_refl. rewrite uric_unescaped by (apply Forall_impl with (2 := F), simple_uric). cbn [bind]. rewrite removelast_last. destruct t; reflexivity.
Qed.
Lemma key_text_read n d : set_name n -> keys_ok d -> SplitSegment (n ++ key_text X show d) = Ok (n, Some (as_read d)).
Proof.
  intros Hn [N K]. unfold key_text. rewrite split_key by exact Hn. destruct d as [|[n1 v1] [|p2 d]].
  - reflexivity.
  - destruct K as [L Kv]. destruct (literal_text v1) as [|c s] eqn:E; [now apply literal_nonempty in L|]. rewrite <- E in *.
    rewrite split_no by (apply key_no; [cbn; tauto|exact Kv]). rewrite mem_no by (apply key_no; [cbn; tauto|exact Kv]).
    rewrite raw_literal; [reflexivity|exact L|apply Forall_impl with (2 := Kv), key_uric].
  - change (fun p => fst p ++ 61 :: OdExpr.literal_text X show (snd p)) with part_text. set (l := (n1, v1) :: p2 :: d) in *.
    assert (split_on 44 (join [44] (map part_text l)) = map part_text l) as S.
    { apply join_split; [discriminate|]. apply Forall_forall. intros t I. apply in_map_iff in I. destruct I as ([n' v'] & <- & I). rewrite Forall_forall in K.
      destruct (K _ I) as (_ & Kn & _ & Kv). unfold part_text. cbn [fst snd] in *. rewrite in_app_iff. intros [I'|[I'|I']]; [|discriminate|];
        revert I'; apply key_no; [cbn; tauto|assumption|cbn; tauto|assumption]. }
    assert (join [44] (map part_text l) <> []) as Ne.
    { subst l. cbn [map join]. unfold part_text at 1. destruct (fst (n1, v1)); discriminate. }
    destruct (join [44] (map part_text l)) as [|c s] eqn:E; [contradiction|]. rewrite S. subst l. cbn [map]. change (part_text (n1, v1) :: part_text p2 :: map part_text d) with (map part_text ((n1, v1) :: p2 :: d)).
    rewrite (key_parts _ K []) by exact N. reflexivity.
Qed.

Lemma service_abs prefix n s : service_path prefix -> set_name n -> Forall (fun c => uric c /\ c <> 63) s ->
  abs_path (prefix ++ 47 :: n ++ s) /\ Forall uric (prefix ++ 47 :: n ++ s).
Proof.
  intros P Hn F. destruct (head_name n s Hn) as (c & t & E & _ & Hc).
  assert (Forall (fun c => uric c /\ c <> 63) (n ++ s)) as Fn.
  { apply Forall_app. split; [|exact F]. destruct Hn as (_ & Fn & _). apply Forall_impl with (2 := Fn). intros x Hx. split; [now left|]. intros ->. discriminate. }
  assert (forall s, Forall (fun c => uric c /\ c <> 63) s -> Forall uric s /\ ~ In 63 s) as K.
  { intros z H. split; [apply Forall_impl with (2 := H); tauto|]. intros I. rewrite Forall_forall in H. now apply H in I. }
  destruct P as [-> |(c' & t' & -> & Hc' & Fp)]; cbn [app].
  - split; [|constructor; [now right|apply K, Fn]]. exists c, t. rewrite E. split; [reflexivity|]. split; [exact Hc|]. rewrite <- E. apply K, Fn.
  - assert (Forall (fun c => uric c /\ c <> 63) (c' :: t' ++ 47 :: n ++ s)) as Fa.
    { inversion Fp; subst. constructor; [assumption|]. apply Forall_app. split; [assumption|]. constructor; [split; [now right|discriminate]|exact Fn]. }
    split; [|constructor; [now right|apply K, Fa]]. exists c', (t' ++ 47 :: n ++ s). split; [reflexivity|]. split; [exact Hc'|]. apply K, Fa.
Qed.
Lemma one_segment n s x : set_name n -> ~ In 47 s -> SplitSegment (n ++ s) = Ok x -> read_path (47 :: n ++ s) = UOk (mkPath [x] None None).
Proof.
  intros Hn Hs S. destruct (head_name n s Hn) as (c & t & E & Hc & _). pose proof (path_iff number quoted start id [n ++ s] (mkPath [x] None None)) as K.
  cbn [slashes flat_map app] in K. rewrite app_nil_r in K. apply K.
  - constructor; [|constructor]. rewrite in_app_iff. intros [I|I]; [|contradiction]. destruct Hn as (_ & F & _). revert I. now apply not_in_simple.
  - rewrite E. discriminate.
  - apply (PFplain number quoted start id [n ++ s] [x]). constructor; [|constructor]. split; [|exact S]. rewrite E. unfold is_dollar. now apply not_dollar2.
Qed.
Lemma keys_uric d : keys_ok d -> Forall (fun c => uric c /\ c <> 63 /\ c <> 47) (key_text X show d).
Proof.
  assert (forall c, key_char c -> uric c /\ c <> 63 /\ c <> 47) as K.
  { intros c [H N]. split; [exact H|]. split; intros ->; apply N; cbn; tauto. }
  assert (forall c, simple_char c -> uric c /\ c <> 63 /\ c <> 47) as Ks.
  { intros c H. split; [now left|]. split; intros ->; discriminate. }
  intros [N H]. unfold key_text. constructor; [apply Ks; reflexivity|]. apply Forall_app. split; [|constructor; [apply Ks; reflexivity|constructor]].
  destruct d as [|[n1 v1] [|p2 d]]; [constructor|destruct H as [_ H]; apply Forall_impl with (2 := H), K|].
  change (fun p => fst p ++ 61 :: OdExpr.literal_text X show (snd p)) with part_text. clear N. revert H. generalize ((n1, v1) :: p2 :: d). clear - K.
  induction 1 as [|[n v] l (Nn & Kn & L & Kv) F IH]; [constructor|]. cbn [fst snd] in *.
  assert (Forall (fun c => uric c /\ c <> 63 /\ c <> 47) (part_text (n, v))) as Kp.
  { unfold part_text. cbn [fst snd]. apply Forall_app. split; [apply Forall_impl with (2 := Kn), K|]. constructor; [split; [now right|split; discriminate]|]. apply Forall_impl with (2 := Kv), K. }
  destruct l as [|q l]; cbn [map join] in *; [exact Kp|]. apply Forall_app. split; [exact Kp|]. cbn [app]. constructor; [split; [now right|split; discriminate]|exact IH].
Qed.
Lemma key_path_read prefix n d q qq : service_path prefix -> set_name n -> keys_ok d -> uok (opt_app [63] q) -> read_query q = UOk qq ->
  ODataURI_text ((prefix ++ 47 :: n ++ key_text X show d) ++ opt_app [63] q) prefix =
    UOk (mkRequest (Some (47 :: n ++ key_text X show d)) (mkPath [(n, Some (as_read d))] None None) qq).
Proof.
  intros P Hn K Hq Q. pose proof (keys_uric d K) as U. destruct (service_abs prefix n (key_text X show d) P Hn) as [A F].
  { apply Forall_impl with (2 := U). tauto. }
  apply read_uri; [reflexivity|exact A|apply uric_uok, F|exact Hq|exact Q| |reflexivity].
  apply one_segment; [exact Hn| |now apply key_text_read]. intros I. rewrite Forall_forall in U. apply U in I. tauto.
Qed.
(** What the web server hands over for a location *)
Lemma unescape_location prefix n d : service_path prefix -> set_name n -> keys_ok d ->
  UnescapeData (location_path prefix n d) = prefix ++ 47 :: n ++ key_text X show d.
Proof.
  intros P Hn K. pose proof (keys_uric d K) as U. unfold OdUri.location_path, FormatKeyDict.
  destruct (service_abs prefix n [] P Hn) as [_ F]; [constructor|]. rewrite app_nil_r in F.
  replace (prefix ++ 47 :: n ++ EscapeData IsReserved (utf8 (key_text X show d))) with ((prefix ++ 47 :: n) ++ EscapeData IsReserved (utf8 (key_text X show d))) by (rewrite <- app_assoc; reflexivity).
  assert (Forall (fun c => 0 <= c < 128) (key_text X show d)) as A by (apply Forall_impl with (2 := U); intros c (H & _); now apply uric_ascii in H).
  rewrite uric_unescape by exact F. rewrite (proj1 (utf8_ascii _ A)). rewrite unescape_escape by (apply Forall_impl with (2 := A); lia). now rewrite <- app_assoc.
Qed.
Theorem location_served prefix n d script path_info q qq : service_path prefix -> set_name n -> keys_ok d ->
  script ++ path_info = UnescapeData (location_path prefix n d) -> uok (opt_app [63] q) -> read_query q = UOk qq ->
  server_request script path_info q prefix = UOk (mkRequest (Some (47 :: n ++ key_text X show d)) (mkPath [(n, Some (as_read d))] None None) qq).
Proof.
  intros P Hn K E Hq Q. unfold OdUri.server_request. rewrite app_assoc, E, unescape_location by assumption.
  replace (match q with Some q => 63 :: q | None => [] end) with (opt_app [63] q) by (destruct q; reflexivity). now apply key_path_read.
Qed.
(** The location itself *)
Theorem location_read prefix n k v : service_path prefix -> set_name n -> literal_ok number quoted show v -> Forall simple_char (literal_text v) ->
  ODataURI_text (location_path prefix n [(k, v)]) prefix =
    UOk (mkRequest (Some (47 :: n ++ 40 :: literal_text v ++ [41])) (mkPath [(n, Some [([], v)])] None None) (mkQuery [] [] [])).
Proof.
  intros P Hn L S.
  assert (keys_ok [(k, v)]) as K.
  { split; [constructor; [easy|constructor]|]. split; [exact L|]. apply Forall_impl with (2 := S). intros c H. split; [now left|]. intros I. cbn in I.
    repeat (destruct I as [I|I]; [subst c; discriminate|]). exact I. }
  pose proof (key_path_read prefix n [(k, v)] None (mkQuery [] [] []) P Hn K (uok_nil) eq_refl) as R. cbn [opt_app] in R. rewrite app_nil_r in R.
  unfold OdUri.location_path, FormatKeyDict.
  assert (Forall simple_char (key_text X show [(k, v)])) as Sk by (unfold key_text; constructor; [reflexivity|]; apply Forall_app; split; [exact S|repeat constructor]).
  assert (Forall (fun c => 0 <= c < 128) (key_text X show [(k, v)])) as A by (apply Forall_impl with (2 := Sk); intros c H; apply simple_uric in H; now apply uric_ascii in H).
  rewrite (proj1 (utf8_ascii _ A)), simple_escape by exact Sk. exact R.
Qed.
(** A collection with options *)
Theorem options_read prefix n l xs : service_path prefix -> set_name n -> last n 0 <> 41 ->
  l <> [] -> NoDup (map fst l) -> Forall2 (fun p x => good (snd p) /\ option_value (fst p) (snd p) = Ok x) l xs ->
  ODataURI_text (prefix ++ 47 :: n ++ 63 :: FormatSysQueryOptions l) prefix =
    UOk (mkRequest (Some (47 :: n)) (mkPath [(n, None)] None None) (mkQuery (combine (map fst l) xs) [] [])).
Proof.
  intros P Hn Hl N D F. destruct (service_abs prefix n [] P Hn) as [A U]; [constructor|]. rewrite app_nil_r in A, U.
  replace (prefix ++ 47 :: n ++ 63 :: FormatSysQueryOptions l) with ((prefix ++ 47 :: n) ++ opt_app [63] (Some (FormatSysQueryOptions l))) by (cbn [opt_app app]; now rewrite <- app_assoc).
  apply read_uri; [reflexivity|exact A|apply uric_uok, U| |now apply query_round| |reflexivity].
  - cbn [opt_app app]. constructor; [reflexivity|]. apply format_uok. clear - F. induction F as [|p x l xs [G _] F IH]; constructor; auto.
  - rewrite <- (app_nil_r n) at 1. apply one_segment; [exact Hn|easy|]. rewrite app_nil_r. unfold OdUri.SplitSegment.
    destruct (head_name n [] Hn) as (c & t & E & Hc & _). rewrite app_nil_r in E. rewrite E. rewrite (not_dollar2 c _ _ _ [] Hc). rewrite <- E.
    destruct Hn as (_ & Fn & Nn). rewrite cut_at_none by exact Nn. rewrite uric_unescaped by (apply Forall_impl with (2 := Fn), simple_uric). reflexivity.
Qed.
End RoundTrip.
