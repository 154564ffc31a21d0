(** Properties of the XML Schema datatypes. *)
From Verif Require Import Py Dec XmlUtils Xsd XsdSpec XsdProofs XsdProofs2.
Ltac fl := match goal with |- Forall _ ?l => let l' := eval vm_compute in l in change l with l' end;
  repeat (apply Forall_cons; [vm_compute; first [reflexivity|lia|intuition congruence]|]); apply Forall_nil.

(** C35: integers *)
Theorem C35_decode_integer : forall s n, DecodeInteger s = Ok n <-> lex_integer s n.
Proof. exact DecodeInteger_ok. Qed.
Print Assumptions C35_decode_integer.
Theorem C35_other_text : forall s e, DecodeInteger s = Err e -> e = ValueError.
Proof. exact DecodeInteger_err. Qed.
Print Assumptions C35_other_text.
Theorem C35_round_trip : forall n, DecodeInteger (EncodeInteger n) = Ok n.
Proof. exact integer_round_trip. Qed.
Print Assumptions C35_round_trip.
Example C35_ex : DecodeInteger (lit "-0042") = Ok (-42) /\ DecodeInteger (lit "+7") = Ok 7 /\
  DecodeInteger (lit "4-2") = Err ValueError /\ DecodeInteger (lit "+") = Err ValueError /\
  EncodeInteger (-120) = lit "-120".
Proof. repeat split. Qed.

(** C36: booleans *)
Theorem C36_decode_boolean : forall s b, DecodeBoolean (Some s) = Ok (Some b) <->
  (b = true /\ (s = lit "true" \/ s = lit "1")) \/ (b = false /\ (s = lit "false" \/ s = lit "0")).
Proof.
  intros s b. unfold DecodeBoolean.
  destruct (str_eqb s (lit "true")) eqn:E1; [apply str_eqb_eq in E1; subst; split;
    [intros [= <-]; auto|intros [[-> _]|[_ [H|H]]]; [reflexivity|discriminate H|discriminate H]]|].
  destruct (str_eqb s (lit "false")) eqn:E2; [apply str_eqb_eq in E2; subst; split;
    [intros [= <-]; auto|intros [[_ [H|H]]|[-> _]]; [discriminate H|discriminate H|reflexivity]]|].
  destruct (str_eqb s (lit "1")) eqn:E3; [apply str_eqb_eq in E3; subst; split;
    [intros [= <-]; auto|intros [[-> _]|[_ [H|H]]]; [reflexivity|discriminate H|discriminate H]]|].
  destruct (str_eqb s (lit "0")) eqn:E4; [apply str_eqb_eq in E4; subst; split;
    [intros [= <-]; auto|intros [[_ [H|H]]|[-> _]]; [discriminate H|discriminate H|reflexivity]]|].
  apply str_eqb_neq in E1, E2, E3, E4. split; [discriminate|]. tauto.
Qed.
Print Assumptions C36_decode_boolean.
Theorem C36_other_text : forall s e, DecodeBoolean (Some s) = Err e -> e = ValueError.
Proof. intros s e. unfold DecodeBoolean. repeat (destruct (str_eqb _ _); [congruence|]). congruence. Qed.
Print Assumptions C36_other_text.
Theorem C36_round_trip : forall b, exists s, EncodeBoolean (Some b) = Ok s /\ DecodeBoolean (Some s) = Ok (Some b).
Proof. intros [|]; eexists; split; reflexivity. Qed.
Print Assumptions C36_round_trip.
Example C36_ex : DecodeBoolean (Some (lit "TRUE")) = Err ValueError /\ DecodeBoolean (Some (lit "1")) = Ok (Some true).
Proof. split; reflexivity. Qed.

(** C37: white space *)
Theorem C37_replace : forall s i, nth_error (WhiteSpaceReplace s) i =
  match nth_error s i with
  | None => None
  | Some c => Some (if (c =? 9) || (c =? 10) || (c =? 13) then 32 else c)
  end.
Proof. exact replace_pointwise. Qed.
Print Assumptions C37_replace.
Theorem C37_idempotent : forall s, WhiteSpaceReplace (WhiteSpaceReplace s) = WhiteSpaceReplace s /\
  WhiteSpaceCollapse (WhiteSpaceCollapse s) = WhiteSpaceCollapse s.
Proof. intros s. split; [apply replace_idempotent|apply collapse_idempotent]. Qed.
Print Assumptions C37_idempotent.
(** words separated by single spaces, without leading or trailing space *)
Theorem C37_collapsed_shape : forall s, exists ws, is_words ws /\ WhiteSpaceCollapse s = spaced ws.
Proof. exact collapse_shape. Qed.
Print Assumptions C37_collapsed_shape.
(** the words are those of s unless s starts with white space *)
Theorem C37_same_words_partial : forall s ws, has_words s ws -> ~ starts_with_space s -> WhiteSpaceCollapse s = spaced ws.
Proof. exact collapse_plain. Qed.
Print Assumptions C37_same_words_partial.
(** after leading white space the first word is cut in two after its first character *)
Theorem C37_leading_space_refuted : forall s c d w ws, has_words s ((c :: d :: w) :: ws) -> starts_with_space s ->
  WhiteSpaceCollapse s = spaced ([c] :: (d :: w) :: ws) /\ WhiteSpaceCollapse s <> spaced ((c :: d :: w) :: ws).
Proof.
  intros s c d w ws H S. rewrite (collapse_leading _ _ H S). split; [reflexivity|]. cbn [split_first].
  rewrite !spaced_cons. cbn [tails flat_map app]. intros E. injection E as E1 _.
  apply has_words_is in H. inversion_clear H as [|? ? [_ Hw] _]. inversion_clear Hw as [|? ? _ Hw'].
  inversion_clear Hw' as [|? ? Hd _]. apply Hd. unfold xspace. auto.
Qed.
Print Assumptions C37_leading_space_refuted.
Theorem C37_words_exist_uniquely : forall s, exists ws, has_words s ws /\ forall ws', has_words s ws' -> ws = ws'.
Proof. intros s. destruct (words_exist s) as (ws & H & _). exists ws. split; [exact H|]. apply has_words_fun, H. Qed.
Print Assumptions C37_words_exist_uniquely.
Example C37_ex : WhiteSpaceCollapse (lit "to  be   or ") = lit "to be or" /\ WhiteSpaceCollapse (lit " ab") = lit "a b" /\
  has_words (lit " ab") [lit "ab"] /\ starts_with_space (lit " ab") /\ WhiteSpaceReplace [9; 65; 10] = [32; 65; 32].
Proof.
  repeat (split; [reflexivity|]). split.
  - apply hw_space; [unfold xspace; auto|]. apply (hw_word (lit "ab") []); [discriminate| |auto|constructor].
    unfold xspace. fl.
  - split; [|reflexivity]. exists 32, (lit "ab"). split; [reflexivity|]. unfold xspace; auto.
Qed.

(** C38: enumerations *)
Theorem C38_decode : forall d dv e s v, dict d -> (forall k, In k (map fst d) -> trimmed k) ->
  MakeEnumeration d dv = Ok e -> (DecodeValue e s = Ok v <-> exists k, padded s k /\ In (k, v) d).
Proof.
  intros d dv e s v D T M. rewrite (DecodeValue_iff' d dv e s v D T M). split.
  - intros (p & k & q & E & H & Hp & Hq). exists k. split; [exists p, q; auto|exact H].
  - intros (k & (p & q & E & Hp & Hq) & H). exists p, k, q. auto.
Qed.
Print Assumptions C38_decode.
Theorem C38_unknown : forall e s x, DecodeValue e s = Err x -> x = ValueError.
Proof. exact DecodeValue_err. Qed.
Print Assumptions C38_unknown.
Theorem C38_round_trip : forall d dv e k v, dict d -> NoDup (map snd d) -> (forall k', In k' (map fst d) -> trimmed k') ->
  MakeEnumeration d dv = Ok e -> In (k, v) d ->
  EncodeValue e v = Some k /\ DecodeValue e k = Ok v.
Proof.
  intros d dv e k v D N T M H. split; [eapply EncodeValue_in; eauto|].
  apply (DecodeValue_iff' d dv e k v D T M). exists [], k, []. rewrite app_nil_r. auto.
Qed.
Print Assumptions C38_round_trip.
Theorem C38_other_values : forall d dv e v, dict d -> NoDup (map snd d) -> MakeEnumeration d dv = Ok e ->
  ~ In v (map snd d) -> EncodeValue e v = match dv with Some (c :: s) => Some (c :: s) | _ => None end.
Proof. intros. eapply EncodeValue_out; eauto. Qed.
Print Assumptions C38_other_values.
Theorem C38_aliases_keep_encoding : forall e al e', MakeEnumerationAliases e al = Ok e' ->
  forall v, EncodeValue e' v = EncodeValue e v.
Proof. exact aliases_encode_value. Qed.
Print Assumptions C38_aliases_keep_encoding.
(** C80: new aliases decode as the keys they stand for, and change nothing else *)
Theorem C80_aliases_partial : forall e al e', MakeEnumerationAliases e al = Ok e' -> NoDup (map fst al) ->
  (forall a k, In (a, k) al -> trimmed a /\ trimmed k /\ assoc a (decode e) = None /\ ~ In k (map fst al)) ->
  (forall v, EncodeValue e' v = EncodeValue e v) /\
  (forall a k, In (a, k) al -> exists v, DecodeValue e k = Ok v /\ DecodeValue e' a = Ok v) /\
  (forall s v, DecodeValue e s = Ok v -> DecodeValue e' s = Ok v).
Proof.
  intros e al e' H N F. split; [apply (aliases_encode_value _ _ _ H)|].
  assert (forall k, trimmed k -> strip k = k) as S.
  { intros k T. rewrite <- (strip_padded [] k []) at 2 by (auto; constructor). rewrite app_nil_r. reflexivity. }
  split.
  - intros a k I. destruct (F a k I) as (Ta & Tk & _ & _).
    destruct (aliases_decode al e e' a k H N) as [E NN]; [|exact I|].
    + intros b l Hb. destruct (F b l Hb) as (_ & _ & F1 & F2). auto.
    + destruct (assoc k (decode e)) as [v|] eqn:Ek; [|congruence]. exists v. rewrite !DecodeValue_iff, (S a Ta), (S k Tk). auto.
  - intros s v. rewrite !DecodeValue_iff. intros Hs. rewrite (aliases_keep al e e' _ H); [exact Hs|].
    intros I. apply in_map_iff in I as ([a k] & Ea & I). cbn [fst] in Ea. subst a.
    destruct (F _ _ I) as (_ & _ & F1 & _). congruence.
Qed.
Print Assumptions C80_aliases_partial.
(** an alias that is already a key silently redefines it: encoding then decoding changes the value *)
Theorem C80_aliases_refuted : exists d e al e' v k, dict d /\ NoDup (map snd d) /\ MakeEnumeration d None = Ok e /\
  MakeEnumerationAliases e al = Ok e' /\ EncodeValue e' v = Some k /\ DecodeValue e k = Ok v /\ DecodeValue e' k <> Ok v.
Proof.
  exists [(lit "a", 1); (lit "b", 2)]. eexists. exists [(lit "b", lit "a")]. eexists. exists 2, (lit "b").
  split; [repeat constructor; cbn; intuition discriminate|]. split; [repeat constructor; cbn; intuition discriminate|].
  split; [reflexivity|]. split; [reflexivity|]. split; [reflexivity|]. split; [reflexivity|discriminate].
Qed.
Print Assumptions C80_aliases_refuted.
Theorem C38_lower_aliases : forall e, dict (decode e) ->
  (forall k1 k2 v1 v2, In (k1, v1) (decode e) -> In (k2, v2) (decode e) -> lower k1 = lower k2 -> v1 = v2) ->
  exists e', MakeLowerAliases e = Ok e' /\ (forall v, EncodeValue e' v = EncodeValue e v) /\
  (forall s v, DecodeLowerValue e' s = Ok v <-> exists k, In (k, v) (decode e) /\ lower k = lower (strip s)) /\
  (forall s v, DecodeValue e s = Ok v -> DecodeValue e' s = Ok v).
Proof. exact MakeLowerAliases_spec. Qed.
Print Assumptions C38_lower_aliases.
Theorem C38_value_lists : forall decoder s ws vs, ws_words s ws ->
  (DecodeValueList decoder s = Ok vs <-> Forall2 (fun w v => decoder w = Ok v) ws vs).
Proof. exact DecodeValueList_spec. Qed.
Print Assumptions C38_value_lists.
Example C38_ex : exists e e', MakeEnumeration [(lit "left", 1); (lit "Right", 2)] (Some (lit "left")) = Ok e /\
  dict (decode e) /\ (forall k, In k (map fst (decode e)) -> trimmed k) /\ NoDup (map snd (decode e)) /\
  DecodeValue e (lit " left ") = Ok 1 /\ EncodeValue e 2 = Some (lit "Right") /\ EncodeValue e 9 = Some (lit "left") /\
  DecodeValue e (lit "right") = Err ValueError /\ MakeLowerAliases e = Ok e' /\ DecodeLowerValue e' (lit "RIGHT") = Ok 2 /\
  DecodeValueList (DecodeValue e) (lit "left Right left") = Ok [1; 2; 1] /\
  DecodeValueDict (DecodeValue e) (lit "left Right") = Ok [(2, lit "Right")].
Proof.
  eexists. eexists. split; [reflexivity|]. split; [repeat constructor; cbn; intuition discriminate|].
  split; [intros k [<-|[<-|[]]]; split; reflexivity|]. split; [repeat constructor; cbn; intuition discriminate|].
  repeat (split; [vm_compute; reflexivity|]). vm_compute; reflexivity.
Qed.

(** C81: decoding a list of names into a dictionary keeps the last one only *)
Theorem C81_value_dict_refuted : forall decoder s ws w v, ws_words s (ws ++ [w]) -> Forall (fun x => exists y, decoder x = Ok y) ws ->
  decoder w = Ok v -> DecodeValueDict decoder s = Ok [(v, w)].
Proof.
  intros decoder s ws w v H F Hw. unfold DecodeValueDict. rewrite (split_ws_words _ _ H).
  assert (exists ys, map_result decoder (ws ++ [w]) = Ok (ys ++ [v])) as (ys & ->).
  { clear H. induction F as [|x l (y & Hy) F (ys & IH)]; cbn [app map_result].
    - exists []. rewrite Hw. reflexivity.
    - exists (y :: ys). rewrite Hy. cbn [bind]. rewrite IH. reflexivity. }
  cbn [bind]. rewrite !rev_app_distr. reflexivity.
Qed.
Print Assumptions C81_value_dict_refuted.
Theorem C81_value_dict_partial : forall decoder s w v, ws_words s [w] -> decoder w = Ok v ->
  DecodeValueDict decoder s = Ok [(v, w)].
Proof. intros decoder s w v H. apply (C81_value_dict_refuted decoder s [] w v H). constructor. Qed.
Print Assumptions C81_value_dict_partial.
Theorem C81_no_words_refuted : forall decoder s, ws_words s [] -> DecodeValueDict decoder s = Err NameError.
Proof. intros decoder s H. unfold DecodeValueDict. rewrite (split_ws_words _ _ H). reflexivity. Qed.
Print Assumptions C81_no_words_refuted.
Example C81_ex : ws_words (lit "a b") [lit "a"; lit "b"].
Proof.
  apply (ww_word (lit "a") (lit " b")); [discriminate|fl|right; exists 32, (lit "b"); split; reflexivity|].
  apply ww_space; [reflexivity|]. apply (ww_word (lit "b") []); [discriminate|fl|auto|constructor].
Qed.

(** C39: rounding to the precision of the machine *)
Theorem C39_round_digits : forall ds, Forall is_dec ds ->
  let '(r, grown) := RoundDigits ds in
  Forall is_dec r /\ length r = (length ds + if grown then 1 else 0)%nat /\
  ((length ds <= 15)%nat /\ r = ds \/
   (15 < length ds)%nat /\ rounded (dval ds) (10 ^ (Z.of_nat (length ds) - 15)) (dval r)).
Proof.
  intros ds H. pose proof (RoundDigits_spec ds H) as R. destruct (RoundDigits ds) as [r o].
  destruct R as (A & B & _ & C). auto.
Qed.
Print Assumptions C39_round_digits.
Example C39_ex : RoundDigits (lit "123456789012345678") = (lit "123456789012346000", false) /\
  RoundDigits (lit "9999999999999995") = (lit "10000000000000000", true) /\ Forall is_dec (lit "9999999999999995").
Proof. split; [reflexivity|]. split; [reflexivity|]. unfold is_dec. fl. Qed.

(** C78: decimals *)
Theorem C78_decode_decimal : forall s m k, DecodeDecimal s = Ok (m, k) <-> lex_decimal s m k.
Proof. exact DecodeDecimal_ok. Qed.
Print Assumptions C78_decode_decimal.
Theorem C78_other_text : forall s e, DecodeDecimal s = Err e -> e = ValueError.
Proof. exact DecodeDecimal_err. Qed.
Print Assumptions C78_other_text.
Example C78_ex : DecodeDecimal (lit "-12.50") = Ok (-1250, 2) /\ DecodeDecimal (lit ".5") = Ok (5, 1) /\
  DecodeDecimal (lit "7.") = Ok (7, 0) /\ DecodeDecimal (lit "1e3") = Err ValueError /\ DecodeDecimal (lit ".") = Err ValueError.
Proof. repeat split. Qed.

(** C79: the text of a decimal number, from the scaled integer on *)
Theorem C79_canonical_partial : forall negative i n, 0 < i -> (1 <= n)%nat -> exists s q m k,
  EncodeDecimalDigits negative i n true = Ok s /\ round15 i q /\ canonical_decimal s /\
  lex_decimal s m k /\ m * 10 ^ Z.of_nat n = (if negative then -1 else 1) * q * 10 ^ k /\ 0 <= k <= Z.of_nat n.
Proof. exact EncodeDecimalDigits_canonical. Qed.
Print Assumptions C79_canonical_partial.
Theorem C79_fixed_digits_partial : forall negative i n, 0 <= i -> exists s q a b,
  EncodeDecimalDigits negative i n false = Ok s /\ round15 i q /\
  s = (if negative then [45] else []) ++ a ++ 46 :: b /\ length b = n /\
  lex_decimal s ((if negative then -1 else 1) * q) (Z.of_nat n).
Proof.
  intros negative i n Hi.
  destruct (EncodeDecimalDigits_fixed negative i n Hi) as (sg & a & b & q & E & L & S & Ha & Hb & Lb & Hq & Dq & Hh & _).
  exists (sg ++ a ++ 46 :: b), q, a, b. split; [exact E|]. split; [exact Hq|].
  split; [destruct S as [[-> ->]|[-> ->]]; reflexivity|]. split; [exact Lb|].
  exists sg, (sgn negative), a, b. rewrite Dq, Lb. repeat (split; [assumption|]).
  split; [|split; [left; reflexivity|split; reflexivity]].
  destruct Hh as [->|(d & t & -> & _)]; discriminate.
Qed.
Print Assumptions C79_fixed_digits_partial.
(** a negative value that rounds to zero keeps its sign, which is not canonical *)
Theorem C79_negative_zero_refuted : forall n, (1 <= n)%nat ->
  EncodeDecimalDigits true 0 n true = Ok (lit "-0.0") /\ ~ canonical_decimal (lit "-0.0").
Proof.
  intros n Hn. split.
  - destruct (EncodeDecimalDigits_fixed true 0 n ltac:(lia)) as (sg & a & b & q & _ & L & S & Ha & Hb & Lb & Hq & Dq & Hh & E).
    rewrite E. clear E. destruct S as [[_ S]|[-> _]]; [discriminate|].
    assert (q = 0) as ->.
    { destruct Hq as [[_ ->]|(k & Hk & Hx & _)]; [reflexivity|].
      assert (0 < 10 ^ (14 + k)) by (apply Z.pow_pos_nonneg; lia). lia. }
    assert (forall l, Forall is_dec l -> dval l = 0 -> l = repeat 48 (length l)) as Z0.
    { induction l as [|c l IH]; intros Hl Ev; [reflexivity|]. inversion_clear Hl as [|? ? Hc Hl'].
      change (c :: l) with ([c] ++ l) in Ev. rewrite dval_app in Ev. change (dval [c]) with (0 * 10 + (c - 48)) in Ev.
      pose proof (dval_upper l Hl') as U. unfold is_dec in Hc.
      assert (c = 48) as -> by nia. cbn [length repeat]. f_equal. apply IH; [exact Hl'|nia]. }
    assert (a ++ b = repeat 48 (length (a ++ b))) as Eab by (apply Z0; [apply Forall_app; auto|exact Dq]).
    assert (a = [48]) as ->.
    { destruct Hh as [Ha'|(d & t & -> & Nd)]; [exact Ha'|]. cbn [app length repeat] in Eab. injection Eab as -> _. congruence. }
    destruct b as [|c b]; [cbn in Lb; lia|].
    destruct (StripZeros_point [45; 48] (c :: b) Hb ltac:(discriminate)) as (b' & z & E' & Nb' & Eb & H').
    change ([45] ++ [48] ++ 46 :: c :: b) with ([45; 48] ++ 46 :: c :: b). rewrite E'. destruct H' as [->|(d & t & -> & Nd)]; [reflexivity|].
    exfalso. assert (In d ([48] ++ c :: b)) as Hd by (rewrite Eb; apply in_or_app; right; apply in_or_app; left; apply in_or_app; right; left; reflexivity).
    rewrite Eab in Hd. apply repeat_spec in Hd. congruence.
  - intros (sg & a & b & [->| ->] & E & Ha & Hb & _ & _ & F); cbn [app] in E.
    + destruct a as [|c a]; [discriminate|]. inversion_clear Ha as [|? ? Hc _].
      change (lit "-0.0") with [45; 48; 46; 48] in E. injection E as <- _. unfold is_dec in Hc. lia.
    + change (lit "-0.0") with [45; 48; 46; 48] in E. injection E as E. destruct a as [|c a]; [discriminate|].
      injection E as <- E. destruct a as [|c a].
      * injection E as <-. apply F; auto.
      * injection E as <- E. inversion_clear Ha as [|? ? _ Ha']. inversion_clear Ha' as [|? ? Hc _]. unfold is_dec in Hc. lia.
Qed.
Print Assumptions C79_negative_zero_refuted.
Example C79_ex : EncodeDecimalDigits false 1250 3 true = Ok (lit "1.25") /\ EncodeDecimalDigits true 5 4 true = Ok (lit "-0.0005") /\
  EncodeDecimalDigits false 1250 3 false = Ok (lit "1.250") /\ EncodeDecimalDigits false 3000 3 true = Ok (lit "3.0").
Proof. repeat split. Qed.
