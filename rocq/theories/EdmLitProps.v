(** The literal forms of the simple values of OData: theorems *)
From Coq Require Import Lia.
From Verif Require Import Py Iso Dec OdExpr OdExprSpec OdExprProofs OdExprProofs2 OdExprProofs6 EdmLit EdmLitSpec EdmLitProofs EdmLitProofs2.
Open Scope Z_scope.
Open Scope list_scope.

(** ** C240: SetFromLiteral of Byte, SByte, Int16, Int32 and Int64 accepts the texts of the
    integers of the type and no other, and raises ValueError for the rest; what unicode gives is
    read back as the same number *)
Theorem C240_literals : forall t s n, int_from_literal t s = Ok n <-> writes_int t n s.
Proof. exact int_spec. Qed.
Theorem C240_refused : forall t s, (forall n, ~ writes_int t n s) -> int_from_literal t s = Err ValueError.
Proof.
  intros t s H. destruct (int_from_literal t s) as [n|e] eqn:E; [apply int_spec in E; destruct (H n E)|].
  now rewrite (int_err t s e E).
Qed.
Theorem C240_round_trip : forall t n, in_range t n -> int_from_literal t (int_text n) = Ok n.
Proof. exact int_round. Qed.
Example C240_nonvacuous :
  int_from_literal Byte (lit "007") = Ok 7 /\ int_from_literal Byte (lit "-0") = Err ValueError /\
  int_from_literal SByte (lit "-128") = Ok (-128) /\ int_from_literal SByte (lit "128") = Err ValueError /\
  int_from_literal Int32 (lit "00000000001") = Err ValueError /\ int_from_literal Int16 (lit "1e2") = Err ValueError /\
  in_range Int64 (-9223372036854775808) /\ int_text (-9223372036854775808) = lit "-9223372036854775808" /\
  ~ writes_int Byte 0 (lit "-0").
Proof.
  repeat (split; [vm_compute; first [reflexivity|split; congruence]|]).
  intros H. apply int_spec in H. discriminate.
Qed.

(** ** C241: SetFromValue of those types accepts the numbers of the range, rounds them towards
    zero, and refuses all others with ValueError *)
Lemma limits t : lowest t = least t /\ highest t = greatest t.
Proof. destruct t; split; reflexivity. Qed.
Theorem C241_set : forall t p q n, set_int t p q = Ok n <->
  (least t * Zpos q <= p <= greatest t * Zpos q /\ truncated p q n).
Proof. intros. destruct (limits t) as [<- <-]. rewrite set_int_spec, quot_truncated. reflexivity. Qed.
Theorem C241_refused : forall t p q, ~ least t * Zpos q <= p <= greatest t * Zpos q -> set_int t p q = Err ValueError.
Proof. intros t p q. destruct (limits t) as [<- <-]. intros H. unfold set_int. destruct (_ || _)%bool eqn:E; [reflexivity|]. lia. Qed.
Theorem C241_stored : forall t p q n, set_int t p q = Ok n -> in_range t n /\ int_from_literal t (int_text n) = Ok n.
Proof.
  intros t p q n H. assert (in_range t n) as R; [|split; [exact R|now apply int_round]].
  apply C241_set in H. destruct H as [[A B] [C D]]. unfold in_range.
  assert (least t <= 0 <= greatest t) by (destruct t; cbn; lia).
  destruct (Z_lt_le_dec p 0) as [X|X]; [specialize (D X)|specialize (C X)]; nia.
Qed.
Example C241_nonvacuous :
  set_int SByte (-255) 2 = Ok (-127) /\ set_int Byte 511 2 = Err ValueError /\ set_int Byte 509 2 = Ok 254 /\
  ~ (least Byte * 2 <= -1 <= greatest Byte * 2).
Proof. repeat split; try reflexivity. cbn. lia. Qed.

(** ** C242: SetFromLiteral of Decimal accepts a number with at most 29 digits before the point
    and at most 29 after it, exactly, and nothing else *)
Theorem C242_literals : forall s d, dec_from_literal s = Ok d <-> writes_dec d s.
Proof. exact dec_spec. Qed.
Theorem C242_refused : forall s, (forall d, ~ writes_dec d s) -> dec_from_literal s = Err ValueError.
Proof.
  intros s H. destruct (dec_from_literal s) as [n|e] eqn:E; [apply dec_spec in E; destruct (H n E)|].
  now rewrite (dec_err s e E).
Qed.
Example C242_nonvacuous :
  dec_from_literal (lit "-99999999999999999999999999999.50") = Ok (mkDec true 9999999999999999999999999999950 (-2)) /\
  dec_from_literal (lit ".5") = Ok (mkDec false 5 (-1)) /\ dec_from_literal (lit "5.") = Err ValueError /\
  dec_from_literal (lit "1e3") = Err ValueError /\ dec_from_literal (lit "nan") = Err ValueError /\
  dec_from_literal (lit "100000000000000000000000000000") = Err ValueError /\
  ~ writes_dec (mkDec false 5 0) (lit "5.").
Proof.
  repeat (split; [vm_compute; reflexivity|]). intros H. apply dec_spec in H. discriminate.
Qed.

(** ** C243: a Decimal value that can be set can be written, and is read back as the same
    number, or as a nearest number with 29 places if it has more.
    Proved for numbers below 10^29, unless they have more than 29 places and are not below
    0.1 - 10^-29; refuted for these and beyond 10^29. *)
Theorem C243_set_partial : forall d, dec_ok d -> below29 d -> set_dec d = Ok d.
Proof. exact set_dec_accepts. Qed.
Theorem C243_limit_partial : forall d, dec_ok d -> d_neg d = false -> set_dec d = Ok d ->
  d_int d * 10 ^ Z.max 0 (d_exp d) <= 10 ^ 29 * 10 ^ Z.max 0 (- d_exp d).
Proof. exact set_dec_refuses. Qed.
Theorem C243_read_back_partial : forall d, dec_ok d -> below29 d -> -29 <= d_exp d -> (d_int d <> 0 \/ d_exp d <= 28) ->
  exists s d', dec_text d = Written s /\ dec_from_literal s = Ok d' /\ same_number d d'.
Proof.
  intros d Hd Hb He Hz. apply dec_text_read; auto.
  destruct (Z.eq_dec (d_int d) 0) as [E|E]; [|now apply len_below].
  unfold d_len, d_digits. rewrite E. change (Z.of_nat (length (fmt 0))) with 1. lia.
Qed.
Theorem C243_rounded_partial : forall d, dec_ok d -> d_exp d < -29 ->
  (d_int d * 10 < 10 ^ (- d_exp d) - 10 ^ (-29 - d_exp d) * 10 -> exists s, dec_text d = Written s) /\
  forall s, dec_text d = Written s -> exists d', dec_from_literal s = Ok d' /\ nearest29 d d'.
Proof.
  intros d Hd He. split; [now apply dec_text_small|]. intros s. now apply dec_text_near.
Qed.
Definition ten29 : dec := mkDec false (10 ^ 29) 0.
Definition ninth : dec := mkDec false 111111111111111111111111111111 (-30).
Theorem C243_refuted :
  (set_dec ten29 = Ok ten29 /\ dec_text ten29 = TooLarge) /\
  (set_dec (mkDec true (10 ^ 29 + 3) 0) = Ok (mkDec true (10 ^ 29 + 3) 0) /\ dec_text (mkDec true (10 ^ 29 + 3) 0) = TooLarge /\
   set_dec (mkDec false (10 ^ 29 + 3) 0) = Err ValueError) /\
  (set_dec ninth = Ok ninth /\ dec_text ninth = InvalidOperation) /\
  (set_dec (mkDec false 0 40) = Ok (mkDec false 0 40) /\ dec_text (mkDec false 0 40) = TooLarge).
Proof. vm_compute. repeat split. Qed.
Definition with_places : dec := mkDec true 123456 (-3).
Example C243_nonvacuous :
  (dec_ok with_places /\ below29 with_places /\ dec_text with_places = Written (lit "-123.456")) /\
  (below29 (mkDec false 12 3) /\ dec_text (mkDec false 12 3) = Written (lit "12000")) /\
  dec_text (mkDec false 5 (-3)) = Written (lit "0.005") /\
  (dec_ok (mkDec false 25 (-30)) /\ dec_text (mkDec false 25 (-30)) = Written (lit "0.00000000000000000000000000002")).
Proof. repeat split; vm_compute; congruence. Qed.

(** ** C244: a Guid is written as groups of 8, 4, 4, 4 and 12 hexadecimal digits, and is read
    back as the same; SetFromLiteral accepts exactly such texts.
    Refuted: any of the hyphens may be missing. *)
Theorem C244_round_trip : forall n, 0 <= n < 2 ^ 128 -> writes_guid n (guid_text n) /\ guid_from_literal (guid_text n) = Ok n.
Proof.
  intros n H. pose proof (guid_written n H) as W. split; [exact W|]. apply (guid_of_groups n [[45]; [45]; [45]; [45]]); [|exact W].
  repeat constructor.
Qed.
Theorem C244_literals_partial : forall s n,
  (guid_from_literal s = Ok n <-> exists bs, Forall (fun w => w = [45] \/ w = []) bs /\ guid_groups n bs s) /\
  (guid_from_literal s = Ok n -> 0 <= n < 2 ^ 128).
Proof.
  assert (forall bs : list str, Forall (fun w => w = [45] \/ w = []) bs <-> Forall (fun w => In w [[45]; []]) bs) as A.
  { intros bs. split; apply Forall_impl; intros w; cbn; intuition auto. }
  intros s n. split; [split|].
  - intros H. destruct (guid_groups_of n s H) as (bs & B & G). exists bs. split; [now apply A|exact G].
  - intros (bs & B & G). apply (guid_of_groups n bs); [now apply A|exact G].
  - intros H. destruct (guid_groups_of n s H) as (bs & B & G). exact (guid_range n bs s G).
Qed.
Theorem C244_refused : forall s, (forall n bs, Forall (fun w => w = [45] \/ w = []) bs -> ~ guid_groups n bs s) -> guid_from_literal s = Err ValueError.
Proof.
  intros s H. destruct (guid_from_literal s) as [n|e] eqn:E; [|now rewrite (guid_err s e E)].
  apply (proj1 (proj1 (C244_literals_partial s n))) in E. destruct E as (bs & B & G). destruct (H n bs B G).
Qed.
Theorem C244_literals_refuted : exists s n, guid_from_literal s = Ok n /\ ~ writes_guid n s.
Proof.
  exists (lit "c0dec0dec0dec0dec0dec0dec0dec0de"), 256368376964284972839561423168324157662. split; [vm_compute; reflexivity|].
  intros (a & b & c & d & e & _ & La & Lb & Lc & Ld & Le & w & x & y & z & [= <- <- <- <-] & E).
  apply (f_equal (@length Z)) in E. rewrite !app_length, La, Lb, Lc, Ld, Le in E. vm_compute in E. discriminate.
Qed.
Example C244_nonvacuous :
  guid_text 256368376964284972839561423168324157662 = lit "c0dec0de-c0de-c0de-c0de-c0dec0dec0de" /\
  guid_text 1 = lit "00000000-0000-0000-0000-000000000001" /\
  guid_from_literal (lit "C0DEC0DE-C0DE-C0DE-C0DE-C0DEC0DEC0DE") = Ok 256368376964284972839561423168324157662 /\
  guid_from_literal (lit "c0dec0de-c0de-c0de-c0de-c0dec0dec0d") = Err ValueError.
Proof. vm_compute. repeat split. Qed.

(** ** C245: SetFromLiteral of Boolean accepts "true" and "false" in any case, and nothing else *)
Theorem C245_literals : forall s b, bool_literal s = Ok b <-> word (if b then "true" else "false") s.
Proof. exact bool_spec. Qed.
Theorem C245_refused : forall s, ~ word "true" s -> ~ word "false" s -> bool_literal s = Err ValueError.
Proof.
  intros s H1 H2. destruct (bool_literal s) as [b|e] eqn:E.
  - apply bool_spec in E. destruct b; contradiction.
  - unfold bool_literal in E. destruct (str_eqb _ _); [discriminate|]. destruct (str_eqb _ _); congruence.
Qed.
Theorem C245_round_trip : forall b, bool_literal (bool_text b) = Ok b /\ bool_text b = lit (if b then "true" else "false").
Proof. destruct b; split; reflexivity. Qed.
Example C245_nonvacuous : bool_literal (lit "TrUe") = Ok true /\ bool_literal (lit "1") = Err ValueError.
Proof. split; reflexivity. Qed.

(** ** C246: SetFromLiteral of Binary accepts pairs of hexadecimal digits, and gives their
    bytes; unicode writes them so that they are read back *)
Theorem C246_literals : forall s v, binary_from_literal s = Ok v <-> hex_text v s.
Proof. exact binary_spec. Qed.
Theorem C246_refused : forall s, (forall v, ~ hex_text v s) -> binary_from_literal s = Err ValueError.
Proof.
  intros s H. destruct (binary_from_literal s) as [v|e] eqn:E; [apply binary_spec in E; destruct (H v E)|].
  now rewrite (binary_err s e E).
Qed.
Theorem C246_round_trip : forall v, Forall (fun b => 0 <= b <= 255) v -> binary_from_literal (binary_text v) = Ok v.
Proof. intros v H. apply binary_spec. exact (hex_text_bytes v H). Qed.
Example C246_nonvacuous :
  binary_text [0; 255; 16] = lit "00FF10" /\ binary_from_literal (lit "00fF10") = Ok [0; 255; 16] /\
  binary_from_literal (lit "0") = Err ValueError /\ binary_from_literal (lit "00 ") = Err ValueError /\
  binary_from_literal [] = Ok [].
Proof. vm_compute. repeat split. Qed.

Print Assumptions C240_literals.
Print Assumptions C240_refused.
Print Assumptions C240_round_trip.
Print Assumptions C241_set.
Print Assumptions C241_stored.
Print Assumptions C241_refused.
Print Assumptions C242_literals.
Print Assumptions C242_refused.
Print Assumptions C243_set_partial.
Print Assumptions C243_limit_partial.
Print Assumptions C243_read_back_partial.
Print Assumptions C243_rounded_partial.
Print Assumptions C243_refuted.
Print Assumptions C244_round_trip.
Print Assumptions C244_literals_partial.
Print Assumptions C244_refused.
Print Assumptions C244_literals_refuted.
Print Assumptions C245_literals.
Print Assumptions C245_refused.
Print Assumptions C245_round_trip.
Print Assumptions C246_literals.
Print Assumptions C246_refused.
Print Assumptions C246_round_trip.
