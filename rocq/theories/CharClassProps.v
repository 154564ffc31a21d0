(** Properties C01-C05, C66: CharClass (pyslet/unicode5.py). *)
From Verif Require Import Py CharClass CharClassSpec CharClassProofs.

(** C01: after any history of calls, Test answers membership in the mathematical set. *)
Theorem C01_history_is_set : forall (M : Z) (h : list op),
  0 <= M -> ops_ok M h ->
  exists rs, run_ops M [] h = Ok rs /\
    forall c, exists b, test rs (Some c) = Ok b /\ (b = true <-> denote_ops M empty h c).
Proof. exact history_is_set. Qed.
Print Assumptions C01_history_is_set.

Example C01_example :
  let h := [AddRange 97 122; SubtractChar 101; AddClass [AddChar 48; AddRange 57 50; Negate];
            SubtractRange 120 1000; Negate] in
  ops_ok 65535 h /\
  (rs <- run_ops 65535 [] h ;; test rs (Some 101)) = Ok false /\
  (rs <- run_ops 65535 [] h ;; test rs (Some 49)) = Ok false /\
  (rs <- run_ops 65535 [] h ;; test rs (Some 121)) = Ok true.
Proof. split; [cbn; lia|]. vm_compute. auto. Qed.

(** C02: the ranges held are non-empty, in bounds, increasing and disjoint. *)
Theorem C02_history_ranges_ok : forall (M : Z) (h : list op),
  0 <= M -> ops_ok M h -> exists rs, run_ops M [] h = Ok rs /\ ranges_ok M rs.
Proof. exact history_ranges_ok. Qed.
Print Assumptions C02_history_ranges_ok.

Example C02_example :
  run_ops 255 [] [AddRange 10 20; AddRange 30 40; AddRange 15 35; SubtractRange 12 12]
  = Ok [(10, 11); (13, 40)].
Proof. vm_compute. reflexivity. Qed.

(** C03: Test terminates without an index error and agrees with a linear scan. *)
Theorem C03_test_agrees_with_linear_scan : forall (M : Z) rs (c : Z),
  ranges_ok M rs -> exists b, test rs (Some c) = Ok b /\ (b = true <-> covers rs c).
Proof. exact test_linear. Qed.
Print Assumptions C03_test_agrees_with_linear_scan.

Example C03_example : ranges_ok 255 [(10, 11); (13, 40); (50, 50)] /\
  test [(10, 11); (13, 40); (50, 50)] (Some 12) = Ok false /\
  test [(10, 11); (13, 40); (50, 50)] (Some 50) = Ok true.
Proof. split; [|vm_compute; auto]. apply srt_ranges_ok. cbn. unfold valid; cbn.
  intuition (subst; cbn; lia). Qed.

(** C04: classes that compare equal accept the same characters ... *)
Theorem C04_equal_classes_same_set_partial : forall rs1 rs2,
  cc_eq rs1 rs2 = true -> forall c, test rs1 c = test rs2 c.
Proof. intros rs1 rs2 H c. apply cc_eq_eq in H. subst. reflexivity. Qed.
Print Assumptions C04_equal_classes_same_set_partial.

(** ... and classes in which no two ranges touch are equal when they accept the same
    characters.  Missing from the full statement: reachable classes whose ranges touch. *)
Theorem C04_same_set_equal_if_no_touch_partial : forall M rs1 rs2,
  ranges_ok M rs1 -> ranges_ok M rs2 -> no_touch rs1 -> no_touch rs2 ->
  (forall c, covers rs1 c <-> covers rs2 c) -> cc_eq rs1 rs2 = true.
Proof. intros M rs1 rs2 H1 H2 H3 H4 H5. apply cc_eq_eq. exact (canonical_unique M rs1 rs2 H1 H2 H3 H4 H5). Qed.
Print Assumptions C04_same_set_equal_if_no_touch_partial.

(** The converse is false: CharClass("ac"), then AddChar("b"), does not equal
    CharClass(("a","c")) although both accept exactly a, b and c (Merge, line 421,
    looks right only if there is nothing on the left). *)
Theorem C04_same_set_equal_refuted : exists h1 h2 rs1 rs2,
  ops_ok 65535 h1 /\ ops_ok 65535 h2 /\
  run_ops 65535 [] h1 = Ok rs1 /\ run_ops 65535 [] h2 = Ok rs2 /\
  (forall c, covers rs1 c <-> covers rs2 c) /\ cc_eq rs1 rs2 = false.
Proof.
  exists [AddChar 97; AddChar 99; AddChar 98], [AddRange 97 99], [(97, 98); (99, 99)], [(97, 99)].
  split; [cbn; lia|]. split; [cbn; lia|]. split; [vm_compute; reflexivity|].
  split; [vm_compute; reflexivity|]. split; [|vm_compute; reflexivity].
  intros c. rewrite !covers_cons, !covers_nil. lia.
Qed.
Print Assumptions C04_same_set_equal_refuted.

(** C05: Negate never fails, complements, and is its own inverse on sets. *)
Theorem C05_double_negation : forall (M : Z) rs,
  0 <= M -> ranges_ok M rs ->
  exists rs1 rs2, negate M rs = Ok rs1 /\ negate M rs1 = Ok rs2 /\
    (forall c, covers rs1 c <-> compl M (covers rs) c) /\
    (forall c, covers rs2 c <-> covers rs c).
Proof. exact double_negate. Qed.
Print Assumptions C05_double_negation.

Example C05_example : negate 255 [(10, 11); (13, 255)] = Ok [(0, 9); (12, 12)] /\
  negate 255 [(0, 9); (12, 12)] = Ok [(10, 11); (13, 255)].
Proof. vm_compute. auto. Qed.

(** C66: AddClass with the class itself as operand changes nothing ... *)
Theorem C66_add_self_partial : forall M rs, ranges_ok M rs -> add_self rs = Ok rs.
Proof. exact add_self_id. Qed.
Print Assumptions C66_add_self_partial.

(** ... but SubtractClass with the class itself as operand leaves characters behind,
    because the loop skips a range each time it deletes one. *)
Theorem C66_sub_self_refuted : exists rs rs',
  ranges_ok 65535 rs /\ sub_self 65535 rs = Ok rs' /\ test rs' (Some 99) = Ok true.
Proof.
  exists [(97, 97); (99, 99)], [(99, 99)]. split; [|vm_compute; auto].
  apply srt_ranges_ok. cbn. unfold valid; cbn. intuition (subst; cbn; lia).
Qed.
Print Assumptions C66_sub_self_refuted.
