(** Proofs about FixWin.v. *)
From Verif Require Import Py Dec XmlUtils XmlSpec ImscpSpec FixWin.
Ltac Zify.zify_convert_to_euclidean_division_equations_flag ::= constr:(true).

Lemma hexup_hex n : 0 <= n <= 15 -> hex_of (hexup n) n.
Proof. unfold hexup, hex_of. intros H. destruct (n <? 10) eqn:E; lia. Qed.

Lemma href3 a b c n : hex_of a (n / 256) /\ hex_of b (n / 16 mod 16) /\ hex_of c (n mod 16) ->
  hex_reference [38; 35; 120; a; b; c; 59] n.
Proof.
  intros (Ha & Hb & Hc). exists (([a] ++ [b]) ++ [c]). split; [reflexivity|].
  replace n with ((n / 256 * 16 + n / 16 mod 16) * 16 + n mod 16) by lia.
  apply hn_more; [apply hn_more; [apply hn_one|]|]; assumption.
Qed.
Lemma href4 a b c d n : hex_of a (n / 4096) /\ hex_of b (n / 256 mod 16) /\ hex_of c (n / 16 mod 16) /\ hex_of d (n mod 16) ->
  hex_reference [38; 35; 120; a; b; c; d; 59] n.
Proof.
  intros (Ha & Hb & Hc & Hd). exists ((([a] ++ [b]) ++ [c]) ++ [d]). split; [reflexivity|].
  replace n with (((n / 4096 * 16 + n / 256 mod 16) * 16 + n / 16 mod 16) * 16 + n mod 16) by lia.
  apply hn_more; [apply hn_more; [apply hn_more; [apply hn_one|]|]|]; assumption.
Qed.

(** What fix_get finds for each octet *)
Lemma fix_get_spec c : 0 <= c <= 255 ->
  match fix_get c CharFixMap with
  | Some s => exists n, In (c, n) cp1252_table /\ hex_reference s n /\ s <> [c] /\ Forall (fun x => 0 <= x < 0x80) s
  | None => ~ windows_char c
  end.
Proof.
  intros Hc. destruct (fix_get c CharFixMap) as [s|] eqn:E.
  - unfold CharFixMap in E. cbn [fix_get] in E.
    repeat match type of E with
    | (if ?b then _ else _) = _ => destruct b eqn:?; [
        match goal with H : (c =? ?k) = true |- _ => apply Z.eqb_eq in H; subst c end;
        injection E as <-;
        eexists; split; [cbn [In cp1252_table]; auto 40|];
        split; [|split; [discriminate|vm_compute lit; repeat (apply Forall_cons; [lia|]); apply Forall_nil]]|]
    end; [..|discriminate E].
    all: first [apply href3 | apply href4]; vm_compute; intuition congruence.
  - unfold CharFixMap in E. cbn [fix_get] in E.
    repeat match type of E with (if ?b then _ else _) = _ => destruct b eqn:?; [discriminate E|] end.
    unfold windows_char. cbn [map fst cp1252_table In]. lia.
Qed.

Lemma windows_range c : windows_char c -> 0x80 <= c <= 0x9F.
Proof. unfold windows_char. cbn [map fst cp1252_table In]. lia. Qed.

Lemma fix_char_spec ascii c : 0 <= c <= 255 ->
  fixed_as ascii c (fix_char ascii c) /\
  Forall (fun x => ~ windows_char x /\ (ascii = true -> 0 <= x < 0x80)) (fix_char ascii c) /\
  (needs_fix ascii c = false -> fix_char ascii c = [c]).
Proof.
  intros Hc. pose proof (fix_get_spec c Hc) as H. unfold fix_char, needs_fix.
  destruct (fix_get c CharFixMap) as [s|].
  - destruct H as (n & Hn & Hr & Hs & Hf).
    replace (str_eqb s [c]) with false by (symmetry; apply str_eqb_neq, Hs).
    rewrite andb_false_r. cbn [andb]. split; [eapply fx_windows; eassumption|].
    assert (windows_char c) as Hw by (unfold windows_char; apply (in_map fst) in Hn; exact Hn).
    apply windows_range in Hw. split; [|intros Q; lia].
    eapply Forall_impl; [|exact Hf]. intros x Hx. cbv beta in *. split; [|lia].
    intros W. apply windows_range in W. lia.
  - rewrite str_eqb_refl, andb_true_r. destruct (ascii && (c >=? 0x80)) eqn:E.
    + assert (hex_of (hexup (c / 16)) (c / 16) /\ hex_of (hexup (c mod 16)) (c mod 16)) as [H1 H2]
        by (split; apply hexup_hex; lia).
      split; [|split].
      * apply fx_latin1; [lia|lia|exact H|]. exists ([hexup (c / 16)] ++ [hexup (c mod 16)]). split; [reflexivity|].
        rewrite (Z.div_mod c 16) at 3 by lia. rewrite (Z.mul_comm 16). apply hn_more; [apply hn_one|]; assumption.
      * assert (forall x, 0 <= x < 0x80 -> ~ windows_char x /\ (ascii = true -> 0 <= x < 0x80)) as G.
        { intros x Hx. split; [|intros; exact Hx]. intros W. apply windows_range in W. lia. }
        change (lit "&#x") with [38; 35; 120]. change (lit ";") with [59]. cbn [app].
        unfold hex_of in H1, H2. repeat (apply Forall_cons; [apply G; lia|]). apply Forall_nil.
      * intros Q. lia.
    + split; [apply fx_same; [exact H|lia]|]. split; [|reflexivity].
      apply Forall_cons; [split; [exact H|lia]|apply Forall_nil].
Qed.

Lemma treated_dec force h0 h1 h2 h3 rest :
  treated force (h0 :: h1 :: h2 :: h3 :: rest) <->
  mem h0 [0x00; 0xFE; 0xFF; 0xEF] || (h1 =? 0) = false /\ negb (h0 =? 0x3C) && negb force = false.
Proof.
  cbn [mem existsb]. split.
  - intros (a & b & c & d & r & E & H). injection E as -> -> -> -> ->.
    destruct force; lia.
  - intros [H1 H2]. exists h0, h1, h2, h3, rest. split; [reflexivity|].
    repeat (split; [lia|]). destruct force; [left; reflexivity|right; lia].
Qed.

Lemma fix_file_skip ascii force data : ~ treated force data -> FixFile ascii force data = data.
Proof.
  intros H. unfold FixFile. destruct data as [|h0 [|h1 [|h2 [|h3 rest]]]]; try reflexivity.
  destruct (mem h0 _ || _) eqn:E1; [reflexivity|]. destruct (negb _ && _) eqn:E2; [reflexivity|].
  exfalso. apply H, treated_dec. split; assumption.
Qed.

Lemma fix_file_treated ascii force data : treated force data -> octets data ->
  FixFile ascii force data = List.concat (map (fix_char ascii) data).
Proof.
  intros H Ho. unfold FixFile. destruct data as [|h0 [|h1 [|h2 [|h3 rest]]]];
    try (destruct H as (a & b & c & d & r & E & _); discriminate E).
  apply treated_dec in H as [-> ->].
  destruct (existsb _ _) eqn:E; [reflexivity|]. cbn [negb].
  induction Ho as [|c s Hc Hs IH]; [reflexivity|]. cbn [existsb] in E. apply orb_false_iff in E as [E1 E2].
  cbn [map List.concat]. rewrite <- (IH E2). destruct (fix_char_spec ascii c Hc) as (_ & _ & G). rewrite G by exact E1. reflexivity.
Qed.

Lemma fix_pieces ascii data : octets data ->
  Forall2 (fixed_as ascii) data (map (fix_char ascii) data).
Proof. induction 1 as [|c s Hc Hs IH]; constructor; [apply fix_char_spec, Hc|exact IH]. Qed.

Lemma fix_clean ascii data : octets data ->
  Forall (fun x => ~ windows_char x /\ (ascii = true -> 0 <= x < 0x80)) (List.concat (map (fix_char ascii) data)).
Proof.
  induction 1 as [|c s Hc Hs IH]; cbn [map List.concat]; [constructor|].
  apply Forall_app. split; [apply fix_char_spec, Hc|exact IH].
Qed.

Lemma fix_octets ascii data : octets data -> octets (List.concat (map (fix_char ascii) data)).
Proof.
  induction 1 as [|c s Hc Hs IH]; cbn [map List.concat]; [constructor|].
  apply Forall_app. split; [|exact IH]. pose proof (fix_get_spec c Hc) as H. unfold fix_char.
  destruct (fix_get c CharFixMap) as [w|].
  - destruct H as (n & _ & _ & Hn & Hf).
    replace (str_eqb w [c]) with false by (symmetry; apply str_eqb_neq, Hn).
    rewrite andb_false_r. cbn [andb]. eapply Forall_impl; [|exact Hf]. cbv beta. intros; lia.
  - destruct (_ && _ && _).
    + assert (forall n, 0 <= n <= 15 -> 0 <= hexup n <= 255) as G.
      { intros n Hn. unfold hexup. destruct (n <? 10) eqn:E; lia. }
      pose proof (G (c / 16) ltac:(lia)). pose proof (G (c mod 16) ltac:(lia)).
      vm_compute lit. cbn [app]. repeat (apply Forall_cons; [lia|]). apply Forall_nil.
    + constructor; [exact Hc|constructor].
Qed.

Lemma fix_char_same ascii c : 0 <= c <= 255 -> ~ windows_char c -> (ascii = true -> c < 0x80) -> fix_char ascii c = [c].
Proof.
  intros Hc Hw Ha. pose proof (fix_get_spec c Hc) as H. unfold fix_char.
  destruct (fix_get c CharFixMap) as [w|].
  - destruct H as (n & Hn & _). exfalso. apply Hw. unfold windows_char. apply (in_map fst) in Hn. exact Hn.
  - replace (ascii && str_eqb [c] [c] && (c >=? 128)) with false; [reflexivity|].
    destruct ascii; [|reflexivity]. specialize (Ha eq_refl). rewrite str_eqb_refl. cbn [andb]. lia.
Qed.

Lemma fix_file_idem ascii force data : octets data ->
  FixFile ascii force (FixFile ascii force data) = FixFile ascii force data.
Proof.
  intros Ho.
  assert (treated force data \/ ~ treated force data) as [T|T].
  { destruct data as [|h0 [|h1 [|h2 [|h3 rest]]]];
      try (right; intros (a & b & c & d & r & E & _); discriminate E).
    rewrite treated_dec. destruct (_ || _), (_ && _); intuition congruence. }
  - rewrite (fix_file_treated _ _ _ T Ho).
    pose proof (fix_clean ascii data Ho) as HC. pose proof (fix_octets ascii data Ho) as HO.
    set (d := List.concat _) in *.
    assert (List.concat (map (fix_char ascii) d) = d) as Hd.
    { clearbody d. induction HO as [|c s Hc Hs IH]; [reflexivity|]. inversion_clear HC as [|? ? [H1 H2] H3].
      cbn [map List.concat]. rewrite IH by exact H3. rewrite fix_char_same; [reflexivity|exact Hc|exact H1|].
      intros E. apply H2, E. }
    assert (treated force d \/ ~ treated force d) as [T'|T'].
    { destruct d as [|h0 [|h1 [|h2 [|h3 rest]]]];
        try (right; intros (a & b & c & e & r & E & _); discriminate E).
      rewrite treated_dec. destruct (_ || _), (_ && _); intuition congruence. }
    + rewrite (fix_file_treated _ _ _ T' HO). exact Hd.
    + apply fix_file_skip, T'.
  - rewrite !(fix_file_skip _ _ _ T). reflexivity.
Qed.
