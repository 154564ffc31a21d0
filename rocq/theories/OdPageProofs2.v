(** Server, client and their pages. *)
From Coq Require Import Lia Zify Permutation Sorted.
From Verif Require Import Py Iso Dec Shapes XmlChars HttpCore HttpSpec HttpProofs3 OdPage OdPageSpec OdPageProofs.
Open Scope Z_scope.
Open Scope list_scope.

Section Client.
Context {E : Type}.
Implicit Types es L : list E.

Definition place (s : option Z) (token : option str) : Z :=
  match s with Some s => s | None => 0 end +
  match token with Some t => match int16 t with Some n => n | None => 0 end | None => 0 end.
Definition force (t m : option Z) : option Z :=
  match m with
  | Some m => if m =? 0 then None else
              match t with Some t => if t >? m then Some m else None | None => Some m end
  | None => None
  end.
Lemma serve_spec m es t s token : 0 <= place s token -> (forall n, t = Some n -> 0 <= n) -> (forall n, m = Some n -> 0 <= n) ->
  serve m es t s token =
  if match t with Some t => t =? 0 | None => false end then ([], None)
  else (slice (Z.to_nat (place s token)) (to_size (page_size t m)) es,
        match force t m with Some n => Some (hexstr (place s token + n)) | None => None end).
Proof.
  intros Hs Ht Hm. unfold serve. rewrite iterpage_spec; [|exact Hs|exact Ht|exact Hm]. cbn [TopMax SetPage top skip skiptoken topmax].
  destruct (match t with Some t0 => t0 =? 0 | None => false end); reflexivity.
Qed.

Lemma size_pos t m z : (forall n, t = Some n -> 0 < n) -> (forall n, m = Some n -> 0 <= n) -> page_size t m = Some z -> 0 < z.
Proof.
  unfold page_size. intros Ht Hm. destruct t as [t|], m as [m|]; try discriminate; intros Hz;
    repeat match goal with |- _ => specialize (Ht _ eq_refl) | |- _ => specialize (Hm _ eq_refl) end;
    try (destruct (m =? 0) eqn:Em); injection Hz as <- || discriminate; lia.
Qed.
Lemma force_size t m n : force t m = Some n -> page_size t m = Some n.
Proof.
  unfold force, page_size. destruct m as [m|]; [|discriminate]. destruct (m =? 0) eqn:Em; [discriminate|].
  destruct t as [t|]; [destruct (t >? m) eqn:Et; [|discriminate]|]; intros [= <-]; f_equal. lia.
Qed.

(** ** All entities through the next links *)
Lemma entityGenerator_spec m ess L (H : forall n, ess n = L) (Hm : forall n, m = Some n -> 0 <= n) k : forall j n token,
  place None token = Z.of_nat j -> (length L - j < k)%nat ->
  entityGenerator m ess n token k = Ok (skipn j L).
Proof.
  induction k as [|k IH]; intros j n token Hp Hk; [lia|]. cbn [entityGenerator].
  rewrite serve_spec by (lia || discriminate || exact Hm). rewrite H, Hp, Nat2Z.id.
  destruct (force None m) as [z|] eqn:Ef.
  - pose proof (force_size _ _ _ Ef) as Ez. rewrite Ez. cbn [to_size slice].
    assert (Hz : 0 < z) by (eapply (size_pos None m); [discriminate|exact Hm|exact Ez]).
    destruct (le_lt_dec (length L) j) as [Hj|Hj].
    + rewrite skipn_all2 by exact Hj. rewrite firstn_nil. reflexivity.
    + destruct (skipn j L) as [|e l] eqn:Es.
      { exfalso. pose proof (skipn_length j L) as X. rewrite Es in X. cbn in X. lia. }
      replace (Z.to_nat z) with (S (Z.to_nat (z - 1))) by lia. cbn [firstn].
      rewrite (IH (j + Z.to_nat z)%nat).
      * cbn [bind]. f_equal. change (e :: firstn (Z.to_nat (z - 1)) l) with (firstn (S (Z.to_nat (z - 1))) (e :: l)).
        rewrite <- Es. replace (S (Z.to_nat (z - 1))) with (Z.to_nat z) by lia.
        replace (skipn (j + Z.to_nat z) L) with (skipn (Z.to_nat z) (skipn j L)); [apply firstn_skipn|].
        clear. revert j. induction L as [|x L IH]; intros j; [now rewrite !skipn_nil|]. destruct j as [|j]; [reflexivity|]. cbn [skipn Nat.add]. apply IH.
      * unfold place. rewrite int16_hexstr by lia. lia.
      * lia.
  - assert (Ez : page_size None m = None).
    { unfold force, page_size in *. destruct m as [m|]; [|reflexivity]. destruct (m =? 0); [reflexivity|discriminate]. }
    rewrite Ez. cbn [to_size slice]. destruct (skipn j L); reflexivity.
Qed.

(** ** Pages of a client *)
Definition at_client (m : option Z) (s j : nat) L (c : page) : Prop :=
  match page_size (top c) m with
  | Some z => place (skip c) (skiptoken c) = Z.of_nat s + Z.of_nat j * z \/
              (Z.of_nat (length L) <= place (skip c) (skiptoken c) /\ (length L <= s + j * Z.to_nat z)%nat)
  | None => (j = O /\ place (skip c) (skiptoken c) = Z.of_nat s) \/ (j <> O /\ Z.of_nat (length L) <= place (skip c) (skiptoken c))
  end.
Lemma client_pages_spec m ess L s (H : forall n, ess n = L) (Hm : forall n, m = Some n -> 0 <= n) k : forall j n c,
  (forall t, top c = Some t -> 0 < t) -> 0 <= place (skip c) (skiptoken c) -> at_client m s j L c ->
  client_pages m ess n c k = map (nth_page s (to_size (page_size (top c) m)) L) (seq j k).
Proof.
  induction k as [|k IH]; intros j n c Ht Hp A; cbn [client_pages seq map]; [reflexivity|].
  unfold client_iterpage. rewrite serve_spec; [|exact Hp|intros t Et; specialize (Ht t Et); lia|exact Hm].
  destruct (match top c with Some t => t =? 0 | None => false end) eqn:E0.
  { destruct (top c) as [t|]; [|discriminate]. specialize (Ht t eq_refl). lia. }
  rewrite H. set (pl := place (skip c) (skiptoken c)) in *.
  assert (Page : slice (Z.to_nat pl) (to_size (page_size (top c) m)) L = nth_page s (to_size (page_size (top c) m)) L j).
  { unfold at_client in A. fold pl in A. destruct (page_size (top c) m) as [z|] eqn:Ez; cbn [to_size slice nth_page].
    - pose proof (size_pos _ _ _ Ht Hm Ez) as Hz. destruct A as [A|[A B]].
      + do 2 f_equal. rewrite A. nia.
      + rewrite !skipn_all2 by (exact B || lia). reflexivity.
    - destruct A as [[-> A]|[A B]].
      + f_equal. lia.
      + rewrite skipn_all2 by lia. destruct j; [congruence|reflexivity]. }
  rewrite Page.
  destruct (force (top c) m) as [z|] eqn:Ef.
  - pose proof (force_size _ _ _ Ef) as Ez. pose proof (size_pos _ _ _ Ht Hm Ez) as Hz. f_equal.
    match goal with |- client_pages _ _ _ ?q _ = _ => assert (Q : place (skip q) (skiptoken q) = pl + z) end.
    { cbn [skip skiptoken]. unfold place. rewrite int16_hexstr by lia. lia. }
    rewrite (IH (S j)); [reflexivity|exact Ht|rewrite Q; lia|].
    unfold at_client in *. cbn [top]. rewrite Ez in *. fold pl in A. rewrite Q. destruct A as [A|[A B]]; [left; lia|right; lia].
  - f_equal.
    match goal with |- client_pages _ _ _ ?q _ = _ =>
      assert (Q : place (skip q) (skiptoken q) = pl + Z.of_nat (length (nth_page s (to_size (page_size (top c) m)) L j))) end.
    { cbn [skip skiptoken]. unfold pl, place. destruct (skip c); lia. }
    rewrite (IH (S j)); [reflexivity|exact Ht|rewrite Q; lia|].
    unfold at_client in *. rewrite Q. cbn [top]. rewrite <- Page. fold pl in A. clear Q.
    destruct (page_size (top c) m) as [z|] eqn:Ez; cbn [to_size slice].
    + pose proof (size_pos _ _ _ Ht Hm Ez) as Hz. rewrite firstn_length, skipn_length. destruct A as [A|[A B]]; [|right; lia].
      destruct (Z_le_gt_dec z (Z.of_nat (length L) - pl)); [left; lia|right]. split; [lia|]. nia.
    + right. split; [congruence|]. rewrite skipn_length. lia.
Qed.
End Client.
