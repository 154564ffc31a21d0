(** Proofs about the enumerations of Xsd.v. *)
From Verif Require Import Py Dec XmlUtils Xsd XsdSpec XsdProofs.

Lemma assoc_set_key k v d k' : assoc k' (set_key k v d) = if str_eqb k' k then Some v else assoc k' d.
Proof.
  induction d as [|[a w] d IH]; cbn [set_key assoc]; [reflexivity|].
  destruct (str_eqb k a) eqn:E; cbn [assoc].
  - apply str_eqb_eq in E as <-. destruct (str_eqb k' k) eqn:E'; [|reflexivity]. reflexivity.
  - rewrite IH. destruct (str_eqb k' a) eqn:E'; [|reflexivity]. destruct (str_eqb k' k) eqn:E2; [|reflexivity].
    apply str_eqb_eq in E' as <-. apply str_eqb_eq in E2 as <-. rewrite (proj2 (str_eqb_eq k' k') eq_refl) in E. discriminate.
Qed.
Lemma assoc_dict {A} (d : list (str * A)) k v : dict d -> In (k, v) d -> assoc k d = Some v.
Proof.
  induction d as [|[a w] d IH]; intros D H; [contradiction|]. inversion_clear D as [|? ? Na D']. cbn [assoc].
  destruct H as [[= -> ->]|H].
  - rewrite (proj2 (str_eqb_eq k k) eq_refl). reflexivity.
  - destruct (str_eqb k a) eqn:E; [|apply IH; auto]. apply str_eqb_eq in E as ->. exfalso. apply Na.
    change a with (fst (a, v)). apply in_map, H.
Qed.
Lemma assoc_In' {A} (d : list (str * A)) k v : assoc k d = Some v -> In (k, v) d.
Proof.
  induction d as [|[a w] d IH]; cbn [assoc]; [discriminate|]. destruct (str_eqb k a) eqn:E.
  - apply str_eqb_eq in E as ->. intros [= ->]. left. reflexivity.
  - intros H. right. apply IH, H.
Qed.
Lemma zassoc_set v k m v' : zassoc v' (set_zkey v k m) = if v' =? v then Some k else zassoc v' m.
Proof.
  induction m as [|[a w] m IH]; cbn [set_zkey zassoc]; [reflexivity|].
  destruct (v =? a) eqn:E; cbn [zassoc].
  - destruct (v' =? v) eqn:E'; [reflexivity|]. replace (v' =? a) with false by lia. reflexivity.
  - rewrite IH. destruct (v' =? a) eqn:E'; [|reflexivity]. replace (v' =? v) with false by lia. reflexivity.
Qed.
Lemma encode_fold d : forall m v, zassoc v (fold_left (fun m kv => set_zkey (snd kv) (fst kv) m) d m) =
  match find (fun kv : str * Z => v =? snd kv) (rev d) with Some kv => Some (fst kv) | None => zassoc v m end.
Proof.
  induction d as [|[k w] d IH]; intros m v; [reflexivity|]. cbn [fold_left rev]. rewrite IH, zassoc_set. cbn [fst snd].
  assert (forall l, find (fun kv : str * Z => v =? snd kv) (l ++ [(k, w)]) =
     match find (fun kv : str * Z => v =? snd kv) l with Some x => Some x | None => if v =? w then Some (k, w) else None end) as F.
  { induction l as [|x l IHl]; [reflexivity|]. cbn [app find]. destruct (v =? snd x); [reflexivity|exact IHl]. }
  rewrite F. destruct (find _ (rev d)); [reflexivity|]. destruct (v =? w); reflexivity.
Qed.
Lemma find_inj d k v : NoDup (map snd d) -> In (k, v) d -> find (fun kv : str * Z => v =? snd kv) (rev d) = Some (k, v).
Proof.
  intros N H. destruct (find _ (rev d)) as [[k' v']|] eqn:E.
  - apply find_some in E as [E1 E2]. cbn [snd] in E2. apply in_rev in E1. assert (v' = v) as -> by lia. f_equal. f_equal.
    clear E2. revert N H E1. induction d as [|[a w] d IH]; intros N H E1; [contradiction|]. inversion_clear N as [|? ? Nw N'].
    cbn [snd] in Nw. destruct H as [[= -> ->]|H], E1 as [[= ->]|E1].
    + reflexivity.
    + exfalso. apply Nw. change v with (snd (k', v)). apply in_map, E1.
    + exfalso. subst. apply Nw. change v with (snd (k, v)). apply in_map, H.
    + apply IH; auto.
  - exfalso. assert (In (k, v) (rev d)) as H' by (apply in_rev; rewrite rev_involutive; exact H).
    apply (find_none _ _ E) in H'. cbn [snd] in H'. lia.
Qed.

(** strip *)
Lemma lstrip_spaces p s : Forall (fun c => is_ws c = true) p -> lstrip (p ++ s) = lstrip s.
Proof. induction 1 as [|c p Hc Hp IH]; [reflexivity|]. cbn [app lstrip]. rewrite Hc. exact IH. Qed.
Lemma lstrip_trim s : match s with [] => True | c :: _ => is_ws c = false end -> lstrip s = s.
Proof. destruct s as [|c s]; [reflexivity|]. cbn [lstrip]. intros ->. reflexivity. Qed.
Lemma lstrip_all p : Forall (fun c => is_ws c = true) p -> lstrip p = [].
Proof. intros H. rewrite <- (app_nil_r p), lstrip_spaces by exact H. reflexivity. Qed.
Lemma strip_padded p s q : Forall (fun c => is_ws c = true) p -> Forall (fun c => is_ws c = true) q -> trimmed s ->
  strip (p ++ s ++ q) = s.
Proof.
  intros Hp Hq [T1 T2]. unfold strip. rewrite lstrip_spaces by exact Hp. destruct s as [|c s].
  - cbn [app]. rewrite (lstrip_all q Hq). reflexivity.
  - rewrite (lstrip_trim ((c :: s) ++ q)) by exact T1. rewrite rev_app_distr, lstrip_spaces by (apply Forall_rev, Hq).
    rewrite lstrip_trim by exact T2. apply rev_involutive.
Qed.
Lemma lstrip_inv s : exists p, Forall (fun c => is_ws c = true) p /\ s = p ++ lstrip s /\
  match lstrip s with [] => True | c :: _ => is_ws c = false end.
Proof.
  induction s as [|c s (p & Hp & E & T)]; [exists []; split; [constructor|split; [reflexivity|exact I]]|].
  cbn [lstrip]. destruct (is_ws c) eqn:W.
  - exists (c :: p). split; [constructor; auto|]. split; [cbn [app]; f_equal; exact E|exact T].
  - exists []. split; [constructor|]. split; [reflexivity|exact W].
Qed.
Lemma strip_inv s : exists p q, Forall (fun c => is_ws c = true) p /\ Forall (fun c => is_ws c = true) q /\
  s = p ++ strip s ++ q /\ trimmed (strip s).
Proof.
  destruct (lstrip_inv s) as (p & Hp & E & T). destruct (lstrip_inv (rev (lstrip s))) as (q & Hq & E' & T').
  exists p, (rev q). split; [exact Hp|]. split; [apply Forall_rev, Hq|]. unfold strip.
  assert (lstrip s = rev (lstrip (rev (lstrip s))) ++ rev q) as E2.
  { rewrite <- rev_app_distr, <- E', rev_involutive. reflexivity. }
  split; [rewrite <- E2; exact E|]. split; [|rewrite rev_involutive; exact T'].
  destruct (rev (lstrip (rev (lstrip s)))) as [|c t]; [exact I|]. rewrite E2 in T. exact T.
Qed.

(** MakeEnumeration *)
Lemma MakeEnumeration_decode d dv e : MakeEnumeration d dv = Ok e -> decode e = d.
Proof.
  unfold MakeEnumeration. destruct dv as [[|c s]|]; [intros [= <-]; reflexivity| |intros [= <-]; reflexivity].
  destruct (assoc _ d); [|discriminate]. intros [= <-]. reflexivity.
Qed.
Lemma MakeEnumeration_encode d dv e : MakeEnumeration d dv = Ok e ->
  encode e = fold_left (fun m kv => set_zkey (snd kv) (fst kv) m) d [].
Proof.
  unfold MakeEnumeration. destruct dv as [[|c s]|]; [intros [= <-]; reflexivity| |intros [= <-]; reflexivity].
  destruct (assoc _ d); [|discriminate]. intros [= <-]. reflexivity.
Qed.
Lemma MakeEnumeration_default d dv e : MakeEnumeration d dv = Ok e ->
  DEFAULT e = match dv with Some (c :: s) => assoc (c :: s) d | _ => None end.
Proof.
  unfold MakeEnumeration. destruct dv as [[|c s]|]; [intros [= <-]; reflexivity| |intros [= <-]; reflexivity].
  destruct (assoc _ d) eqn:E; [|discriminate]. intros [= <-]. reflexivity.
Qed.
Lemma EncodeValue_in d dv e k v : dict d -> NoDup (map snd d) -> MakeEnumeration d dv = Ok e -> In (k, v) d ->
  EncodeValue e v = Some k.
Proof.
  intros D N M H. unfold EncodeValue. rewrite (MakeEnumeration_encode _ _ _ M), encode_fold, (find_inj d k v N H).
  reflexivity.
Qed.
Lemma EncodeValue_out d dv e v : MakeEnumeration d dv = Ok e -> ~ In v (map snd d) -> dict d -> NoDup (map snd d) ->
  EncodeValue e v = match dv with Some (c :: s) => Some (c :: s) | _ => None end.
Proof.
  intros M N D NV. unfold EncodeValue. rewrite (MakeEnumeration_encode _ _ _ M), encode_fold.
  destruct (find _ (rev d)) as [[k' v']|] eqn:E.
  - apply find_some in E as [E1 E2]. cbn [snd] in E2. apply in_rev in E1. exfalso. apply N.
    replace v with (snd (k', v')) by (cbn; lia). apply in_map, E1.
  - cbn [zassoc]. rewrite (MakeEnumeration_default _ _ _ M). pose proof M as M'. unfold MakeEnumeration in M'.
    destruct dv as [[|c s]|]; try reflexivity. destruct (assoc (c :: s) d) as [w|] eqn:Ea; [|discriminate].
    rewrite encode_fold, (find_inj d (c :: s) w NV); [reflexivity|]. apply assoc_In', Ea.
Qed.
Lemma DecodeValue_iff e s v : DecodeValue e s = Ok v <-> assoc (strip s) (decode e) = Some v.
Proof. unfold DecodeValue, decode_key. destruct (assoc _ _); split; congruence. Qed.
Lemma DecodeValue_iff' d dv e s v : dict d -> (forall k, In k (map fst d) -> trimmed k) -> MakeEnumeration d dv = Ok e ->
  (DecodeValue e s = Ok v <->
   exists p k q, s = p ++ k ++ q /\ In (k, v) d /\ Forall (fun c => is_ws c = true) p /\ Forall (fun c => is_ws c = true) q).
Proof.
  intros D T M. rewrite DecodeValue_iff, (MakeEnumeration_decode _ _ _ M). split.
  - intros H. apply assoc_In' in H. destruct (strip_inv s) as (p & q & Hp & Hq & E & _). exists p, (strip s), q. auto.
  - intros (p & k & q & -> & H & Hp & Hq). rewrite strip_padded; auto.
    + apply assoc_dict; auto.
    + apply T. change k with (fst (k, v)). apply in_map, H.
Qed.
Lemma DecodeValue_err e s x : DecodeValue e s = Err x -> x = ValueError.
Proof. unfold DecodeValue, decode_key. destruct (assoc _ _); congruence. Qed.

(** Aliases *)
Lemma aliases_encode al : forall e e', MakeEnumerationAliases e al = Ok e' -> encode e' = encode e /\ DEFAULT e' = DEFAULT e.
Proof.
  induction al as [|[a k] al IH]; intros e e'; cbn [MakeEnumerationAliases]; [intros [= <-]; auto|].
  destruct (assoc k (decode e)) as [v|]; [|discriminate]. intros H. apply IH in H. exact H.
Qed.
Lemma aliases_encode_value e al e' : MakeEnumerationAliases e al = Ok e' -> forall v, EncodeValue e' v = EncodeValue e v.
Proof. intros H v. apply aliases_encode in H as [E D]. unfold EncodeValue. rewrite E, D. reflexivity. Qed.
Lemma aliases_keep al : forall e e' s, MakeEnumerationAliases e al = Ok e' ->
  ~ In s (map fst al) -> assoc s (decode e') = assoc s (decode e).
Proof.
  induction al as [|[a k] al IH]; intros e e' s; cbn [MakeEnumerationAliases]; [intros [= <-]; auto|].
  destruct (assoc k (decode e)) as [v|]; [|discriminate]. intros H N. cbn [map fst In] in N.
  rewrite (IH _ _ s H) by tauto. cbn [decode]. rewrite assoc_set_key.
  destruct (str_eqb s a) eqn:E; [apply str_eqb_eq in E; subst; tauto|reflexivity].
Qed.
(** with fresh, distinct aliases of canonical keys, every alias decodes as its key *)
Lemma aliases_decode al : forall e e' a k, MakeEnumerationAliases e al = Ok e' -> NoDup (map fst al) ->
  (forall b l, In (b, l) al -> assoc b (decode e) = None /\ ~ In l (map fst al)) -> In (a, k) al ->
  assoc a (decode e') = assoc k (decode e) /\ assoc k (decode e) <> None.
Proof.
  induction al as [|[b l] al IH]; intros e e' a k H N F I; [contradiction|]. cbn [MakeEnumerationAliases] in H.
  destruct (assoc l (decode e)) as [v|] eqn:El; [|discriminate]. inversion_clear N as [|? ? Nb N']. cbn [fst] in Nb.
  destruct I as [[= -> ->]|I].
  - rewrite (aliases_keep _ _ _ a H Nb). cbn [decode]. rewrite assoc_set_key, (proj2 (str_eqb_eq a a) eq_refl), El.
    split; [reflexivity|discriminate].
  - assert (forall x, x <> b -> assoc x (set_key b v (decode e)) = assoc x (decode e)) as K.
    { intros x Hx. rewrite assoc_set_key. destruct (str_eqb x b) eqn:E; [apply str_eqb_eq in E; congruence|reflexivity]. }
    destruct (F a k (or_intror I)) as [Fa Fk].
    assert (k <> b) as Nk by (intros ->; apply Fk; left; reflexivity).
    specialize (IH _ _ a k H N'). cbn [decode] in IH. rewrite (K k Nk) in IH. apply IH; [|exact I].
    intros c m Hc. destruct (F c m (or_intror Hc)) as [Fc Fm]. split.
    + rewrite K; [exact Fc|]. intros ->. apply Nb. change b with (fst (b, m)). apply in_map, Hc.
    + intros Hm. apply Fm. right. exact Hm.
Qed.

(** Lower case aliases *)
Lemma lower_lower s : lower (lower s) = lower s.
Proof.
  unfold lower. rewrite map_map. apply map_ext. intros c.
  destruct ((c >=? 65) && (c <=? 90)) eqn:E; [|rewrite E; reflexivity].
  destruct ((c + 32 >=? 65) && (c + 32 <=? 90)) eqn:E'; [lia|reflexivity].
Qed.
Definition case_ok (d : list (str * Z)) : Prop := forall k1 k2 v1 v2,
  assoc k1 d = Some v1 -> assoc k2 d = Some v2 -> lower k1 = lower k2 -> v1 = v2.
Lemma lower_aliases_spec keys : forall d, case_ok d -> (forall k, In k keys -> assoc k d <> None) ->
  exists d', lower_aliases keys d = Ok d' /\
  (forall k v, assoc k d = Some v -> assoc k d' = Some v) /\
  (forall k v, In k keys -> assoc k d = Some v -> assoc (lower k) d' = Some v) /\
  (forall k v, assoc k d' = Some v -> exists k', assoc k' d = Some v /\ lower k' = lower k).
Proof.
  induction keys as [|k keys IH]; intros d C P; cbn [lower_aliases].
  - exists d. split; [reflexivity|]. split; [auto|]. split; [intros ? ? []|]. intros x v H. exists x. auto.
  - destruct (assoc k d) as [v|] eqn:Ek; [|exfalso; apply (P k (or_introl eq_refl) Ek)].
    destruct (assoc (lower k) d) as [w|] eqn:El.
    + destruct (IH d C) as (d' & E & M & L & I); [intros; apply P; right; assumption|].
      exists d'. split; [exact E|]. split; [exact M|]. split; [|exact I].
      intros x u [<-|Hx] Hu; [|apply L; auto].
      apply M. rewrite El. f_equal. apply (C (lower k) k); [exact El|exact Hu|apply lower_lower].
    + assert (forall x u, assoc x d = Some u -> assoc x (set_key (lower k) v d) = Some u) as K.
      { intros x u Hx. rewrite assoc_set_key. destruct (str_eqb x (lower k)) eqn:E; [|exact Hx].
        apply str_eqb_eq in E. congruence. }
      assert (forall x u, assoc x (set_key (lower k) v d) = Some u -> exists y, assoc y d = Some u /\ lower y = lower x) as J.
      { intros x u. rewrite assoc_set_key. destruct (str_eqb x (lower k)) eqn:E; [|eauto].
        apply str_eqb_eq in E as ->. intros [= <-]. exists k. split; [exact Ek|]. symmetry. apply lower_lower. }
      destruct (IH (set_key (lower k) v d)) as (d' & E & M & L & I).
      * intros k1 k2 v1 v2 H1 H2 Hl. destruct (J _ _ H1) as (y1 & A1 & B1). destruct (J _ _ H2) as (y2 & A2 & B2).
        apply (C y1 y2); congruence.
      * intros x Hx. destruct (assoc x d) as [u|] eqn:Ex; [rewrite (K x u Ex); discriminate|].
        exfalso. apply (P x (or_intror Hx) Ex).
      * exists d'. split; [exact E|]. split; [intros; apply M, K; assumption|]. split.
        -- intros x u [<-|Hx] Hu; [|apply L; auto].
           apply M. rewrite assoc_set_key, str_eqb_refl. congruence.
        -- intros x u Hx. destruct (I x u Hx) as (y & A & B). destruct (J y u A) as (z & A' & B'). exists z. split; [exact A'|congruence].
Qed.
Lemma assoc_keys {A} (d : list (str * A)) k : In k (map fst d) -> assoc k d <> None.
Proof.
  induction d as [|[a v] d IH]; intros H; [contradiction|]. cbn [assoc]. destruct (str_eqb k a) eqn:E; [discriminate|].
  destruct H as [<-|H]; [cbn [fst] in E; rewrite str_eqb_refl in E; discriminate|]. apply IH, H.
Qed.
Lemma MakeLowerAliases_spec e : dict (decode e) ->
  (forall k1 k2 v1 v2, In (k1, v1) (decode e) -> In (k2, v2) (decode e) -> lower k1 = lower k2 -> v1 = v2) ->
  exists e', MakeLowerAliases e = Ok e' /\ (forall v, EncodeValue e' v = EncodeValue e v) /\
  (forall s v, DecodeLowerValue e' s = Ok v <-> exists k, In (k, v) (decode e) /\ lower k = lower (strip s)) /\
  (forall s v, DecodeValue e s = Ok v -> DecodeValue e' s = Ok v).
Proof.
  intros D C. destruct (lower_aliases_spec (map fst (decode e)) (decode e)) as (d' & E & M & L & I).
  - intros k1 k2 v1 v2 H1 H2. apply C; apply assoc_In'; assumption.
  - intros k H. apply assoc_keys, H.
  - exists (mkEnum d' (encode e) (DEFAULT e)). unfold MakeLowerAliases. rewrite E. cbn [bind].
    split; [reflexivity|]. split; [reflexivity|]. split.
    + intros s v. unfold DecodeLowerValue, decode_key. cbn [decode]. split.
      * destruct (assoc (lower (strip s)) d') as [u|] eqn:Eu; [|discriminate]. intros [= <-].
        destruct (I _ _ Eu) as (k & A & B). exists k. split; [apply assoc_In', A|]. rewrite B. apply lower_lower.
      * intros (k & Hk & El). rewrite <- El. rewrite (L k v); [reflexivity| |apply assoc_dict; auto].
        change k with (fst (k, v)). apply in_map, Hk.
    + intros s v. rewrite !DecodeValue_iff. cbn [decode]. apply M.
Qed.

(** Lists *)
Lemma map_result_ok {A B} (f : A -> result B) l ys : map_result f l = Ok ys <-> Forall2 (fun x y => f x = Ok y) l ys.
Proof.
  revert ys. induction l as [|x l IH]; intros ys; cbn [map_result].
  - split; [intros [= <-]; constructor|]. intros H. inversion H. reflexivity.
  - split.
    + destruct (f x) as [y|] eqn:E; cbn [bind]; [|discriminate]. destruct (map_result f l) as [zs|]; cbn [bind]; [|discriminate].
      intros [= <-]. constructor; [exact E|]. apply IH. reflexivity.
    + intros H. inversion_clear H as [|? y ? zs Hy Hz]. rewrite Hy. cbn [bind]. apply IH in Hz. rewrite Hz. reflexivity.
Qed.

(** split_ws *)
Lemma split_ws_word w : forall s, w <> [] -> Forall (fun c => is_ws c = false) w ->
  (s = [] \/ exists c t, s = c :: t /\ is_ws c = true) -> split_ws (w ++ s) = w :: split_ws s.
Proof.
  induction w as [|c w IH]; intros s N H S; [congruence|]. inversion_clear H as [|? ? Hc Hw].
  cbn [app split_ws]. rewrite Hc. destruct w as [|d w].
  - cbn [app]. destruct S as [->|(e & t & -> & He)]; [reflexivity|]. rewrite He. reflexivity.
  - pose proof (IH s ltac:(discriminate) Hw S) as IH'. inversion_clear Hw as [|? ? Hd _].
    cbn [app] in *. rewrite Hd, IH'. reflexivity.
Qed.
Lemma split_ws_words s ws : ws_words s ws -> split_ws s = ws.
Proof.
  induction 1 as [|c s ws Hc H IH|w s ws Nw Hw Hs H IH]; [reflexivity| |].
  - cbn [split_ws]. rewrite Hc. exact IH.
  - rewrite split_ws_word by assumption. f_equal. exact IH.
Qed.
Lemma DecodeValueList_spec decoder s ws vs : ws_words s ws ->
  (DecodeValueList decoder s = Ok vs <-> Forall2 (fun w v => decoder w = Ok v) ws vs).
Proof. intros H. unfold DecodeValueList. rewrite (split_ws_words s ws H). apply map_result_ok. Qed.
