(** Properties of QTIMigration/lib/imscp.py: C29 to C32, C75. *)
From Verif Require Import Py Iso Dec XmlUtils XmlSpec XmlProofs2 Imscp ImscpSpec ImscpProofs.

(** C29: in every history the resources of the package have distinct identifiers, and the
    identifiers handed out are new, whatever was asked for. *)
Theorem C29_resource_ids ops : NoDup (cp_resources (cp_run ops)).
Proof. exact (proj1 (run_inv ops)). Qed.
Print Assumptions C29_resource_ids.
Theorem C29_unique_id ops base : exists id, GetUniqueID (cp_run ops) base = Ok id /\
  ~ In id (cp_resources (cp_run ops)) /\
  (id = base \/ exists k, 0 < k /\ id = base ++ lit "-" ++ pystr k).
Proof.
  destruct (GetUniqueID_spec (cp_run ops) base) as (id & j & E & N & Hj). exists id.
  split; [exact E|]. split; [rewrite (proj2 (run_inv ops)); exact N|].
  destruct j as [|j]; [left; exact Hj|right]. exists (Z.of_nat (S j)). split; [lia|exact Hj].
Qed.
Print Assumptions C29_unique_id.
(** Adding a resource keeps the earlier ones and its own identifier if that is not taken *)
Theorem C29_add_resource ops r id cp : AddResource (cp_run ops) r = Ok (id, cp) ->
  ~ In id (cp_resources (cp_run ops)) /\ cp_resources cp = cp_resources (cp_run ops) ++ [id] /\
  (forall c s, r_id r = Some (c :: s) -> ~ In (c :: s) (cp_resources (cp_run ops)) -> id = c :: s).
Proof.
  intros H. destruct (AddResource_spec _ _ _ _ H) as (N & _ & _ & R).
  pose proof (proj2 (run_inv ops)) as I. split; [rewrite I; exact N|]. split; [exact R|].
  intros c s E Hn. unfold AddResource in H. rewrite E in H. rewrite I in Hn.
  rewrite (proj2 (has_key_not _ _) Hn) in H. cbn [bind] in H. congruence.
Qed.
Print Assumptions C29_add_resource.
Example C29_ex : cp_resources (cp_run [OpAddResource (mkResource (Some (lit "a")) None); OpUniqueFileName (lit "x") None;
    OpAddResource (mkResource (Some (lit "a")) (Some (Some [lit "a"]))); OpAddResource (mkResource None None);
    OpAddResource (mkResource (Some (lit "resource")) None)])
  = [lit "a"; lit "a-1"; lit "resource"; lit "resource-1"].
Proof. vm_compute. reflexivity. Qed.

(** C30: GetUniqueFileName always returns a name, and if it returns the same name twice in a
    history, both times it was given the same (non-empty) hash of the data. *)
Theorem C30_file_name ops n h : exists m cp, GetUniqueFileName (cp_run ops) n h = Ok (m, cp).
Proof. destruct (GetUniqueFileName_spec (cp_run ops) n h) as (m & cp & _ & E & _). exists m, cp. exact E. Qed.
Print Assumptions C30_file_name.
Theorem C30_file_names_distinct ops1 n1 h1 ops2 n2 h2 m cp1 cp2 :
  GetUniqueFileName (cp_run ops1) n1 h1 = Ok (m, cp1) ->
  GetUniqueFileName (cp_run (ops1 ++ OpUniqueFileName n1 h1 :: ops2)) n2 h2 = Ok (m, cp2) ->
  h1 = h2 /\ exists c s, h1 = Some (c :: s).
Proof. exact (file_names_history ops1 n1 h1 ops2 n2 h2 m cp1 cp2). Qed.
Print Assumptions C30_file_names_distinct.
(** The first name asked for is returned as it is, if it does not begin with a dot *)
Theorem C30_first_name n h c s : n = c :: s -> c <> 46 -> exists cp, GetUniqueFileName new_package n h = Ok (n, cp).
Proof.
  intros E Hc. unfold GetUniqueFileName. pose proof (name_cand_0 n (or_intror (ex_intro _ c (ex_intro _ s (conj E Hc))))) as Q.
  unfold name_cand, stem_of, rest_of in Q. change (Z.of_nat 0) with 0 in Q.
  destruct (split_on_cons 46 n) as (p & ps & S). rewrite S in *.
  cbn [new_package cp_files length unique_name_loop assoc].
  destruct p as [|x p]; (rewrite Q; cbn [bind]; eexists; reflexivity).
Qed.
Print Assumptions C30_first_name.
Example C30_ex : exists cp1 cp2 cp3 ,
  GetUniqueFileName new_package (lit "a.b.png") (Some (lit "h")) = Ok (lit "a.b.png", cp1) /\
  GetUniqueFileName cp1 (lit "a.b.png") (Some (lit "h")) = Ok (lit "a.b.png", cp2) /\
  GetUniqueFileName cp2 (lit "a.b.png") (Some (lit "g")) = Ok (lit "a-1.b.png", cp3).
Proof. do 3 eexists. repeat (split; [vm_compute; reflexivity|]). vm_compute; reflexivity. Qed.

(** C75: the name of the manifest is not given to another file; _partial: it is only given
    when asked for.  The refutation is an item whose identifier is "imsmanifest": its file
    is the manifest itself. *)
Theorem C75_manifest_name_partial ops n h m cp : GetUniqueFileName (cp_run ops) n h = Ok (m, cp) ->
  n <> lit "imsmanifest.xml" -> m <> lit "imsmanifest.xml".
Proof. intros H Hn Hm. exact (Hn (manifest_name _ _ _ _ _ H Hm)). Qed.
Print Assumptions C75_manifest_name_partial.
Example C75_ex : exists cp, GetUniqueFileName (cp_run []) (lit "item.xml") None = Ok (lit "item.xml", cp).
Proof. eexists. vm_compute. reflexivity. Qed.
Theorem C75_manifest_name_refuted : exists cp,
  GetUniqueFileName new_package (lit "imsmanifest.xml") None = Ok (lit "imsmanifest.xml", cp).
Proof. eexists. vm_compute. reflexivity. Qed.
Print Assumptions C75_manifest_name_refuted.

(** C31: FixIdentifier gives an XML name, keeps names, keeps every permitted character and
    replaces every other by '_'; _partial: of a non-empty string. *)
Theorem C31_fix_identifier_partial s : s <> [] ->
  xml_name (FixIdentifier s) /\ (xml_name s -> FixIdentifier s = s) /\
  exists p t, FixIdentifier s = p ++ t /\ (p = [] \/ p = lit "ID_") /\
    Forall2 (fun c d => (id_char c /\ d = c) \/ (~ id_char c /\ d = 95)) s t.
Proof.
  intros H. split; [exact (FixIdentifier_name s H)|]. split; [exact (FixIdentifier_same s)|].
  destruct s as [|c s]; [congruence|]. rewrite FixIdentifier_eq.
  exists (if nmstart_char (id_fix c) then [] else lit "ID_"), (map id_fix (c :: s)). split; [reflexivity|].
  split; [destruct (nmstart_char _); auto|]. clear H. induction (c :: s) as [|d l IH]; constructor; [|exact IH].
  unfold id_fix. destruct (nmtoken_char d) eqn:E.
  - left. split; [apply nmtoken_spec, E|reflexivity].
  - right. split; [|reflexivity]. rewrite <- nmtoken_spec, E. discriminate.
Qed.
Print Assumptions C31_fix_identifier_partial.
(** Hence all resources have XML names for identifiers if each resource brings a usable one *)
Theorem C31_resource_names_partial ops : (forall r, In (OpAddResource r) ops -> fresh_id_ok r) ->
  Forall xml_name (cp_resources (cp_run ops)).
Proof. exact (run_names ops). Qed.
Print Assumptions C31_resource_names_partial.
Example C31_ex : FixIdentifier (lit "1st item") = lit "ID_1st_item" /\ xml_name (lit "ID_1st_item") /\
  fresh_id_ok (SetIdentifier (mkResource None (Some (Some [lit "1st item"]))) (lit "1st item")) /\
  cp_resources (cp_run [OpAddResource (SetIdentifier (mkResource None (Some (Some [lit "1st item"]))) (lit "1st item"));
                        OpAddResource (SetIdentifier (mkResource None (Some (Some [lit "1st item"]))) (lit "1st item"))])
  = [lit "ID_1st_item"; lit "ID_1stitem"].
Proof.
  split; [reflexivity|]. split; [|split; [|vm_compute; reflexivity]].
  - change (lit "ID_1st_item") with (FixIdentifier (lit "1st item")). apply FixIdentifier_name. discriminate.
  - split.
    + change (xml_name (FixIdentifier (lit "1st item"))). apply FixIdentifier_name. discriminate.
    + exists (lit "1st item"), 49. split; [left; reflexivity|]. split; [left; reflexivity|].
      split; [right; left; unfold is_dec; lia|lia].
Qed.
(** The empty string stays empty, and two items whose identifiers are the same and have no
    ASCII name character get "_" and the empty identifier. *)
Theorem C31_fix_identifier_refuted : FixIdentifier [] = [] /\ ~ xml_name [] /\
  exists r, r = SetIdentifier (mkResource None (Some (Some [[0x4E00]]))) [0x4E00] /\
    cp_resources (cp_run [OpAddResource r; OpAddResource r]) = [lit "_"; []].
Proof. split; [reflexivity|]. split; [intros []|]. eexists. split; [reflexivity|]. vm_compute. reflexivity. Qed.
Print Assumptions C31_fix_identifier_refuted.
(** A resource whose metadata has no identifier cannot be added without one *)
Theorem C31_no_identifier_refuted : AddResource new_package (mkResource None (Some (Some []))) = Err TypeError.
Proof. reflexivity. Qed.
Print Assumptions C31_no_identifier_refuted.

(** C32: a relative URI resolves to a path inside the package; _partial: if its segments are
    ".", ".." or decode to something that is not empty (the last may be), is not ".." and has
    no '/'. *)
Theorem C32_resolve_partial dir segs last : plain_dir dir -> Forall good_seg segs -> good_seg last \/ last = [] ->
  inside dir (ResolveCPURI dir (slashed (segs ++ [last]))).
Proof. exact (resolve_inside dir segs last). Qed.
Print Assumptions C32_resolve_partial.
Example C32_ex : plain_dir (lit "/tmp/cp") /\ Forall good_seg [lit ".."; lit "a"; lit ".."; lit ".."; lit "b"] /\
  ResolveCPURI (lit "/tmp/cp") (slashed ([lit ".."; lit "a"; lit ".."; lit ".."; lit "b"] ++ [lit "c.xml"])) = lit "/tmp/cp/b/c.xml".
Proof.
  assert (forall c, 97 <= c <= 122 -> good_seg [c]) as G.
  { intros c Hc. right. right. exists [c]. split; [apply pr_char; [lia|constructor]|].
    split; [discriminate|]. split; [discriminate|]. intros [K|[]]. lia. }
  split; [exists (lit "/tmp/c"), 112; split; [reflexivity|lia]|]. split; [|reflexivity].
  repeat (apply Forall_cons; [first [right; left; reflexivity|apply (G 97); lia|apply (G 98); lia]|]). apply Forall_nil.
Qed.
(** Escaped dots, an escaped '/', and empty segments all lead outside *)
Lemma not_inside dir p segs : split_on 47 p = split_on 47 dir ++ segs -> In (lit "..") segs -> ~ inside dir p.
Proof.
  intros H I (s & E & F). assert (Forall (fun x => ~ In 47 x) s) as F' by (eapply Forall_impl; [|exact F]; intros a [_ K]; exact K).
  rewrite (inside_split dir p s F' E) in H. apply app_inv_head in H. subst s.
  rewrite Forall_forall in F. destruct (F _ I) as [K _]. congruence.
Qed.
Theorem C32_resolve_refuted :
  (ResolveCPURI (lit "cp") (lit "%2e%2e/x") = lit "cp/../x" /\ ~ inside (lit "cp") (lit "cp/../x")) /\
  (ResolveCPURI (lit "cp") (lit "%2Fetc/passwd") = lit "/etc/passwd" /\ ~ inside (lit "cp") (lit "/etc/passwd")) /\
  (ResolveCPURI (lit "/t/cp") (lit "a//b/../../../x") = lit "/t/x" /\ ~ inside (lit "/t/cp") (lit "/t/x")).
Proof.
  split; [|split]; (split; [reflexivity|]).
  - apply (not_inside _ _ [lit ".."; lit "x"]); [reflexivity|left; reflexivity].
  - intros (s & E & _). discriminate E.
  - intros (s & E & _). vm_compute in E. discriminate E.
Qed.
Print Assumptions C32_resolve_refuted.
