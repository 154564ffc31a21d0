(** Content packages in the file system (pyslet/pyslet/imscpv1p2.py, vfs.py): properties
    C205 to C212.  The vocabulary is in CpkgSpec.v. *)
From Verif Require Import Py.
From Verif Require Import Cpkg CpkgSpec CpkgProofs CpkgProofs2 CpkgProofs3 CpkgProofs4
  CpkgProofs5 CpkgProofs6.

(** * C205: unpacking an archive touches nothing outside the package's directory *)

(** Whatever the archive contains, whatever is refused by the system, and whether or not
    unpacking ends with an exception: no place outside the directory changes, and what was
    there before, anywhere, is still there unchanged. *)
Theorem C205_contained utf8 denied dPath d z f f' r :
  written dPath d -> d <> [] ->
  ExpandZip utf8 denied dPath z f = (f', r) ->
  (forall p, ~ within d p -> f' p = f p) /\ (forall p n, f p = Some n -> f' p = Some n).
Proof.
  intros [Hd ->] N H. exact (entries_extends utf8 denied d Hd N z z f f' r H).
Qed.

(** An archive with an entry whose name leads out of the directory is not unpacked without
    an exception. *)
Theorem C205_leaving utf8 denied dPath d z f f' r e :
  written dPath d -> d <> [] ->
  ExpandZip utf8 denied dPath z f = (f', r) ->
  In e z -> (forall dirs q, ~ describes e dirs q) -> exists x, r = Raise x.
Proof.
  intros [Hd ->] N H Hi Ho. destruct r as [u|x]; [|now exists x]. destruct u. exfalso.
  destruct (entries_each utf8 denied d Hd N z z f f' H e Hi) as (ds & q & D & _).
  exact (Ho ds q D).
Qed.

Definition any (_ : str) : bool := true.
Definition allowed (_ : list str) : bool := false.
(** a file system with the directories / and /p and a file in / *)
Definition fs0 : filesys := fun q =>
  if place_eqb q [] then Some Dir else if place_eqb q [lit "p"] then Some Dir
  else if place_eqb q [lit "secret"] then Some (File (lit "s")) else None.

Example C205_case : written (lit "/p") [lit "p"] /\
  fst (ExpandZip any allowed (lit "/p") [stored (lit "a/b") (lit "x"); stored (lit "../secret") (lit "y")] fs0)
    [lit "p"; lit "a"; lit "b"] = Some (File (lit "x")) /\
  snd (ExpandZip any allowed (lit "/p") [stored (lit "a/b") (lit "x"); stored (lit "../secret") (lit "y")] fs0)
    = Raise CPZIPFilenameError.
Proof.
  split; [|split; vm_compute; reflexivity]. split; [|reflexivity].
  constructor; [|constructor]. repeat split; try discriminate. intros [H|[]]; discriminate.
Qed.

(** * C206: what is unpacked is what the archive describes *)

(** Every entry is there after unpacking without an exception: all places on the way are
    directories, and at its place there is a directory, if the archive states no size for
    it, or a file with the data of that entry. *)
Theorem C206_unpacked utf8 denied dPath d z f f' :
  written dPath d -> d <> [] ->
  ExpandZip utf8 denied dPath z f = (f', Done tt) ->
  forall e, In e z -> exists dirs q, describes e dirs q /\
    (forall x, In x dirs -> f' (d ++ x) = Some Dir) /\
    ((f' (d ++ q) = Some Dir /\ z_size e <= 0) \/
     exists data, z_data e = Some data /\ f' (d ++ q) = Some (File data)).
Proof.
  intros [Hd ->] N H e Hi.
  destruct (entries_each utf8 denied d Hd N z z f f' H e Hi) as (ds & q & D & A & C).
  exists ds, q. split; [exact D|]. split; [exact A|].
  destruct C as [C|(data & R & C)]; [now left|]. right. exists data. split; [|exact C].
  apply in_split in Hi as (l1 & l2 & E).
  now rewrite <- (read_own utf8 denied d Hd N z l1 e l2 ds q f f' data E H D C).
Qed.

(** Nothing else is there: what was not there before is a directory on the way to an entry
    or the file of an entry. *)
Theorem C206_nothing_else utf8 denied dPath d z f f' :
  written dPath d -> d <> [] ->
  ExpandZip utf8 denied dPath z f = (f', Done tt) ->
  forall y n, f' y = Some n -> f y = None ->
  exists e dirs q, In e z /\ describes e dirs q /\
    ((n = Dir /\ exists x, In x dirs /\ y = d ++ x) \/
     (y = d ++ q /\ exists data, n = File data /\ z_data e = Some data)).
Proof.
  intros [Hd ->] N H y n Hy Hf.
  destruct (entries_only utf8 denied d Hd N z z f f' H y n Hy) as [X|(e & ds & q & Hi & D & C)]; [congruence|].
  exists e, ds, q. split; [exact Hi|]. split; [exact D|].
  destruct C as [C|(-> & data & -> & R)]; [now left|]. right. split; [reflexivity|].
  exists data. split; [reflexivity|]. apply in_split in Hi as (l1 & l2 & E).
  now rewrite <- (read_own utf8 denied d Hd N z l1 e l2 ds q f f' data E H D Hy).
Qed.

(** Two entries for one place are accepted only if the place is a directory: no file is
    written twice. *)
Theorem C206_no_duplicates utf8 denied dPath d l1 e1 l2 e2 l3 f f' ds1 ds2 q :
  written dPath d -> d <> [] ->
  ExpandZip utf8 denied dPath (l1 ++ e1 :: l2 ++ e2 :: l3) f = (f', Done tt) ->
  describes e1 ds1 q -> describes e2 ds2 q -> f' (d ++ q) = Some Dir.
Proof.
  intros [Hd ->] N H. exact (entries_twice utf8 denied d Hd N _ l1 e1 l2 e2 l3 f f' ds1 ds2 q H).
Qed.

Example C206_case :
  let z := [stored (lit "a/") []; stored (lit "a/./b") (lit "x"); stored (lit "c") (lit "y")] in
  let f := fst (ExpandZip any allowed (lit "/p") z fs0) in
  snd (ExpandZip any allowed (lit "/p") z fs0) = Done tt /\
  f [lit "p"; lit "a"; lit "b"] = Some (File (lit "x")) /\
  f [lit "p"; lit "c"] = Some (File (lit "y")) /\
  snd (ExpandZip any allowed (lit "/p") (z ++ [stored (lit "d/../c") []]) fs0)
    = Raise CPZIPDuplicateFileError.
Proof. vm_compute. repeat split. Qed.

(** * C207: exporting a package and unpacking the archive gives the package again *)

(** For every directory: the archive is written, the names in it are different, unpacking
    it in an empty directory succeeds, and then that directory has exactly the files and
    directories of the package that are not ignored. *)
Theorem C207_roundtrip utf8 ign denied dPath d f l :
  written dPath d -> d <> [] ->
  f d = Some Dir -> (forall q, q <> [] -> f (d ++ q) = None) ->
  (forall q, denied (d ++ q) = false) ->
  good_children l -> utf8 [] = true -> all_names (fun n => utf8 n = true) l ->
  exists z f', ExportToPIF utf8 ign l = Done z /\ NoDup (map z_name z) /\
    ExpandZip utf8 denied dPath z f = (f', Done tt) /\
    forall q x, q <> [] -> (f' (d ++ q) = Some x <-> here ign l q x).
Proof.
  intros [Hd ->] N Hf0 Hf Hden Hg U0 Hu.
  destruct (roundtrip utf8 ign denied d f l U0 Hd N Hden Hf0 Hf Hg Hu) as (z & f' & E & Nd & U & A).
  exists z, f'. split; [exact E|]. split; [exact Nd|]. split; [exact U|].
  intros q x Nq. rewrite (A q Nq). split; [now apply node_here|].
  intros H. now apply here_node.
Qed.

Definition tree0 : list (str * tree) :=
  [(lit "a", TDir [(lit "b.txt", TFile (lit "x")); (lit ".svn", TDir [(lit "c", TFile [])])]);
   (lit "imsmanifest.xml", TFile (lit "<m/>")); (lit "e", TDir [])].

Ltac name := repeat split; try discriminate; cbn; intuition discriminate.

Lemma tree0_good : good_children tree0.
Proof.
  repeat (constructor || name).
Qed.

Example C207_case : good_children tree0 /\ all_names (fun n => any n = true) tree0 /\
  ExportToPIF any default_ignore tree0 =
  Done [stored (lit "a/") []; stored (lit "a/b.txt") (lit "x");
        stored (lit "imsmanifest.xml") (lit "<m/>"); stored (lit "e/") []].
Proof. split; [exact tree0_good|]. split; [repeat constructor|vm_compute; reflexivity]. Qed.

(** * C208: relative paths *)

(** PathInPath of two absolute paths gives the names that lead from the one place to the
    other, and nothing if there are none. *)
Theorem C208_relative child parent : absolute child -> absolute parent ->
  exists o, PathInPath child parent = Done o /\
    forall r, o = Some r <-> resolve child = resolve parent ++ r.
Proof.
  intros Hc Hp. destruct (within_dec (resolve parent) (resolve child)) as [(r & E)|F].
  - exists (Some r). split; [now apply PathInPath_in|]. intros r'. split.
    + intros [= <-]. exact E.
    + intros E'. rewrite E in E'. apply app_inv_head in E'. now subst.
  - exists None. split; [now apply PathInPath_out|]. intros r'. split; [discriminate|].
    intros E. now elim (F r').
Qed.

(** PackagePath of a path without detours gives the text of those names. *)
Theorem C208_package dPath d p cs : written dPath d -> written p cs ->
  (forall r, cs = d ++ r -> PackagePath dPath p = Done (Some (relative r))) /\
  (~ within d cs -> PackagePath dPath p = Done None).
Proof.
  intros [Hd ->] [Hc ->]. split.
  - intros r ->. now apply PackagePath_in.
  - intros F. apply PackagePath_out; auto. intros r E. apply F. now exists r.
Qed.

Example C208_case :
  absolute (lit "/p//a/../b/./c") /\ absolute (lit "/q/../p/") /\
  PathInPath (lit "/p//a/../b/./c") (lit "/q/../p/") = Done (Some [lit "b"; lit "c"]) /\
  PathInPath (lit "/pq") (lit "/p") = Done None.
Proof.
  assert (A : forall c r, c <> slash -> absolute (slash :: c :: r)).
  { intros c r N. split; [now exists (c :: r)|]. intros (r' & E & _). injection E as E _. congruence. }
  split; [apply (A 112); discriminate|]. split; [apply (A 113); discriminate|].
  split; vm_compute; reflexivity.
Qed.

(** * C209: new names for files *)

(** The full statement: the path returned is not the path of a file of the package.
    It fails, because the names tried after the first are texts, and a text has not the
    hash value of a path. *)
Theorem C209_not_unique_refuted :
  exists lower hash_hit dPath t random s k,
    GetUniqueFile lower hash_hit dPath t random s = Done k /\ has_path t k = true.
Proof.
  exists (fun s => s), (fun _ => false), (lit "/p"), [(lit "a.txt", []); (lit "a_1F.txt", [])], 31,
         (lit "a.txt"), (lit "a_1F.txt").
  split; vm_compute; reflexivity.
Qed.

(** What holds: for every place in the package but its directory a path is returned (the
    search ends); it is the path suggested if the package has no such file; otherwise it
    is a path in the same directory with an underscore and a number put before the
    extension, and if texts have the hash values of paths, the package has no such
    file. *)
Theorem C209_new_name_partial lower hash_hit dPath d t random s q :
  written dPath d -> 0 <= random ->
  let full := if isabs s then s else join dPath (lower s) in
  absolute full -> resolve full = d ++ q -> q <> [] ->
  exists k, GetUniqueFile lower hash_hit dPath t random s = Done k /\
    (~ In (relative q) (map fst t) -> k = relative q) /\
    (In (relative q) (map fst t) -> exists j a b,
       random <= j /\ last q [] = a ++ b /\
       k = relative (removelast q ++ [a ++ lit "_" ++ hexX j ++ b]) /\
       entry_name (a ++ lit "_" ++ hexX j ++ b)) /\
    ((forall x, hash_hit x = true) -> ~ In k (map fst t)).
Proof.
  intros [Hd ->] Hr full Ha E N.
  destruct (unique_spec lower hash_hit d t random s q Hd Hr Ha E N) as (k & Ek & A & B).
  exists k. split; [exact Ek|].
  assert (Hq : Forall entry_name q).
  { pose proof (resolve_names full) as X. rewrite E in X. now apply Forall_app in X as [_ X]. }
  split; [|split].
  - intros F. apply A. apply not_true_iff_false. now rewrite has_path_in.
  - intros F. apply has_path_in in F. destruct (B F) as (j & Hj & -> & _).
    destruct (cand_place q j N Hq ltac:(lia)) as (a & b & Eab & Ec & En).
    exists j, a, b. auto.
  - intros Hh Hi. destruct (has_path t (relative q)) eqn:F.
    + destruct (B eq_refl) as (j & _ & _ & X). unfold has_text in X. rewrite Hh in X.
      apply has_path_in in Hi. cbn in X. congruence.
    + rewrite (A eq_refl) in Hi. apply has_path_in in Hi. congruence.
Qed.

(** The numbers are different for different attempts. *)
Theorem C209_numbers a b : 0 <= a -> 0 <= b -> hexX a = hexX b -> a = b.
Proof. apply hexX_inj. Qed.

(** A place outside the package is refused. *)
Theorem C209_outside lower hash_hit dPath d t random s :
  written dPath d ->
  let full := if isabs s then s else join dPath (lower s) in
  absolute full -> ~ within d (resolve full) ->
  GetUniqueFile lower hash_hit dPath t random s = Raise CPFilePathError.
Proof.
  intros [Hd ->] full Ha F. apply (unique_outside lower hash_hit d t random s Hd Ha).
  intros q E. apply F. now exists q.
Qed.

Example C209_case :
  GetUniqueFile (fun s => s) (fun _ => true) (lit "/p") [(lit "x/a.txt", []); (lit "x/a_1F.txt", [])] 31
    (lit "x/./a.txt") = Done (lit "x/a_20.txt") /\
  GetUniqueFile (fun s => s) (fun _ => true) (lit "/p") [] 31 (lit "../a") = Raise CPFilePathError.
Proof. vm_compute. split; reflexivity. Qed.

(** * C210: which paths are ignored *)

(** A path is ignored exactly if, after the detours are taken out, one of its names is. *)
Theorem C210_absolute ign p : absolute p -> IgnoreFilePath ign p = Done (existsb ign (resolve p)).
Proof.
  intros H. unfold IgnoreFilePath. rewrite normpath_absolute by exact H.
  apply ignore_absp; [apply resolve_names|lia].
Qed.
Theorem C210_relative ign p dirs q : isabs p = false ->
  trail [] (split_on slash p) (dirs ++ [q]) -> q <> [] ->
  IgnoreFilePath ign p = Done (existsb ign q).
Proof. intros H T N. rewrite (ignore_rel ign p dirs q H T). now destruct q. Qed.

(** A relative path that leads to where it starts is ignored, if a full stop is: with the
    default pattern it is. *)
Theorem C210_here ign p dirs : isabs p = false ->
  trail [] (split_on slash p) (dirs ++ [[]]) -> IgnoreFilePath ign p = Done (ign (lit ".")).
Proof. intros H T. exact (ignore_rel ign p dirs [] H T). Qed.

(** The default pattern: names that start with a full stop and have no line feed *)
Theorem C210_default n : default_ignore n = true <-> exists r, n = lit "." ++ r /\ ~ In 10 r.
Proof.
  destruct n as [|c n]; cbn [default_ignore].
  - split; [discriminate|]. intros (r & E & _). discriminate.
  - rewrite andb_true_iff, Z.eqb_eq, forallb_forall. split.
    + intros [-> H]. exists n. split; [reflexivity|]. intros Hi. now specialize (H _ Hi).
    + intros (r & E & H). injection E as -> ->. split; [reflexivity|]. intros x Hx.
      apply negb_true_iff. apply Z.eqb_neq. intros ->. contradiction.
Qed.

Example C210_case :
  IgnoreFilePath default_ignore (lit "/a/.svn/c") = Done true /\
  IgnoreFilePath default_ignore (lit "a/.svn/../c") = Done false /\
  IgnoreFilePath default_ignore (lit "a/..") = Done true /\
  trail [] (split_on slash (lit "a/.svn/../c")) ([[]; [lit "a"]; [lit "a"; lit ".svn"]; [lit "a"]] ++ [[lit "a"; lit "c"]]).
Proof.
  split; [vm_compute; reflexivity|]. split; [vm_compute; reflexivity|]. split; [vm_compute; reflexivity|].
  repeat (eapply Trail_step || eapply Trail_end || reflexivity).
Qed.

(** * C211: the table of files *)

(** RebuildFileTable, for every package whose File elements lead to paths without detours:
    the table is right, and nothing else changes. *)
Theorem C211_rebuild_partial ign p d :
  written (p_dPath p) d -> good_children (p_tree p) ->
  (forall f, In f (concat (p_resources p)) -> direct f) ->
  exists p', RebuildFileTable ign p = Done p' /\ p_dPath p' = p_dPath p /\
    p_tree p' = p_tree p /\ p_resources p' = p_resources p /\ right_table ign p'.
Proof.
  intros [Hd E] Hg Hf. apply (rebuild_right ign d Hd p E Hg). now apply Forall_forall.
Qed.

(** A File element added by File keeps the table right, and only it is new. *)
Theorem C211_file_partial ign p d i f p' :
  written (p_dPath p) d -> direct f -> (i < length (p_resources p))%nat ->
  right_table ign p -> cp_file ign p i f = Done p' ->
  right_table ign p' /\ p_tree p' = p_tree p /\ p_dPath p' = p_dPath p /\
  (forall g, In g (concat (p_resources p')) <-> In g (concat (p_resources p)) \/ g = f).
Proof. intros [Hd E]. now apply (file_right ign d Hd). Qed.

(** It is added for every place in the package but its directory, if the name is not
    ignored. *)
Theorem C211_file_added ign p d i f path q :
  written (p_dPath p) d -> f_target f = Some path -> written path (d ++ q) -> q <> [] ->
  ign (last q []) = false -> exists p', cp_file ign p i f = Done p'.
Proof.
  intros [Hd E] T [Hc ->] N Hi. rewrite (file_total ign d Hd p i f (d ++ q) E T Hc).
  destruct (exists_last N) as (q0 & n & ->). rewrite last_last in Hi.
  rewrite app_assoc in *. pose proof Hc as Hc'. apply Forall_app in Hc' as [H1 H2]. inversion_clear H2.
  rewrite split_snoc by assumption. rewrite Hi. rewrite <- app_assoc.
  destruct (within_dec d (d ++ q0 ++ [n])) as [(r & Er)|F].
  - apply app_inv_head in Er. subst r. destruct (q0 ++ [n]) eqn:X; [destruct q0; discriminate|].
    eexists. reflexivity.
  - now elim (F (q0 ++ [n])).
Qed.

(** With detours the entry that File makes is not the one that RebuildFileTable makes. *)
Definition pkg0 : package :=
  mkPackage (lit "/p") tree0 [[]] [(lit "a/b.txt", [])].
Theorem C211_detours_refuted : exists p f p' p'',
  cp_file default_ignore p 0 f = Done p' /\ RebuildFileTable default_ignore p' = Done p'' /\
  tget (p_table p') (lit "a/b.txt") = Some [f_id f] /\
  tget (p_table p'') (lit "a/b.txt") = Some [].
Proof.
  exists pkg0, (mkFile 1 (Some (lit "/p/./a/b.txt"))). eexists. eexists.
  split; [vm_compute; reflexivity|]. split; [vm_compute; reflexivity|].
  split; vm_compute; reflexivity.
Qed.

(** For places outside the package File should raise an error of its own; it raises
    NameError, from a name that is not defined. *)
Theorem C211_outside ign p d i f path cs :
  written (p_dPath p) d -> f_target f = Some path -> written path cs -> ~ within d cs ->
  exists x, cp_file ign p i f = Raise x /\ (x = CPFilePathError \/ x = CPNameError).
Proof.
  intros [Hd E] T [Hc ->] F. rewrite (file_total ign d Hd p i f cs E T Hc).
  destruct (split (absp cs)) as [h t]. destruct (ign t); [eexists; eauto|].
  destruct (within_dec d cs) as [(r & Er)|F']; [|eexists; eauto].
  elim F. now exists r.
Qed.

Example C211_case : exists p', RebuildFileTable default_ignore
    (mkPackage (lit "/p") tree0 [[mkFile 1 (Some (lit "/p/a/b.txt")); mkFile 2 None];
                                 [mkFile 3 (Some (lit "/p/gone"))]] []) = Done p' /\
  p_table p' = [(lit "a/b.txt", [1%nat]); (lit "gone", [3%nat])].
Proof. eexists. split; vm_compute; reflexivity. Qed.

(** * C212: deleting files *)

(** A file of the package that is not ignored, when all File elements lead into the
    package without detours: the file, the elements that refer to it and its entry in the
    table go, and everything else stays. *)
Theorem C212_deleted_partial ign outside p d q dd path :
  written (p_dPath p) d -> good_children (p_tree p) -> distinct_files p ->
  (forall f, In f (concat (p_resources p)) -> exists k, refers (p_dPath p) f k) ->
  here (fun _ => false) (p_tree p) q (File dd) -> ign (last q []) = false ->
  written path (d ++ q) ->
  exists p', DeleteFile ign outside p (Some path) = (p', Done true) /\
    p_dPath p' = p_dPath p /\
    (forall g q' x, here g (p_tree p') q' x <-> here g (p_tree p) q' x /\ q' <> q) /\
    (forall f, In f (concat (p_resources p')) <->
       In f (concat (p_resources p)) /\ ~ refers (p_dPath p) f (relative q)) /\
    (right_table ign p -> right_table ign p').
Proof.
  intros [Hd E] Hg Hn Hr Hh Hi [Hw ->]. rewrite E in *.
  destruct (delete_spec ign d Hd outside p q dd E Hg Hh Hi Hn Hr) as (p' & X & A & B & C & D & F).
  exists p'. rewrite E in A. auto.
Qed.

(** A path outside the package is never deleted: the package stays as it is. *)
Theorem C212_outside ign outside p d path :
  written (p_dPath p) d -> absolute path -> ~ within d (resolve path) ->
  exists x, DeleteFile ign outside p (Some path) = (p, Raise x).
Proof.
  intros [Hd E] Ha F. unfold DeleteFile. rewrite E. fold (absp d).
  rewrite PathInPath_out; [|exact Ha|now apply absolute_absp|].
  - destruct (outside path); cbn [negb]; [|eexists; reflexivity].
    destruct (split path) as [h t]. destruct (ign t); eexists; reflexivity.
  - intros r. rewrite resolve_absp by exact Hd. intros X. apply F. now exists r.
Qed.

(** The full statement also says that the manifest is not deleted, that a deletion that
    fails changes nothing, and that an href that is no file is an error.  All three
    fail. *)
Theorem C212_manifest_refuted : exists p p' path,
  here (fun _ => false) (p_tree p) [manifest_name] (File (lit "<m/>")) /\
  path = lit "/p/" ++ manifest_name /\
  DeleteFile default_ignore (fun _ => false) p (Some path) = (p', Done true) /\
  ~ exists x, here (fun _ => false) (p_tree p') [manifest_name] x.
Proof.
  exists pkg0. eexists. exists (lit "/p/imsmanifest.xml"). split.
  - apply Here_file; [cbn; auto|reflexivity].
  - split; [reflexivity|]. split; [vm_compute; reflexivity|].
    intros (x & H). apply here_node in H; [vm_compute in H; discriminate|].
    cbn [p_tree]. repeat (constructor || name).
Qed.

Theorem C212_half_done_refuted : exists p p',
  DeleteFile default_ignore (fun _ => false) p (Some (lit "/p/a/b.txt")) = (p', Raise CPValueError) /\
  p_tree p' = p_tree p /\ p_resources p' <> p_resources p.
Proof.
  exists (mkPackage (lit "/p") tree0
            [[mkFile 1 (Some (lit "/p/a/b.txt"))]; [mkFile 2 None]] []).
  eexists. split; [vm_compute; reflexivity|]. split; [reflexivity|discriminate].
Qed.

Theorem C212_no_file_refuted ign outside p : DeleteFile ign outside p None = (p, Done false).
Proof. reflexivity. Qed.

Example C212_case : exists p', DeleteFile default_ignore (fun _ => false)
    (mkPackage (lit "/p") tree0 [[mkFile 1 (Some (lit "/p/a/b.txt")); mkFile 2 (Some (lit "/p/e/f"))]]
       [(lit "a/b.txt", [1%nat]); (lit "e/f", [2%nat])]) (Some (lit "/p/a/b.txt")) = (p', Done true) /\
  p_resources p' = [[mkFile 2 (Some (lit "/p/e/f"))]] /\ p_table p' = [(lit "e/f", [2%nat])].
Proof. eexists. split; [vm_compute; reflexivity|]. split; reflexivity. Qed.
Print Assumptions C205_contained.
Print Assumptions C205_leaving.
Print Assumptions C206_unpacked.
Print Assumptions C206_nothing_else.
Print Assumptions C206_no_duplicates.
Print Assumptions C207_roundtrip.
Print Assumptions C208_relative.
Print Assumptions C208_package.
Print Assumptions C209_not_unique_refuted.
Print Assumptions C209_new_name_partial.
Print Assumptions C209_numbers.
Print Assumptions C209_outside.
Print Assumptions C210_absolute.
Print Assumptions C210_relative.
Print Assumptions C210_here.
Print Assumptions C210_default.
Print Assumptions C211_rebuild_partial.
Print Assumptions C211_file_partial.
Print Assumptions C211_file_added.
Print Assumptions C211_detours_refuted.
Print Assumptions C211_outside.
Print Assumptions C212_deleted_partial.
Print Assumptions C212_outside.
Print Assumptions C212_manifest_refuted.
Print Assumptions C212_half_done_refuted.
Print Assumptions C212_no_file_refuted.
