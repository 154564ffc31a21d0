(** Model of pyslet/pyslet/imscpv1p2.py: content packages in a file system, and of the
    paths of pyslet/pyslet/vfs.py they use.

    - A path (class OSFilePath) is its string.  The system is one with POSIX paths, so
      that [normcase] changes nothing.  The functions of Python's posixpath module that
      vfs.py calls are modelled below.
    - File names are strings of octets; the file system's codec is utf-8 (vfs.py 24 and
      236), so [unicode] of a path fails exactly on texts that are not valid utf-8, which
      the parameter [utf8] decides, and otherwise changes nothing.
    - There are no symbolic links: [realpath] changes nothing.
    - A zip archive is the list of its entries; the layout of the zip file itself is
      Python's zipfile module and is not modelled. *)
From Verif Require Import Py.

(** * Strings *)

Definition slash : Z := 47.
Definition dot : Z := 46.

(** [s.split(x)] for one character x *)
Fixpoint split_on (x : Z) (s : str) : list str :=
  match s with
  | [] => [[]]
  | c :: s' =>
      if c =? x then [] :: split_on x s'
      else match split_on x s' with
           | p :: ps => (c :: p) :: ps
           | [] => [[c]]
           end
  end.

(** [x.join(l)] for one character x *)
Fixpoint join_with (x : Z) (l : list str) : str :=
  match l with
  | [] => []
  | [p] => p
  | p :: ps => p ++ x :: join_with x ps
  end.

(** The part of s up to and with the last x, and the rest: [i=s.rfind(x)+1; s[:i],s[i:]] *)
Fixpoint cut_last (x : Z) (s : str) : str * str :=
  match s with
  | [] => ([], [])
  | c :: s' =>
      let (h, t) := cut_last x s' in
      match h with
      | _ :: _ => (c :: h, t)
      | [] => if c =? x then ([c], t) else ([], c :: t)
      end
  end.

(** [s.rstrip('/')] *)
Fixpoint rstrip_slash (s : str) : str :=
  match s with
  | [] => []
  | c :: s' =>
      match rstrip_slash s' with
      | [] => if c =? slash then [] else [c]
      | r => c :: r
      end
  end.

Definition starts_slash (s : str) : bool :=
  match s with c :: _ => c =? slash | [] => false end.
Definition ends_slash (s : str) : bool :=
  match rev s with c :: _ => c =? slash | [] => false end.

(** * posixpath *)

(** posixpath.join(a,b), called by vfs.py 266-273 (OSFilePath.__init__, join) *)
Definition join (a b : str) : str :=
  if starts_slash b then b
  else match a with
       | [] => b
       | _ => if ends_slash a then a ++ b else a ++ slash :: b
       end.

(** vfs.py 266-270 OSFilePath of several paths: none gives the empty path *)
Definition os_path (l : list str) : str :=
  match l with [] => [] | p :: ps => fold_left join ps p end.

(** posixpath.split, called by vfs.py 275-277 *)
Definition split (p : str) : str * str :=
  let (head, tail) := cut_last slash p in
  (if forallb (Z.eqb slash) head then head else rstrip_slash head, tail).

(** posixpath.splitext, called by vfs.py 279-281 *)
Definition splitext (p : str) : str * str :=
  let (dir, name) := cut_last slash p in
  let (stem, ext) := cut_last dot name in
  match rev stem with
  | [] => (p, [])
  | _ :: root' =>
      if existsb (fun c => negb (c =? dot)) (rev root')
      then (dir ++ rev root', dot :: ext) else (p, [])
  end.

(** posixpath.isabs, called by vfs.py 325-326 *)
Definition isabs (p : str) : bool := starts_slash p.

Definition curdir : str := lit ".".
Definition pardir : str := lit "..".
Definition is_nil {A} (l : list A) : bool := match l with [] => true | _ => false end.

(** posixpath.normpath, called by vfs.py 293-294: the loop over the components *)
Fixpoint norm_comps (initial : bool) (new_comps comps : list str) : list str :=
  match comps with
  | [] => new_comps
  | comp :: comps' =>
      if is_nil comp || str_eqb comp curdir then norm_comps initial new_comps comps'
      else if negb (str_eqb comp pardir)
              || (negb initial && is_nil new_comps)
              || (negb (is_nil new_comps) && str_eqb (last new_comps []) pardir)
      then norm_comps initial (new_comps ++ [comp]) comps'
      else norm_comps initial (removelast new_comps) comps'
  end.

(** two initial slashes are kept, three or more become one *)
Definition initial_slashes (p : str) : nat :=
  match p with
  | a :: b :: c :: _ =>
      if a =? slash then if (b =? slash) && negb (c =? slash) then 2%nat else 1%nat
      else 0%nat
  | [a; b] => if a =? slash then if b =? slash then 2%nat else 1%nat else 0%nat
  | [a] => if a =? slash then 1%nat else 0%nat
  | [] => 0%nat
  end.

Definition normpath (p : str) : str :=
  match p with
  | [] => curdir
  | _ =>
      let k := initial_slashes p in
      let comps := norm_comps (negb (Nat.eqb k 0)) [] (split_on slash p) in
      match repeat slash k ++ join_with slash comps with
      | [] => curdir
      | q => q
      end
  end.

(** * Exceptions *)

Inductive cperr : Set :=
| CPFilePathError          (* imscpv1p2.py 27 *)
| CPFileTypeError          (* 28 *)
| CPZIPDirectorySizeError  (* 33 *)
| CPZIPDuplicateFileError  (* 34 *)
| CPZIPFilenameError       (* 35 *)
| OSError
| BadZipfile
| UnicodeDecodeError
| CPTypeError
| CPAttributeError
| CPNameError
| CPValueError
| CPOutOfFuel.             (* not Python: a loop of the model used up its fuel *)

Inductive res (A : Type) : Type :=
| Done (a : A)
| Raise (e : cperr).
Arguments Done {A} a.
Arguments Raise {A} e.

(** * Paths in the package *)

(** imscpv1p2.py 56-61, the loop of PathInPath: the components taken off so far are
    [relPath].  Each turn makes the path shorter. *)
Fixpoint path_in_path_loop (fuel : nat) (childPath parentPath : str) (relPath : list str)
  : res (option (list str)) :=
  match fuel with
  | O => Raise CPOutOfFuel
  | S f =>
      if str_eqb childPath parentPath then Done (Some relPath)
      else
        let (childPath', tail) := split childPath in
        if is_nil childPath' || is_nil tail then Done None
        else path_in_path_loop f childPath' parentPath (tail :: relPath)
  end.

(** imscpv1p2.py 42-65 PathInPath.  Both kinds of empty result (the empty path and the
    empty string, line 65) are the empty list here: see [GetUniqueFile] and [cp_file] for
    the difference it makes. *)
Definition PathInPath (childPath parentPath : str) : res (option (list str)) :=
  let c := normpath childPath in
  path_in_path_loop (S (length c)) c (normpath parentPath) [].

(** imscpv1p2.py 505-517 ContentPackage.PackagePath: the same loop on the paths as given *)
Definition PackagePath (dPath fPath : str) : res (option str) :=
  match path_in_path_loop (S (length fPath)) fPath dPath [] with
  | Done (Some rel) => Done (Some (os_path rel))
  | Done None => Done None
  | Raise e => Raise e
  end.

(** imscpv1p2.py 445-466 IgnoreFilePath, for the test [ign] of single names (435-443
    IgnoreFile).  [tail!=fPath.pardir] compares with '..'. *)
Fixpoint ignore_path_loop (fuel : nat) (ign : str -> bool) (fPath : str) : res bool :=
  match fuel with
  | O => Raise CPOutOfFuel
  | S f =>
      let (head, tail) := split fPath in
      if negb (is_nil tail) && negb (str_eqb tail pardir) && ign tail then Done true
      else if is_nil head || str_eqb head fPath then Done false
      else ignore_path_loop f ign head
  end.
Definition IgnoreFilePath (ign : str -> bool) (fPath : str) : res bool :=
  let p := normpath fPath in ignore_path_loop (S (length p)) ign p.

(** imscpv1p2.py 24 and 435-443: the default pattern is a full stop and any characters
    but the end of a line, and it must match the whole name *)
Definition default_ignore (f : str) : bool :=
  match f with
  | c :: f' => (c =? dot) && forallb (fun d => negb (d =? 10)) f'
  | [] => false
  end.

(** * The file system *)

(** What is at a place: a directory, or a file with its octets *)
Inductive node : Set :=
| Dir
| File (data : str).

(** A place is the list of the names that lead to it from the root of the file system *)
Definition filesys := list str -> option node.

(** Where the system finds a path that [normpath] returned: double slashes at the start
    count as one *)
Definition place (p : str) : list str :=
  filter (fun c => negb (is_nil c)) (split_on slash p).

Definition place_eqb (p q : list str) : bool := if list_eq_dec str_eq_dec p q then true else false.
Definition put (f : filesys) (p : list str) (n : node) : filesys :=
  fun q => if place_eqb p q then Some n else f q.

(** vfs.py 338-339 isdir, 331-332 exists *)
Definition isdir (f : filesys) (p : str) : bool :=
  match f (place p) with Some Dir => true | _ => false end.
Definition exists_ (f : filesys) (p : str) : bool :=
  match f (place p) with Some _ => true | None => false end.

Section Unpack.
  (** which octet strings are utf-8 texts *)
  Variable utf8 : str -> bool.
  (** where the system refuses to create something, for whatever reason *)
  Variable denied : list str -> bool.

  Definition parent_is_dir (f : filesys) (q : list str) : bool :=
    match f (removelast q) with Some Dir => true | _ => false end.

  (** vfs.py 360-361 mkdir *)
  Definition mkdir (f : filesys) (p : str) : filesys * res unit :=
    if exists_ f p || negb (parent_is_dir f (place p)) || denied (place p)
    then (f, Raise OSError)
    else (put f (place p) Dir, Done tt).

  (** vfs.py 341-342 open(path,'wb'): makes the file empty *)
  Definition open_wb (f : filesys) (p : str) : filesys * res unit :=
    if isdir f p || negb (parent_is_dir f (place p)) || denied (place p)
    then (f, Raise OSError)
    else (put f (place p) (File []), Done tt).

  (** An entry of a zip archive: its name, whether the archive marks the name as utf-8
      (then zipfile returns it as unicode), the size the directory of the archive
      states, and the data that reading gives, if it can be read *)
  Record entry := mkEntry {
    z_name : str;
    z_unicode : bool;
    z_size : Z;
    z_data : option str
  }.

  (** [zf.read(name)]: zipfile looks up the name; the last entry with it counts *)
  Definition read_entry (z : list entry) (name : str) : option str :=
    match find (fun e => str_eqb (z_name e) name) (rev z) with
    | Some e => z_data e
    | None => None
    end.

  (** imscpv1p2.py 525-533: the segments of one name *)
  Fixpoint walk (dPath : str) (uni : bool) (f : filesys) (path : str) (segs : list str)
    : filesys * res str :=
    match segs with
    | [] => (f, Done path)
    | pathSeg :: segs' =>
        let (f1, r) := if isdir f path then (f, Done tt) else mkdir f path in
        match r with
        | Raise e => (f1, Raise e)
        | Done _ =>
            if uni then (f1, Raise CPTypeError)
            else if negb (utf8 pathSeg) then (f1, Raise UnicodeDecodeError)
            else
              let path' := normpath (join path pathSeg) in
              match PackagePath dPath path' with
              | Raise e => (f1, Raise e)
              | Done None => (f1, Raise CPZIPFilenameError)
              | Done (Some _) => walk dPath uni f1 path' segs'
              end
        end
    end.

  (** imscpv1p2.py 524-545: one entry of the archive *)
  Definition unpack_entry (dPath : str) (z : list entry) (f : filesys) (e : entry)
    : filesys * res unit :=
    let (f1, r) := walk dPath (z_unicode e) f dPath (split_on slash (z_name e)) in
    match r with
    | Raise x => (f1, Raise x)
    | Done path =>
        if isdir f1 path then
          if z_size e >? 0 then (f1, Raise CPZIPDirectorySizeError) else (f1, Done tt)
        else if exists_ f1 path then (f1, Raise CPZIPDuplicateFileError)
        else
          let (f2, r2) := open_wb f1 path in
          match r2 with
          | Raise x => (f2, Raise x)
          | Done _ =>
              match read_entry z (z_name e) with
              | None => (f2, Raise BadZipfile)
              | Some d => (put f2 (place path) (File d), Done tt)
              end
          end
    end.

  Fixpoint unpack_entries (dPath : str) (z : list entry) (f : filesys) (l : list entry)
    : filesys * res unit :=
    match l with
    | [] => (f, Done tt)
    | e :: l' =>
        let (f1, r) := unpack_entry dPath z f e in
        match r with
        | Raise x => (f1, Raise x)
        | Done _ => unpack_entries dPath z f1 l'
        end
    end.

  (** imscpv1p2.py 519-547 ExpandZip, after the temporary directory dPath was made *)
  Definition ExpandZip (dPath : str) (z : list entry) (f : filesys) : filesys * res unit :=
    unpack_entries dPath z f z.
End Unpack.

(** * Packing *)

(** A directory as [listdir] and [isdir] show it: its entries in the order of listdir *)
Inductive tree : Set :=
| TFile (data : str)
| TDir (children : list (str * tree)).

(** zipfile.ZipFile.write: the name of a file in the archive is normalised and loses its
    leading slashes *)
Fixpoint lstrip_slash (s : str) : str :=
  match s with
  | c :: s' => if c =? slash then lstrip_slash s' else s
  | [] => []
  end.
Definition arcname (zpath : str) : str := lstrip_slash (normpath zpath).

Section Pack.
  Variable utf8 : str -> bool.
  Variable ign : str -> bool.

  (** what zipfile stores for data written with a name *)
  Definition stored (name data : str) : entry :=
    mkEntry name false (Z.of_nat (length data)) (Some data).

  (** imscpv1p2.py 571-592 AddToZip (fName with '/' replaced has no '/'), and the loop
      over a directory of 564-567 and 584-587 *)
  Fixpoint add_to_zip (zbase name : str) (t : tree) : res (list entry) :=
    if negb (utf8 name) then Raise UnicodeDecodeError else
    let zpath := zbase ++ map (fun c => if c =? slash then 58 else c) name in
    match t with
    | TFile d => Done [stored (arcname zpath) d]
    | TDir l =>
        let zpath := zpath ++ [slash] in
        match
          (fix children (l : list (str * tree)) : res (list entry) :=
             match l with
             | [] => Done []
             | (n, t') :: l' =>
                 if negb (utf8 n) then Raise UnicodeDecodeError
                 else if ign n then children l'
                 else match add_to_zip zpath n t' with
                      | Raise e => Raise e
                      | Done a => match children l' with
                                  | Raise e => Raise e
                                  | Done b => Done (a ++ b)
                                  end
                      end
             end) l
        with
        | Raise e => Raise e
        | Done a => Done (stored zpath [] :: a)
        end
    end.

  (** imscpv1p2.py 549-569 ExportToPIF, for the package directory with these entries *)
  Fixpoint ExportToPIF (l : list (str * tree)) : res (list entry) :=
    match l with
    | [] => Done []
    | (n, t) :: l' =>
        if negb (utf8 n) then Raise UnicodeDecodeError
        else if ign n then ExportToPIF l'
        else match add_to_zip [] n t with
             | Raise e => Raise e
             | Done a => match ExportToPIF l' with
                         | Raise e => Raise e
                         | Done b => Done (a ++ b)
                         end
             end
    end.
End Pack.

(** * The table of files *)

(** A File element of the manifest: its identity, and the path its href leads to, if it
    is a file URL (imscpv1p2.py 115-134; rfc2396.py resolves the URL) *)
Record fileobj := mkFile { f_id : nat; f_target : option str }.

(** The table maps the texts of paths to lists of File elements (by identity) *)
Definition table := list (str * list nat).
Fixpoint tget (t : table) (k : str) : option (list nat) :=
  match t with
  | [] => None
  | (k', v) :: t' => if str_eqb k k' then Some v else tget t' k
  end.
Fixpoint tset (t : table) (k : str) (v : list nat) : table :=
  match t with
  | [] => [(k, v)]
  | (k', v') :: t' => if str_eqb k k' then (k, v) :: t' else (k', v') :: tset t' k v
  end.
Definition tdel (t : table) (k : str) : table :=
  filter (fun kv => negb (str_eqb k (fst kv))) t.
Definition tadd (t : table) (k : str) (i : nat) : table :=
  tset t k (match tget t k with Some l => l ++ [i] | None => [i] end).

(** A package: its directory, what listdir shows there, and the File elements of each
    resource of the manifest *)
Record package := mkPackage {
  p_dPath : str;
  p_tree : list (str * tree);
  p_resources : list (list fileobj);
  p_table : table
}.

Section Files.
  Variable ign : str -> bool.

  (** imscpv1p2.py 489-503 FileScanner; every place is visited once, so that beenThere
      never stops it.  File names are taken to be utf-8 texts here. *)
  Fixpoint scan (fPath : str) (t : tree) (tab : table) : table :=
    match t with
    | TFile _ => tset tab fPath []
    | TDir l =>
        (fix children (l : list (str * tree)) (tab : table) : table :=
           match l with
           | [] => tab
           | (n, t') :: l' =>
               children l' (if ign n then tab else scan (join fPath n) t' tab)
           end) l tab
    end.

  Definition manifest_name : str := lit "imsmanifest.xml".

  (** imscpv1p2.py 470-477: the files of the package *)
  Fixpoint scan_root (l : list (str * tree)) (tab : table) : table :=
    match l with
    | [] => tab
    | (n, t) :: l' =>
        scan_root l' (if ign n then tab
                      else if str_eqb n manifest_name then tab
                      else scan n t tab)
    end.

  (** imscpv1p2.py 124-134 File.PackagePath *)
  Definition file_path (dPath : str) (f : fileobj) : res (option str) :=
    match f_target f with
    | None => Done None
    | Some p => PackagePath dPath p
    end.

  (** imscpv1p2.py 478-487: the File elements of the manifest *)
  Fixpoint scan_refs (dPath : str) (l : list fileobj) (tab : table) : res table :=
    match l with
    | [] => Done tab
    | f :: l' =>
        match file_path dPath f with
        | Raise e => Raise e
        | Done None => scan_refs dPath l' tab
        | Done (Some p) => scan_refs dPath l' (tadd tab p (f_id f))
        end
    end.

  (** imscpv1p2.py 468-487 RebuildFileTable *)
  Definition RebuildFileTable (p : package) : res package :=
    match scan_refs (p_dPath p) (concat (p_resources p)) (scan_root (p_tree p) []) with
    | Raise e => Raise e
    | Done t => Done (mkPackage (p_dPath p) (p_tree p) (p_resources p) t)
    end.

  Fixpoint add_ref (i : nat) (f : fileobj) (l : list (list fileobj)) : list (list fileobj) :=
    match l, i with
    | r :: l', O => (r ++ [f]) :: l'
    | r :: l', S i' => r :: add_ref i' f l'
    | [], _ => []
    end.

  (** imscpv1p2.py 641-680 File, for the i-th resource: a new File element whose href
      leads to f_target.  Line 670 compares a method with a text, which are never equal,
      and line 671 uses a name that does not exist; for the directory of the package
      itself PathInPath returns a string, which has no method normcase (673). *)
  Definition cp_file (p : package) (i : nat) (f : fileobj) : res package :=
    match f_target f with
    | None => Done (mkPackage (p_dPath p) (p_tree p) (add_ref i f (p_resources p)) (p_table p))
    | Some fullPath =>
        let (head, tail) := split fullPath in
        if ign tail then Raise CPFilePathError
        else match PathInPath fullPath (p_dPath p) with
             | Raise e => Raise e
             | Done None => Raise CPNameError
             | Done (Some []) => Raise CPAttributeError
             | Done (Some rel) =>
                 Done (mkPackage (p_dPath p) (p_tree p) (add_ref i f (p_resources p))
                         (tadd (p_table p) (os_path rel) (f_id f)))
             end
    end.

  (** what is at a place in a directory *)
  Fixpoint dir_get (l : list (str * tree)) (n : str) : option tree :=
    match l with
    | [] => None
    | (m, t) :: l' => if str_eqb n m then Some t else dir_get l' n
    end.
  Fixpoint tree_get (l : list (str * tree)) (q : list str) : option tree :=
    match q with
    | [] => Some (TDir l)
    | n :: q' =>
        match dir_get l n with
        | None => None
        | Some t => match t, q' with
                    | _, [] => Some t
                    | TDir l', _ => tree_get l' q'
                    | TFile _, _ => None
                    end
        end
    end.
  (** removing what is at a place *)
  Fixpoint tree_remove (l : list (str * tree)) (q : list str) {struct q}
    : list (str * tree) :=
    match q with
    | [] => l
    | [n] => filter (fun nt => negb (str_eqb n (fst nt))) l
    | n :: q' =>
        map (fun nt => if str_eqb n (fst nt)
                       then (fst nt, match snd nt with
                                     | TDir l' => TDir (tree_remove l' q')
                                     | t => t
                                     end)
                       else nt) l
    end.

  (** vfs.py 334-336 isfile, for a path in the package's directory: a path that ends
      with a slash is no regular file.  [rel] is where it leads, from the directory. *)
  Definition isfile (p : package) (fullPath : str) (rel : list str) : bool :=
    negb (ends_slash fullPath)
    && match tree_get (p_tree p) rel with Some (TFile _) => true | _ => false end.

  (** imscpv1p2.py 754-761: the File elements of one resource that lead to the file.
      Comparing a path with None raises ValueError (vfs.py 211-221). *)
  Fixpoint same_path (dPath : str) (relPath : str) (l : list fileobj) : res (list fileobj) :=
    match l with
    | [] => Done []
    | f :: l' =>
        match file_path dPath f with
        | Raise e => Raise e
        | Done None => Raise CPValueError
        | Done (Some q) =>
            match same_path dPath relPath l' with
            | Raise e => Raise e
            | Done d => Done (if str_eqb q relPath then f :: d else d)
            end
        end
    end.
  Definition drop_files (d l : list fileobj) : list fileobj :=
    filter (fun f => negb (existsb (fun g => Nat.eqb (f_id f) (f_id g)) d)) l.
  Fixpoint delete_refs (dPath relPath : str) (done l : list (list fileobj))
    : list (list fileobj) * res unit :=
    match l with
    | [] => (done, Done tt)
    | r :: l' =>
        match same_path dPath relPath r with
        | Raise e => (done ++ r :: l', Raise e)
        | Done d => delete_refs dPath relPath (done ++ [drop_files d r]) l'
        end
    end.

  (** imscpv1p2.py 720-765 DeleteFile.  [target] is the path the href leads to, None if
      it is no file URL: then line 742 returns an exception instead of raising it.  Only
      paths below the package's directory are known to exist: the others are taken to be
      regular files outside, as [outside] says.  A path with '..' is taken to lead where
      [normpath] says.  [list.index] in Resource.DeleteFile (199-203) finds an equal
      element, which has the same href: the elements left are the same. *)
  Variable outside : str -> bool.
  Definition DeleteFile (p : package) (target : option str) : package * res bool :=
    match target with
    | None => (p, Done false)
    | Some fullPath =>
        match PathInPath fullPath (p_dPath p) with
        | Raise e => (p, Raise e)
        | Done rel =>
            if negb (match rel with
                     | Some q => isfile p fullPath q
                     | None => outside fullPath
                     end)
            then (p, Raise CPFileTypeError)
            else
              let (head, tail) := split fullPath in
              if ign tail then (p, Raise CPFilePathError)
              else match rel with
                   | None => (p, Raise CPFilePathError)
                   | Some q =>
                       let (rs, r) := delete_refs (p_dPath p) (os_path q) [] (p_resources p) in
                       match r with
                       | Raise e => (mkPackage (p_dPath p) (p_tree p) rs (p_table p), Raise e)
                       | Done _ =>
                           (mkPackage (p_dPath p) (tree_remove (p_tree p) q) rs
                              (tdel (p_table p) (os_path q)), Done true)
                       end
                   end
        end
    end.
End Files.

(** * New names *)

(** [%X] *)
Definition hex_digit (d : Z) : Z := if d <? 10 then 48 + d else 55 + d.
Fixpoint hex_loop (fuel : nat) (n : Z) (acc : str) : str :=
  match fuel with
  | O => acc
  | S f => let acc' := hex_digit (n mod 16) :: acc in
           if n <? 16 then acc' else hex_loop f (n / 16) acc'
  end.
Definition hexX (n : Z) : str := hex_loop (S (Z.to_nat n)) n [].

Section Unique.
  (** [lower] is unicode.lower; [hash_hit k] says that the text k and the path k have the
      same hash value: a dictionary finds a path by a text only then (vfs.py 223-225
      gives paths other hash values than texts) *)
  Variable lower : str -> str.
  Variable hash_hit : str -> bool.

  Definition has_path (t : table) (k : str) : bool :=
    match tget t k with Some _ => true | None => false end.
  Definition has_text (t : table) (k : str) : bool := hash_hit k && has_path t k.

  (** imscpv1p2.py 632-637: the loop, from its second turn on *)
  Fixpoint unique_loop (fuel : nat) (t : table) (fPath pathStr : str) (pathExtra : Z)
    : res str :=
    match fuel with
    | O => Raise CPOutOfFuel
    | S f =>
        if has_text t pathStr then
          let (fName, fExt) := splitext fPath in
          unique_loop f t fPath (fName ++ lit "_" ++ hexX pathExtra ++ fExt) (pathExtra + 1)
        else Done pathStr
    end.

  (** imscpv1p2.py 594-639 GetUniqueFile.  [random] is what randint(0,0xFFFF) returns. *)
  Definition GetUniqueFile (dPath : str) (t : table) (random : Z) (suggestedPath : str)
    : res str :=
    let fPath := if isabs suggestedPath then suggestedPath
                 else join dPath (lower suggestedPath) in
    match PathInPath fPath dPath with
    | Raise e => Raise e
    | Done None => Raise CPFilePathError
    | Done (Some []) => Raise CPAttributeError
    | Done (Some rel) =>
        let fPath := os_path rel in
        if has_path t fPath then
          let (fName, fExt) := splitext fPath in
          unique_loop (S (length t)) t fPath
            (fName ++ lit "_" ++ hexX random ++ fExt) (random + 1)
        else Done fPath
    end.
End Unique.
