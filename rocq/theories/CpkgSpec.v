(** What the properties of content packages say, without the model of the code: places in
    a directory, what an archive describes, and which files a table lists. *)
From Verif Require Import Py.
From Coq Require Import Permutation.
From Verif Require Import Cpkg.

(** A name that can stand for an entry of a directory *)
Definition entry_name (n : str) : Prop :=
  n <> [] /\ ~ In slash n /\ n <> lit "." /\ n <> lit "..".

(** The text of the place that the names lead to from the root: one slash before each *)
Definition written (p : str) (names : list str) : Prop :=
  Forall entry_name names /\ p = slash :: join_with slash names.

(** The place an absolute path leads to: empty segments and '.' stay, '..' goes up, and at
    the root stays *)
Definition resolve (p : str) : list str :=
  fold_left (fun q seg =>
    if str_eqb seg (lit "") || str_eqb seg (lit ".") then q
    else if str_eqb seg (lit "..") then removelast q
    else q ++ [seg]) (split_on slash p) [].

(** An absolute path; exactly two slashes at the start have a meaning of their own in
    POSIX and are left out *)
Definition absolute (p : str) : Prop :=
  (exists r, p = slash :: r) /\
  ~ exists r, p = slash :: slash :: r /\ (forall c r', r = c :: r' -> c <> slash).

(** The place q is in the directory at d, or is that directory *)
Definition within (d q : list str) : Prop := exists r, q = d ++ r.

(** * What the name of an entry of an archive means *)

(** From the place [q] below the package's directory one goes where the segment says;
    None: out of the directory *)
Definition go (q : list str) (seg : str) : option (list str) :=
  if str_eqb seg (lit "") || str_eqb seg (lit ".") then Some q
  else if str_eqb seg (lit "..") then
    match q with [] => None | _ => Some (removelast q) end
  else Some (q ++ [seg]).

(** The places one passes, the start first and the end last *)
Inductive trail : list str -> list str -> list (list str) -> Prop :=
| Trail_end q : trail q [] [q]
| Trail_step q seg segs q' l :
    go q seg = Some q' -> trail q' segs l -> trail q (seg :: segs) (q :: l).

(** An entry: the places on the way, which have to be directories, and the place of the
    entry itself *)
Definition describes (e : entry) (dirs : list (list str)) (q : list str) : Prop :=
  trail [] (split_on slash (z_name e)) (dirs ++ [q]).

(** * Directories as trees *)

Inductive good_tree : tree -> Prop :=
| Good_file d : good_tree (TFile d)
| Good_dir l : good_children l -> good_tree (TDir l)
with good_children : list (str * tree) -> Prop :=
| Good_nil : good_children []
| Good_cons n t l :
    entry_name n -> ~ In n (map fst l) -> good_tree t -> good_children l ->
    good_children ((n, t) :: l).

(** All names in it *)
Inductive all_names (P : str -> Prop) : list (str * tree) -> Prop :=
| All_nil : all_names P []
| All_file n d l : P n -> all_names P l -> all_names P ((n, TFile d) :: l)
| All_dir n c l :
    P n -> all_names P c -> all_names P l -> all_names P ((n, TDir c) :: l).

(** [here ign l q x]: at the place q below the directory with the entries l there is x,
    and neither it nor a directory it is in has a name to be ignored *)
Inductive here (ign : str -> bool) : list (str * tree) -> list str -> node -> Prop :=
| Here_file l n d :
    In (n, TFile d) l -> ign n = false -> here ign l [n] (File d)
| Here_dir l n c :
    In (n, TDir c) l -> ign n = false -> here ign l [n] Dir
| Here_in l n c q x :
    In (n, TDir c) l -> ign n = false -> here ign c q x -> here ign l (n :: q) x.

(** * Tables of files *)

(** The text of a place relative to the package's directory *)
Definition relative (q : list str) : str := join_with slash q.

(** The target of a File element is no file, or a path without detours *)
Definition direct (f : fileobj) : Prop :=
  forall p, f_target f = Some p -> exists names, written p names.

(** A File element refers to the path k of the package *)
Definition refers (dPath : str) (f : fileobj) (k : str) : Prop :=
  exists p d r, f_target f = Some p /\ written dPath d /\ written p (d ++ r) /\
                k = relative r.

(** What the documentation says of the table: it has an entry for every file of the
    package that is not ignored, and for every path a File element refers to; the entry
    lists exactly the File elements that refer to the path. *)
Definition listed (ign : str -> bool) (p : package) (k : str) : Prop :=
  (exists q d, here ign (p_tree p) q (File d) /\ hd [] q <> lit "imsmanifest.xml" /\
               k = relative q)
  \/ (exists f, In f (concat (p_resources p)) /\ refers (p_dPath p) f k).

Definition right_table (ign : str -> bool) (p : package) : Prop :=
  (forall k, listed ign p k <-> exists l, tget (p_table p) k = Some l) /\
  (forall k l i, tget (p_table p) k = Some l ->
     (In i l <-> exists f, In f (concat (p_resources p)) /\ f_id f = i /\
                           refers (p_dPath p) f k)).

(** Different File elements have different identities *)
Definition distinct_files (p : package) : Prop :=
  NoDup (map f_id (concat (p_resources p))).
