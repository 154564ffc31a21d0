(** Model of QTIMigration/lib/imscp.py: identifiers, file names and paths of a content
    package; and of the LOM identifiers they are suggested from (lom.py).

    A package is its two dicts and the list of the resources added; resources are
    identified with their [id] at the time they were added. *)
From Verif Require Import Py Iso Dec XmlUtils.

(** [string.split(s,x)] for a single character x: never empty *)
Fixpoint split_on (x : Z) (s : str) : list str :=
  match s with
  | [] => [[]]
  | c :: s' =>
      if c =? x then [] :: split_on x s'
      else match split_on x s' with
           | p :: ps => (c :: p) :: ps
           | [] => [[c]]
           end
  end.
(** [string.join(l,x)] for a single character x *)
Fixpoint join_with (x : Z) (l : list str) : str :=
  match l with
  | [] => []
  | [p] => p
  | p :: ps => p ++ x :: join_with x ps
  end.

(** imscp.py 44-50 ContentPackage: idSpace (its keys), fileSpace, resources (their ids) *)
Record package := mkPackage {
  cp_ids : list str;
  cp_files : list (str * option str);
  cp_resources : list str
}.
Definition new_package : package := mkPackage [] [] [].

Definition has_key (k : str) (l : list str) : bool := existsb (str_eqb k) l.

(** imscp.py 52-58 GetUniqueID.  The loop ends after at most as many turns as there are
    keys. *)
Fixpoint unique_id_loop (fuel : nat) (ids : list str) (baseStr idStr : str) (idExtra : Z)
  : result str :=
  match fuel with
  | O => Err OutOfFuel
  | S f =>
      if has_key idStr ids
      then unique_id_loop f ids baseStr (baseStr ++ [45] ++ pystr idExtra) (idExtra + 1)
      else Ok idStr
  end.
Definition GetUniqueID (cp : package) (baseStr : str) : result str :=
  unique_id_loop (S (S (length (cp_ids cp)))) (cp_ids cp) baseStr baseStr 1.

(** [dataHash and self.fileSpace[fName]==dataHash]: an empty hash counts as none *)
Definition hash_true (h : option str) : bool :=
  match h with Some (_ :: _) => true | _ => false end.
Definition hash_eqb (a b : option str) : bool :=
  match a, b with
  | Some x, Some y => str_eqb x y
  | None, None => true
  | _, _ => false
  end.

(** imscp.py 60-80 GetUniqueFileName; [rest] are the parts of the name after the stem *)
Definition file_name (stem : str) (rest : list str) (i : Z) : str :=
  join_with 46 ((if i =? 0 then stem else stem ++ [45] ++ pystr i) :: rest).
Fixpoint unique_name_loop (fuel : nat) (files : list (str * option str)) (stem : str)
  (rest : list str) (dataHash : option str) (i : Z) : result str :=
  match fuel with
  | O => Err OutOfFuel
  | S f =>
      let fName := file_name stem rest i in
      match assoc fName files with
      | Some h =>
          if hash_true dataHash && hash_eqb h dataHash then Ok fName
          else unique_name_loop f files stem rest dataHash (i + 1)
      | None => Ok fName
      end
  end.
(** [self.fileSpace[fName]=dataHash] *)
Fixpoint set_file (k : str) (v : option str) (m : list (str * option str)) : list (str * option str) :=
  match m with
  | [] => [(k, v)]
  | (k', v') :: m' => if str_eqb k k' then (k, v) :: m' else (k', v') :: set_file k v m'
  end.
Definition GetUniqueFileName (cp : package) (fName : str) (dataHash : option str)
  : result (str * package) :=
  match split_on 46 fName with
  | [] => Err IndexError
  | stem :: rest =>
      let stem := match stem with [] => lit "file" | _ => stem end in
      n <- unique_name_loop (S (S (length (cp_files cp)))) (cp_files cp) stem rest dataHash 0 ;;
      Ok (n, mkPackage (cp_ids cp) (set_file n dataHash (cp_files cp)) (cp_resources cp))
  end.

(** imscp.py 143-152 FixIdentifier *)
Fixpoint fix_identifier_loop (newID : str) (s : str) : str :=
  match s with
  | [] => newID
  | c :: s' =>
      let c := if nmtoken_char c then c else 95 in
      let newID := match newID with
                   | [] => if nmstart_char c then [] else lit "ID_"
                   | _ => newID
                   end in
      fix_identifier_loop (newID ++ [c]) s'
  end.
Definition FixIdentifier (s : str) : str := fix_identifier_loop [] s.

(** lom.py 219-225 LOMIdentifier.SuggestXMLID on the entry of an identifier *)
Definition suggest_entry (entry : str) : str :=
  filter (fun c => nmtoken_char c && negb (c =? 58)) entry.
(** lom.py 79-85 LOMGeneral.SuggestXMLID: the first non-empty suggestion, otherwise the
    last one; None if there are no identifiers *)
Fixpoint suggest_general (idStr : option str) (entries : list str) : option str :=
  match entries with
  | [] => idStr
  | e :: es => match suggest_entry e with
               | [] => suggest_general (Some []) es
               | s => Some s
               end
  end.
(** A resource: its id and its LOM: none, or the entries of the identifiers in its general
    section, if it has one (lom.py 38-42) *)
Record resource := mkResource { r_id : option str; r_lom : option (option (list str)) }.

(** imscp.py 154-161 AutoSetID.  FixIdentifier on None raises TypeError. *)
Definition AutoSetID (cp : package) (r : resource) : result str :=
  base <- match r_lom r with
          | None => Ok (lit "resource")
          | Some g =>
              match match g with Some es => suggest_general None es | None => None end with
              | None => Err TypeError
              | Some s => Ok (FixIdentifier s)
              end
          end ;;
  GetUniqueID cp base.

(** imscp.py 82-86 AddResource; the resource is not yet in the package *)
Definition AddResource (cp : package) (r : resource) : result (str * package) :=
  id <- match r_id r with
        | Some (c :: s) => if has_key (c :: s) (cp_ids cp) then AutoSetID cp r else Ok (c :: s)
        | _ => AutoSetID cp r
        end ;;
  Ok (id, mkPackage (id :: cp_ids cp) (cp_files cp) (cp_resources cp ++ [id])).

(** imscp.py 139-141 SetIdentifier *)
Definition SetIdentifier (r : resource) (identifier : str) : resource :=
  mkResource (Some (FixIdentifier identifier)) (r_lom r).

(** Histories of calls on one package.  A call that raises an exception does so before it
    changes the package. *)
Inductive cp_op : Set :=
| OpAddResource (r : resource)
| OpUniqueFileName (fName : str) (dataHash : option str).
Definition cp_call (cp : package) (op : cp_op) : result (str * package) :=
  match op with
  | OpAddResource r => AddResource cp r
  | OpUniqueFileName n h => GetUniqueFileName cp n h
  end.
Definition cp_step (cp : package) (op : cp_op) : package :=
  match cp_call cp op with Ok (_, cp') => cp' | Err _ => cp end.
Definition cp_run (ops : list cp_op) : package := fold_left cp_step ops new_package.

(** os.path.join of two parts and the first component of os.path.split, on POSIX
    (posixpath.py: a part starting with '/' replaces the path, otherwise a '/' is inserted
    if the path is not empty and does not end with one; split cuts after the last '/' and
    strips trailing slashes from the head unless it is all slashes). *)
Definition starts_slash (p : str) : bool := match p with c :: _ => c =? 47 | [] => false end.
Definition ends_slash (p : str) : bool := starts_slash (rev p).
Definition path_join (a b : str) : str :=
  if starts_slash b then b
  else match a with
       | [] => b
       | _ => if ends_slash a then a ++ b else a ++ [47] ++ b
       end.
Fixpoint drop_to_slash (r : str) : str :=
  match r with [] => [] | c :: r' => if c =? 47 then r else drop_to_slash r' end.
Fixpoint strip_slashes (r : str) : str :=
  match r with [] => [] | c :: r' => if c =? 47 then strip_slashes r' else r end.
Definition path_head (p : str) : str :=
  let r := drop_to_slash (rev p) in
  match strip_slashes r with [] => rev r | r' => rev r' end.

(** imscp.py 257-271 ResolveCPURI *)
Fixpoint resolve_loop (walk : Z) (path : str) (segments : list str) : str :=
  match segments with
  | [] => path
  | seg :: rest =>
      if str_eqb seg (lit ".") then resolve_loop walk path rest
      else if str_eqb seg (lit "..") then
        if negb (walk =? 0) then resolve_loop (walk - 1) (path_head path) rest
        else resolve_loop walk path rest
      else resolve_loop (walk + 1) (path_join path (DecodePathSegment seg)) rest
  end.
Definition ResolveCPURI (cpPath uri : str) : str := resolve_loop 0 cpPath (split_on 47 uri).
