(** Model of the element content models of the XML parser:
    pyslet/pyslet/xml20081126/structures.py, [ElementType] (lines 915-963),
    [XMLContentParticle], [XMLNameParticle], [XMLChoiceList],
    [XMLSequenceList] (lines 2196-2406) and [ContentParticleCursor] (lines
    2409-2514). *)
From Verif Require Import Py XmlUtils.

(** XMLContentParticle.ExactlyOnce, ZeroOrOne, ZeroOrMore, OneOrMore: lines
    2198-2201. *)
Inductive occ : Set := Once | ZeroOrOne | ZeroOrMore | OneOrMore.

(** The two tests of [self.occurrence] that occur in the code. *)
(* structures.py 2300, 2330, 2366 *)
Definition repeatable (o : occ) : bool :=
  match o with ZeroOrMore | OneOrMore => true | _ => false end.
(* structures.py 2316, 2340; line 2396 tests the complement *)
Definition required (o : occ) : bool :=
  match o with Once | OneOrMore => true | _ => false end.

(** A content particle (lines 2196-2406).  The Python code compares name
    particles with "is"; here every name particle carries a number that stands
    for the identity of the object. *)
Inductive cp : Type :=
| PName (o : occ) (id : nat) (name : str)
| PChoice (o : occ) (children : list cp)
| PSeq (o : occ) (children : list cp).

(** A particle map (lines 2289-2296): element name to the list of particles
    that can represent it; the empty name, mapped to None, stands for the end
    tag.  A Python dictionary, whose key order is unspecified, is an
    association list here. *)
Definition pmap : Type := list (str * option (list nat)).

(** d[k]=v *)
Fixpoint pset (k : str) (v : option (list nat)) (m : pmap) : pmap :=
  match m with
  | [] => [(k, v)]
  | (k', v') :: m' => if str_eqb k k' then (k, v) :: m' else (k', v') :: pset k v m'
  end.

(** The double loop of structures.py 2257-2264 and the loop of 2308-2313: append
    the particle unless the list already holds that same object. *)
Definition add1 (l : list nat) (i : nat) : list nat :=
  if existsb (Nat.eqb i) l then l else l ++ [i].

(** XMLContentParticle.AddParticles: structures.py 2236-2264.  [srcMap[name]] is
    None only for the end tag; a list under the empty name or None under a
    proper name cannot be built and is skipped. *)
Definition add_entry (e : str * option (list nat)) (m : pmap) : pmap :=
  let '(name, src) := e in
  let '(target, m1) :=
    match assoc name m with
    | Some t => (t, m)
    | None => match name with
              | _ :: _ => (Some [], pset name (Some []) m)
              | [] => (None, pset name None m)
              end
    end in
  match target, src with
  | Some t, Some s => pset name (Some (fold_left add1 s t)) m1
  | _, _ => m1
  end.

Definition AddParticles (src m : pmap) : pmap :=
  fold_left (fun m e => add_entry e m) src m.

(** XMLNameParticle.SeekParticles on the map: structures.py 2305-2315.  (Python
    raises TypeError for a name that is the empty string when the map already
    holds the end tag; such a name cannot be parsed.) *)
Definition seek_name (id : nat) (name : str) (m : pmap) : pmap :=
  match assoc name m with
  | Some (Some t) => pset name (Some (add1 t id)) m
  | Some None => m
  | None => pset name (Some [id]) m
  end.

(** SeekParticles: structures.py 2305-2316 (name), 2339-2346 (choice), 2389-2397
    (sequence).  Returns the changed map and the Python result. *)
Fixpoint SeekParticles (p : cp) (m : pmap) : pmap * bool :=
  match p with
  | PName o id name => (seek_name id name m, required o)
  | PChoice o children =>
      (fix go l m req :=
         match l with
         | [] => (m, req)
         | c :: l' => let '(m', r) := SeekParticles c m in go l' m' (req && r)
         end) children m (required o)
  | PSeq o children =>
      let '(m', r) :=
        (fix go l m :=
           match l with
           | [] => (m, false)
           | c :: l' =>
               let '(m', r) := SeekParticles c m in
               if r then (m', true) else go l' m'
           end) children m in
      (m', r && required o)
  end.

(** The loop that computes the exits of one child of a sequence: structures.py
    2375-2386.  [rest] are the children after it. *)
Fixpoint child_exits (rest : list cp) (new_exits m : pmap) : pmap :=
  match rest with
  | c :: rest' =>
      let '(m', r) := SeekParticles c m in
      if r then m' else child_exits rest' new_exits m'
  | [] => AddParticles new_exits m
  end.

(** [newExitParticles]: structures.py 2329-2334 and 2365-2370. *)
Definition new_exits (p : cp) (o : occ) (exits : pmap) : pmap :=
  AddParticles exits (if repeatable o then fst (SeekParticles p []) else []).

(** BuildParticleMaps: structures.py 2298-2303 (name), 2328-2337 (choice),
    2364-2387 (sequence).  The result lists the assignments to the
    [particleMap] attributes in the order they are made. *)
Fixpoint BuildParticleMaps (p : cp) (exits : pmap) : list (nat * pmap) :=
  match p with
  | PName o id name =>
      [(id, AddParticles exits (if repeatable o then [(name, Some [id])] else []))]
  | PChoice o children =>
      let ne := new_exits p o exits in
      (fix go l :=
         match l with
         | [] => []
         | c :: l' => BuildParticleMaps c ne ++ go l'
         end) children
  | PSeq o children =>
      let ne := new_exits p o exits in
      (fix go l :=
         match l with
         | [] => []
         | c :: l' => BuildParticleMaps c (child_exits l' ne []) ++ go l'
         end) children
  end.

(** XMLContentParticle.IsDeterministic: structures.py 2266-2282. *)
Definition map_deterministic (m : pmap) : bool :=
  forallb (fun e => match snd e with
                    | Some l => (length l <=? 1)%nat
                    | None => true
                    end) m.

(** The content type and model of an element type: structures.py 917-930. *)
Inductive content : Type :=
| Empty
| AnyContent
| Mixed (model : cp)
| ElementContent (model : cp)
| SGMLCDATA.

(** ElementType: structures.py 915-937.  [et_maps id] is the [particleMap]
    attribute of the name particle [id]; it is the empty map until it is
    assigned (line 2289). *)
Record element_type := {
  et_name : str;
  et_content : content;
  et_map : option pmap;
  et_maps : nat -> pmap }.

(** The state of the [particleMap] attributes after a list of assignments: the
    last one to an object counts. *)
Fixpoint run_assignments (l : list (nat * pmap)) (f : nat -> pmap) : nat -> pmap :=
  match l with
  | [] => f
  | (id, m) :: l' => run_assignments l' (fun i => if Nat.eqb i id then m else f i)
  end.

(** ElementType.BuildModel: structures.py 939-953, from a newly declared element
    type (lines 923-937). *)
Definition BuildModel (name : str) (c : content) : element_type :=
  match c with
  | ElementContent p =>
      let '(m, r) := SeekParticles p [] in
      let m' := if r then m else pset [] None m in
      {| et_name := name; et_content := c; et_map := Some m';
         et_maps := run_assignments (BuildParticleMaps p [([], None)]) (fun _ => []) |}
  | Mixed p =>
      let m := pset [] None (fst (SeekParticles p [])) in
      {| et_name := name; et_content := c; et_map := Some m;
         et_maps := run_assignments (BuildParticleMaps p m) (fun _ => []) |}
  | _ => {| et_name := name; et_content := c; et_map := None; et_maps := fun _ => [] |}
  end.

(** IsDeterministic of the particles below the root: structures.py 2318-2319,
    2348-2355, 2399-2406 with [pMap] None. *)
Fixpoint particles_deterministic (maps : nat -> pmap) (p : cp) : bool :=
  match p with
  | PName _ id _ => map_deterministic (maps id)
  | PChoice _ children | PSeq _ children =>
      (fix go l := match l with
                   | [] => true
                   | c :: l' => particles_deterministic maps c && go l'
                   end) children
  end.

(** ElementType.IsDeterministic: structures.py 955-963.  The method of a name
    particle takes no argument (line 2318), so a content model that is a single
    name particle raises TypeError; the parser never builds one. *)
Definition IsDeterministic (e : element_type) : result bool :=
  match et_content e with
  | ElementContent p | Mixed p =>
      match p with
      | PName _ _ _ => Err TypeError
      | _ => Ok ((match et_map e with
                  | Some m => map_deterministic m
                  | None => true
                  end) && particles_deterministic (et_maps e) p)
      end
  | _ => Ok true
  end.

(** ContentParticleCursor: structures.py 2409-2431.  The list of particles is
    only used in the particle state. *)
Inductive cursor : Type :=
| StartState
| ParticleState (pList : list nat)
| EndState.

(** The loop over the current particles in [Next]: structures.py 2465-2478.
    None stands for the short cut to the end state. *)
Fixpoint next_particles (maps : nat -> pmap) (name : str) (l acc : list nat)
  : option (list nat) :=
  match l with
  | [] => Some acc
  | p :: l' =>
      match assoc name (maps p) with
      | Some None => None
      | Some (Some ps) => next_particles maps name l' (acc ++ ps)
      | None => next_particles maps name l' acc
      end
  end.

(** ContentParticleCursor.Next: structures.py 2433-2487.  (For element content
    whose maps have not been built the method falls through and returns None,
    which is false.) *)
Definition Next (e : element_type) (c : cursor) (name : str) : cursor * bool :=
  match c with
  | StartState =>
      match et_map e with
      | Some m =>
          match assoc name m with
          | Some None => (EndState, true)
          | Some (Some l) => (ParticleState l, true)
          | None => (StartState, false)
          end
      | None =>
          match et_content e with
          | AnyContent => (match name with [] => EndState | _ => StartState end, true)
          | Empty | SGMLCDATA =>
              match name with [] => (EndState, true) | _ => (StartState, false) end
          | _ => (StartState, false)
          end
      end
  | ParticleState l =>
      match next_particles (et_maps e) name l [] with
      | None => (EndState, true)
      | Some [] => (ParticleState l, false)
      | Some l' => (ParticleState l', true)
      end
  | EndState => (EndState, false)
  end.

(** ContentParticleCursor.Expected: structures.py 2489-2514.  The Python result
    is the sorted list of the names followed by the end tag; here the names, in
    the order and with the repetitions of the loop, and whether the end tag was
    seen.  In the start state of an element type without particle map the
    method fails on None (line 2498). *)
Definition map_names (m : pmap) : list str :=
  filter (fun n => negb (str_eqb n [])) (map fst m).
Definition map_end (m : pmap) : bool := existsb (fun n => str_eqb n []) (map fst m).

Definition Expected (e : element_type) (c : cursor) : result (list str * bool) :=
  match c with
  | StartState =>
      match et_map e with
      | Some m => Ok (map_names m, map_end m)
      | None => Err AttributeError
      end
  | ParticleState l =>
      Ok (flat_map (fun p => map_names (et_maps e p)) l,
          existsb (fun p => map_end (et_maps e p)) l)
  | EndState => Ok ([], false)
  end.

(** XMLParser.CheckExpectedParticle: xml20081126/parser.py 1451-1461, applied to
    the tags of one element (the empty name for its end tag), starting from a
    new cursor.  The result is the number of validity errors reported; after
    the first the cursor is dropped. *)
Fixpoint CheckExpectedParticles (e : element_type) (c : option cursor) (tags : list str)
  : result nat :=
  match tags with
  | [] => Ok O
  | t :: tags' =>
      match c with
      | None => CheckExpectedParticles e None tags'
      | Some c0 =>
          match Next e c0 t with
          | (c1, true) => CheckExpectedParticles e (Some c1) tags'
          | (c1, false) =>
              '_ <- Expected e c1 ;;
              n <- CheckExpectedParticles e None tags' ;;
              Ok (S n)
          end
      end
  end.
