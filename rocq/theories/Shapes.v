(** Model of lengths, coordinates and shapes: pyslet/pyslet/html40_19991224.py 848-1119
    (LengthType, Coords), pyslet/pyslet/qtiv2/core.py 134-236 (bounds, offsets, point
    tests) and pyslet/pyslet/qtiv1/core.py 109-187 (MigrateV2AreaCoords). *)
From Verif Require Import Py Iso Dec.

(** ** LengthType *)

(** html40_19991224.py 867-871 *)
Inductive ltype := Pixel | Percentage.
Record length_t := mkLen { l_type : ltype; l_value : Z }.

(** [isspace] of ASCII characters. *)
Definition is_space (c : Z) : bool := ((9 <=? c) && (c <=? 13)) || (c =? 32).
Fixpoint lstrip (s : str) : str :=
  match s with c :: s' => if is_space c then lstrip s' else s | [] => [] end.
(** [s.strip()], for white space of ASCII. *)
Definition strip (s : str) : str := rev (lstrip (rev (lstrip s))).

(** [c.isdigit()], for digits of ASCII. *)
Definition isdigit (c : Z) : bool := (48 <=? c) && (c <=? 57).

(** The loop over the characters: html40_19991224.py 881-890.  [v] is reversed. *)
Fixpoint length_loop (s : str) (valueType : option ltype) (v : str) : option ltype * str :=
  match s with
  | [] => (valueType, rev v)
  | c :: s' =>
      match valueType with
      | None =>
          if isdigit c then length_loop s' valueType (c :: v)
          else if c =? 37 then (Some Percentage, rev v)
          else length_loop s' (Some Pixel) v
      | Some _ =>
          if c =? 37 then (Some Percentage, rev v) else length_loop s' (Some Pixel) v
      end
  end.

(** LengthType.__init__ with a string: html40_19991224.py 878-897.  The test [v<0] never
    succeeds as [v] is made of digits. *)
Definition LengthType (value : str) (valueType : option ltype) : result length_t :=
  let '(vt, v) := length_loop (strip value) valueType [] in
  let vt := match vt with None => Pixel | Some t => t end in
  match v with
  | [] => Err XHTMLValidityError (* int('') *)
  | _ => Ok (mkLen vt (dval v))
  end.

(** LengthType.__unicode__: html40_19991224.py 916-921 (and __str__ 909-914). *)
Definition length_str (l : length_t) : str :=
  match l_type l with
  | Percentage => pystr (l_value l) ++ lit "%"
  | Pixel => pystr (l_value l)
  end.

(** LengthType.GetValue: html40_19991224.py 923-933. *)
Definition GetValue (l : length_t) (dim : option Z) : result Z :=
  match l_type l with
  | Percentage =>
      match dim with
      | None => Err ValueError
      | Some d => Ok ((l_value l * d + 50) / 100)
      end
  | Pixel => Ok (l_value l)
  end.

(** LengthType.Add with an integer: html40_19991224.py 947-950.  The message of the
    second branch has one conversion for two arguments, so formatting it raises TypeError. *)
Definition Add (l : length_t) (value : Z) : result length_t :=
  match l_type l with
  | Pixel => Ok (mkLen Pixel (l_value l + value))
  | Percentage => Err TypeError
  end.

(** ** Coords *)

(** [s.split(',')] *)
Fixpoint split_commas (s : str) (cur : str) : list str :=
  match s with
  | [] => [rev cur]
  | c :: s' => if c =? 44 then rev cur :: split_commas s' [] else split_commas s' (c :: cur)
  end.

Fixpoint map_result {A B} (f : A -> result B) (l : list A) : result (list B) :=
  match l with
  | [] => Ok []
  | a :: l' => b <- f a ;; r <- map_result f l' ;; Ok (b :: r)
  end.

(** Coords.__init__ with a string: html40_19991224.py 975-980. *)
Definition Coords (values : str) : result (list length_t) :=
  if mem 44 values then
    map_result (fun x => LengthType (strip x) None) (split_commas values [])
  else Ok [].

(** Coords.__unicode__: html40_19991224.py 988-990. *)
Fixpoint join_commas (l : list str) : str :=
  match l with [] => [] | [s] => s | s :: l' => s ++ 44 :: join_commas l' end.
Definition coords_str (cs : list length_t) : str := join_commas (map length_str cs).

(** TestRect: html40_19991224.py 1011-1031. *)
Definition TestRect (cs : list length_t) (x y : Z) (width height : option Z) : result bool :=
  match cs with
  | c0 :: c1 :: c2 :: c3 :: _ =>
      x0 <- GetValue c0 width ;;
      y0 <- GetValue c1 height ;;
      x1 <- GetValue c2 width ;;
      y1 <- GetValue c3 height ;;
      let '(x0, x1) := if x0 >? x1 then (x1, x0) else (x0, x1) in
      let '(y0, y1) := if y0 >? y1 then (y1, y0) else (y0, y1) in
      if (x <? x0) || (y <? y0) then Ok false
      else if (x >=? x1) || (y >=? y1) then Ok false
      else Ok true
  | _ => Err ValueError
  end.

(** Python 2's [a<b] where either may be None (None is less than every number). *)
Definition opt_lt (a b : option Z) : bool :=
  match a, b with
  | None, None => false
  | None, Some _ => true
  | Some _, None => false
  | Some a, Some b => a <? b
  end.

(** TestCircle: html40_19991224.py 1033-1052. *)
Definition TestCircle (cs : list length_t) (x y : Z) (width height : option Z) : result bool :=
  match cs with
  | c0 :: c1 :: c2 :: _ =>
      let rMax := if opt_lt width height then width else height in
      vx <- GetValue c0 width ;;
      let dx := x - vx in
      vy <- GetValue c1 height ;;
      let dy := y - vy in
      r <- GetValue c2 rMax ;;
      Ok (dx * dx + dy * dy <=? r * r)
  | _ => Err ValueError
  end.

(** The loop that builds the array of vertices: html40_19991224.py 1076-1085, for an even
    number of coordinates. *)
Fixpoint vertices (cs : list length_t) (width height : option Z) : result (list (Z * Z)) :=
  match cs with
  | cx :: cy :: cs' =>
      lastX <- GetValue cx width ;;
      vy <- GetValue cy height ;;
      r <- vertices cs' width height ;;
      Ok ((lastX, vy) :: r)
  | _ => Ok []
  end.

Definition pt_eqb (a b : Z * Z) : bool := (fst a =? fst b) && (snd a =? snd b).

(** html40_19991224.py 1086-1088 *)
Definition close_poly (vs : list (Z * Z)) : list (Z * Z) :=
  match vs with
  | [] => []
  | v0 :: _ => if pt_eqb v0 (last vs v0) then vs else vs ++ [v0]
  end.

(** One edge: html40_19991224.py 1094-1118.  The floating point comparison of xHit with x
    is made on exact numbers (the denominator is positive). *)
Definition crosses (x y : Z) (a b : Z * Z) : bool :=
  let '(x0, y0) := a in
  let '(x1, y1) := b in
  if y0 =? y1 then false
  else
    let '(x0, y0, x1, y1) := if y0 >? y1 then (x1, y1, x0, y0) else (x0, y0, x1, y1) in
    if (y <? y0) || (y >=? y1) then false
    else if y =? y0 then x >=? x0
    else if (x <? x0) && (x <? x1) then false
    else (y - y0) * (x1 - x0) + x0 * (y1 - y0) <=? x * (y1 - y0).

Fixpoint nCrossings (x y : Z) (vs : list (Z * Z)) : Z :=
  match vs with
  | a :: ((b :: _) as vs') => (if crosses x y a b then 1 else 0) + nCrossings x y vs'
  | _ => 0
  end.

(** TestPoly: html40_19991224.py 1054-1119. *)
Definition TestPoly (cs : list length_t) (x y : Z) (width height : option Z) : result bool :=
  if (length cs <? 6)%nat then Err ValueError
  else if Nat.odd (length cs) then Err ValueError
  else
    vs <- vertices cs width height ;;
    Ok (negb (nCrossings x y (close_poly vs) mod 2 =? 0)).

(** ** Shapes: qtiv2/core.py *)

(** Shape: qtiv2/core.py 100-131 *)
Inductive shape := circle | default | ellipse | poly | rect.

(** TestEllipse: qtiv2/core.py 224-236. *)
Definition TestEllipse (cs : list length_t) (x y : Z) (width height : option Z) : result bool :=
  match cs with
  | c0 :: c1 :: c2 :: c3 :: _ =>
      vx <- GetValue c0 width ;;
      let dx := x - vx in
      vy <- GetValue c1 height ;;
      let dy := y - vy in
      rx <- GetValue c2 width ;;
      ry <- GetValue c3 height ;;
      Ok (dx * dx * ry * ry + dy * dy * rx * rx <=? rx * rx * ry * ry)
  | _ => Err ValueError
  end.

(** ShapeElementMixin.TestPoint: qtiv2/core.py 206-222 (coords is not None). *)
Definition TestPoint (s : shape) (cs : list length_t) (x y : Z) (width height : option Z) : result bool :=
  match s with
  | circle => TestCircle cs x y width height
  | default =>
      Ok ((x >=? 0) && (y >=? 0) && match width with None => true | Some w => x <=? w end
          && match height with None => true | Some h => y <=? h end)
  | ellipse => TestEllipse cs x y width height
  | poly => TestPoly cs x y width height
  | rect => TestRect cs x y width height
  end.

Definition value_at (cs : list length_t) (i : nat) (dim : Z) : result Z :=
  l <- index cs i ;; GetValue l (Some dim).

(** The while loop over a polygon: qtiv2/core.py 154-164.  The loop does not change [i]. *)
Fixpoint bounds_loop (fuel : nat) (cs : list length_t) (i : nat) (output : Z * Z * Z * Z) : result (Z * Z * Z * Z) :=
  match fuel with
  | O => Err OutOfFuel
  | S fuel =>
      if (2 * i + 1 <? length cs)%nat then
        x <- value_at cs (2 * i) 1024 ;;
        y <- value_at cs (2 * i + 1) 768 ;;
        let '(o0, o1, o2, o3) := output in
        let '(o0, o2) := if x <? o0 then (x, o2) else if x >? o2 then (o0, x) else (o0, o2) in
        let '(o1, o3) := if y <? o1 then (y, o3) else if y >? o3 then (o1, y) else (o1, o3) in
        bounds_loop fuel cs i (o0, o1, o2, o3)
      else Ok output
  end.

(** CalculateShapeBounds: qtiv2/core.py 134-170. *)
Definition CalculateShapeBounds (fuel : nat) (s : shape) (cs : list length_t) : result (Z * Z * Z * Z) :=
  match s with
  | circle =>
      x <- value_at cs 0 1024 ;; r <- value_at cs 2 768 ;; y <- value_at cs 1 768 ;;
      Ok (x - r, y - r, x + r, y + r)
  | default => Ok (0, 0, 1024, 768)
  | ellipse =>
      x <- value_at cs 0 1024 ;; rx <- value_at cs 2 1024 ;;
      y <- value_at cs 1 768 ;; ry <- value_at cs 3 768 ;;
      Ok (x - rx, y - ry, x + rx, y + ry)
  | poly =>
      x <- value_at cs 0 1024 ;; y <- value_at cs 1 768 ;;
      bounds_loop fuel cs 1 (x, y, x, y)
  | rect =>
      x0 <- value_at cs 0 1024 ;; y0 <- value_at cs 1 768 ;;
      x1 <- value_at cs 2 1024 ;; y1 <- value_at cs 3 768 ;;
      Ok (x0, y0, x1, y1)
  end.

(** coords[i].Add(value) *)
Definition add_at (cs : list length_t) (i : nat) (value : Z) : result (list length_t) :=
  l <- index cs i ;; l' <- Add l value ;; set_nth cs i l'.

(** The while loop over a polygon: qtiv2/core.py 183-187. *)
Fixpoint offset_loop (fuel : nat) (cs : list length_t) (i : nat) (xo yo : Z) : result (list length_t) :=
  match fuel with
  | O => Err OutOfFuel
  | S fuel =>
      if (2 * i + 1 <? length cs)%nat then
        cs <- add_at cs (2 * i) (- xo) ;;
        cs <- add_at cs (2 * i + 1) (- yo) ;;
        offset_loop fuel cs i xo yo
      else Ok cs
  end.

(** OffsetShape: qtiv2/core.py 172-196.  Returns the changed list; the changes made
    before an exception are not kept. *)
Definition OffsetShape (fuel : nat) (s : shape) (cs : list length_t) (xo yo : Z) : result (list length_t) :=
  match s with
  | circle => cs <- add_at cs 0 (- xo) ;; add_at cs 1 (- yo)
  | default => Ok cs
  | ellipse => cs <- add_at cs 0 (- xo) ;; add_at cs 1 (- yo)
  | poly => offset_loop fuel cs 0 xo yo
  | rect => cs <- add_at cs 0 (- xo) ;; cs <- add_at cs 1 (- yo) ;;
            cs <- add_at cs 2 (- xo) ;; add_at cs 3 (- yo)
  end.

(** ** QTI version 1 areas: qtiv1/core.py *)

(** Area: qtiv1/core.py 87-106 *)
Inductive area := Ellipse | Rectangle | Bounded.

Definition is_num_char (c : Z) : bool := mem c (lit "0123456789.").

(** [int(float(s))] for a non-empty string of digits and full stops: the integer part,
    which may be empty if there is a fraction.  Floats are exact here, Python rounds
    numbers above 2^53. *)
Fixpoint split_dot (s : str) (cur : str) : str * option str :=
  match s with
  | [] => (rev cur, None)
  | c :: s' => if c =? 46 then (rev cur, Some s') else split_dot s' (c :: cur)
  end.
Definition int_float (s : str) : result Z :=
  match split_dot s [] with
  | (i, None) => Ok (dval i)
  | (i, Some f) =>
      if mem 46 f then Err ValueError
      else match i, f with
           | [], [] => Err ValueError
           | _, _ => Ok (dval i)
           end
  end.

(** The scanner of MigrateV2AreaCoords: qtiv1/core.py 144-157.  [vStr] and [coords] are
    reversed. *)
Fixpoint scan (s : str) (sep : bool) (vStr : str) (coords : list Z) : result (list Z) :=
  match s with
  | [] =>
      match vStr with
      | [] => Ok (rev coords)
      | _ => v <- int_float (rev vStr) ;; Ok (rev (v :: coords))
      end
  | c :: s' =>
      if is_num_char c then
        if sep && match vStr with [] => false | _ => true end then
          v <- int_float (rev vStr) ;; scan s' false [c] (v :: coords)
        else scan s' sep (c :: vStr) coords
      else scan s' true vStr coords
  end.

Definition pad4 (l : list Z) : list Z := l ++ repeat 0 (4 - length l).

(** MigrateV2AreaCoords: qtiv1/core.py 109-187, without the log.  A short list of
    coordinates for an ellipse raises NameError (corrds). *)
Definition MigrateV2AreaCoords (a : area) (value : str) : result (shape * list length_t) :=
  coords <- scan value false [] [] ;;
  '(s, coords) <-
    match a with
    | Rectangle =>
        match pad4 coords with
        | c0 :: c1 :: c2 :: c3 :: _ => Ok (rect, [c0; c1; c0 + c3 - 1; c1 + c2 - 1])
        | _ => Err IndexError
        end
    | Ellipse =>
        match coords with
        | c0 :: c1 :: c2 :: c3 :: _ =>
            if c2 =? c3 then Ok (circle, [c0; c1; c2 / 2])
            else Ok (ellipse, [c0; c1; c2 / 2; c3 / 2])
        | _ => Err NameError
        end
    | Bounded => Ok (poly, coords)
    end ;;
  Ok (s, map (mkLen Pixel) coords).
