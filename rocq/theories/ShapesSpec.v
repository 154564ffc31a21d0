(** What lengths, coordinates and shapes mean. *)
From Coq Require Import QArith.
From Verif Require Import Py Shapes.
Open Scope Z_scope.

(** A length stands for a number of pixels; a percentage for that fraction of the
    dimension, rounded to the nearest integer (halves up). *)
Definition pixels (l : length_t) (dim : option Z) (v : Z) : Prop :=
  match l_type l with
  | Pixel => v = l_value l
  | Percentage => exists d, dim = Some d /\ 100 * v - 50 <= l_value l * d < 100 * v + 50
  end.

(** The points a list of coordinates stands for. *)
Inductive points (w h : option Z) : list length_t -> list (Z * Z) -> Prop :=
| points_nil : points w h [] []
| points_cons cx cy x y cs ps : pixels cx w x -> pixels cy h y -> points w h cs ps ->
    points w h (cx :: cy :: cs) ((x, y) :: ps).

(** The half-open rectangle with two given opposite corners. *)
Definition in_rectangle (a b p : Z * Z) : Prop :=
  Z.min (fst a) (fst b) <= fst p < Z.max (fst a) (fst b) /\
  Z.min (snd a) (snd b) <= snd p < Z.max (snd a) (snd b).

(** The closed disc. *)
Definition in_disc (c : Z * Z) (r : Z) (p : Z * Z) : Prop :=
  (fst p - fst c) ^ 2 + (snd p - snd c) ^ 2 <= r ^ 2.

(** The closed ellipse with positive semi-axes. *)
Definition in_ellipse (c : Z * Z) (rx ry : Z) (p : Z * Z) : Prop :=
  (((inject_Z (fst p - fst c) / inject_Z rx) ^ 2 + (inject_Z (snd p - snd c) / inject_Z ry) ^ 2) <= 1)%Q.

(** Twice the signed area of the triangle a b p: which side of the line a b is p on. *)
Definition orient (a b p : Z * Z) : Z :=
  (fst b - fst a) * (snd p - snd a) - (snd b - snd a) * (fst p - fst a).

(** p is strictly inside the triangle: on the same side of its three edges. *)
Definition in_triangle (a b c p : Z * Z) : bool :=
  ((0 <? orient a b p) && (0 <? orient b c p) && (0 <? orient c a p)) ||
  ((orient a b p <? 0) && (orient b c p <? 0) && (orient c a p <? 0)).

(** p is not on the line through any edge of the triangle. *)
Definition off_lines (a b c p : Z * Z) : Prop :=
  orient a b p <> 0 /\ orient b c p <> 0 /\ orient c a p <> 0.

(** The triangles v0 v1 v2, v0 v2 v3, ... of a polygon with the vertices v0 v1 v2 ... *)
Fixpoint fan (v0 : Z * Z) (vs : list (Z * Z)) : list ((Z * Z) * (Z * Z) * (Z * Z)) :=
  match vs with
  | a :: ((b :: _) as vs') => (v0, a, b) :: fan v0 vs'
  | _ => []
  end.
Definition tri_off (p : Z * Z) (t : (Z * Z) * (Z * Z) * (Z * Z)) : Prop :=
  let '(a, b, c) := t in off_lines a b c p.
Definition tri_in (p : Z * Z) (t : (Z * Z) * (Z * Z) * (Z * Z)) : bool :=
  let '(a, b, c) := t in in_triangle a b c p.

(** Moving points. *)
Definition move (dx dy : Z) (p : Z * Z) : Z * Z := (fst p + dx, snd p + dy).

(** Coordinates in pixels. *)
Definition px (n : Z) : length_t := mkLen Pixel n.
Definition px_points (vs : list (Z * Z)) : list length_t :=
  flat_map (fun p => [px (fst p); px (snd p)]) vs.

(** A box given by its least and greatest coordinates. *)
Definition in_box (b : Z * Z * Z * Z) (x y : Z) : Prop :=
  let '(x0, y0, x1, y1) := b in x0 <= x <= x1 /\ y0 <= y <= y1.

(** ** Numbers in a text *)
(** A decimal number: digits, at most one full stop, not just a full stop. *)
Definition num_char (c : Z) : Prop := 48 <= c <= 57 \/ c = 46.
Definition int_part (s : str) (n : Z) : Prop :=
  exists i f, Forall (fun c => 48 <= c <= 57) i /\ Forall (fun c => 48 <= c <= 57) f /\
    n = fold_left (fun v c => v * 10 + (c - 48)) i 0 /\
    ((s = i /\ f = [] /\ i <> []) \/ (s = i ++ 46 :: f /\ i ++ f <> [])).
