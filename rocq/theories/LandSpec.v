(** * What the land check should do, independent of its loop

    The pixels between two points are given in closed form (the pixel nearest
    to the ideal straight line at each step along the longer axis), and the
    result is read off the whole list of pixels, with no early exit. *)
From Verif Require Import Py LandModel.

(** A raster whose buffer has the declared size, which fits into 31 bits. *)
Definition wf (g : raster) : Prop :=
  0 <= rw g /\ 0 <= rh g /\ Z.of_nat (length (cells g)) = rw g * rh g /\ rw g * rh g < 2147483648.

(** Pixel coordinates up to 2^28 in magnitude: below this nothing overflows. *)
Definition small (c : Z) : Prop := -268435456 <= c <= 268435456.

Definition on_grid (g : raster) (p : Z * Z) : Prop :=
  0 <= fst p < rw g /\ 0 <= snd p < rh g.

(** Pixel [p] is on the raster and its cell is not 0. *)
Definition is_land (g : raster) (p : Z * Z) : bool :=
  (0 <=? fst p) && (fst p <? rw g) && (0 <=? snd p) && (snd p <? rh g) &&
  match nth_error (cells g) (Z.to_nat (fst p * rh g + snd p)) with
  | Some c => negb (c =? 0)
  | None => false
  end.

(** The integer nearest to [a/b], halves rounded down. *)
Definition nearest (a b : Z) : Z := - ((b - 2 * a) / (2 * b)).

Definition sgn_to (a b : Z) : Z := if a <? b then 1 else -1.

(** The [k]-th pixel of the straight line from (x0,y0) to (x1,y1). *)
Definition line_pixel (x0 y0 x1 y1 k : Z) : Z * Z :=
  let dx := Z.abs (x1 - x0) in
  let dy := Z.abs (y1 - y0) in
  if dy <=? dx then (x0 + sgn_to x0 x1 * k, y0 + sgn_to y0 y1 * nearest (k * dy) dx)
  else (x0 + sgn_to x0 x1 * nearest (k * dx) dy, y0 + sgn_to y0 y1 * k).

Definition line_length (x0 y0 x1 y1 : Z) : Z := Z.max (Z.abs (x1 - x0)) (Z.abs (y1 - y0)).

(** All pixels of the line, first to last. *)
Definition line (x0 y0 x1 y1 : Z) : list (Z * Z) :=
  map (line_pixel x0 y0 x1 y1) (zseq 0 (S (Z.to_nat (line_length x0 y0 x1 y1)))).

(** First obstacle met when going through the pixels [q :: qs] after [p]: a
    land pixel, or a diagonal move between two land pixels. *)
Fixpoint scan (g : raster) (p : Z * Z) (qs : list (Z * Z)) : walk_result :=
  match qs with
  | [] => NoHit
  | q :: r =>
      if is_land g q then Hit (fst p) (snd p) (fst q) (snd q)
      else if is_land g (fst q, snd p) && is_land g (fst p, snd q)
              && negb (fst p =? fst q) && negb (snd p =? snd q)
      then Hit (fst p) (snd p) (fst q) (snd p)
      else scan g q r
  end.

Definition first_obstacle (g : raster) (x0 y0 x1 y1 : Z) : walk_result :=
  if is_land g (x0, y0) then Hit x0 y0 x0 y0
  else scan g (x0, y0) (tl (line x0 y0 x1 y1)).

(** One of the eight neighbours. *)
Definition neighbours (p q : Z * Z) : Prop :=
  p <> q /\ Z.abs (fst p - fst q) <= 1 /\ Z.abs (snd p - snd q) <= 1.

(** A diagonal move between two land pixels. *)
Definition squeeze (g : raster) (p q : Z * Z) : Prop :=
  fst p <> fst q /\ snd p <> snd q /\
  is_land g (fst q, snd p) = true /\ is_land g (fst p, snd q) = true.

(** What is expected of the list of pixels of a straight movement: it has one
    pixel per move plus the first, runs from start to end through neighbours,
    within the bounding box, and never more than half a pixel (measured along
    the shorter axis) from the ideal line. *)
Definition line_geometry x0 y0 x1 y1 : Prop :=
  let l := line x0 y0 x1 y1 in
  Z.of_nat (length l) = Z.max (Z.abs (x1 - x0)) (Z.abs (y1 - y0)) + 1 /\
  nth_error l 0 = Some (x0, y0) /\
  nth_error l (length l - 1) = Some (x1, y1) /\
  (forall k p q, nth_error l k = Some p -> nth_error l (S k) = Some q -> neighbours p q) /\
  (forall p, In p l -> Z.min x0 x1 <= fst p <= Z.max x0 x1 /\ Z.min y0 y1 <= snd p <= Z.max y0 y1) /\
  (forall p, In p l -> 2 * Z.abs ((fst p - x0) * (y1 - y0) - (snd p - y0) * (x1 - x0))
                       <= Z.max (Z.abs (x1 - x0)) (Z.abs (y1 - y0))).

Definition all_small (x0 y0 x1 y1 : Z) : Prop := small x0 /\ small y0 /\ small x1 /\ small y1.

(** Movements within one row of blocks or one column of blocks of every layer. *)
Definition straight_in_blocks (ratios : list Z) (x0 y0 x1 y1 : Z) : Prop :=
  0 <= x0 /\ 0 <= y0 /\ 0 <= x1 /\ 0 <= y1 /\
  ((forall r, In r ratios -> x0 / r = x1 / r) \/ (forall r, In r ratios -> y0 / r = y1 / r)).
