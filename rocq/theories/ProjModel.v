(** * Model of the pixel projections

    Source: /repo/py_gnome/gnome/utilities/projections.py.
    Floating point numbers are idealised as rationals; the cosine of the mid
    latitude is a parameter; the cast to int32 is idealised as exact. *)
From Verif Require Import Py.
From Coq Require Export QArith Qround.
Open Scope Q_scope.

(** The attributes [center], [scale] and [offset] of a GeoProjection. *)
Record proj := mkProj { p_cx : Q; p_cy : Q; p_sx : Q; p_sy : Q; p_ox : Q; p_oy : Q }.

(** A bounding box ((min_lon, min_lat), (max_lon, max_lat)). *)
Record bbox := mkBox { b_x0 : Q; b_y0 : Q; b_x1 : Q; b_y1 : Q }.

Definition pt := (Q * Q)%type.

(** projections.py:257-275, GeoProjection.to_pixel(asint=False), one point. *)
Definition to_pixel (p : proj) (c : pt) : pt :=
  ((fst c - p_cx p) * p_sx p + p_ox p, (snd c - p_cy p) * p_sy p + p_oy p).

(** projections.py:267-273, to_pixel(asint=True). *)
Definition to_pixel_int (p : proj) (c : pt) : Z * Z :=
  (Qfloor (fst (to_pixel p c)), Qfloor (snd (to_pixel p c))).

(** projections.py:333-342, GeoProjection.to_lonlat of a float point. *)
Definition to_lonlat (p : proj) (c : pt) : pt :=
  ((fst c - p_ox p) / p_sx p + p_cx p, (snd c - p_oy p) / p_sy p + p_cy p).

(** projections.py:326-342, to_lonlat of an integer point: 0.5 is added. *)
Definition to_lonlat_int (p : proj) (c : Z * Z) : pt :=
  to_lonlat p (inject_Z (fst c) + (1#2), inject_Z (snd c) + (1#2)).

(** projections.py:205-224, GeoProjection.set_scale.  [np.mean] of two corners. *)
Definition geo_scale (b : bbox) (w h : Q) : proj :=
  let bh := b_y1 b - b_y0 b in
  let bw := b_x1 b - b_x0 b in
  let s := if Qle_bool (bw / bh) (w / h) then h / bh else w / bw in
  mkProj ((b_x0 b + b_x1 b) / 2) ((b_y0 b + b_y1 b) / 2) s (- s) (w / 2) (h / 2).

(** projections.py:501-523, FlatEarthProjection.set_scale; [k] is
    cos(deg2rad(center latitude)). *)
Definition flat_scale (k : Q) (b : bbox) (w h : Q) : proj :=
  let bh := b_y1 b - b_y0 b in
  let bw := (b_x1 b - b_x0 b) * k in
  let s := if Qle_bool (bw / bh) (w / h) then h / bh else w / bw in
  mkProj ((b_x0 b + b_x1 b) / 2) ((b_y0 b + b_y1 b) / 2) (s * k) (- s) (w / 2) (h / 2).

(** projections.py:742-756, RegularGridProjection.set_scale. *)
Definition regular_scale (b : bbox) (w h : Q) : proj :=
  let bh := b_y1 b - b_y0 b in
  let bw := b_x1 b - b_x0 b in
  mkProj ((b_x0 b + b_x1 b) / 2) ((b_y0 b + b_y1 b) / 2) (w / bw) (- h / bh) (w / 2) (h / 2).

(** projections.py:388-396, FlatEarthProjection.meters_to_lonlat for one point
    (z passed through); [k] is the cosine of the reference latitude. *)
Definition deg_per_m : Q := 89992801 # 10000000000000.
Definition meters_to_lonlat (k : Q) (m : Q * Q * Q) : Q * Q * Q :=
  let '(dx, dy, dz) := m in (dx * deg_per_m / k, dy * deg_per_m, dz).
(** projections.py:432-436, FlatEarthProjection.lonlat_to_meters. *)
Definition lonlat_to_meters (k : Q) (m : Q * Q * Q) : Q * Q * Q :=
  let '(dx, dy, dz) := m in (dx / deg_per_m * k, dy / deg_per_m, dz).

(** ** RectangularGridProjection *)

(** numpy searchsorted(xs, v), side 'left': how many leading entries are < v. *)
Fixpoint searchsorted (xs : list Q) (v : Q) : nat :=
  match xs with
  | [] => O
  | x :: r => if Qle_bool v x then O else S (searchsorted r v)
  end.

Definition qnth (l : list Q) (i : nat) : Q := nth i l 0.

(** scipy interp1d(kind='linear') on a strictly increasing axis of at least two
    points, evaluated inside the axis range. *)
Definition interp (xs ys : list Q) (v : Q) : Q :=
  let i := Nat.max 1 (Nat.min (searchsorted xs v) (length xs - 1)) in
  let x0 := qnth xs (i - 1) in let x1 := qnth xs i in
  let y0 := qnth ys (i - 1) in let y1 := qnth ys i in
  (y1 - y0) / (x1 - x0) * (v - x0) + y0.

(** [np.arange(n)]. *)
Definition arange (n : nat) : list Q := map (fun i => inject_Z (Z.of_nat i)) (seq 0 n).

Definition qclip (v lo hi : Q) : Q :=
  if Qle_bool v lo then lo else if Qle_bool hi v then hi else v.

Definition qlast (l : list Q) : Q := qnth l (length l - 1).

(** projections.py:630-658, to_pixel(asint=True) along one axis: clip to the
    axis range, interpolate, flip the latitude axis, floor. *)
Definition rect_pixel_x (lons : list Q) (v : Q) : Z :=
  Qfloor (interp lons (arange (length lons)) (qclip v (qnth lons 0) (qlast lons))).
Definition rect_pixel_y (lats : list Q) (v : Q) : Z :=
  Qfloor (inject_Z (Z.of_nat (length lats - 1)) -
          interp lats (arange (length lats)) (qclip v (qnth lats 0) (qlast lats))).

(** projections.py:692-713, to_lonlat of an integer pixel along one axis. *)
Definition rect_lon (lons : list Q) (p : Z) : Q :=
  interp (arange (length lons)) lons
    (qclip (inject_Z p + (1#2)) 0 (inject_Z (Z.of_nat (length lons - 1)))).
Definition rect_lat (lats : list Q) (p : Z) : Q :=
  interp (arange (length lats)) lats
    (inject_Z (Z.of_nat (length lats - 1)) -
     qclip (inject_Z p + (1#2)) 0 (inject_Z (Z.of_nat (length lats - 1)))).

(** ** What a call does to the caller's array *)

(** What the caller passes: a numpy array of integers, a numpy array of
    float64, or another sequence (from which asarray makes a new array). *)
Inductive coords_arg :=
| IntArray (l : list (Z * Z))
| FloatArray (l : list pt)
| FloatSeq (l : list pt).

(** projections.py:324-342, the whole GeoProjection.to_lonlat: the result and
    the caller's object after the call.  [np.asarray] of a float array is that
    array, and [-=], [/=] and [+=] then work in place. *)
Definition to_lonlat_call (p : proj) (a : coords_arg) : list pt * coords_arg :=
  match a with
  | IntArray l => (map (to_lonlat_int p) l, a)
  | FloatArray l => let r := map (to_lonlat p) l in (r, FloatArray r)
  | FloatSeq l => (map (to_lonlat p) l, a)
  end.

(** projections.py:257-275, the whole GeoProjection.to_pixel(asint=False):
    [coords - self.center] makes a new array. *)
Definition to_pixel_call (p : proj) (l : list pt) : list pt * list pt :=
  (map (to_pixel p) l, l).

(** projections.py:630-647, RectangularGridProjection.to_pixel: putmask and
    clip work on the array that to_2d_coords and asarray return, which for a
    float array is (a view of) the caller's. *)
Definition rect_to_pixel_call (lons lats : list Q) (is_array : bool) (l : list pt)
  : list (Z * Z) * list pt :=
  (map (fun c => (rect_pixel_x lons (fst c), rect_pixel_y lats (snd c))) l,
   if is_array then
     map (fun c => (qclip (fst c) (qnth lons 0) (qlast lons), qclip (snd c) (qnth lats 0) (qlast lats))) l
   else l).
