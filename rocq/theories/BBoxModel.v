(** * Bounding boxes

    Models gnome/utilities/geometry/BBox.py.  Entries are rationals (floats without
    rounding), the infinities and NaN. *)
From Verif Require Import Py QLemmas PipModel.
Open Scope Q_scope.

Inductive ext := NaN | NInf | Fin (q : Q) | PInf.

(** Comparison of floats: false if there is a NaN. *)
Definition e_le (a b : ext) : bool :=
  match a, b with
  | NaN, _ | _, NaN => false
  | NInf, _ => true
  | _, PInf => true
  | Fin x, Fin y => Qle_bool x y
  | _, _ => false
  end.
Definition is_nan (a : ext) : bool := match a with NaN => true | _ => false end.
Definition is_inf (a : ext) : bool := match a with NInf | PInf => true | _ => false end.
Definition e_lt (a b : ext) : bool := negb (is_nan a) && negb (is_nan b) && negb (e_le b a).
Definition e_eq (a b : ext) : bool := e_le a b && e_le b a.

(** numpy's minimum and maximum: NaN if there is one. *)
Definition e_min (a b : ext) : ext := if is_nan a || is_nan b then NaN else if e_le a b then a else b.
Definition e_max (a b : ext) : ext := if is_nan a || is_nan b then NaN else if e_le a b then b else a.

(** BBox.py:18-19: [[x0, y0], [x1, y1]]. *)
Record bbox := mkBox { x0 : ext; y0 : ext; x1 : ext; y1 : ext }.

(** BBox.py:33-59 (BBox). *)
Definition new_bbox (a b c d : ext) : res bbox :=
  if e_lt c a || e_lt d b then Raise ValueErr else Ok (mkBox a b c d).

(** BBox.py:61-76 (Overlaps). *)
Definition all_inf (b : bbox) : bool := is_inf (x0 b) && is_inf (y0 b) && is_inf (x1 b) && is_inf (y1 b).
Definition overlaps (s b : bbox) : bool :=
  if all_inf s || all_inf b then true
  else e_le (x0 b) (x1 s) && e_le (x0 s) (x1 b) && e_le (y0 b) (y1 s) && e_le (y0 s) (y1 b).

(** BBox.py:78-93 (Inside): is [b] inside [s]? *)
Definition inside (s b : bbox) : bool :=
  e_le (x0 s) (x0 b) && e_le (x1 b) (x1 s) && e_le (y0 s) (y0 b) && e_le (y1 b) (y1 s).

(** BBox.py:95-114 (PointInside). *)
Definition point_inside (s : bbox) (px py : ext) : bool :=
  e_le (x0 s) px && e_le px (x1 s) && e_le py (y1 s) && e_le (y0 s) py.

(** BBox.py:151-152 (IsNull). *)
Definition is_null (s : bbox) : bool := is_nan (x0 s) && is_nan (y0 s) && is_nan (x1 s) && is_nan (y1 s).

(** BBox.py:116-136 (Merge), the new value of [s]. *)
Definition merge (s b : bbox) : bbox :=
  if is_null s then b
  else if is_null b then s
  else mkBox (if e_lt (x0 b) (x0 s) then x0 b else x0 s) (if e_lt (y0 b) (y0 s) then y0 b else y0 s)
             (if e_lt (x1 s) (x1 b) then x1 b else x1 s) (if e_lt (y1 s) (y1 b) then y1 b else y1 s).

(** BBox.py:138-149 (AsPoly). *)
Definition as_poly (s : bbox) : list (ext * ext) :=
  [(x0 s, y0 s); (x0 s, y1 s); (x1 s, y1 s); (x1 s, y0 s)].

(** BBox.py:194-204 (__eq__). *)
Definition bb_eqb (s b : bbox) : bool :=
  if is_null s && is_null b then true
  else e_eq (x0 s) (x0 b) && e_eq (y0 s) (y0 b) && e_eq (x1 s) (x1 b) && e_eq (y1 s) (y1 b).

(** numpy's reductions: they need an entry. *)
Definition reduce (f : ext -> ext -> ext) (l : list ext) : res ext :=
  match l with [] => Raise ValueErr | a :: r => Ok (fold_left f r a) end.

(** BBox.py:227-241 (fromPoints). *)
Definition from_points (l : list (ext * ext)) : res bbox :=
  do a <- reduce e_min (map fst l);
  do b <- reduce e_min (map snd l);
  do c <- reduce e_max (map fst l);
  do d <- reduce e_max (map snd l);
  Ok (mkBox a b c d).

(** BBox.py:244-259 (fromBBArray). *)
Definition from_bbarray (l : list bbox) : res bbox :=
  do a <- reduce e_min (map x0 l);
  do b <- reduce e_min (map y0 l);
  do c <- reduce e_max (map x1 l);
  do d <- reduce e_max (map y1 l);
  Ok (mkBox a b c d).

(** BBox.py:263-275 (NullBBox), 278-285 (InfBBox). *)
Definition null_bbox : bbox := mkBox NaN NaN NaN NaN.
Definition inf_bbox : bbox := mkBox NInf NInf PInf PInf.
