(** * What is expected of polygon and grid releases, in words of geometry and shares *)
From Coq Require Import String QArith Qabs.
From Verif Require Import Py StrModel PrlModel.
Open Scope list_scope.
Open Scope Z_scope.

Definition total (l : list Q) : Q := fold_right Qplus 0%Q l.

(** Area of a triangle: half the determinant of its corners. *)
Definition tarea (t : tri) : Q :=
  let '((x0, y0), (x1, y1), (x2, y2)) := t in
  (Qabs (x0 * (y1 - y2) + x1 * (y2 - y0) + x2 * (y0 - y1)) * (1 # 2))%Q.

(** A point is in a triangle if it is a mean of the corners. *)
Definition in_tri (t : tri) (p : qpt) : Prop :=
  let '((x0, y0), (x1, y1), (x2, y2)) := t in
  exists a b c, (0 <= a)%Q /\ (0 <= b)%Q /\ (0 <= c)%Q /\ (a + b + c == 1)%Q /\
    (fst p == a * x0 + b * x1 + c * x2)%Q /\ (snd p == a * y0 + b * y1 + c * y2)%Q.

(** Area of a polygon in square degrees, and its volume of oil in cubic metres. *)
Definition planar {P} (W : world P) (f : feat P) : Q := total (map tarea (w_tris W (f_poly f))).
Definition volume {P} (W : world P) (f : feat P) : Q :=
  match w_area W (f_poly f), f_thick f with Some a, Some t => (a * t)%Q | _, _ => 0%Q end.

(** The share of the elements that a polygon is to get: by volume if there are
    thicknesses, the given weight if there are weights, else by its area in degrees. *)
Inductive share {P} (W : world P) (fs : list (feat P)) (f : feat P) : Q -> Prop :=
| by_volume : (exists g, In g fs /\ f_thick g <> None) -> share W fs f (volume W f / total (map (volume W) fs))%Q
| by_weight : forall w, (forall g, In g fs -> f_thick g = None) -> f_weight f = Some w -> share W fs f w
| by_area : (forall g, In g fs -> f_thick g = None /\ f_weight g = None) ->
    share W fs f (planar W f / total (map (planar W) fs))%Q.

(** An operation on a polygon release. *)
Inductive op := SetThick (v : option (list Q)) | SetWeight (v : option (list Q)).
Definition apply {P} (fs : list (feat P)) (o : op) : list (feat P) :=
  match o with SetThick v => fst (set_thicks fs v) | SetWeight v => fst (set_weights fs v) end.
Definition both {P} (fs : list (feat P)) : Prop :=
  exists f g, In f fs /\ In g fs /\ f_thick f <> None /\ f_weight g <> None.

(** n is a whole number nearest to q. *)
Definition nearest (n : Z) (q : Q) : Prop := (Qabs (q - inject_Z n) <= 1 # 2)%Q.
(** n is a whole number nearest to the root of q: n - 1/2 <= root <= n + 1/2. *)
Definition nearest_root (n : Z) (q : Q) : Prop :=
  0 <= n /\ (n = 0 \/ (inject_Z ((2 * n - 1) * (2 * n - 1)) <= 4 * q)%Q) /\ (4 * q <= inject_Z ((2 * n + 1) * (2 * n + 1)))%Q.

(** The word thick, each letter small or capital (32 before the small one in ASCII). *)
Definition thick_word (s : str) : Prop := Forall2 (fun c d => c = d \/ c = d - 32) s (lit "thick"%string).
(** The record has no time that can be read. *)
Definition no_time {P} (x : nrec P) : Prop := forall t, n_time x <> Some (Some t).

(** A point with a longitude between -360 and 360 and a latitude between the poles, which are not
    among the latitudes. *)
Definition on_globe (p : Q * Q) : Prop := (-360 < fst p /\ fst p < 360 /\ -90 < snd p /\ snd p < 90)%Q.
