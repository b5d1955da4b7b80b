(** * Vocabulary for bounding boxes *)
From Verif Require Import Py QLemmas PipModel BBoxModel.
Open Scope Q_scope.

(** A number is not below, not above a bound. *)
Definition lower (e : ext) (q : Q) : Prop := match e with NInf => True | Fin a => a <= q | _ => False end.
Definition upper (e : ext) (q : Q) : Prop := match e with PInf => True | Fin a => q <= a | _ => False end.

(** The points of a box. *)
Definition has (b : bbox) (p : pt) : Prop :=
  lower (x0 b) (fst p) /\ upper (x1 b) (fst p) /\ lower (y0 b) (snd p) /\ upper (y1 b) (snd p).

(** Bounds in order, none of them NaN. *)
Definition bounds (a b : ext) : Prop :=
  match a, b with
  | NInf, Fin _ | NInf, PInf | Fin _, PInf => True
  | Fin x, Fin y => x <= y
  | _, _ => False
  end.
Definition proper (b : bbox) : Prop := bounds (x0 b) (x1 b) /\ bounds (y0 b) (y1 b).
(** What the functions of the module make from points, boxes and each other. *)
Definition good (b : bbox) : Prop := proper b \/ b = null_bbox.

Definition fin_pt (p : pt) : ext * ext := (Fin (fst p), Fin (snd p)).
Definition fin_box (a b c d : Q) : bbox := mkBox (Fin a) (Fin b) (Fin c) (Fin d).
