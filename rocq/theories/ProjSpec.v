(** * What is expected of the projections *)
From Verif Require Import Py ProjModel.
Open Scope Q_scope.

Definition pt_eq (a b : pt) : Prop := fst a == fst b /\ snd a == snd b.

(** A projection that can be inverted. *)
Definition invertible (p : proj) : Prop := ~ p_sx p == 0 /\ ~ p_sy p == 0.

(** A bounding box with positive width and height. *)
Definition proper (b : bbox) : Prop := b_x0 b < b_x1 b /\ b_y0 b < b_y1 b.

Definition in_box (b : bbox) (c : pt) : Prop :=
  b_x0 b <= fst c <= b_x1 b /\ b_y0 b <= snd c <= b_y1 b.

(** The image shows the whole box, east to the right and north up. *)
Definition shows_box (p : proj) (b : bbox) (w h : Q) : Prop :=
  0 < p_sx p /\ p_sy p < 0 /\
  forall c, in_box b c ->
    0 <= fst (to_pixel p c) <= w /\ 0 <= snd (to_pixel p c) <= h.

(** A strictly increasing axis with at least two points. *)
Fixpoint increasing (l : list Q) : Prop :=
  match l with
  | x :: ((y :: _) as r) => x < y /\ increasing r
  | _ => True
  end.
Definition axis (l : list Q) : Prop := increasing l /\ (2 <= length l)%nat.

(** The width (height) of the box in the image is the width (height) of the
    image. *)
Definition fills_width (p : proj) (b : bbox) (w : Q) : Prop :=
  fst (to_pixel p (b_x1 b, b_y0 b)) - fst (to_pixel p (b_x0 b, b_y0 b)) == w.
Definition fills_height (p : proj) (b : bbox) (h : Q) : Prop :=
  snd (to_pixel p (b_x0 b, b_y0 b)) - snd (to_pixel p (b_x0 b, b_y1 b)) == h.
