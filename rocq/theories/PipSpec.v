(** * Vocabulary for points in polygons *)
From Verif Require Import Py QLemmas PipModel.
Open Scope Q_scope.

(** The edges of a polygon, from the last vertex back to the first included. *)
Definition edges (l : list pt) : list (pt * pt) :=
  match l with [] => [] | v :: r => combine l (r ++ [v]) end.

(** [p] is on the line segment from [a] to [b]. *)
Definition on_segment (a b p : pt) : Prop :=
  exists t, 0 <= t <= 1 /\ fst p == fst a + t * (fst b - fst a) /\ snd p == snd a + t * (snd b - snd a).
Definition on_boundary (l : list pt) (p : pt) : Prop :=
  exists a b, In (a, b) (edges l) /\ on_segment a b p.

(** Twice the signed area of the triangle; positive if [p] is to the left of the
    way from [a] to [b]. *)
Definition cross (a b p : pt) : Q :=
  (fst b - fst a) * (snd p - snd a) - (snd b - snd a) * (fst p - fst a).

Definition strictly_inside (a b c p : pt) : Prop :=
  (0 < cross a b p /\ 0 < cross b c p /\ 0 < cross c a p) \/
  (cross a b p < 0 /\ cross b c p < 0 /\ cross c a p < 0).

Definition strictly_insideb (a b c p : pt) : bool :=
  (Qltb 0 (cross a b p) && Qltb 0 (cross b c p) && Qltb 0 (cross c a p)) ||
  (Qltb (cross a b p) 0 && Qltb (cross b c p) 0 && Qltb (cross c a p) 0).

(** [p] is strictly on one side of all of the polygon, that is, outside its
    bounding box. *)
Definition beside (l : list pt) (p : pt) : Prop :=
  (forall v, In v l -> fst p < fst v) \/ (forall v, In v l -> fst v < fst p) \/
  (forall v, In v l -> snd p < snd v) \/ (forall v, In v l -> snd v < snd p).

(** The consecutive pairs of a list. *)
Fixpoint pairs (l : list pt) : list (pt * pt) :=
  match l with
  | a :: r => match r with b :: _ => (a, b) :: pairs r | [] => [] end
  | [] => []
  end.
