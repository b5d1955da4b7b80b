(** * What wind data mean *)
From Coq Require Import Reals.
From Verif Require Import Py WindModel.
Open Scope R_scope.

(** The wind a pair of numbers stands for: the velocity of the air towards east and north, in
    metres per second.  A polar pair is a speed in units of size [u] and the direction the wind
    comes from, in degrees clockwise from north. *)
Definition air (u : R) (pol : bool) (v : val) : R * R :=
  if pol then (- (fst v * u) * sin (snd v / 180 * PI), - (fst v * u) * cos (snd v / 180 * PI))
  else (fst v * u, snd v * u).

(** Polar data that make sense; components may be anything. *)
Definition sensible (pol : bool) (v : val) : Prop := pol = true -> 0 <= fst v /\ 0 <= snd v <= 360.
(** As they are given out. *)
Definition normal (pol : bool) (v : val) : Prop := pol = true -> 0 <= fst v /\ 0 <= snd v < 360.

(** Two series of the same times and the same winds. *)
Definition same_air (u : R) (p : bool) (l : list entry) (u' : R) (p' : bool) (l' : list entry) : Prop :=
  Forall2 (fun e e' => fst e = fst e' /\ air u p (snd e) = air u' p' (snd e')) l l'.

Definition in_order (l : list entry) : Prop := forall l1 p q l2, l = l1 ++ p :: q :: l2 -> (fst p < fst q)%Z.
