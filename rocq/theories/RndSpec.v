(** * What the randomness properties C104 to C110 say *)
From Coq Require Import Reals Lra.
From Verif Require Import Py WxModel RndModel.
Open Scope R_scope.

Definition unit_draws (us : stream) := forall k, 0 <= us k <= 1.

(** C104: the windage lies in the range given for the element. *)
Definition within (e : wel) : Prop := wlo e <= windage e <= whi e.
(** The windage of the element never changes once it is set. *)
Definition infinite (e : wel) : Prop := (wpersist e <= 0 \/ 900 < wpersist e)%Z.
Definition op_draws (o : wop) : Prop := match o with WRelease _ _ _ _ us => unit_draws us | WStep _ us => unit_draws us end.
(** Every step is at least as long as the persistence of every element that has a finite one. *)
Definition long_steps (l : list wop) : Prop :=
  forall dt us n lo hi p us', In (WStep dt us) l -> In (WRelease n lo hi p us') l ->
    (0 < p <= 900)%Z -> (p <= Z.abs dt)%Z.

(** C106: draws as the generator gives them, in the first step and later. *)
Definition walk_draws (first : bool) (r : R * R) : Prop :=
  (-1 <= fst r <= 1 /\ -1 <= snd r <= 1) /\ (first = true -> fst r * fst r + snd r * snd r <= 1).
(** Metres to the north and to the east. *)
Definition north (d : moved) : R := dlat d * metres_per_degree.
Definition east (lat : R) (d : moved) : R := dlong d * lat_ratio lat * metres_per_degree.
(** Square of the reach of a step in metres: 6 D t, with D in m2/s; the mean square of a uniform
    draw in [-1, 1] times this reach is 2 D t. *)
Definition reach_sq (d : R) (dt : Z) : R := 6 * (d / 10000) * Rabs (IZR dt).

Definition v_draws (u : draws) : Prop :=
  0 <= ue u <= 1 /\ 0 <= un u <= 1 /\ 0 <= um u <= 1 /\ 0 <= uml u <= 1 /\ 0 <= ub u <= 1 /\ 0 <= uw u <= 1.
Definition v_valid (m : vmover) : Prop :=
  0 <= vabove m /\ 0 <= vbelow m /\ 0 <= habove m /\ 0 <= hbelow m /\ 0 <= mld m.

(** C109: Stokes' law for droplets up to 0.2 mm, form drag from 1 cm on. *)
Definition stokes (rho size visc rhow : R) : R := 98 / 10 * (rhow - rho) / rhow * (size * size) / (18 * visc).
Definition form_drag (rho size rhow : R) : R := sqrt (8 / 3 * (98 / 10) * (rhow - rho) / rhow * size).
