(** * What a user expects of viscosities and vapour pressures *)
From Coq Require Import ZArith QArith Reals List Bool.
From Verif Require Import Py VisModel.
Import ListNotations.
Open Scope R_scope.

(** A measurement of the viscosity of fresh oil: [v] at [T] kelvin. *)
Definition vmeasured (o : voil) (v T : R) : Prop :=
  exists i w, nth_error (v_kvis o) i = Some v /\ nth_error (v_temps o) i = Some T /\
              nth_error (v_weath o) i = Some w /\ (w == 0)%Q.
Definition vwell_formed (o : voil) : Prop :=
  length (v_temps o) = length (v_kvis o) /\ length (v_weath o) = length (v_kvis o).
(** How many measurements of fresh oil there are. *)
Definition nfresh (o : voil) : nat := length (filter (fun w => Qeq_bool w 0) (v_weath o)).
Definition vphysical (o : voil) : Prop := forall v T, vmeasured o v T -> 0 < v /\ 0 < T.
(** No measurement at a higher temperature is more viscous. *)
Definition vfalls (o : voil) : Prop :=
  forall v1 T1 v2 T2, vmeasured o v1 T1 -> vmeasured o v2 T2 -> T1 < T2 -> v2 <= v1.

(** The viscosity of the oil at a temperature, as the caller sees it. *)
Definition viscosity (lsq : list (R * R) -> R * R) (o : voil) (T v : R) : Prop :=
  exists o', kvis_at_temp lsq o T = Ok (v, o').

(** What numpy says of lstsq, for the points (x, y) and the line b + s x: it makes
    the sum of the squares smallest, and has the smallest norm among those that do. *)
Fixpoint cost (l : list (R * R)) (b s : R) : R :=
  match l with
  | [] => 0
  | (x, y) :: r => (y - b - s * x) ^ 2 + cost r b s
  end.
Definition least_squares (lsq : list (R * R) -> R * R) : Prop :=
  forall l, (forall b s, cost l (fst (lsq l)) (snd (lsq l)) <= cost l b s) /\
            (forall b s, cost l b s = cost l (fst (lsq l)) (snd (lsq l)) ->
               fst (lsq l) ^ 2 + snd (lsq l) ^ 2 <= b ^ 2 + s ^ 2).
