(** * What is asked of a plume: C165 to C168 *)
From Coq Require Import QArith Qround.
From Verif Require Import Py PlmModel.
Open Scope Z_scope.

(** The mass flux of a whole plume, from its data (depth, mass flux) *)
Fixpoint flux_sum (data : list (Q * Q)) : Q :=
  match data with [] => 0%Q | d :: r => (snd d + flux_sum r)%Q end.

(** Data that make sense: no negative flux, some flux *)
Definition flowing (data : list (Q * Q)) : Prop :=
  Forall (fun d => (0 <= snd d)%Q) data /\ (0 < flux_sum data)%Q.

(** What a loop over the generator saw: the number of elements of one round at one
    point of the plume, of all rounds at one point, of all rounds at all points. *)
Definition at_point (i : nat) (it : Z * option (list (point * Z))) : Z :=
  match snd it with
  | Some l => match nth_error l i with Some (_, c) => c | None => 0 end
  | None => 0
  end.
Fixpoint point_total (i : nat) (items : list (Z * option (list (point * Z)))) : Z :=
  match items with [] => 0 | it :: r => at_point i it + point_total i r end.
Fixpoint total_of (items : list (Z * option (list (point * Z)))) (points : nat) : Z :=
  match points with O => 0 | S k => total_of items k + point_total k items end.

(** Every round has a number, not negative, for every point, at that point's place. *)
Definition proper_rounds (place : point) (data : list (Q * Q)) (items : list (Z * option (list (point * Z)))) : Prop :=
  Forall (fun it => exists l, snd it = Some l /\ map fst l = map (fun d => (fst (fst place), snd (fst place), fst d)) data /\
                              Forall (fun x => 0 <= snd x) l) items.

(** The part of the release that is over at time [t] *)
Definition part_over (rel e t : Z) : Q :=
  (inject_Z (Z.min (Z.max t rel) e - rel) / inject_Z (e - rel))%Q.

(** The share of [n] elements that a flux has, rounded down *)
Definition share (n : Z) (flux total : Q) : Z := Qfloor (inject_Z n * flux / total).

(** The elements that are out at time [t], at their places *)
Definition out_at (place : point) (data : list (Q * Q)) (n rel e t : Z) : list point :=
  concat (map (fun d => repeat (fst (fst place), snd (fst place), fst d)
                               (Z.to_nat (Qfloor (inject_Z n * snd d / flux_sum data * part_over rel e t)))) data).

(** The steps of a run: times at which steps of the given lengths begin *)
Fixpoint begins (s : Z) (ds : list Z) : list (Z * Z) :=
  match ds with [] => [] | d :: r => (s, d) :: begins (s + d) r end.
Fixpoint zsum (l : list Z) : Z := match l with [] => 0 | x :: r => x + zsum r end.
