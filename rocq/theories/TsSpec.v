(** * What a time series means *)
From Coq Require Import QArith Qabs Qminmax.
From Verif Require Import Py TsModel.
Open Scope Z_scope.

(** Each time is later than the one before it. *)
Definition ascending (l : list pt) : Prop := forall l1 p q l2, l = l1 ++ p :: q :: l2 -> fst p < fst q.

(** [x] is the value at [t] on the segment from [a] at [ta] to [b] at [tb]: it lies between [a]
    and [b], is [a] at [ta] and [b] at [tb], and is the point of the straight line unless [a] and
    [b] differ by less than 1e-5, when it is less than 1e-5 from it. *)
Definition straight (a b : Q) (ta tb t : Z) : Q := (a + (b - a) * (inject_Z (t - ta)%Z / inject_Z (tb - ta)%Z))%Q.
Definition on_segment (a b : Q) (ta tb t : Z) (x : Q) : Prop :=
  (Qmin a b <= x /\ x <= Qmax a b /\ Qabs (x - straight a b ta tb t) < (1 # 100000))%Q /\
  ((1 # 100000) <= Qabs (b - a) -> x == straight a b ta tb t)%Q /\
  (t = ta -> x == a)%Q /\ (t = tb -> x == b)%Q.
Definition between (p q : pt) (t : Z) (w : vel) : Prop :=
  on_segment (fst (snd p)) (fst (snd q)) (fst p) (fst q) t (fst w) /\
  on_segment (snd (snd p)) (snd (snd q)) (fst p) (fst q) t (snd w).
Definition veq (v w : vel) : Prop := (fst v == fst w)%Q /\ (snd v == snd w)%Q.

Definition first_time (l : list pt) : option Z := match l with p :: _ => Some (fst p) | [] => None end.
Definition last_time (l : list pt) : option Z := match rev l with p :: _ => Some (fst p) | [] => None end.

(** The hourly trapezoid mean of a speed over [hours] hours up to [t]. *)
Fixpoint trapezoid (speed : Z -> Q) (t : Z) (hours : nat) : Q :=
  match hours with
  | O => 0%Q
  | S h => (trapezoid speed t h + (speed (t - Z.of_nat h * 3600)%Z + speed (t - Z.of_nat (S h) * 3600)%Z) / 2)%Q
  end.

(** The span of time a running average is made for: the whole series if it is at most 48 hours
    long, otherwise 48 hours from the model time (from the beginning if that is 0), not beyond the
    end. *)
Definition window (first last model_time : Z) : Z * Z :=
  if last - first <=? 172800 then (first, last)
  else let start := if model_time =? 0 then first else model_time in (start, Z.min (start + 172800) last).
