(** * What wind uncertainty should do to a wind *)
From Verif Require Import Py.
From Coq Require Import Reals.
Open Scope R_scope.

(** The speed of a wind and the wind turned by an angle. *)
Definition speed (w : R * R) : R := sqrt (fst w * fst w + snd w * snd w).
Definition turned (a : R) (w : R * R) : R * R := (fst w * cos a - snd w * sin a, snd w * cos a + fst w * sin a).
Definition times (k : R) (w : R * R) : R * R := (k * fst w, k * snd w).
Definition degrees (a : R) : R := a * PI / 180.
