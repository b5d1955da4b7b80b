(** * What is asked of the distributions: C172 to C174 *)
From Coq Require Import QArith Reals.
From Verif Require Import Py.

(** A size is within the limits that are set. *)
Definition within (lo hi : option Q) (x : Q) : Prop :=
  match lo with Some a => (a <= x)%Q | None => True end /\
  match hi with Some b => (x <= b)%Q | None => True end.

Definition withinb (lo hi : option Q) (x : Q) : bool :=
  match lo with Some a => Qle_bool a x | None => true end && match hi with Some b => Qle_bool x b | None => true end.

(** [ys] are numbers of the sequence [f], each at a later place than the one before. *)
Inductive picked (f : nat -> Q) : nat -> list Q -> Prop :=
| picked_nil k : picked f k []
| picked_cons k j x ys : (k <= j)%nat -> x = f j -> picked f (S j) ys -> picked f k (x :: ys).

(** The probability that a Weibull size with shape [a] and scale [l] lies below [x]
    (x, a and l positive), and between two sizes. *)
Definition weibull_below (a l x : R) : R := (1 - exp (- Rpower (x / l) a))%R.
