(** * Vocabulary of the statements about saved values *)
From Coq Require Import QArith Qabs Sorted.
From Verif Require Import Py StrModel FldModel.
Open Scope Q_scope.

(** [d] can be written with at most [n] significant digits. *)
Definition digits (n : Z) (d : Q) : Prop :=
  exists m e : Z, d == inject_Z m * Qpower 10 e /\ (Z.abs m <= 10 ^ n)%Z.

(** [d] is a nearest number of [n] digits to [x]. *)
Definition nearest_digits (n : Z) (x d : Q) : Prop :=
  digits n d /\ forall d', digits n d' -> Qabs (x - d) <= Qabs (x - d').

(** The conversion to double precision: of the value alone, with a relative error of at most
    [2^-53], and keeping the order.  (True of [float] while nothing overflows or underflows.) *)
Record float_ok (fl : Q -> Q) : Prop := {
  fl_eq : forall a b, a == b -> fl a == fl b;
  fl_err : forall a, Qabs (fl a - a) <= Qabs a * (1 # 9007199254740992);
  fl_le : forall a b, a <= b -> fl a <= fl b }.

(** The same double. *)
Definition same (a b : fval) : Prop :=
  match a, b with
  | Fin x, Fin y => x == y
  | NaN, NaN => True
  | Inf p, Inf q => p = q
  | _, _ => False
  end.

(** [b] is [a] up to the relative error [r]; what is not a number is the same. *)
Definition close (r : Q) (a b : fval) : Prop :=
  match a, b with
  | Fin x, Fin y => Qabs (y - x) <= Qabs x * r
  | NaN, NaN => True
  | Inf p, Inf q => p = q
  | _, _ => False
  end.

(** The sum of numbers. *)
Fixpoint total (l : list Q) : Q := match l with [] => 0 | x :: r => x + total r end.

(** The arrays of an oil, pairwise in a relation. *)
Definition all_arrays (P : list fval -> list fval -> Prop) (a b : oil) : Prop :=
  P (o_densities a) (o_densities b) /\ P (o_density_temps a) (o_density_temps b)
  /\ P (o_density_weathering a) (o_density_weathering b)
  /\ P (o_kvis a) (o_kvis b) /\ P (o_kvis_temps a) (o_kvis_temps b)
  /\ P (o_kvis_weathering a) (o_kvis_weathering b)
  /\ P (o_fraction a) (o_fraction b) /\ P (o_boiling a) (o_boiling b)
  /\ P (o_weight a) (o_weight b) /\ P (o_comp_density a) (o_comp_density b).

(** An oil whose four component arrays have the same length. *)
Definition well_formed (o : oil) : Prop :=
  length (o_weight o) = length (o_fraction o) /\ length (o_boiling o) = length (o_fraction o)
  /\ length (o_comp_density o) = length (o_fraction o).

(** Each time later than the one before. *)
Definition strictly_later (ts : list Z) : Prop := StronglySorted Z.lt ts.

(** The second in which a time (in microseconds) lies. *)
Definition second_of (t s : Z) : Prop := (s * 1000000 <= t < (s + 1) * 1000000)%Z.

(** The instant of a datetime, when a datetime without a zone is read as universal time. *)
Definition instant (d : dt) : Z :=
  (wall d - match offset d with Some o => o | None => 0 end)%Z.
