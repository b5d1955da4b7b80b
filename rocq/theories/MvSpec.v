(** * What the movers must do

    Independent of the model's definitions, except for the elements. *)
From Verif Require Import Py QLemmas TimeModel ProjModel MvModel.
Open Scope Q_scope.

(** Equality of rows of rational numbers. *)
Definition same (a b : vec) : Prop :=
  fst (fst a) == fst (fst b) /\ snd (fst a) == snd (fst b) /\ snd a == snd b.

(** A field that has the velocity [v] everywhere and at all times. *)
Definition steady (vel : vec -> Z -> res vec) (v : vec) : Prop := forall p t, vel p t = Ok v.

(** A field that depends on time only. *)
Definition uniform_field (vel : vec -> Z -> res vec) (f : Z -> vec) : Prop :=
  forall p t, vel p t = Ok (f t).

(** The move of (x, y, z) metres at a latitude whose cosine is [k], in degrees
    and metres; a metre is 8.9992801e-06 degrees of latitude. *)
Definition in_degrees (k : Q) (x y z : Q) : vec :=
  let m := 89992801 # 10000000000000 in (x * m / k, y * m, z).

(** Seconds of a duration in microseconds. *)
Definition seconds (us : Z) : Q := inject_Z us / 1000000.

(** A cubic of the time in seconds, and its antiderivative. *)
Definition cubic (a b c d s : Q) : Q := a + b * s + c * s * s + d * s * s * s.
Definition anti (a b c d s : Q) : Q :=
  a * s + b * s * s / 2 + c * s * s * s / 3 + d * s * s * s * s / 4.

(** x lies between a and b. *)
Definition between (a b x : Q) : Prop := (a <= x <= b) \/ (b <= x <= a).

Definition absq (x : Q) : Q := if Qle_bool 0 x then x else - x.
