(** * Specification vocabulary for times *)
From Verif Require Import Py QLemmas TimeModel.
Open Scope Z_scope.

(** The extended time line: -infinity, the datetimes in their usual order,
    +infinity. *)
Inductive tle : ptime -> ptime -> Prop :=
| tle_minus : forall t, tle TMinus t
| tle_inf : forall t, tle t TInf
| tle_date : forall x y, x <= y -> tle (TDate x) (TDate y).
Definition tlt (a b : ptime) : Prop := tle a b /\ a <> b.

(** A Python comparison returned, without an exception, the truth value of [P]. *)
Definition decides (r : res bool) (P : Prop) : Prop :=
  exists b, r = Ok b /\ (b = true <-> P).

(** [t] lies in the closed window. *)
Definition within (lo t hi : ptime) : Prop := tle lo t /\ tle t hi.

(** Order of calendar fields, most significant first. *)
Fixpoint lex_lt (a b : list Z) : Prop :=
  match a, b with
  | x :: a', y :: b' => x < y \/ (x = y /\ lex_lt a' b')
  | _, _ => False
  end.
Definition fields_list (f : fields) : list Z :=
  [f_y f; f_mo f; f_d f; f_h f; f_mi f; f_s f; f_us f].
Definition earlier (f g : fields) : Prop := lex_lt (fields_list f) (fields_list g).

(** A date that exists in the calendar. *)
Definition real_date (f : fields) : Prop :=
  1 <= f_y f <= 9999 /\ 1 <= f_mo f <= 12 /\
  1 <= f_d f <= days_in_month (f_y f) (f_mo f) /\
  0 <= f_h f <= 23 /\ 0 <= f_mi f <= 59 /\ 0 <= f_s f <= 59 /\ 0 <= f_us f <= 999999.

(** The midnight that starts the day of the instant [t] (microseconds). *)
Definition midnight (m t : Z) : Prop :=
  (exists d, m = d * day_us) /\ m <= t < m + day_us.

(** [x] rounded to the nearest point of the lattice [m + k r], a tie going up;
    [x] itself is first cut to whole seconds. *)
Definition nearest_up (r m x y : Z) : Prop :=
  exists k, y = m + k * r /\ - r < 2 * (y - x) <= r.

(** Longitudes that name the same meridian. *)
Definition same_meridian (a b : Q) : Prop := exists k : Z, (a == b + 360 * inject_Z k)%Q.
