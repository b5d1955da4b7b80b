(** * What a user expects of the properties of an oil *)
From Coq Require Import ZArith QArith Qminmax List Bool.
From Verif Require Import Py OilModel.
Import ListNotations.
Open Scope Q_scope.

(** The oil has a measurement of the density of fresh oil: [rho] at [T] kelvin. *)
Definition measured (o : oil) (rho T : Q) : Prop :=
  exists i w, nth_error (o_dens o) i = Some rho /\ nth_error (o_temps o) i = Some T /\
              nth_error (o_weath o) i = Some w /\ w == 0.

(** The three lists of an oil belong together. *)
Definition well_formed (o : oil) : Prop :=
  length (o_temps o) = length (o_dens o) /\ length (o_weath o) = length (o_dens o).

(** No two measurements of fresh oil are at one temperature. *)
Definition one_per_temperature (o : oil) : Prop :=
  forall i j ti tj wi wj, i <> j ->
    nth_error (o_temps o) i = Some ti -> nth_error (o_weath o) i = Some wi -> wi == 0 ->
    nth_error (o_temps o) j = Some tj -> nth_error (o_weath o) j = Some wj -> wj == 0 ->
    ~ ti == tj.

(** Densities are positive, temperatures (in kelvin) between 0 and 1000. *)
Definition physical (o : oil) : Prop :=
  0 < o_pour o /\ forall r T, measured o r T -> 0 < r /\ 0 < T /\ T < 1000.

(** No measurement at a higher temperature is denser. *)
Definition expands (o : oil) : Prop :=
  forall r1 T1 r2 T2, measured o r1 T1 -> measured o r2 T2 -> T1 < T2 -> r2 <= r1.

(** The temperatures of the measurements and the pour point are above [T]. *)
Definition colder_than_data (o : oil) (T : Q) : Prop :=
  T < o_pour o /\ forall r t, measured o r t -> T < t.

Fixpoint qsuml (l : list Q) : Q := match l with [] => 0 | x :: r => x + qsuml r end.

(** What a new element of oil should look like.  [vt]: temperature for the
    viscosity; [rho]: density of the oil; [wr]: density of the water. *)
Definition new_oil_element (o : oil) (kv : Q -> Q) (vt rho wr : Q) (e e' : elem) : Prop :=
  e_mass e' = e_mass e /\ e_z e' = e_z e /\ e_status e' = e_status e /\ e_fw e' = e_fw e /\
  length (e_comps e') = length (o_frac o) /\
  qsuml (e_comps e') == qsuml (o_frac o) * e_mass e /\
  (forall i f, nth_error (o_frac o) i = Some f ->
     exists c, nth_error (e_comps e') i = Some c /\ c == f * e_mass e) /\
  (e_fate e' = surface_weather <-> (e_z e == 0 /\ e_status e = in_water)) /\
  (e_fate e' = surface_weather \/ e_fate e' = subsurf_weather) /\
  e_visc e' = Some (kv vt) /\
  exists d, e_density e' = Some d /\ d == Qmin rho wr.

(** Every element floats and weathers. *)
Definition all_float (l : list elem) : Prop := Forall (fun e => e_fate e = surface_weather) l.

(** Components were only taken away, and only from components that are no denser
    than the oil of the element was on average. *)
Definition lost_light (cd : list Q) (before after : list Q) (mean : Q) : Prop :=
  length before = length cd /\ length after = length cd /\
  forall i d x y, nth_error cd i = Some d -> nth_error before i = Some x ->
    nth_error after i = Some y -> y <= x /\ (y < x -> d <= mean).

(** The mass released by a history: what the elements weighed when released. *)
Fixpoint released (evs : list event) : Q :=
  match evs with
  | [] => 0
  | Release new :: r => qsuml (map e_mass new) + released r
  | Others _ :: r => released r
  end.
Definition something (evs : list event) : Prop :=
  exists new, In (Release new) evs /\ new <> [].

(** The water a new element is put into: that of the environment if one is passed (a default if it has none), else the
    oil's own, else a new one. *)
Definition water_used (own : option water) (env : option (option water)) (default fresh_water : water) : water :=
  match env, own with
  | Some (Some w), _ => w
  | Some None, _ => default
  | None, Some w => w
  | None, None => fresh_water
  end.
