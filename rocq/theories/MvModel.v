(** * Movers written in Python

    Models gnome/movers/movers.py (the integration schemes of PyMover),
    simple_mover.py, py_current_movers.py (CurrentMover), the move of
    py_wind_movers.py (WindMover) without uncertainty, ship_drift_mover.py, the
    ice factor of random_movers.py (IceAwareRandomMover) and the ice-aware
    fields of environment/environment_objects.py.

    Numbers are rationals (floating point is idealised); the cosine of a
    latitude in degrees is a parameter.  Model times and time steps are in
    microseconds, a velocity in metres per second.  Arrays of a spill container
    have one row per element. *)
From Verif Require Import Py PyLemmas QLemmas TimeModel ProjModel.
Open Scope Q_scope.

(** A row (x, y, z). *)
Definition vec := (Q * Q * Q)%type.
Definition vx (v : vec) : Q := fst (fst v).
Definition vy (v : vec) : Q := snd (fst v).
Definition vz (v : vec) : Q := snd v.
Definition vadd (a b : vec) : vec := (vx a + vx b, vy a + vy b, vz a + vz b).
Definition vsub (a b : vec) : vec := (vx a - vx b, vy a - vy b, vz a - vz b).
Definition vscale (s : Q) (a : vec) : vec := (s * vx a, s * vy a, s * vz a).
Definition vzero : vec := (0, 0, 0).

(** NumPy's row-wise operation on two arrays of the same length. *)
Definition map2 {A B C} (f : A -> B -> C) (l : list A) (m : list B) : list C :=
  map (fun '(a, b) => f a b) (combine l m).

(** A time step in seconds. *)
Definition secs (dt : Z) : Q := inject_Z dt / inject_Z sec_us.

(** time_utils.py:150-195, 226-236 for one time, in microseconds: date_to_sec
    drops the microseconds; sec_to_datetime keeps a fraction of a second. *)
Definition to_epoch_us (z : zone) (t : Z) : Z := (mktime0 z (t / sec_us) * sec_us)%Z.
Definition of_epoch_us (z : zone) (e : Z) : Z :=
  let dst := z_dst z (e / sec_us) in
  let dt := (e + (z_std z + (if dst then 3600 else 0)) * sec_us)%Z in
  if dst then (dt - 3600 * sec_us)%Z else dt.

Inductive num_method := Euler | RK2 | RK4 | Unknown.

Section field.
Variable cosd : Q -> Q.                 (* np.cos(np.deg2rad(lat)) *)
Variable z : zone.
Variable vel : vec -> Z -> res vec.     (* the velocity at a point and a time *)

(** projections.py:388-396 on arrays: the reference latitude is the row's. *)
Definition to_lonlat_row (m p : vec) : vec := meters_to_lonlat (cosd (vy p)) m.
Definition to_lonlat_rows (ms ps : list vec) : list vec := map2 to_lonlat_row ms ps.

(** [vel_field.at(pos, time)]: three columns; the field may refuse a time. *)
Definition field_at (ps : list vec) (t : Z) : res (list vec) := mapM (fun p => vel p t) ps.

(** movers.py:269-272. *)
Definition delta_euler (dt t : Z) (ps : list vec) : res (list vec) :=
  do v <- field_at ps t; Ok (map (vscale (secs dt)) v).

(** movers.py:274-287. *)
Definition delta_rk2 (dt t : Z) (ps : list vec) : res (list vec) :=
  let t1 := of_epoch_us z (to_epoch_us z t + dt) in
  do v0 <- field_at ps t;
  let d0 := to_lonlat_rows (map (vscale (secs dt)) v0) ps in
  let p1 := map2 vadd ps d0 in
  do v1 <- field_at p1 t1;
  Ok (map2 (fun a b => vscale (secs dt / 2) (vadd a b)) v0 v1).

(** movers.py:289-315. *)
Definition delta_rk4 (dt t : Z) (ps : list vec) : res (list vec) :=
  let t1 := of_epoch_us z (to_epoch_us z t + dt) in
  let t2 := of_epoch_us z (to_epoch_us z t + half_td dt) in
  do v0 <- field_at ps t;
  let p1 := map2 vadd ps (to_lonlat_rows (map (vscale (secs dt / 2)) v0) ps) in
  do v1 <- field_at p1 t2;
  let p2 := map2 vadd ps (to_lonlat_rows (map (vscale (secs dt / 2)) v1) ps) in
  do v2 <- field_at p2 t2;
  let p3 := map2 vadd ps (to_lonlat_rows (map (vscale (secs dt)) v2) ps) in
  do v3 <- field_at p3 t1;
  Ok (map (fun '(a, b, c, d) => vscale (secs dt / 6) (vadd (vadd (vadd a (vscale 2 b)) (vscale 2 c)) d))
        (combine (combine (combine v0 v1) v2) v3)).

(** movers.py:256-267: [num_methods[method_name]]. *)
Definition delta_method (m : num_method) (dt t : Z) (ps : list vec) : res (list vec) :=
  match m with
  | Euler => delta_euler dt t ps
  | RK2 => delta_rk2 dt t ps
  | RK4 => delta_rk4 dt t ps
  | Unknown => Raise KeyErr
  end.

(** ** Elements *)

(** The rows the movers read: positions, status_codes == in_water, windages. *)
Record elem := mkElem { e_pos : vec; e_water : bool; e_windage : Q }.

(** [deltas[status] = (0, 0, 0)] where status marks elements not in water. *)
Definition stop_dry (es : list elem) (ds : list vec) : list vec :=
  map2 (fun e d => if e_water e then d else vzero) es ds.

Definition zeros (es : list elem) : list vec := map (fun _ => vzero) es.

(** py_current_movers.py:308-339 (_add_uncertainty): one record (along, cross)
    for each element.  No records: nothing is added.  NumPy repeats a single
    record and refuses any other length. *)
Definition disturb (d : vec) (r : Q * Q) : vec :=
  (vx d * (1 + fst r) + vy d * snd r, vy d * (1 + fst r) - vx d * snd r, vz d).
Definition add_uncertainty (unc : list (Q * Q)) (ds : list vec) : res (list vec) :=
  match unc with
  | [] => Ok ds
  | r :: u =>
      if (length unc =? length ds)%nat then Ok (map2 disturb ds unc)
      else match u with [] => Ok (map (fun d => disturb d r) ds) | _ => Raise ValueErr end
  end.

(** py_current_movers.py:178-222 (CurrentMover.get_move). *)
Definition current_move (m : num_method) (scale : Q) (active uncertain : bool) (unc : list (Q * Q))
    (dt t : Z) (es : list elem) : res (list vec) :=
  let ps := map e_pos es in
  if active && negb (length ps =? 0)%nat then
    do r <- delta_method m dt t ps;
    let ds := map (vscale scale) r in
    do ds <- (if uncertain then add_uncertainty unc ds else Ok ds);
    Ok (stop_dry es (to_lonlat_rows ds ps))
  else Ok (zeros es).

(** py_wind_movers.py:413-450 (WindMover.get_move) for the container that is
    not uncertain: the horizontal components are scaled by the windage. *)
Definition blow (scale : Q) (e : elem) (d : vec) : vec :=
  (vx d * (e_windage e * scale), vy d * (e_windage e * scale), vz d).
Definition wind_move (m : num_method) (scale : Q) (active : bool)
    (dt t : Z) (es : list elem) : res (list vec) :=
  let ps := map e_pos es in
  if active && negb (length ps =? 0)%nat then
    do r <- delta_method m dt t ps;
    Ok (stop_dry es (to_lonlat_rows (map2 (blow scale) es r) ps))
  else Ok (zeros es).

(** ship_drift_mover.py:195-228 (get_move).  [self.delta['lat'][in_water_mask]
    = vels['v'] * time_step] assigns one value per element, wet or dry, to the
    elements in water: NumPy accepts as many values as there are places, or a
    single one.  The same holds for the windages. *)
Definition drift_move (active : bool) (dt t : Z) (es : list elem) : res (list vec) :=
  let ps := map e_pos es in
  if active && negb (length ps =? 0)%nat then
    do v <- field_at ps t;
    let wet := length (filter e_water es) in
    if (wet =? length es)%nat || (length es =? 1)%nat then
      Ok (to_lonlat_rows
            (map2 (fun e u => if e_water e
                              then (vx u * secs dt * e_windage e, vy u * secs dt * e_windage e, 0)
                              else vzero) es v) ps)
    else Raise ValueErr
  else Ok (zeros es).

(** ** SimpleMover *)

(** simple_mover.py:67-80: velocity defaults to 0; reshape((3,)) accepts three
    numbers only. *)
Definition simple_velocity (l : list Q) : res vec :=
  match l with [a; b; c] => Ok (a, b, c) | _ => Raise ValueErr end.

(** random.uniform(-s, s): [u] is the generator's number in [0, 1). *)
Definition uniform (lo hi u : Q) : Q := lo + (hi - lo) * u.

(** simple_mover.py:88-141 (get_move); [u i] are the three numbers drawn for
    element i.  Only numbers of elements in water are drawn. *)
Definition simple_move (v : vec) (scale : Q) (active on uncertain : bool) (u : nat -> vec)
    (dt : Z) (es : list elem) : list vec :=
  if active && on then
    let move := vscale (secs dt) v in
    let s := vscale (secs dt) (vscale scale v) in
    let ds := map (fun '(i, e) =>
                if e_water e then
                  if uncertain then
                    vadd move (uniform (- vx s) (vx s) (vx (u i)),
                               uniform (- vy s) (vy s) (vy (u i)),
                               uniform (- vz s) (vz s) (vz (u i)))
                  else move
                else vzero) (combine (seq 0 (length es)) es) in
    to_lonlat_rows ds (map e_pos es)
  else zeros es.
End field.

(** ** Ice *)

(** random_movers.py:158-165, environment_objects.py:885-893: the fraction of
    the free move at an ice concentration. *)
Definition free_factor (c : Q) : Q :=
  if Qle_bool (8 # 10) c then 0
  else if negb (Qle_bool (2 # 10) c) then 1
  else 1 - ((c - (2 # 10)) * 10) / 6.
Definition ice_factor (c : Q) : Q :=
  if Qle_bool (8 # 10) c then 1
  else if negb (Qle_bool (2 # 10) c) then 0
  else ((c - (2 # 10)) * 10) / 6.

(** [np.any(cctn >= 0.2)]. *)
Definition any_ice (cs : list Q) : bool := existsb (Qle_bool (2 # 10)) cs.

(** random_movers.py:150-179 (IceAwareRandomMover.get_move); [base] is what
    RandomMover.get_move returns. *)
Definition ice_random_move (cs : list Q) (es : list elem) (base : list vec) : list vec :=
  if any_ice cs then stop_dry es (map2 (fun d c => vscale (free_factor c) d) base cs)
  else base.

(** environment_objects.py:873-905 (IceAwareCurrent.at); [water] and [ice] are
    the velocities of the water and of the ice at the points. *)
Definition ice_current_at (cs : list Q) (water ice : list vec) : list vec :=
  if any_ice cs then
    map (fun '(w, i, c) => vadd w (vscale (ice_factor c) (vsub i w)))
      (combine (combine water ice) cs)
  else water.

(** environment_objects.py:948-984 (IceAwareWind.at): components below min_val
    become min_val (962); rows in ice of 80% and more are zeroed, then every
    row is scaled. *)
Definition raise_to (lo : Q) (v : vec) : vec :=
  let f x := if negb (Qle_bool lo x) then lo else x in (f (vx v), f (vy v), f (vz v)).
Definition ice_wind_at (min_val : Q) (cs : list Q) (wind : list vec) : list vec :=
  let wind := map (raise_to min_val) wind in
  if any_ice cs then
    map2 (fun w c => vscale (1 - ice_factor c) (if Qle_bool (8 # 10) c then vzero else w)) wind cs
  else wind.
