(** * Point wind: units, coordinates, time zone and speed uncertainty

    Models gnome/environment/wind.py (new_set_timeseries, timeseries, units, _convert_units,
    get_wind_data without times, set_wind_data, _set_timezone_offset, set_speed_uncertainty),
    gnome/utilities/transforms.py (wind conversions), gnome/utilities/convert.py
    (to_time_value_pair, to_datetime_value_2d, tsformat) and RayleighDistribution of
    gnome/utilities/distributions.py.

    Numbers are reals; the rounding of components to 14 decimals (transforms.py:67-68) is left
    out.  A velocity unit is its size in metres per second (nucos converts velocities by
    factors); times are whole seconds and zone offsets whole seconds.  Values between the entries
    are the subject of TsModel. *)
From Coq Require Import Reals Lra.
From Verif Require Import Py WxModel.
Open Scope R_scope.

Definition val := (R * R)%type.
Definition entry := (Z * val)%type.

(** The four ways to name a coordinate system: the strings 'r-theta' and 'uv' and the members of
    the enumeration ts_format (convert.py:140-164). *)
Inductive coord := StrRT | StrUV | EnumRT | EnumUV.
Definition polar (c : coord) : bool := match c with StrRT | EnumRT => true | _ => false end.

(** wind.py:434-447: the second column is converted only if [coord_sys == ts_format.uv], which
    the string 'uv' is not. *)
Definition convert_units (c : coord) (from to : R) (v : val) : val :=
  (fst v * from / to, match c with EnumUV => snd v * from / to | _ => snd v end).

(** numpy's arctan2, deg2rad, rad2deg and %.  The value of arctan2 at (0, 0) depends there on the
    signs of the zeros; here it is 0. *)
Definition arctan2 (y x : R) : R :=
  if Rltb 0 x then atan (y / x)
  else if Rltb x 0 then (if Rltb y 0 then atan (y / x) - PI else atan (y / x) + PI)
  else if Rltb 0 y then PI / 2 else if Rltb y 0 then - (PI / 2) else 0.
Definition deg2rad (d : R) : R := d * PI / 180.
Definition rad2deg (a : R) : R := a * 180 / PI.
Definition rmod (x m : R) : R := x - m * IZR (Int_part (x / m)).

(** transforms.py:40-75, for one row that passes the checks; and for all rows. *)
Definition to_uv (v : val) : val := (- (fst v * sin (deg2rad (snd v))), - (fst v * cos (deg2rad (snd v)))).
Definition r_theta_to_uv_wind (l : list entry) : res (list entry) :=
  if existsb (fun e => Rltb 360 (snd (snd e))) l || existsb (fun e => Rltb (snd (snd e)) 0) l then Raise ValueErr
  else if existsb (fun e => Rltb (fst (snd e)) 0) l then Raise ValueErr
  else Ok (map (fun e => (fst e, to_uv (snd e))) l).
(** transforms.py:78-103. *)
Definition uv_to_r_theta_wind (v : val) : val :=
  (sqrt (fst v * fst v + snd v * snd v), rmod (rad2deg (arctan2 (-1 * fst v) (-1 * snd v)) + 360) 360).

(** convert.py:12-58 and 61-98. *)
Definition to_time_value_pair (c : coord) (l : list entry) : res (list entry) :=
  if polar c then r_theta_to_uv_wind l else Ok l.
Definition to_datetime_value_2d (c : coord) (l : list entry) : list entry :=
  if polar c then map (fun e => (fst e, uv_to_r_theta_wind (snd e))) l else l.

(** What a Wind holds: [stored] is what the C++ object holds (uv, m/s), [shown] the attribute
    _timeseries. *)
Record wind := mkWind { stored : list entry; shown : list entry; units : R; zone : option Z; scale : R }.

(** What the caller passes: a numpy array of the right type, which np.asarray does not copy, or a
    list of pairs, which it does (timeseries.py:192-208). *)
Inductive given := Array (l : list entry) | Lst (l : list entry).
Definition entries (g : given) := match g with Array l => l | Lst l => l end.
Fixpoint diffs_ok (l : list entry) : bool :=
  match l with
  | a :: r => match r with [] => true | b :: _ => negb (fst b - fst a <=? 0)%Z && diffs_ok r end
  | [] => true
  end.
(** timeseries.py:112-141, 175-190; the form of the entries is taken to be right. *)
Definition check_timeseries (g : given) : bool := match g with Array l => diffs_ok l | Lst _ => true end.

(** The outcome of a call: the result, the wind and the caller's data afterwards. *)
Record after (A : Type) := mkAfter { result : res A; obj : wind; caller : list entry }.
Arguments mkAfter {A}. Arguments result {A}. Arguments obj {A}. Arguments caller {A}.

(** wind.py:369-386.  The exception of the order check, TimeseriesError, is [ValueErr]. *)
Definition new_set_timeseries (w : wind) (g : given) (c : coord) : after unit :=
  if negb (check_timeseries g) then mkAfter (Raise ValueErr) w (entries g) else
  let w1 := mkWind (stored w) (entries g) (units w) (zone w) (scale w) in
  let data := map (fun e => (fst e, convert_units c (units w) 1 (snd e))) (entries g) in
  let mine := match g with Array _ => data | Lst l => l end in
  match to_time_value_pair c data with
  | Raise e => mkAfter (Raise e) w1 mine
  | Ok st => mkAfter (Ok tt) (mkWind st (shown w1) (units w) (zone w) (scale w)) mine
  end.
(** wind.py:360-367. *)
Definition set_timeseries_attr (w : wind) (g : given) : after unit := new_set_timeseries w g StrRT.

(** wind.py:558-592. *)
Definition set_wind_data (w : wind) (g : given) (u : R) (c : coord) : after unit :=
  if negb (check_timeseries g) then mkAfter (Raise ValueErr) w (entries g) else
  let data := map (fun e => (fst e, convert_units c u 1 (snd e))) (entries g) in
  let mine := match g with Array _ => data | Lst l => l end in
  match to_time_value_pair c data with
  | Raise e => mkAfter (Raise e) (mkWind (stored w) (shown w) u (zone w) (scale w)) mine
  | Ok st => mkAfter (Ok tt) (mkWind st data u (zone w) (scale w)) mine
  end.

(** wind.py:417-432. *)
Definition set_units (w : wind) (u : R) : wind := mkWind (stored w) (shown w) u (zone w) (scale w).

(** wind.py:519-556 without times. *)
Definition get_wind_data (w : wind) (u : option R) (c : coord) : list entry :=
  let u' := match u with Some x => x | None => units w end in
  map (fun e => (fst e, convert_units c 1 u' (snd e))) (to_datetime_value_2d c (stored w)).

(** wind.py:388-400. *)
Definition set_timezone_offset (w : wind) (z : option Z) : res unit * wind :=
  let put w' := mkWind (stored w') (shown w') (units w') z (scale w') in
  match zone w, z with
  | Some old, Some new =>
      let a := new_set_timeseries w (Array (map (fun e => ((fst e + (new - old))%Z, snd e)) (shown w))) StrRT in
      match result a with Ok _ => (Ok tt, put (obj a)) | Raise e => (Raise e, obj a) end
  | _, _ => (Ok tt, put w)
  end.

(** distributions.py:264-279; the logarithm of 0 makes the quantile infinite: [None]. *)
Definition sigma_from_wind (speed : R) : R := sqrt (2 / PI) * speed.
Definition quantile (f sigma : R) : option R :=
  if Rltb 0 ((1 - f) * (1 - f)) then Some (sigma * sqrt (-1 * ln ((1 - f) * (1 - f)))) else None.

(** wind.py:700-747.  Not finite speeds are [Raise AssertErr]: the code stores them. *)
Inductive updown := Up | Down | Other.
Definition new_speed (d : updown) (s : R) (v : val) : option R :=
  quantile (match d with Up => 5 / 10 + s | _ => 5 / 10 - s end) (sigma_from_wind (fst v)).
Definition set_speed_uncertainty (w : wind) (d : updown) : res bool * wind :=
  match d with
  | Other => (Ok false, w)
  | _ =>
      if negb (Rltb 0 (scale w)) || Rltb (5 / 10) (scale w) then (Ok false, w) else
      match mapM (fun e : entry => match new_speed d (scale w) (snd e) with
                           | Some r => Ok (fst e, (r, snd (snd e))) | None => Raise AssertErr end)
                 (get_wind_data w None StrRT) with
      | Raise e => (Raise e, w)
      | Ok l => let a := set_wind_data w (Array l) (units w) StrRT in
                (match result a with Ok _ => Ok true | Raise e => Raise e end, obj a)
      end
  end.
