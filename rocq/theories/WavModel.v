(** * Water and waves

    Modelled: the units of [Water] (/repo/py_gnome/gnome/environment/water.py:
    [get] lines 265-299, [set] 301-312, the units setter 346-363, [density]
    334-343, [__init__] 205-246, [make_water_property] 59-72), and the waves of
    [Waves] (/repo/py_gnome/gnome/environment/waves.py lines 117-220) with the
    formulas of /repo/py_gnome/gnome/utilities/weathering/adios2.py,
    lehr_simecek.py and monahan.py.

    Numbers are real numbers, without rounding.  [nucos.convert] is the
    conversion of linear units: a value in a unit is first shifted and then
    scaled to the reference unit of its kind; the shift and the scale of each
    unit are arguments.  [gsw.rho] is an argument.

    Not modelled: warnings and logging, direct changes of the dictionary of
    units, attributes set without [set], masked winds, [energy_dissipation_rate]
    and [peak_wave_period]; a wave is computed for one point. *)
From Coq Require Import Reals.
From Verif Require Import Py WxModel.
Local Open Scope Z_scope.

(** ** Water *)

(** The attributes with units (lines 158-168). *)
Definition TEMP : Z := 0.
Definition SALT : Z := 1.
Definition SEDI : Z := 2.
Definition WAVE : Z := 3.
Definition FETCH : Z := 4.
Definition KVIS : Z := 5.
Definition DENS : Z := 6.

(** The values of the attributes but the density, and [_units]. *)
Record wtr := Wtr { w_vals : list (Z * option R); w_units : list (Z * Z) }.

Section Units.
  (** The valid units of an attribute, the units of the program, the shift and
      scale of a unit, the unit C, the density of water from salinity and
      temperature in C. *)
  Variable valid : Z -> option (list Z).
  Variable si : Z -> Z.
  Variable shift scale : Z -> R.
  Variable celsius : Z.
  Variable rho : R -> R -> R.

  Definition convert (u v : Z) (x : R) : R := ((x + shift u) * scale u / scale v - shift v)%R.

  (** [getattr] (the density: lines 334-343). *)
  Definition attr (w : wtr) (a : Z) : res (option R) :=
    if a =? DENS then
      match dget SALT (w_vals w), dget TEMP (w_vals w), dget TEMP (w_units w) with
      | Some (Some s), Some (Some t), Some u => Ok (Some (rho s (convert u celsius t)))
      | _, _, _ => Raise TypeErr
      end
    else match dget a (w_vals w) with Some v => Ok v | None => Raise AttrErr end.

  (** [get] for the attributes with units (lines 265-299); an invalid unit
      raises InvalidUnitError, here [ValueErr]. *)
  Definition get (w : wtr) (a : Z) (unit : option Z) : res (option R) :=
    do v <- attr w a;
    match v with
    | None => Ok None
    | Some x =>
        match dget a (w_units w) with
        | None => Raise KeyErr
        | Some u =>
            let target := match unit with None => si a | Some t => t end in
            if target =? u then Ok (Some x)
            else match valid a with
                 | None => Raise KeyErr
                 | Some l => if zmem target l then Ok (Some (convert u target x)) else Raise ValueErr
                 end
        end
    end.

  (** [set] (lines 301-312); the density has no setter. *)
  Definition set (w : wtr) (a : Z) (v : option R) (unit : Z) : res wtr :=
    match valid a with
    | None => Raise KeyErr
    | Some l =>
        if zmem unit l then
          if a =? DENS then Raise AttrErr
          else Ok (Wtr (dset a v (w_vals w)) (dset a unit (w_units w)))
        else Raise ValueErr
    end.

  (** The setter of [units] (lines 346-363): the state when it ends and how it
      ends. *)
  Fixpoint set_units (w : wtr) (d : list (Z * Z)) : wtr * res unit :=
    match d with
    | [] => (w, Ok tt)
    | (a, u) :: r =>
        if match valid a with Some l => negb (zmem u l) | None => false end then (w, Raise ValueErr)
        else set_units (Wtr (w_vals w) (dset a u (w_units w))) r
    end.

  (** [__init__] (lines 205-246). *)
  Definition new_water (t s sed : R) (wave fetch : option R) (units : list (Z * Z)) : wtr * res unit :=
    set_units (Wtr [(TEMP, Some t); (SALT, Some s); (SEDI, Some sed); (WAVE, wave); (FETCH, fetch); (KVIS, Some (1 / 1000000)%R)]
                     (map (fun a => (a, si a)) [TEMP; SALT; SEDI; WAVE; FETCH; DENS; KVIS])) units.

  (** [Temperature.at] and the like (lines 59-72): a number for each point. *)
  Definition at_points {A : Type} (w : wtr) (a : Z) (unit : Z) (points : list A) : res (list R) :=
    do v <- get w a (Some unit);
    match v with
    | Some x => Ok (map (fun _ => (0 + x)%R) points)
    | None => match points with [] => Ok [] | _ => Raise TypeErr end
    end.
End Units.

(** ** Waves *)
Local Open Scope R_scope.

Definition limit : R := 4433049525859078 / 1000000000000000.

(** [Adios2.wave_height] (adios2.py lines 18-52). *)
Definition stress (u : R) : R := if Rlt_dec u limit then 71 / 100 * rpow u (123 / 100) else u.
Definition wave_height (u : R) (fetch : option R) : R :=
  let ws := stress u in
  let open_sea := 243 / 1000 * ws * ws / gravity in
  let h := match fetch with
           | None => open_sea
           | Some f => if Rlt_dec f (2268 * (ws * ws)) then 16 / 10000 * sqrt (f / gravity) * ws else open_sea
           end in
  Rmin (707 / 1000 * h) 30.

(** [Adios2.wind_speed_from_height] (lines 54-71). *)
Definition pseudo_wind (h : R) : R :=
  let u := sqrt (gravity * h / (243 / 1000)) in
  if Rlt_dec u limit then rpow (u / (71 / 100)) (813008 / 1000000) else u.

(** [Adios2.mean_wave_period] (lines 73-96). *)
Definition wave_period (u : R) (height fetch : option R) : R :=
  match height with
  | Some h => 7508 / 1000 * sqrt h
  | None =>
      let ws := u * (71 / 100) * rpow u (123 / 100) in
      match fetch with
      | None => 83 / 100 * ws
      | Some f => if Rlt_dec f (2268 * (ws * ws)) then 6238 / 100000 * rpow (f * ws) (333333333 / 1000000000) else 83 / 100 * ws
      end
  end.

(** [Adios2.dissipative_wave_energy] (lines 98-109). *)
Definition wave_energy (rho h : R) : R := 34 / 10000 * rho * gravity * (h * h).

(** [Monahan.whitecap_decay_constant] (monahan.py lines 9-25) and
    [LehrSimecek.whitecap_fraction] (lehr_simecek.py lines 11-46). *)
Definition whitecap_decay (salinity : R) : R := 3742857 / 100000000 * salinity + 254 / 100.
Definition whitecaps (u salinity : R) : R :=
  let tm := whitecap_decay salinity in
  Rmin ((if Rlt_dec u 4 then 125 / 10000 * u / tm else (1 / 100 * u + 1 / 100) / tm) * (1 / 2)) 1.

(** [Waves.get_value] (waves.py lines 117-158) for a point with the wind speed
    [u]: height, period, fraction of white caps, energy. *)
Definition wave_values (u : R) (height fetch : option R) (salinity rho : R) : R * R * R * R :=
  let '(h, u') := match height with
                  | None => (wave_height u fetch, u)
                  | Some h => (707 / 1000 * h, pseudo_wind h)
                  end in
  (h, wave_period u' height fetch, whitecaps u' salinity, wave_energy rho h).

(** [get_emulsification_wind] (lines 172-197). *)
Definition emulsification_wind (u : R) (height : option R) : R :=
  match height with
  | None => u
  | Some h => if Rlt_dec u (pseudo_wind h) then pseudo_wind h else u
  end.
