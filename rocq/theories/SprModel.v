(** * Spreading, Langmuir cells and emulsification

    Models gnome/weatherers/{spreading,emulsification}.py, lib_gnome/Weatherers_c.cpp
    (emulsify) and the part of gnome/spills/release.py that sets the first areas, over
    the reals (floats without rounding or overflow).  Langmuir relies on what numpy
    does with infinities and NaN: there numbers are [fl]. *)
From Verif Require Import Py WxModel.
From Coq Require Import Reals.
Open Scope R_scope.

(** ** Fay spreading *)

(** spreading.py:54. *)
Definition k0 : R := 153 / 100.
Definition k1 : R := 121 / 100.
Definition k2 : R := 145 / 100.
Definition sq (x : R) : R := x * x.

(** An element: in the view (fate and mass, spill_container.py:42-53), spill number,
    age, volume of its blob, Fay area, area, share of the blob, initial mass, density,
    largest area, coverage, position for the wind. *)
Record sel := mkS { p_in : bool; p_spill : Z; p_age : R; p_bulk : R; p_fay : R; p_area : R; p_vf : R;
                    p_init : R; p_rho : R; p_max : R; p_cov : R }.
Definition set_fay (e : sel) (mx a : R) : sel :=
  mkS (p_in e) (p_spill e) (p_age e) (p_bulk e) a a (p_vf e) (p_init e) (p_rho e) mx (p_cov e).

(** spreading.py:76-93 (_gravity_spreading_t0), for a buoyancy that is positive. *)
Definition fay_t0 (nu b vol : R) : R := sq (sq (k1 / k0)) * Rpower (vol / (nu * gravity * b)) (1 / 3).

(** spreading.py:113-151 (init_area). *)
Definition init_area (limit nu b vol : R) : R :=
  Rmin (PI * (sq (sq k1) / sq k0) * Rpower (vol ^ 5 * gravity * b / sq nu) (1 / 6)) (vol / limit).

(** spreading.py:524-541: how much the area of one element grows. *)
Definition fay_C (nu b vol : R) : R := PI * sq k2 * Rpower (sq vol * gravity * b / sqrt nu) (1 / 3).
Definition fay_K : R := 4 * PI * 2 * (33 / 1000).
Definition fay_new (nu b dt : R) (e : sel) : R :=
  let blob := p_fay e / p_vf e in
  p_fay e + p_vf e * (1 / 2 * (sq (fay_C nu b (p_bulk e)) / blob) * dt
                      + 7 / 6 * fay_K * Rpower (blob / fay_K) (1 / 7) * dt).

(** spreading.py:511-543 (update_area) of one element; [v0] is the volume of the first
    element of the spill, [mx] is the largest area (spreading.py:655). *)
Definition fay_max (limit : R) (e : sel) : R := p_init e / p_rho e / limit.
Definition fay_el (nu b limit dt v0 : R) (e : sel) : sel :=
  let mx := fay_max limit e in
  set_fay e mx (if Rltb (fay_t0 nu b v0) (p_age e + dt) && Rltb (p_fay e) mx && Rltb 0 (p_fay e)
                then Rmin (fay_new nu b dt e) mx else p_fay e).

(** spreading.py:650-665: of the elements in the view, spill by spill. *)
Definition first_vol (l : list sel) (s : Z) : R :=
  match filter (fun e => p_in e && (p_spill e =? s)%Z) l with [] => 0 | e :: _ => p_bulk e end.
Definition fay_weather (nu b limit dt : R) (l : list sel) : res (list sel) :=
  if existsb (fun e => p_in e && (if Req_EM_T (p_age e + dt) 0 then true else false)) l then Raise ValueErr
  else Ok (map (fun e => if p_in e then fay_el nu b limit dt (first_vol l (p_spill e)) e else e) l).

(** spreading.py:545-561 (get_thickness_limit). *)
Definition thickness_limit (vo : R) : R :=
  if Rle_dec (1 / 10000) vo then 1 / 10000
  else if Rle_dec (1 / 1000000) vo then 1 / 100000 + 9091 / 10000 * (vo - 1 / 1000000)
  else 1 / 100000.

(** release.py:472-515 (initialize_elements_post_substance) of elements that are
    released at once: volumes, shares and areas; [nu] is what is passed as the
    viscosity of the water (it is that of the oil). *)
Definition first_areas (limit nu b : R) (l : list sel) : list sel :=
  let bulk := sumr (map (fun e => p_init e / p_rho e) l) in
  map (fun e => let vf := if Rlt_dec 0 bulk then p_init e / p_rho e / bulk else 0 in
                let a := init_area limit nu b bulk * vf in
                mkS (p_in e) (p_spill e) (p_age e) bulk a a vf (p_init e) (p_rho e) (p_max e) (p_cov e)) l.

(** ** Langmuir cells *)

(** Floats without rounding. *)
Inductive fl := Fin (r : R) | PInf | MInf | NaN.
(** A quotient of numbers, 0 being +0; a positive number over -0 would be -inf, which
    [fpow] treats as inf. *)
Definition fdiv (x y : R) : fl :=
  if Req_EM_T y 0 then (if Rlt_dec 0 x then PInf else if Rlt_dec x 0 then MInf else NaN) else Fin (x / y).
Definition fmul (x : fl) (r : R) : fl :=
  match x with
  | Fin a => Fin (a * r)
  | NaN => NaN
  | PInf => if Rlt_dec 0 r then PInf else if Rlt_dec r 0 then MInf else NaN
  | MInf => if Rlt_dec 0 r then MInf else if Rlt_dec r 0 then PInf else NaN
  end.
(** A number over [y]. *)
Definition fdivby (x : R) (y : fl) : fl :=
  match y with Fin a => fdiv x a | PInf | MInf => Fin 0 | NaN => NaN end.
(** x ** (-1/3). *)
Definition fpow (x : fl) : fl :=
  match x with
  | Fin r => if Rlt_dec 0 r then Fin (Rpower r (- (1 / 3))) else if Rlt_dec r 0 then NaN else PInf
  | PInf | MInf => Fin 0
  | NaN => NaN
  end.
(** spreading.py:819-826: NaN becomes 0.1, then clipped. *)
Definition fclip (x : fl) : R :=
  match x with
  | NaN => 1 / 10
  | PInf => 1
  | MInf => 1 / 10
  | Fin r => Rmin (Rmax r (1 / 10)) 1
  end.
(** spreading.py:778-826 (_get_frac_coverage), [v] being 0.005 of the largest wind speed. *)
Definition coverage (v : R) (thick : fl) (buoy : R) : R :=
  fclip (fpow (fdivby (sq v * sq PI) (fmul (fmul (fmul thick 4) buoy) gravity))).
(** numpy.max of the winds at all elements of the view (spreading.py:797). *)
Fixpoint rmax (x : R) (l : list R) : R := match l with [] => x | y :: r => rmax (Rmax x y) r end.
(** spreading.py:842-883 (weather_elements); [wind] is the speed at an element. *)
Definition lang_weather (rho_w : R) (wind : sel -> R) (l : list sel) : list sel :=
  match filter p_in l with
  | [] => l
  | e0 :: es =>
      let v := rmax (wind e0 * (5 / 1000)) (map (fun e => wind e * (5 / 1000)) es) in
      map (fun e =>
        if p_in e then
          let same := filter (fun x => p_in x && (p_spill x =? p_spill e)%Z) l in
          let thick := fdiv (first_vol l (p_spill e)) (sumr (map p_fay same)) in
          let c := coverage v thick ((rho_w - p_rho e) / rho_w) in
          mkS (p_in e) (p_spill e) (p_age e) (p_bulk e) (p_fay e) (p_fay e * c) (p_vf e) (p_init e) (p_rho e) (p_max e) c
        else e) l
  end.
(** spreading.py:828-840 (_wind_speed_bound). *)
Definition wind_bounds (buoy thick : R) : R * R :=
  (sqrt (4 * thick * buoy * gravity / sq PI) / (5 / 1000),
   sqrt (1000 * 4 * thick * buoy * gravity / sq PI) / (5 / 1000)).

(** ** Emulsification *)

(** An element: fraction of water, interfacial area, fraction evaporated, age, time at
    which it began to emulsify (negative: not yet), rate, mass. *)
Record mel := mkM { m_y : R; m_s : R; m_evap : R; m_age : R; m_bull : R; m_k : R; m_mass : R }.
Definition drop_min : R := 1 / 1000000.
Definition drop_max : R := 1 / 100000.
(** Weatherers_c.cpp:52-53: does the element emulsify ([tm] in seconds)? *)
Definition emulsifies (tm c : R) (e : mel) : bool :=
  (negb (Rltb (m_age e) tm) && negb (Rltb tm 0)) || (negb (Rltb (m_evap e) c) && negb (Rltb c 0) && Rltb tm 0).
(** Weatherers_c.cpp:38-105 of one element; the error -1 is ValueError
    (cy_weatherers.pyx:42-44). *)
Definition emul_el (dt tm c ymax : R) (e : mel) : res mel :=
  let smax := 6 / drop_min * (ymax / (1 - ymax)) in
  let started := emulsifies tm c e in
  let start := if Rltb 0 tm then tm else if Rltb (m_bull e) 0 then m_age e else m_bull e in
  let bull := if started && negb (Rltb 0 tm) && Rltb (m_bull e) 0 then m_age e else m_bull e in
  let s := if started then Rmin (m_s e + m_k e * dt * exp (- m_k e / smax * (m_age e - start))) smax else 0 in
  let y := if Rltb s (6 / drop_max * (ymax / (1 - ymax))) then s * drop_max / (6 + s * drop_max) else ymax in
  if Rltb y 0 then Raise ValueErr
  else Ok (mkM y s (m_evap e) (m_age e) bull (m_k e) (m_mass e)).
(** emulsification.py:218-267 (weather_elements_adios2) of the elements of the view:
    the elements and the water content booked ([None]: as before); hours to seconds
    as in Weatherers_c.cpp:39-40. *)
Definition emul_weather (dt hours c ymax : R) (l : list mel) : res (list mel * option R) :=
  match l with
  | [] => Ok ([], None)
  | _ =>
      if Rle_dec ymax 0 then Ok (l, None)
      else
        do l' <- mapM (emul_el dt (if Rltb 0 hours then hours * 3600 else hours) c ymax) l;
        let tot := sumr (map m_mass l') in
        Ok (l', if Rltb 0 tot then Some (sumr (map (fun e => m_mass e / tot * m_y e) l')) else None)
  end.
(** emulsification.py:392-414 (_water_uptake_coeff). *)
Definition uptake (wind : R) : R := 6 * (202 / 100000000) * wind * wind / drop_max.
