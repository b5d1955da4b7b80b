(** * Dissolution

    Models gnome/weatherers/dissolution.py (123-527) and the functions of
    gnome/utilities/weathering it uses: stokes.py, ding_farmer.py, pierson_moskowitz.py
    (peak_wave_period), delvigne_sweeney.py and banerjee_huibers.py.

    Numbers are real; what floats make of a division by zero is kept, since the code
    relies on it: a result can be infinite or not a number, and numpy.nan_to_num takes
    such results away.  Rounding and overflow are not modelled.  The data are those of
    the elements at the surface that weather, as itersubstancedata gives them; wind and
    wave height of each element are given.  The array partition_coeff, which nothing
    reads, and the methods state_variable and beta_coeff, which nothing calls, are left
    out. *)
From Coq Require Import Reals.
From Verif Require Import Py WxModel.
Open Scope R_scope.

(** ** Numbers that may be infinite or not a number *)
Inductive fl := Fin (r : R) | PInf | NInf | NaN.

(** Division and multiplication of floats; zeros are positive. *)
Definition fdiv (a b : R) : fl :=
  if Req_EM_T b 0 then if Rlt_dec 0 a then PInf else if Rlt_dec a 0 then NInf else NaN
  else Fin (a / b).
Definition sgn_inf (pos : bool) (r : R) : fl :=
  if Rlt_dec 0 r then (if pos then PInf else NInf)
  else if Rlt_dec r 0 then (if pos then NInf else PInf) else NaN.
Definition fmul (a : fl) (r : R) : fl :=
  match a with Fin x => Fin (x * r) | PInf => sgn_inf true r | NInf => sgn_inf false r | NaN => NaN end.
Definition fmul2 (a b : fl) : fl :=
  match b with
  | Fin r => fmul a r
  | NaN => NaN
  | PInf => match a with Fin x => sgn_inf true x | PInf => PInf | NInf => NInf | NaN => NaN end
  | NInf => match a with Fin x => sgn_inf false x | PInf => NInf | NInf => PInf | NaN => NaN end
  end.
(** numpy.nan_to_num; the largest float. *)
Definition max_float : R := (2 - / 2 ^ 52) * 2 ^ 1023.
Definition nan_to_num (a : fl) : R := match a with Fin x => x | PInf => max_float | NInf => - max_float | NaN => 0 end.
(** numpy.clip with both limits *)
Definition clip (lo hi x : R) : R := Rmin (Rmax x lo) hi.
Definition fclip (lo hi : R) (a : fl) : fl :=
  match a with Fin x => Fin (clip lo hi x) | PInf => Fin (Rmin (Rmax hi lo) hi) | NInf => Fin (Rmin lo hi) | NaN => NaN end.

(** ** Substance and elements *)

(** A component: is it aromatic, its molecular weight and density. *)
Record comp := Comp { arom : bool; molwt : R; rho : R }.
(** An element: masses of the components, average droplet size, area; wind speed and
    wave height at its place. *)
Record elem := Elem { masses : list R; drop : R; area : R; wind : R; height : R }.

(** arom_mask * x *)
Definition mask (b : bool) : R := if b then 1 else 0.
(** banerjee_huibers.py:36-42 and dissolution.py:184: 0 for what is not aromatic *)
Definition k_ow (c : comp) : R := mask (arom c) * (18 / 10 * exp (59 / 1000 * 1000 * molwt c / rho c)).

Definition zipw {A B C} (f : A -> B -> C) (l : list A) (l' : list B) : list C := map (fun p => f (fst p) (snd p)) (combine l l').

(** dissolution.py:261-274: oil_avg_density; nothing if the element has no mass, where
    every fraction is not a number *)
Definition avg_rho (cs : list comp) (e : elem) : R :=
  let m := sumr (masses e) in
  if Req_EM_T m 0 then 0 else sumr (zipw (fun x c => x / m * rho c) (masses e) cs).
(** dissolution.py:276-286: oil_total_volume *)
Definition volume (cs : list comp) (e : elem) : R := sumr (zipw (fun x c => x / rho c) (masses e) cs).
(** dissolution.py:342-358: oil_concentration; the rows of elements without mass are not
    numbers: [None] *)
Definition concentration (cs : list comp) (e : elem) : option (list R) :=
  let m := sumr (masses e) in
  if Req_EM_T m 0 then None
  else let agg := sumr (zipw (fun x c => x / m * rho c) (masses e) cs) in
       Some (map (fun x => x / m * agg) (masses e)).

(** stokes.py:4-20 *)
Definition k_w (delta d : R) : R := 544814 / 1000 * delta * (d * d).

(** dissolution.py:317, 333, 462: the wind speed that is used *)
Definition u10 (e : elem) : R := Rmax (wind e) (1 / 100).
(** pierson_moskowitz.py:22-26 *)
Definition period (u : R) : R := u * 3 / 4.
(** delvigne_sweeney.py:12-20 *)
Definition breaking (u t : R) : R := clip (1 / 100) 1 (32 / 1000 * (u - 5) / t).
(** ding_farmer.py:6-15 *)
Definition calm_time (fbw t : R) : R := (1 / fbw - 5 / 10) * t.
(** ding_farmer.py:18-25: refloat_time; a velocity of zero has the sign of the difference
    of the densities, [delta]. *)
Definition refloat (h kw delta : R) : fl :=
  match fdiv (75 / 100 * h) kw with
  | PInf => if Rlt_dec delta 0 then NInf else PInf
  | a => a
  end.
(** ding_farmer.py:28-42 and dissolution.py:312-325 *)
Definition f_wc (e : elem) (kw delta : R) : fl :=
  let u := u10 e in let t := period u in
  fclip 0 1 (fmul (refloat (height e) kw delta) (/ calm_time (breaking u t) t)).
(** dissolution.py:327-340 *)
Definition t_calm (e : elem) (dt twc : R) : R :=
  let u := u10 e in let t := period u in clip 0 (dt - twc) (calm_time (breaking u t) t).

(** dissolution.py:423-432: total_surface_area of droplets of size d *)
Definition droplet_area (d v : R) : fl :=
  let a := 4 * PI * (d / 2 * (d / 2)) in
  let vd := 4 / 3 * PI * (d / 2 * (d / 2) * (d / 2)) in
  fmul (fdiv v vd) a.
(** dissolution.py:360-437: droplet_subsurface_mass_xfer_rate of one component; [x] is its
    concentration, [kw] the transfer velocity with diffusion *)
Definition drop_rate (c : comp) (kw d v : R) (x : option R) : R :=
  match x with
  | None => nan_to_num NaN
  | Some x => nan_to_num (fmul2 (fmul (fdiv (x * mask (arom c)) (k_ow c)) (kw / 3600)) (droplet_area d v))
  end.

(** dissolution.py:480: the product over all elements *)
Fixpoint prodr (l : list R) : R := match l with [] => 1 | x :: r => x * prodr r end.
Definition wind_prod (es : list elem) : R := prodr (map (fun e => u10 e / 3600) es).
(** dissolution.py:439-489: slick_subsurface_mass_xfer_rate of one component *)
Definition slick_rate (wp : R) (c : comp) (a : R) (x : option R) : R :=
  match x with
  | None => nan_to_num NaN
  | Some x => nan_to_num (fmul (fmul (fmul (fdiv x (k_ow c)) (1 / 100 * wp)) a) (mask (arom c)))
  end.

(** ** Dissolved masses *)

(** dissolution.py:253-257 *)
Definition limit (m total : R) : R := total + Rmin (m - total) 0.

(** dissolution.py:195-257 for one element.  The assertions (208-210) fail also if the
    times are not numbers. *)
Definition dissolve1 (cs : list comp) (dt wp : R) (e : elem) (water : R) : res (list R) :=
  let delta := water - avg_rho cs e in
  let kw := k_w delta (drop e) in
  match f_wc e kw delta with
  | Fin f =>
      let twc := f * dt in
      let tc := t_calm e dt twc in
      if Rle_dec tc dt then if Rle_dec twc dt then if Rle_dec (twc + tc) dt then
        let xs := match concentration cs e with
                  | Some l => map Some l
                  | None => map (fun _ => None) (masses e)
                  end in
        let v := volume cs e in
        Ok (zipw (fun (mx : R * option R) c =>
              limit (fst mx) (drop_rate c (kw + 134 / 1000) (drop e) v (snd mx) * twc + slick_rate wp c (area e) (snd mx) * tc))
              (combine (masses e) xs) cs)
      else Raise AssertErr else Raise AssertErr else Raise AssertErr
  | _ => Raise AssertErr
  end.
(** dissolution.py:123-259: dissolve_oil.  numpy.alltrue (208-210) is not in NumPy 2,
    which conda_requirements.txt asks for. *)
Definition dissolve_oil (numpy2 : bool) (cs : list comp) (dt water : R) (es : list elem) : res (list (list R)) :=
  if numpy2 then Raise AttrErr
  else mapM (fun e => dissolve1 cs dt (wind_prod es) e water) es.

(** dissolution.py:491-526: weather_elements of an active weatherer and a substance that
    weathers; [mb] is the mass balance.  The result: the new masses of the components, the
    mass of each element and the mass balance. *)
Definition weather (numpy2 : bool) (cs : list comp) (dt water : R) (es : list elem) (mb : R) : res (list (list R) * list R * R) :=
  match es with
  | [] => Ok ([], [], mb)
  | _ =>
      do diss <- dissolve_oil numpy2 cs dt water es;
      let new := zipw (fun e d => zipw Rminus (masses e) d) es diss in
      Ok (new, map sumr new, mb + sumr (map sumr diss))
  end.
