(** * Weathering: evaporation, natural dispersion, half-life decay, biodegradation

    Models gnome/weatherers/{core,evaporation,natural_dispersion,bio_degradation}.py
    over the reals (floats without rounding, overflow or NaN; a division by 0 or
    root of a negative number is not numpy's and the theorems exclude it).
    What the environment gives (wind speed, waves, water) is an argument. *)
From Verif Require Import Py.
From Coq Require Import Reals.
Open Scope R_scope.

Definition Rltb (x y : R) : bool := if Rlt_dec x y then true else false.
Definition sumr (l : list R) : R := fold_right Rplus 0 l.

(** An element: fate, mass, components, fraction of water, area, volume fraction,
    initial mass, fraction evaporated, fraction lost, viscosity, density. *)
Record wel := mkW { w_fate : Z; w_mass : R; w_comps : list R; w_fw : R; w_area : R; w_vf : R;
                    w_init : R; w_fevap : R; w_flost : R; w_visc : R; w_rho : R }.
Definition with_comps (e : wel) (mc : list R) : wel :=
  mkW (w_fate e) (sumr mc) mc (w_fw e) (w_area e) (w_vf e) (w_init e) (w_fevap e) (w_flost e) (w_visc e) (w_rho e).

(** spill_container.py:42-53: the elements to be weathered are at the surface and
    have mass; [scatter] puts them back (spill_container.py:192-200). *)
Definition weathered (e : wel) : bool := (Z.land (w_fate e) 2 =? 2)%Z && Rltb 0 (w_mass e).
Fixpoint scatter (l data : list wel) : list wel :=
  match l with
  | [] => []
  | e :: r => if weathered e then match data with d :: ds => d :: scatter r ds | [] => e :: r end else e :: scatter r data
  end.

(** ** Evaporation *)

Definition gas_constant : R := 8314 / 1000.
(** evaporation.py:86-111 for a wind that is not ice aware. *)
Definition transport (wind : R) : R := 48 / 10000 * Rpower (Rmax wind 1) (78 / 100).
(** evaporation.py:139. *)
Definition schmidt (mw : R) : R := 1380277 / 1000000 * Rpower (18 / 1000 / mw) (1 / 3).
(** evaporation.py:143-145. *)
Definition puddle (area vf : R) : R := Rpower (Rmax (2 * sqrt (area / vf) / sqrt PI) 1) (- (1 / 9)).

(** A component of the substance: vapour pressure at the water temperature,
    molecular weight in g/mol. *)
Definition pseudo := (R * R)%type.
Definition kg_mol (c : pseudo) : R := snd c / 1000.

(** evaporation.py:116-157: the decay constants of an element. *)
Definition sum_mi_mw (cs : list pseudo) (mc : list R) : R := sumr (map (fun p => snd p / kg_mol (fst p)) (combine cs mc)).
Definition decay (T : R) (cs : list pseudo) (wind : R) (e : wel) : list R :=
  map (fun c => - w_area e * (1 - w_fw e) * transport wind * puddle (w_area e) (w_vf e) /
                (gas_constant * T * sum_mi_mw cs (w_comps e)) * fst c * schmidt (kg_mol c)) cs.

(** core.py:99-105 (_exp_decay), row by row. *)
Definition exp_decay (mc ks : list R) (dt : R) : list R := map (fun p => fst p * exp (snd p * dt)) (combine mc ks).

(** evaporation.py:227-241: of one element. *)
Definition evap_el (e : wel) (ks : list R) (dt : R) : wel :=
  let remain := exp_decay (w_comps e) ks dt in
  let m := sumr remain in
  mkW (w_fate e) m remain (w_fw e) (w_area e) (w_vf e) (w_init e)
      (w_fevap e + (sumr (w_comps e) - m) / w_init e) (1 - m / w_init e) (w_visc e) (w_rho e).

(** evaporation.py:210-242: the elements of one substance; [winds] are the wind
    speeds at them.  The substance has as many components as the elements have. *)
Definition evap_data (T : R) (cs : list pseudo) (winds : list R) (dt : R) (data : list wel) : res (list wel * R) :=
  let ks := map (fun p => decay T cs (fst p) (snd p)) (combine winds data) in
  if existsb (existsb (Rltb 0)) ks then Raise ValueErr
  else
    let data' := map (fun p => evap_el (fst p) (snd p) dt) (combine data ks) in
    Ok (data', sumr (map (fun e => sumr (w_comps e)) data) - sumr (map w_mass data')).
Definition evap_weather (T : R) (cs : list pseudo) (wind : wel -> R) (dt : R) (l : list wel) : res (list wel * R) :=
  let data := filter weathered l in
  match data with
  | [] => Ok (l, 0)
  | _ => do p <- evap_data T cs (map wind data) dt data; Ok (scatter l (fst p), snd p)
  end.

(** ** Half-lives *)

(** core.py:92-97 (_halflife) of one component, for a positive time; 0.5 ** inf = 0. *)
Definition halflife (m h t : R) : R := if Req_EM_T h 0 then 0 else m * Rpower (1 / 2) (t / h).
(** core.py:192-209: half-lives are one for all components or one for each. *)
Definition spread (hs : list R) (n : nat) : res (list R) :=
  match hs with
  | [h] => Ok (repeat h n)
  | _ => if Nat.eqb (length hs) n then Ok hs else Raise ValueErr
  end.
Definition half_el (hs : list R) (t : R) (e : wel) : res wel :=
  do f <- spread hs (length (w_comps e));
  Ok (with_comps e (map (fun p => halflife (fst p) (snd p) t) (combine (w_comps e) f))).
Definition half_weather (hs : list R) (t : R) (l : list wel) : res (list wel) :=
  do data <- mapM (half_el hs t) (filter weathered l);
  Ok (scatter l data).
(** core.py:192-209 with what it adds to the mass balance: nothing. *)
Definition half_booked (hs : list R) (t : R) (l : list wel) : res (list wel * R) := do l' <- half_weather hs t l; Ok (l', 0).

(** ** Natural dispersion *)

Definition rpow (x y : R) : R := if Req_EM_T x 0 then 0 else Rpower x y.
(** Waves at an element: height, fraction of breaking waves, dissipated energy. *)
Record wave := mkWave { v_h : R; v_f : R; v_e : R }.
(** The water: kinematic viscosity, density, sediment. *)
Record water := mkWater { wt_visc : R; wt_rho : R; wt_sed : R }.
Definition gravity : R := 980665 / 100000.
Definition volume_entrained : R := 39 / 1000000000.
Definition ka : R := 1 / 10000.

(** natural_dispersion.py:297-364 (disperse_oil_DS), of one element: dispersed and
    sedimented mass. *)
Definition c_disp (v : wave) : R := rpow (v_e v) (57 / 100) * v_f v.
Definition c_roy (visc : R) : R := 2400 * exp (- (73682 / 1000) * sqrt visc).
Definition thickness (e : wel) : R :=
  if Rlt_dec 0 (w_area e) then w_mass e / w_rho e / (1 - w_fw e) / w_area e else 0.
Definition ds_disp (dt : R) (v : wave) (e : wel) : R :=
  c_roy (w_visc e) * c_disp v * volume_entrained * (1 - w_fw e) * w_area e * dt.
Definition ds_sed (dt : R) (w : water) (v : wave) (e : wel) : R :=
  let th := thickness e in
  let droplet := 613 / 1000 * th in
  if Rlt_dec 0 (wt_sed w) then
    if Rle_dec (1 / 10000) th then
      let speed := droplet * droplet * gravity * (1 - w_rho e / wt_rho w) / (18 * wt_visc w) in
      let v_refloat := 588 / 1000 * (rpow th (17 / 10) - 5 / 100000000) in
      let v_refloat := if Rlt_dec v_refloat 0 then 0 else v_refloat in
      let q_refloat := c_roy (w_visc e) * c_disp v * v_refloat * w_area e in
      let c_oil := q_refloat * dt / (speed * dt + 3 / 2 * v_h v) in
      let q_sed := 16 / 10 * ka * sqrt (v_h v * v_e v * v_f v / (wt_rho w * wt_visc w)) * c_oil * wt_sed w in
      (1 - w_fw e) * q_sed * dt
    else 0
  else 0.
Definition ds_el (dt : R) (w : water) (v : wave) (e : wel) : R * R :=
  if Rle_dec 1 (w_fw e) then (0, 0)
  else
    let d := ds_disp dt v e in
    let s := ds_sed dt w v e in
    if Rlt_dec (w_mass e) (d + s) then let d' := d / (d + s) * w_mass e in (d', w_mass e - d') else (d, s).

(** natural_dispersion.py:152-184: the same fraction is taken from every component of every element. *)
Definition take_frac (amount : R) (data : list wel) : list wel :=
  let tot := sumr (map w_mass data) in
  let frac := if Rlt_dec 0 tot then (if Rlt_dec 1 (amount / tot) then 1 else amount / tot) else 0 in
  map (fun e => with_comps e (map (Rmult (1 - frac)) (w_comps e))) data.
Definition disp_data (dt : R) (w : water) (vs : list wave) (data : list wel) : list wel * R * R :=
  let out := map (fun p => ds_el dt w (fst p) (snd p)) (combine vs data) in
  let d := sumr (map fst out) in
  let s := sumr (map snd out) in
  (take_frac s (take_frac d data), d, s).
(** natural_dispersion.py:88-186 (weather_elements). *)
Definition disp_weather (dt : R) (w : water) (v : wel -> wave) (l : list wel) : list wel * R * R :=
  let data := filter weathered l in
  match data with
  | [] => (l, 0, 0)
  | _ => let p := disp_data dt w (map v data) data in (scatter l (fst (fst p)), snd (fst p), snd p)
  end.

(** ** Biodegradation *)

(** bio_degradation.py:143-176 (get_K_comp_rates), kg/m^2 per day: kind, boiling point. *)
Inductive kind := Saturate | Aromatic | OtherKind.
Definition bio_rate (arctic : bool) (k : kind) (bp : R) : R :=
  match k with
  | Saturate => if Rlt_dec bp (72285 / 100) then (if arctic then 128807242 / 1000000000000 else 941386396 / 1000000000000) else 0
  | Aromatic => if Rlt_dec bp 630 then (if arctic then 126982603 / 1000000000000 else 575541103 / 1000000000000)
                else (if arctic then 21054707 / 1000000000000 else 84840485 / 1000000000000)
  | OtherKind => 0
  end.
(** bio_degradation.py:206-232 of one element with a droplet size; the previous
    yield factor is always 0: the one that is saved has another name. *)
Definition bio_el (arctic : bool) (cs : list (kind * R)) (dt droplet : R) (e : wel) : wel :=
  let y := 1 / (droplet * w_rho e) in
  with_comps e (map (fun p => snd p * exp ((0 - y) * (6 * (bio_rate arctic (fst (fst p)) (snd (fst p)) / 86400 * dt))))
                    (combine cs (w_comps e))).
Definition bio_weather (arctic : bool) (cs : list (kind * R)) (dt : R) (droplet : wel -> R) (l : list wel) : list wel * R :=
  let data := filter weathered l in
  let data' := if forallb (fun e => if Req_EM_T (droplet e) 0 then true else false) data then map (fun e => with_comps e (w_comps e)) data
               else map (fun e => bio_el arctic cs dt (droplet e) e) data in
  (scatter l data', sumr (map w_mass data) - sumr (map w_mass data')).
