(** * Randomness: windages, random walk, random walk in three dimensions, rise of droplets

    Models gnome/utilities/rand.py (random_with_persistance), InitWindages.initialize of
    gnome/spills/initializers.py, the setters windage_range and windage_persist of
    gnome/spills/substance.py, the update of windages in prepare_for_model_step of the wind movers,
    the classes CyRandomMover, CyRandomMover3D, CyRiseVelocityMover of gnome/cy_gnome and the C++
    classes Random_c, RandomVertical_c, RiseVelocity_c of lib_gnome.

    Random numbers are arguments: a function from the number of the call to the number drawn, so
    every theorem holds for every outcome of the generator.  np.random.uniform(a, b) and
    GetRandomFloat(a, b) are a + u * (b - a) with u the draw, in [0, 1].  Numbers are reals (the
    C++ code rounds draws, the eps and the cosine of the latitude to single precision); time steps are whole
    seconds.  The depth-dependent diffusion of Random_c is off in PyGNOME (bUseDepthDependent is
    never set) and left out, as is the argument array=None of random_with_persistance.  Which
    elements the map then stops or beaches is the subject of MapModel, StepModel and LandModel. *)
From Coq Require Import Reals Lra.
From Verif Require Import Py WxModel.
Open Scope R_scope.

Definition stream := nat -> R.
(** np.random.uniform(low, high), lib_gnome/CompFunctions.cpp:161-170 GetRandomFloat. *)
Definition uniform (lo hi u : R) : R := lo + (hi - lo) * u.

(** ** Windages *)

Definition Reqb (x y : R) : bool := if Req_EM_T x y then true else false.
Definition all_equal (low high : list R) : bool := forallb (fun p => Reqb (fst p) (snd p)) (combine low high).
Definition any_less (high low : list R) : bool := existsb (fun p => Rltb (fst p) (snd p)) (combine high low).

(** rand.py:103: [(persistence > 0) & (persistence <= 900)]. *)
Definition updated (p : Z) : bool := (0 <? p)%Z && (p <=? 900)%Z.

(** rand.py:115-123, one element: the bounds after scaling with the time step. *)
Definition half_range (lo hi : R) (p dt : Z) : R := (hi - lo) * sqrt (IZR p / Rabs (IZR dt)) / 2.
Definition scaled_low (lo hi : R) (p dt : Z) : R := (hi + lo) / 2 - half_range lo hi p dt.
Definition scaled_high (lo hi : R) (p dt : Z) : R := (hi + lo) / 2 + half_range lo hi p dt.

(** rand.py:125, [array[u_mask] = np.random.uniform(low[u_mask], high[u_mask])]: the draws go, in
    order, to the elements in the mask.  [s] says whether lines 115-123 are executed. *)
Fixpoint fill (s : bool) (dt : Z) (us : stream) (k : nat) (low high : list R) (ps : list Z) (arr : list R) : list R :=
  match low, high, ps, arr with
  | lo :: low', hi :: high', p :: ps', a :: arr' =>
      if updated p then
        (if s then uniform (scaled_low lo hi p dt) (scaled_high lo hi p dt) (us k) else uniform lo hi (us k))
          :: fill s dt us (S k) low' high' ps' arr'
      else a :: fill s dt us k low' high' ps' arr'
  | _, _, _, _ => []
  end.
(** rand.py:92, [array[:] = np.random.uniform(low, high)]. *)
Fixpoint fill_all (us : stream) (k : nat) (low high : list R) : list R :=
  match low, high with
  | lo :: low', hi :: high' => uniform lo hi (us k) :: fill_all us (S k) low' high'
  | _, _ => []
  end.

(** rand.py:15-127.  [array] is a numpy array; assigning to [array[:]] an array of another length
    is a ValueError (arrays of length 1, which numpy repeats, are left out), a mask of another
    length an IndexError.  With a time step 0 the bounds are infinite, which np.random.uniform
    refuses. *)
Definition random_with_persistance (low high arr : list R) (persist : option (list Z)) (dt : Z) (us : stream)
  : res (list R) :=
  let bad := match persist with
             | Some ps => negb (Nat.eqb (length high) (length ps)) | None => false end in
  if bad then Raise ValueErr
  else if negb (Nat.eqb (length high) (length low)) then Raise ValueErr
  else if any_less high low then Raise ValueErr
  else if all_equal low high && negb (Nat.eqb (length arr) (length low)) then Raise ValueErr
  else
    let arr1 := if all_equal low high then low else arr in
    match persist with
    | None => if Nat.eqb (length arr1) (length low) then Ok (fill_all us O low high) else Raise ValueErr
    | Some ps =>
        if existsb updated ps then
          let s := existsb (fun p => updated p && negb (p =? Z.abs dt)%Z) ps in
          if s && (dt =? 0)%Z then Raise OverflowErr
          else if Nat.eqb (length arr1) (length ps) then Ok (fill s dt us O low high ps arr1)
          else Raise IndexErr
        else Ok arr1
    end.

(** The data arrays windage_range, windage_persist and windages, row by row. *)
Record wel := mkWel { wlo : R; whi : R; wpersist : Z; windage : R }.
Definition set_windages (sc : list wel) (ws : list R) : list wel :=
  map (fun ew => mkWel (wlo (fst ew)) (whi (fst ew)) (wpersist (fst ew)) (snd ew)) (combine sc ws).

(** substance.py:151-161 (a range of two numbers) and 170-182 ([None] of the option here stands for
    an infinite number). *)
Definition set_windage_range (lo hi : R) : res (R * R) :=
  if Rltb lo 0 || Rltb hi 0 then Raise ValueErr else Ok (lo, hi).
Definition set_windage_persist (p : option Z) : res Z :=
  match p with
  | None => Ok (-1)%Z
  | Some p => if (p =? 0)%Z then Raise ValueErr else Ok p
  end.

Inductive wop :=
| WRelease (n : nat) (lo hi : R) (p : Z) (us : stream)   (* a spill releases [n] elements *)
| WStep (dt : Z) (us : stream).                        (* a wind mover prepares a step *)

(** initializers.py:121-136 for the [n] rows that the container has just appended (their windage is
    0 until then, array_types.py), and the update of windages in c_wind_movers.py:146-151,
    py_wind_movers.py:182-186 and ship_drift_mover.py:165-170.  No call is made when nothing is
    released (spill.py:444) and, in the wind movers, while there is no element. *)
Definition wstep (sc : list wel) (o : wop) : res (list wel) :=
  match o with
  | WRelease n lo hi p us =>
      match n with
      | O => Ok sc
      | _ =>
        let new := repeat (mkWel lo hi p 0) n in
        do ws <- random_with_persistance (map wlo new) (map whi new) (map windage new) None 1 us;
        Ok (sc ++ set_windages new ws)
      end
  | WStep dt us =>
      match sc with
      | [] => Ok sc
      | _ =>
        do ws <- random_with_persistance (map wlo sc) (map whi sc) (map windage sc) (Some (map wpersist sc)) dt us;
        Ok (set_windages sc ws)
      end
  end.
Fixpoint wrun (sc : list wel) (l : list wop) : res (list wel) :=
  match l with [] => Ok sc | o :: r => do sc' <- wstep sc o; wrun sc' r end.

(** ** The random walk at the surface *)

(** lib_gnome/Units.h:7. *)
Definition metres_per_degree : R := 11112000024 / 100000.
(** Conversion of a double to long: truncation towards zero. *)
Definition trunc (x : R) : Z := if Rltb x 0 then (- Int_part (- x))%Z else Int_part x.
(** lib_gnome/GEOMETRY.cpp:66-71 LongToLatRatio3, called with a latitude in millionths of a degree
    (Random_c.cpp:89). *)
Definition lat_ratio (lat : R) : R := cos (IZR (trunc (lat * 1000000)) / 1000000 * (314159 / 100000) / 180).

Record moved := mkMoved { dlong : R; dlat : R; dz : R }.
Definition no_move := mkMoved 0 0 0.
Record pel := mkPel { plat : R; pz : R; pstatus : Z }.
Definition in_water : Z := 2.

(** Random_c.h: fOptimize, and the two coefficients. *)
Record rmover := mkR { dcoef : R; ufac : R; opt : bool; first : bool; oval : R; ounc : R }.

(** cy_random_mover.pyx:29-42 and the two setters (50-68); Random_c.cpp:35-41 Init. *)
Definition new_rmover (d u : R) : res rmover :=
  if Rltb d 0 then Raise ValueErr else if Rltb u 1 then Raise ValueErr else Ok (mkR d u false false 0 0).
Definition set_dcoef (m : rmover) (d : R) : res rmover :=
  if Rltb d 0 then Raise ValueErr else Ok (mkR d (ufac m) (opt m) (first m) (oval m) (ounc m)).
Definition set_ufac (m : rmover) (u : R) : res rmover :=
  if Rltb u 1 then Raise ValueErr else Ok (mkR (dcoef m) u (opt m) (first m) (oval m) (ounc m)).

(** Random_c.cpp:51-52 and 150-151: the reach of a step in degrees of latitude. *)
Definition reach (d : R) (dt : Z) : R := sqrt (6 * (d / 10000) * Rabs (IZR dt)) / metres_per_degree.
Definition ureach (u d : R) (dt : Z) : R := sqrt (u * 6 * (d / 10000) * Rabs (IZR dt)) / metres_per_degree.

(** Random_c.cpp:43-47, 48-55, 57-61. *)
Definition r_run (m : rmover) : rmover := mkR (dcoef m) (ufac m) (opt m) true (oval m) (ounc m).
Definition r_step (m : rmover) (dt : Z) : rmover :=
  mkR (dcoef m) (ufac m) true (first m) (reach (dcoef m) dt) (ureach (ufac m) (dcoef m) dt).
Definition r_done (m : rmover) : rmover := mkR (dcoef m) (ufac m) false false 0 0.

(** Random_c.cpp:101-182 GetMove with the degrees of get_move (86-94): [r1], [r2] are what
    GetRandomVectorInUnitCircle (first step) or the two calls of GetRandomFloat(-1, 1) return. *)
Definition r_move (m : rmover) (letype dt : Z) (e : pel) (r1 r2 : R) : moved :=
  if Rltb 0 (pz e) then no_move
  else
    let v := if opt m then oval m else reach (dcoef m) dt in
    let w := if opt m then ounc m else ureach (ufac m) (dcoef m) dt in
    let c := if (letype =? 2)%Z then w else v in
    mkMoved (r1 * c / lat_ratio (plat e) * 1000000 / 1000000) (r2 * c * 1000000 / 1000000) 0.
(** Random_c.cpp:64-99 get_move and cy_random_mover.pyx:105-120; a draw per element here (the code
    draws only for the elements it moves). *)
Definition r_moves (m : rmover) (letype dt : Z) (l : list pel) (rs : nat -> R * R) : res (list moved) :=
  if (letype <? 1)%Z || (2 <? letype)%Z then Raise ValueErr
  else Ok (map (fun ie => if (pstatus (snd ie) =? in_water)%Z
                          then r_move m letype dt (snd ie) (fst (rs (fst ie))) (snd (rs (fst ie)))
                          else no_move)
               (combine (seq 0 (length l)) l)).

Inductive rop := RSetD (d : R) | RSetU (u : R) | RRun | RStep (dt : Z) | RDone.
Definition rapply (m : rmover) (o : rop) : res rmover :=
  match o with
  | RSetD d => set_dcoef m d | RSetU u => set_ufac m u
  | RRun => Ok (r_run m) | RStep dt => Ok (r_step m dt) | RDone => Ok (r_done m)
  end.
(** A refused assignment leaves the object as it was; the run goes on. *)
Definition rapply' (m : rmover) (o : rop) : rmover := match rapply m o with Ok m' => m' | Raise _ => m end.

(** ** The random walk in three dimensions *)

(** RandomVertical_c.h; the coefficients are in cm2/s, the depth in metres. *)
Record vmover := mkV { vabove : R; vbelow : R; habove : R; hbelow : R; mld : R; surface_ok : bool }.

(** cy_random_mover_3d.pyx:29-76. *)
Definition new_vmover (va vb ha hb ml : R) (s : bool) : res vmover :=
  if Rltb va 0 then Raise ValueErr
  else if Rltb vb 0 then Raise ValueErr
  else if Rltb ml 0 then Raise ValueErr
  else if Rltb ha 0 then Raise ValueErr
  else if Rltb hb 0 then Raise ValueErr
  else Ok (mkV va vb ha hb ml s).

(** TypeDefs.h:29 INFINITE_DEPTH, which GetDepthAtPoint (RandomVertical_c.cpp:101-106) returns
    everywhere; line 127. *)
Definition bottom : R := 5000.
Definition eps : R := 1 / 1000000.
(** RandomVertical_c.cpp:135-137, 157, 183: one-dimensional reach in metres. *)
Definition reach_m (d : R) (dt : Z) : R := sqrt (6 * (d / 10000) * IZR dt).

(** The draws of one call of GetMove, all in [0, 1]: east, north, in the mixed layer, back into the
    mixed layer, below it, back into the water. *)
Record draws := mkD { ue : R; un : R; um : R; uml : R; ub : R; uw : R }.

(** RandomVertical_c.cpp:190-222 (from the label dochecks on): [z0] the depth of the element, [tot]
    the variable totalLEDepth, [z] the variable z; the result is deltaPoint.z. *)
Definition dochecks (z0 tot z u : R) : R :=
  if Reqb tot 0 then eps - z0
  else if Rltb tot 0 then
    (let d := - tot - z0 in if Rltb bottom (z0 + d) then uniform eps (bottom - eps) u - z0 else d)
  else if Reqb tot bottom then bottom - eps - z0
  else if Rltb bottom tot then
    (let d := bottom - (tot - bottom) - z0 in
     if Rltb 0 (z0 + d) then d else uniform eps (bottom - eps) u - z0)
  else z.

(** RandomVertical_c.cpp:149-188: vertical part of GetMove.  [ml] is the local mixedLayerDepth. *)
Definition v_vertical (m : vmover) (dt : Z) (z0 : R) (u : draws) : R :=
  let below (ml tot z : R) : R :=                       (* 178-188 *)
    if Reqb ml bottom then dochecks z0 tot z (uw u)
    else if Reqb (vbelow m) 0 then dochecks z0 tot z (uw u)
    else let z' := z + uniform (-1) 1 (ub u) * reach_m (vbelow m) dt in
         dochecks z0 (z0 + z') z' (uw u) in
  if Rltb (mld m) z0 then below (mld m) (z0 + 0) 0
  else if Reqb (vabove m) 0 then 0                      (* 156: returns at once *)
  else
    let d := uniform (-1) 1 (um u) * reach_m (vabove m) dt in
    let ml := if Rltb bottom (mld m) then bottom else mld m in
    let tot := z0 + d in
    if Rltb ml tot then
      (let d' := ml - (tot - ml) - z0 in
       below ml tot (if Rltb 0 (z0 + d') then d' else uniform eps ml (uml u) - z0))
    else below ml tot d.

(** RandomVertical_c.cpp:108-226 GetMove, with the degrees of get_move (85-95). *)
Definition v_move (m : vmover) (dt : Z) (e : pel) (u : draws) : moved :=
  if Rltb 0 (pz e) || negb (surface_ok m) then
    let h := reach_m (if Rltb (mld m) (pz e) then hbelow m else habove m) dt / metres_per_degree in
    mkMoved (uniform (-1) 1 (ue u) * h / lat_ratio (plat e) * 1000000 / 1000000)
            (uniform (-1) 1 (un u) * h * 1000000 / 1000000)
            (v_vertical m dt (pz e) u)
  else no_move.
(** RandomVertical_c.cpp:57-99 get_move, called through movers.pxd:47, which declares step_len as
    unsigned long: Cython refuses a negative number.  cy_random_mover_3d.pyx:178-196. *)
Definition v_moves (m : vmover) (letype dt : Z) (l : list pel) (us : nat -> draws) : res (list moved) :=
  if (dt <? 0)%Z then Raise OverflowErr
  else if (letype <? 1)%Z || (2 <? letype)%Z then Raise ValueErr
  else Ok (map (fun ie => if (pstatus (snd ie) =? in_water)%Z then v_move m dt (snd ie) (us (fst ie)) else no_move)
               (combine (seq 0 (length l)) l)).

(** ** Rise of droplets *)

(** RiseVelocity_c.cpp:72-108 GetRiseVelocity; [None] is NaN, the square root of a negative number
    (water density and viscosity are not 0). *)
Definition d1 : R := 2 / 10000.
Definition d2 : R := 1 / 100.
Definition nan_sqrt (x : R) : option R := if Rltb x 0 then None else Some (sqrt x).
Definition rise_velocity (rho size visc rhow : R) : option R :=
  let g := 98 / 10 in
  let dfac := g * (rhow - rho) / rhow in
  let s := (size - d1) / (d2 - d1) in
  if Rltb s 0 then
    (let ds := s * (d2 - d1) + d1 in Some (dfac * ds * ds / (18 * visc)))
  else if Rltb s 1 then
    (let a1 := dfac * d1 * d1 / (18 * visc) in
     let a2 := a1 * (d2 - d1) / (2 * d1) in
     match nan_sqrt (8 * dfac * d2 / 3) with
     | None => None
     | Some a3 =>
         let a4 := a3 * (d2 - d1) / (2 * d2) in
         let c3 := 2 * a1 + a2 - 2 * a3 + a4 in
         let c2 := -3 * a1 - 2 * a2 + 3 * a3 - a4 in
         Some (((c3 * s + c2) * s + a2) * s + a1)
     end)
  else (let df := s * (d2 - d1) + d1 in nan_sqrt (8 * dfac * df / 3)).

(** RiseVelocity_c.cpp:199-209 GetMove; get_move (154-197) called through movers.pxd:61, where
    step_len is unsigned long; cy_rise_velocity_mover.pyx:96-123. *)
Definition rise_moves (letype dt : Z) (l : list (pel * R)) : res (list moved) :=
  if (dt <? 0)%Z then Raise OverflowErr
  else if (letype <? 1)%Z || (2 <? letype)%Z then Raise ValueErr
  else Ok (map (fun ev => if (pstatus (fst ev) =? in_water)%Z then mkMoved 0 0 (-1 * snd ev * IZR dt) else no_move) l).
