(** * Properties C35-C38 and C60: maps *)
From Coq Require Import Permutation.
From Verif Require Import Py LandModel LandSpec ProjModel ProjSpec MapModel MapSpec MapProofs.
Open Scope Q_scope.

(** C35. On every raster map and every set of elements, beaching gives each
    element one of the three outcomes of the specification (already beached,
    stops at the centre of the land pixel it hits with its last water position
    at the centre of the pixel before, or stays afloat at its next position),
    flags it if it ends off the map, and books the beached and lost mass. *)
Theorem C35_beaching :
  forall g ratios p halflife on_map es b,
  wf g -> Forall (fun r => (0 < r)%Z) ratios -> Forall (small_elem p) es ->
  exists es' b',
    raster_beach (build_layers g ratios) p halflife on_map (es, b) = Ok (es', b') /\
    Forall2 (beached_to g ratios p halflife on_map) es es' /\
    bal_beached b' = mass_of ON_LAND es' /\
    bal_off b' = bal_off b + mass_of OFF_MAPS es'.
Proof. exact raster_beach_spec. Qed.
Print Assumptions C35_beaching.

(** C35. An element that is beached stays where it is, step after step, until
    it is refloated. *)
Theorem C35_beached_does_not_drift :
  forall g ratios p halflife on_map e,
  invertible p -> ~ halflife == 0 -> at_rest p e -> on_map (fst (e_next e)) = true ->
  exists e', raster_beach1 (build_layers g ratios) p halflife e = Ok e' /\
    e_next e' = e_next e /\ e_lastw e' = e_lastw e /\ e_stat (flag_off on_map e') = ON_LAND.
Proof. exact at_rest_stays. Qed.
Print Assumptions C35_beached_does_not_drift.

(** Three elements on an 8 x 8 raster whose column x = 4 is land: one hits the
    land, one is already on it, one moves off the map. *)
Definition g_map : raster :=
  mkRaster 8 8 (map (fun i => if (i / 8 =? 4)%Z then 1%Z else 0%Z) (zseq 0 64)).
Definition p_map : proj := mkProj 0 0 1 (-1) 4 4.
Definition om_map (c : pt) : bool := Qle_bool (-4) (fst c) && Qle_bool (fst c) 4.
Definition es_map : list elem :=
  [ mkElem ((-3, 0), 0) ((3, 0), -1) IN_WATER ((-3, 0), 0) 5;
    mkElem ((1#2, 1#2), 0) ((1#2, 1#2), 0) ON_LAND ((-1#2, 1#2), 0) 7;
    mkElem ((-3, 0), 0) ((-6, 0), 2) IN_WATER ((-3, 0), 0) 11 ].
Example C35_meets :
  wf g_map /\ Forall (small_elem p_map) es_map /\ invertible p_map /\
  (exists e, nth_error es_map 1 = Some e /\ at_rest p_map e) /\
  exists es' b', raster_beach (build_layers g_map [16%Z]) p_map 1 om_map (es_map, mkBal 0 0) = Ok (es', b') /\
    map e_stat es' = [ON_LAND; ON_LAND; OFF_MAPS] /\
    map (fun e => Qeq_bool (fst (fst (e_next e))) (1#2)) es' = [true; true; false] /\
    bal_beached b' == 12 /\ bal_off b' == 11.
Proof.
  split; [repeat split; vm_compute; discriminate || reflexivity|].
  split; [repeat constructor; vm_compute; discriminate|]. split; [split; discriminate|].
  split.
  { eexists. split; [reflexivity|]. split; [reflexivity|]. split; [discriminate|].
    exists (4, 3)%Z, (3, 3)%Z. split; reflexivity. }
  eexists. eexists. split; [vm_compute; reflexivity|]. vm_compute. repeat split; reflexivity.
Qed.

(** C36. Refloating: with a positive half-life each beached element uses its
    own draw and refloats when the draw is at most the refloat probability;
    with half-life zero all beached elements refloat, with a negative one none.
    No element that is not beached is touched, and a refloated one is in the
    water at its last water position. *)
Theorem C36_refloating :
  forall halflife prob rnd es,
  ((0 < halflife -> refloat halflife prob rnd es = refloat_spec (fun d => negb (Qle_bool d prob)) rnd es) /\
   (halflife == 0 -> refloat halflife prob rnd es = map (fun e => if has_stat ON_LAND e then refloat1 e else e) es) /\
   (halflife < 0 -> refloat halflife prob rnd es = es)) /\
  Forall2 (fun e e' => e' = e \/
     (e_stat e = ON_LAND /\ e_stat e' = IN_WATER /\ e_pos e' = e_lastw e /\ e_mass e' = e_mass e))
     es (refloat halflife prob rnd es).
Proof. exact refloating. Qed.
Print Assumptions C36_refloating.

Definition w3 (x : Q) : pos3 := ((x, 0), 0).
Example C36_meets :
  let es := [mkElem (w3 1) (w3 1) ON_LAND (w3 0) 1; mkElem (w3 2) (w3 2) IN_WATER (w3 2) 1;
             mkElem (w3 3) (w3 3) ON_LAND (w3 4) 1; mkElem (w3 5) (w3 5) ON_LAND (w3 6) 1] in
  map e_stat (refloat 3600 (1#2) [3#4; 1#2; 1#4] es) = [ON_LAND; IN_WATER; IN_WATER; IN_WATER] /\
  map e_pos (refloat 3600 (1#2) [3#4; 1#2; 1#4] es) = [w3 1; w3 2; w3 4; w3 6] /\
  refloat (-1) (1#2) [0; 0; 0] es = es /\
  map e_stat (refloat 0 0 [] es) = [IN_WATER; IN_WATER; IN_WATER; IN_WATER].
Proof. repeat split; reflexivity. Qed.

(** C37. Over any number of steps on maps without land or raster maps, with any
    movers and draws: what is left plus the 'off_maps' balance is constant, so
    mass that leaves is booked exactly once. *)
Theorem C37_off_map_mass_booked_once_partial :
  forall ss es b es' b',
  Forall (fun s => is_param (s_map s) = false) ss -> live es ->
  run_steps ss (es, b) = Ok (es', b') ->
  mass_sum es' + bal_off b' == mass_sum es + bal_off b /\ live es'.
Proof. exact run_conserves. Qed.
Print Assumptions C37_off_map_mass_booked_once_partial.

Definition west (e : elem) : pos3 := w3 (-2).
Example C37_meets :
  let s := mkStep (Raster (build_layers g_map [16%Z]) p_map 1 om_map) 3600 0 [] [west] in
  live es_map /\
  exists es' b', run_steps [s; s; s] (es_map, mkBal 0 0) = Ok (es', b') /\
    length es' = 0%nat /\ bal_off b' == 23.
Proof.
  split; [repeat constructor; discriminate|].
  eexists. eexists. split; [vm_compute; reflexivity|]. vm_compute. split; reflexivity.
Qed.

(** C37 is false for ParamMap: one element of mass 1 that leaves the map is
    booked as mass 3. *)
Theorem C37_off_map_mass_booked_once_refuted :
  exists s es b es' b', live es /\ run_steps [s] (es, b) = Ok (es', b') /\
    mass_sum es == 1 /\ es' = [] /\ bal_off b == 0 /\ bal_off b' == 3.
Proof.
  exists (mkStep (Param (fun _ => false) (1, 0) (1, 1) om_map) 3600 0 [] [west; west; west]).
  exists [mkElem (w3 0) (w3 0) IN_WATER (w3 0) 1], (mkBal 0 0). eexists. eexists.
  split; [repeat constructor; discriminate|]. split; [vm_compute; reflexivity|].
  repeat split; reflexivity.
Qed.
Print Assumptions C37_off_map_mass_booked_once_refuted.

(** C38 is false for rasters with other values than 0 and 1. *)
Theorem C38_land_queries_agree_refuted :
  exists g x y, wf g /\ on_grid g (x, y) /\ on_land_pixel g x y <> on_land_pixel_array g x y.
Proof.
  exists (mkRaster 1 1 [3%Z]), 0%Z, 0%Z. repeat split; vm_compute; discriminate || reflexivity.
Qed.
Print Assumptions C38_land_queries_agree_refuted.

(** C38, in_water: for a point that is not on the raster it raises or looks at
    a pixel on the opposite side, instead of answering True. *)
Theorem C38_in_water_refuted :
  exists g, wf g /\ binary g /\ ~ on_grid g (2, 0)%Z /\ ~ on_grid g (-1, 0)%Z /\
    in_water_pixel g 2 0 = Raise IndexErr /\ in_water_pixel g (-1) 0 = Ok false /\
    on_land_pixel g (-1) 0 = false.
Proof.
  exists (mkRaster 2 1 [0%Z; 1%Z]).
  split; [repeat split; vm_compute; discriminate || reflexivity|].
  split; [constructor; [left; reflexivity|constructor; [right; reflexivity|constructor]]|].
  split; [intros [[_ H] _]; vm_compute in H; discriminate|].
  split; [intros [[H _] _]; vm_compute in H; apply H; reflexivity|].
  repeat split; reflexivity.
Qed.
Print Assumptions C38_in_water_refuted.

(** C38, what holds: on rasters of 0 and 1 the two queries agree with the land
    check for every pixel, on or off the raster, and in_water is the opposite
    on the raster. *)
Theorem C38_land_queries_agree_partial :
  forall g x y, wf g -> binary g ->
  on_land_pixel g x y = is_land g (x, y) /\ on_land_pixel_array g x y = is_land g (x, y) /\
  (on_grid g (x, y) -> in_water_pixel g x y = Ok (negb (is_land g (x, y)))).
Proof. exact queries_agree. Qed.
Print Assumptions C38_land_queries_agree_partial.
Example C38_meets : wf g_map /\ binary g_map /\ on_grid g_map (4, 7)%Z.
Proof.
  split; [repeat split; vm_compute; discriminate || reflexivity|].
  split; [|split; split; vm_compute; discriminate || reflexivity].
  unfold binary. apply Forall_forall. intros c Hc. vm_compute in Hc. intuition lia.
Qed.

(** C60. On a map with a straight shoreline an element that would end on land
    stops on the shoreline, on its own path, and its last water position is a
    tenth of the way there. *)
Theorem C60_param_map_stops_on_shoreline :
  forall land s1 s2 e e',
  e_stat e <> ON_LAND -> land (fst (e_next e)) = true -> move_particle land s1 s2 e = Ok e' ->
  e_stat e' = ON_LAND /\ on_line s1 s2 (fst (e_next e')) /\
  on_line (fst (e_pos e)) (fst (e_next e)) (fst (e_next e')) /\
  (fst (fst (e_lastw e')) == fst (fst (e_pos e)) + (fst (fst (e_next e')) - fst (fst (e_pos e))) * (1#10) /\
   snd (fst (e_lastw e')) == snd (fst (e_pos e)) + (snd (fst (e_next e')) - snd (fst (e_pos e))) * (1#10)).
Proof. exact move_particle_on_shore. Qed.
Print Assumptions C60_param_map_stops_on_shoreline.
Example C60_meets :
  let e := mkElem (w3 0) ((4, 2), 0) IN_WATER (w3 0) 1 in
  exists e', move_particle (fun c => Qle_bool 2 (fst c)) (2, -9) (2, 9) e = Ok e' /\
    fst (fst (e_next e')) == 2 /\ snd (fst (e_next e')) == 1.
Proof. eexists. split; [vm_compute; reflexivity|]. split; reflexivity. Qed.
(** C60. An element that is already beached, or whose target is not on land,
    is left as it is. *)
Theorem C60_param_map_leaves_others :
  forall land s1 s2 e, e_stat e = ON_LAND \/ land (fst (e_next e)) = false ->
  move_particle land s1 s2 e = Ok e.
Proof. exact move_particle_else. Qed.
Print Assumptions C60_param_map_leaves_others.
Example C60_leaves_others_meets :
  let e := mkElem (w3 0) ((1, 2), 0) IN_WATER (w3 0) 1 in
  let e2 := mkElem (w3 3) ((4, 2), 0) ON_LAND (w3 0) 1 in
  Qle_bool 2 (fst (fst (e_next e))) = false /\ e_stat e2 = ON_LAND.
Proof. split; reflexivity. Qed.

(** C72. On a map without land, with movers that look at the positions only,
    the elements left after a step are those whose target is on the map; each
    is at its target (its old position plus the sum of all moves, not above the
    surface), and its mass and status have not changed. *)
Theorem C72_moves_add_up :
  forall on_map movers es b es' b',
  Forall ignores_next movers -> live es ->
  move_elements (gnome_beach on_map) (fun l => l) movers (es, b) = Ok (es', b') ->
  Forall2 (fun e e' => e_pos e' = (fst (target movers e), qmax (snd (target movers e)) 0) /\
                       e_mass e' = e_mass e /\ e_stat e' = e_stat e)
    (filter (fun e => on_map (fst (target movers e))) es) es'.
Proof. exact gnome_moves. Qed.
Print Assumptions C72_moves_add_up.

(** C72. The target does not depend on the order of the movers. *)
Theorem C72_order_of_movers :
  forall movers movers' e, Permutation movers movers' ->
  same_pos (target movers e) (target movers' e).
Proof. exact target_perm. Qed.
Print Assumptions C72_order_of_movers.
Example C72_meets :
  let es := [mkElem (w3 0) (w3 7) IN_WATER (w3 0) 1; mkElem (w3 9) (w3 9) IN_WATER (w3 9) 1] in
  let up : elem -> pos3 := fun e => ((1, 1), -(4)) in
  Forall ignores_next [up; west; up] /\ live es /\
  exists es' b', move_elements (gnome_beach (fun c => Qle_bool (fst c) 5)) (fun l => l) [up; west; up] (es, mkBal 0 0)
                 = Ok (es', b') /\ length es' = 1%nat.
Proof.
  split; [repeat constructor|]. split; [repeat constructor; discriminate|].
  eexists. eexists. split; [vm_compute; reflexivity|]. reflexivity.
Qed.
