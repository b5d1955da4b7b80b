(** * Model of the maps: beaching, refloating, leaving the map

    Source: /repo/py_gnome/gnome/maps/map.py, model.py and spill_container.py.
    Floats are idealised as rationals; polygon tests are the parameter
    [on_map]; the projection is the GeoProjection of ProjModel. *)
From Verif Require Import Py LandModel ProjModel.
Open Scope Q_scope.

(** basic_types.oil_status (cy_gnome/cy_basic_types.pyx:49-55). *)
Definition IN_WATER : Z := 2%Z.
Definition ON_LAND : Z := 3%Z.
Definition OFF_MAPS : Z := 7%Z.
Definition TO_BE_REMOVED : Z := 12%Z.

(** (lon, lat, depth) *)
Definition pos3 := (pt * Q)%type.

(** The data arrays of a spill container that the maps use, one element. *)
Record elem := mkElem
  { e_pos : pos3; e_next : pos3; e_stat : Z; e_lastw : pos3; e_mass : Q }.

Definition set_next (e : elem) (p : pos3) : elem :=
  mkElem (e_pos e) p (e_stat e) (e_lastw e) (e_mass e).
Definition set_stat (e : elem) (s : Z) : elem :=
  mkElem (e_pos e) (e_next e) s (e_lastw e) (e_mass e).
Definition set_pos (e : elem) (p : pos3) : elem :=
  mkElem p (e_next e) (e_stat e) (e_lastw e) (e_mass e).

(** sc.mass_balance['beached'] and ['off_maps']. *)
Record balance := mkBal { bal_beached : Q; bal_off : Q }.

Definition has_stat (s : Z) (e : elem) : bool := (e_stat e =? s)%Z.

(** [sc['mass'][mask].sum()] *)
Definition mass_sum (es : list elem) : Q := fold_right (fun e a => e_mass e + a) 0 es.
Definition mass_of (s : Z) (es : list elem) : Q := mass_sum (filter (has_stat s) es).

Definition qmax (a b : Q) : Q := if Qle_bool a b then b else a.

(** map.py:449-466, resurface_airborne_elements. *)
Definition resurface (e : elem) : elem :=
  set_next e (fst (e_next e), qmax (snd (e_next e)) 0).

(** map.py:389-410, _set_off_map_status. *)
Definition flag_off (on_map : pt -> bool) (e : elem) : elem :=
  if on_map (fst (e_next e)) then e else set_stat e OFF_MAPS.
Definition set_off_map_status (on_map : pt -> bool) (sc : list elem * balance)
  : list elem * balance :=
  let es := map (flag_off on_map) (fst sc) in
  (es, mkBal (mass_of ON_LAND es) (bal_off (snd sc) + mass_of OFF_MAPS es)).

(** map.py:413-434, GnomeMap.beach_elements. *)
Definition gnome_beach (on_map : pt -> bool) (sc : list elem * balance)
  : res (list elem * balance) :=
  Ok (set_off_map_status on_map (map resurface (fst sc), snd sc)).

(** map.py:1070-1103 for one element: project to pixels, land check, project
    back; with a zero half-life the element returns to its last water position.
    A read outside the raster would be a crash. *)
Definition raster_beach1 (layers : list (raster * Z)) (p : proj) (halflife : Q) (e : elem)
  : res elem :=
  let l := mkLE (to_pixel_int p (fst (e_pos e))) (to_pixel_int p (fst (e_next e)))
                (has_stat ON_LAND e) (to_pixel_int p (fst (e_lastw e))) in
  match check_land_layers1 layers l with
  | None => Raise RuntimeErr
  | Some l' =>
      if onland l' then
        let lw := to_lonlat_int p (lastw l') in
        if Qeq_bool halflife 0 then
          Ok (mkElem (e_pos e) (lw, snd (e_next e)) IN_WATER (lw, snd (e_lastw e)) (e_mass e))
        else
          Ok (mkElem (e_pos e) (to_lonlat_int p (endp l'), snd (e_next e)) ON_LAND
                     (lw, snd (e_lastw e)) (e_mass e))
      else Ok e
  end.

(** map.py:1048-1105, RasterMap.beach_elements. *)
Definition raster_beach (layers : list (raster * Z)) (p : proj) (halflife : Q)
           (on_map : pt -> bool) (sc : list elem * balance) : res (list elem * balance) :=
  do es <- mapM (raster_beach1 layers p halflife) (map resurface (fst sc));
  Ok (set_off_map_status on_map (es, snd sc)).

(** cy_land_check.pyx:383-427, move_particles for one element: the movement is
    cut at its intersection with the shoreline (s1, s2).  The code's remaining
    assignment to [positions] (line 426) is overwritten by
    model.move_elements. *)
Definition move_particle (land : pt -> bool) (s1 s2 : pt) (e : elem) : res elem :=
  if has_stat ON_LAND e then Ok e
  else if land (fst (e_next e)) then
    let p1 := fst (e_pos e) in let p2 := fst (e_next e) in
    let a1 := fst s2 - fst s1 in let a2 := snd s2 - snd s1 in
    let b1 := fst p2 - fst p1 in let b2 := snd p2 - snd p1 in
    let den := a1 * b2 - b1 * a2 in
    if Qeq_bool den 0 then Raise ValueErr
    else
      let u := (b1 * (snd s1 - snd p1) - b2 * (fst s1 - fst p1)) / den in
      let x := fst s1 + u * (fst s2 - fst s1) in
      let y := snd s1 + u * (snd s2 - snd s1) in
      Ok (mkElem (e_pos e) ((x, y), snd (e_next e)) ON_LAND
            ((fst p1 + (x - fst p1) * (1#10), snd p1 + (y - snd p1) * (1#10)), snd (e_lastw e))
            (e_mass e))
  else Ok e.

(** map.py:649-685, ParamMap.beach_elements. *)
Definition param_beach (land : pt -> bool) (s1 s2 : pt) (on_map : pt -> bool)
           (sc : list elem * balance) : res (list elem * balance) :=
  let sc1 := set_off_map_status on_map (map resurface (fst sc), snd sc) in
  do es <- mapM (move_particle land s1 s2) (fst sc1);
  let sc2 := set_off_map_status on_map (es, snd sc1) in
  Ok (fst sc2, mkBal (mass_of ON_LAND (fst sc2)) (bal_off (snd sc2) + mass_of OFF_MAPS (fst sc2))).

(** [np.where(status == on_land)[0]]. *)
Fixpoint where_from (i : nat) (f : elem -> bool) (es : list elem) : list nat :=
  match es with
  | [] => []
  | e :: r => if f e then i :: where_from (S i) f r else where_from (S i) f r
  end.

(** [r_idx[np.where(rnd <= p)[0]]]. *)
Fixpoint pick (prob : Q) (idx : list nat) (rnd : list Q) : list nat :=
  match idx, rnd with
  | i :: idx', r :: rnd' => if Qle_bool r prob then i :: pick prob idx' rnd' else pick prob idx' rnd'
  | _, _ => []
  end.

Definition refloat1 (e : elem) : elem :=
  mkElem (e_lastw e) (e_next e) IN_WATER (e_lastw e) (e_mass e).

(** map.py:1116-1154, RasterMap.refloat_elements (ParamMap's, 687-722, is the
    same).  [prob] is 1 - 0.5 ** (time_step / halflife) and [rnd] the draws. *)
Definition refloat (halflife prob : Q) (rnd : list Q) (es : list elem) : list elem :=
  let idx := where_from 0 (has_stat ON_LAND) es in
  let idx' :=
    if Qle_bool halflife 0 then (if Qeq_bool halflife 0 then idx else [])
    else pick prob idx rnd in
  fold_left (fun l i => match nth_error l i with
                        | Some e => set_nth i (refloat1 e) l
                        | None => l
                        end) idx' es.

Definition add3 (a b : pos3) : pos3 :=
  ((fst (fst a) + fst (fst b), snd (fst a) + snd (fst b)), snd a + snd b).

(** [sc['next_positions'] += delta] for one mover's move. *)
Definition apply_move (m : elem -> pos3) (es : list elem) : list elem :=
  map (fun e => set_next e (add3 (e_next e) (m e))) es.

(** model.py:981-1013, move_elements for one container, without fate_status;
    each mover's get_move is a parameter; then spill_container.py:971-988,
    model_step_is_done, which removes the marked elements. *)
Definition move_elements
    (beach : list elem * balance -> res (list elem * balance))
    (refl : list elem -> list elem) (movers : list (elem -> pos3))
    (sc : list elem * balance) : res (list elem * balance) :=
  let es1 := map (fun e => set_next e (e_pos e)) (refl (fst sc)) in
  let es2 := fold_left (fun es m => apply_move m es) movers es1 in
  do sc3 <- beach (es2, snd sc);
  let es4 := map (fun e => if has_stat OFF_MAPS e then set_stat e TO_BE_REMOVED else e) (fst sc3) in
  let es5 := map (fun e => set_pos e (e_next e)) es4 in
  Ok (filter (fun e => negb (has_stat TO_BE_REMOVED e)) es5, snd sc3).

(** ** Land queries *)

(** map.py:929-939, _off_raster. *)
Definition off_raster (g : raster) (x y : Z) : bool :=
  ((x <? 0) || (y <? 0) || (x >=? rw g) || (y >=? rh g))%Z.

(** map.py:41 and class attribute: land_flag = 1. *)
Definition land_flag : Z := 1%Z.

(** map.py:953-968, _on_land_pixel (truth value of the result). *)
Definition on_land_pixel (g : raster) (x y : Z) : bool :=
  if off_raster g x y then false
  else negb (Z.land (cell g x y) land_flag =? 0)%Z.

(** map.py:970-988, _on_land_pixel_array, one entry. *)
Definition on_land_pixel_array (g : raster) (x y : Z) : bool :=
  if off_raster g x y then false else (cell g x y =? land_flag)%Z.

(** numpy indexing raster[x, y] with negative indices from the end. *)
Definition np_cell (g : raster) (x y : Z) : res Z :=
  let fix1 (n i : Z) := if (i <? 0)%Z then (i + n)%Z else i in
  let x' := fix1 (rw g) x in let y' := fix1 (rh g) y in
  if off_raster g x' y' then Raise IndexErr else Ok (cell g x' y').

(** map.py:1022-1028, _in_water_pixel: [not self._off_raster] tests the bound
    method itself, which is always true, so the else branch always runs. *)
Definition in_water_pixel (g : raster) (x y : Z) : res bool :=
  do c <- np_cell g x y; Ok (Z.land c land_flag =? 0)%Z.
