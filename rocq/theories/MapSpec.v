(** * What beaching, refloating and leaving the map should do *)
From Verif Require Import Py LandModel LandSpec ProjModel ProjSpec MapModel.
Open Scope Q_scope.

(** The pixel a position is in, and the centre of a pixel. *)
Definition pixel_of (p : proj) (c : pos3) : Z * Z := to_pixel_int p (fst c).
Definition centre (p : proj) (z : Z * Z) : pt := to_lonlat_int p z.

(** Where an element that sticks to land pixel [h], coming from pixel [w], ends
    up: (new next position, new last water position, new status). *)
Definition stuck (p : proj) (halflife : Q) (h w : Z * Z) : pt * pt * Z :=
  if Qeq_bool halflife 0 then (centre p w, centre p w, IN_WATER)
  else (centre p h, centre p w, ON_LAND).

(** The three things that can happen to an element on a raster map. *)
Inductive outcome (g : raster) (ratios : list Z) (p : proj) (halflife : Q) (e : elem)
  : pt * pt * Z -> Prop :=
| was_beached : e_stat e = ON_LAND ->
    outcome g ratios p halflife e
      (stuck p halflife (pixel_of p (e_next e)) (pixel_of p (e_lastw e)))
| hits_land : forall w h,
    e_stat e <> ON_LAND -> is_land g h = true ->
    (w = h /\ h = pixel_of p (e_pos e) \/ neighbours w h /\ is_land g w = false) ->
    In w (line (fst (pixel_of p (e_pos e))) (snd (pixel_of p (e_pos e)))
               (fst (pixel_of p (e_next e))) (snd (pixel_of p (e_next e)))) ->
    outcome g ratios p halflife e (stuck p halflife h w)
| stays_afloat : e_stat e <> ON_LAND ->
    layered_walk (build_layers g ratios)
      (fst (pixel_of p (e_pos e))) (snd (pixel_of p (e_pos e)))
      (fst (pixel_of p (e_next e))) (snd (pixel_of p (e_next e))) = NoHit ->
    outcome g ratios p halflife e (fst (e_next e), fst (e_lastw e), e_stat e).

(** [e'] is [e] after beaching: the outcome above, raised to the surface if it
    was above it, and flagged if it ends off the map. *)
Definition beached_to (g : raster) (ratios : list Z) (p : proj) (halflife : Q)
           (on_map : pt -> bool) (e e' : elem) : Prop :=
  e_pos e' = e_pos e /\ e_mass e' = e_mass e /\
  snd (e_next e') = qmax (snd (e_next e)) 0 /\ snd (e_lastw e') = snd (e_lastw e) /\
  exists st, outcome g ratios p halflife e (fst (e_next e'), fst (e_lastw e'), st) /\
             e_stat e' = if on_map (fst (e_next e')) then st else OFF_MAPS.

(** Pixels of an element's position and next position within 2^28. *)
Definition small_elem (p : proj) (e : elem) : Prop :=
  all_small (fst (pixel_of p (e_pos e))) (snd (pixel_of p (e_pos e)))
            (fst (pixel_of p (e_next e))) (snd (pixel_of p (e_next e))).

(** Refloating, element by element: each beached element uses the next draw. *)
Fixpoint refloat_spec (sticks : Q -> bool) (rnd : list Q) (es : list elem) : list elem :=
  match es with
  | [] => []
  | e :: r =>
      if has_stat ON_LAND e then
        match rnd with
        | d :: rnd' => (if sticks d then e else refloat1 e) :: refloat_spec sticks rnd' r
        | [] => e :: refloat_spec sticks [] r
        end
      else e :: refloat_spec sticks rnd r
  end.

(** An element that is beached is at rest at the centre of its pixel. *)
Definition at_rest (p : proj) (e : elem) : Prop :=
  e_stat e = ON_LAND /\ 0 <= snd (e_next e) /\
  exists h w, fst (e_next e) = centre p h /\ fst (e_lastw e) = centre p w.

(** The elements of a running model: none waits to be removed. *)
Definition live (es : list elem) : Prop :=
  Forall (fun e => e_stat e <> OFF_MAPS /\ e_stat e <> TO_BE_REMOVED) es.

(** The three kinds of map. *)
Inductive the_map :=
| Gnome (on_map : pt -> bool)
| Raster (layers : list (raster * Z)) (p : proj) (halflife : Q) (on_map : pt -> bool)
| Param (land : pt -> bool) (s1 s2 : pt) (on_map : pt -> bool).
Definition is_param (m : the_map) : bool := match m with Param _ _ _ _ => true | _ => false end.
Definition beach_of (m : the_map) : list elem * balance -> res (list elem * balance) :=
  match m with
  | Gnome om => gnome_beach om
  | Raster layers p hl om => raster_beach layers p hl om
  | Param land s1 s2 om => param_beach land s1 s2 om
  end.

(** Any number of steps, each with its map, refloat parameters and movers. *)
Record step_in := mkStep { s_map : the_map; s_hl : Q; s_prob : Q; s_rnd : list Q;
                           s_movers : list (elem -> pos3) }.
Fixpoint run_steps (ss : list step_in) (sc : list elem * balance) : res (list elem * balance) :=
  match ss with
  | [] => Ok sc
  | s :: r =>
      do sc' <- move_elements (beach_of (s_map s)) (refloat (s_hl s) (s_prob s) (s_rnd s)) (s_movers s) sc;
      run_steps r sc'
  end.

(** [c] lies on the straight line through [a] and [b]. *)
Definition on_line (a b c : pt) : Prop :=
  (fst c - fst a) * (snd b - snd a) == (snd c - snd a) * (fst b - fst a).

(** A raster of 0 (water) and 1 (land) only. *)
Definition binary (g : raster) : Prop := Forall (fun c => c = 0%Z \/ c = 1%Z) (cells g).

(** A mover whose move depends on where the element is, not on where the other
    movers have already sent it. *)
Definition ignores_next (m : elem -> pos3) : Prop := forall e p, m (set_next e p) = m e.
(** Where the moves take an element: its position plus every move. *)
Definition target (movers : list (elem -> pos3)) (e : elem) : pos3 :=
  fold_left add3 (map (fun m => m e) movers) (e_pos e).
Definition same_pos (a b : pos3) : Prop :=
  fst (fst a) == fst (fst b) /\ snd (fst a) == snd (fst b) /\ snd a == snd b.
