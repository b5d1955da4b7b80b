(** * Tide flats

    Models gnome/maps/tideflat_map.py: TideflatMap around any of the maps of MapModel, the base
    class TideflatBase (never dry) and SimpleTideflat (a polygon that is dry from one time to
    another), within the step of the model (MapModel.move_elements; model.py:981-1013, which gives
    both methods the time at which the step begins).  Floats are rationals, times integers.
    Delegation of other attributes to the land map is not modelled. *)
From Verif Require Import Py QLemmas LandModel ProjModel PipModel MapModel MapSpec.
Open Scope Q_scope.

(** cy_basic_types.pyx: oil_status.on_tideflat. *)
Definition ON_TIDEFLAT : Z := 32%Z.

(** is_dry of a tide flat: each point for itself, at a time. *)
Definition flat := pos3 -> Z -> bool.

(** tideflat_map.py:114-129 and 131-132. *)
Definition base_flat : flat := fun _ _ => false.
Definition is_wet (dry : flat) : flat := fun p t => negb (dry p t).

(** tideflat_map.py:163-178. *)
Definition simple_flat (bounds : list PipModel.pt) (dry_start dry_end : Z) : flat := fun p t =>
  if (t <? dry_start)%Z || (dry_end <? t)%Z then false else c_point_in_poly bounds (fst p).

(** tideflat_map.py:60-79, beach_elements: after the land map, elements in the water whose next
    position is dry. *)
Definition strand (dry : flat) (t : Z) (e : elem) : elem :=
  if has_stat IN_WATER e && dry (e_next e) t then set_stat e ON_TIDEFLAT else e.
Definition tf_beach (beach : list elem * balance -> res (list elem * balance)) (dry : flat) (t : Z)
    (sc : list elem * balance) : res (list elem * balance) :=
  do sc1 <- beach sc; Ok (map (strand dry t) (fst sc1), snd sc1).

(** tideflat_map.py:81-104, refloat_elements: elements on a flat whose (old) next position is wet,
    then the land map. *)
Definition unstrand (dry : flat) (t : Z) (e : elem) : elem :=
  if has_stat ON_TIDEFLAT e && is_wet dry (e_next e) t then set_stat e IN_WATER else e.
Definition tf_refloat (refl : list elem -> list elem) (dry : flat) (t : Z) (es : list elem) : list elem :=
  refl (map (unstrand dry t) es).

(** One step of the model that begins at [t] (model.py:981-1013). *)
Definition tf_move (beach : list elem * balance -> res (list elem * balance)) (refl : list elem -> list elem)
    (dry : flat) (t : Z) (movers : list (elem -> pos3)) (sc : list elem * balance) : res (list elem * balance) :=
  move_elements (tf_beach beach dry t) (tf_refloat refl dry t) movers sc.
