(** * Points in polygons

    Models the two tests of gnome/utilities/geometry: the C routine used for maps
    and spills (c_point_in_polygon.c:60-76 through cy_point_in_polygon.pyx) and the
    Python one (PinP.py).  Coordinates are rationals: rounding of floats, NaN and
    infinities are not modelled. *)
From Verif Require Import Py QLemmas.
Open Scope Q_scope.

Definition pt := (Q * Q)%type.
Definition Qltb (a b : Q) : bool := negb (Qle_bool b a).

(** c_point_in_polygon.c:71-72: the test of one edge, [vi] and [vj] its ends. *)
Definition c_edge (p vi vj : pt) : bool :=
  negb (Bool.eqb (Qltb (snd p) (snd vi)) (Qltb (snd p) (snd vj))) &&
  Qltb (fst p) ((fst vj - fst vi) * (snd p - snd vi) / (snd vj - snd vi) + fst vi).

(** c_point_in_polygon.c:70-74: the loop; [vj] is the vertex before. *)
Fixpoint c_loop (p vj : pt) (l : list pt) (c : bool) : bool :=
  match l with
  | [] => c
  | vi :: r => c_loop p vi r (if c_edge p vi vj then negb c else c)
  end.

(** c_point_in_polygon.c:60-76 (c_point_in_poly1), for at least one vertex; without
    vertices the loop does not run. *)
Definition c_point_in_poly (l : list pt) (p : pt) : bool :=
  match l with [] => false | v :: _ => c_loop p (last l v) l false end.

(** PinP.py:69-85: the test of one edge from [v0] to [v1]. *)
Definition py_edge (p v0 v1 : pt) : bool :=
  let yflag0 := Qle_bool (snd p) (snd v0) in
  let yflag1 := Qle_bool (snd p) (snd v1) in
  if negb (Bool.eqb yflag0 yflag1) then
    let xflag0 := Qle_bool (fst p) (fst v0) in
    if Bool.eqb xflag0 (Qle_bool (fst p) (fst v1)) then xflag0
    else Qle_bool (fst p) (fst v1 - (snd v1 - snd p) * (fst v0 - fst v1) / (snd v0 - snd v1))
  else false.

Fixpoint py_loop (p v0 : pt) (l : list pt) (inside : bool) : bool :=
  match l with
  | [] => inside
  | v1 :: r => py_loop p v1 r (if py_edge p v0 v1 then negb inside else inside)
  end.

Definition pt_eqb (a b : pt) : bool := Qeq_bool (fst a) (fst b) && Qeq_bool (snd a) (snd b).

(** PinP.py:37-89 (CrossingsTest). *)
Definition crossings_test (l : list pt) (p : pt) : res bool :=
  match l with
  | [] => Raise IndexErr                                          (* pgon[0, 0] *)
  | v :: _ =>
      let verts := if pt_eqb v (last l v) then removelast l else l in
      Ok (py_loop p (last verts (last l v)) verts false)          (* pgon[-1] if no vertex is left *)
  end.

(** cy_point_in_polygon.pyx:55-97, PinP.py:7-34 (points_in_poly): each point for itself. *)
Definition points_in_poly (l : list pt) (ps : list pt) : list bool := map (c_point_in_poly l) ps.
