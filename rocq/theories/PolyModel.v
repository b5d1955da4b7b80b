(** * Polygons and sets of polygons

    Models gnome/utilities/geometry/poly_clockwise.py and polygons.py.  Coordinates
    are rationals: rounding of floats, NaN and infinities are not modelled.
    Metadata, which the code only passes on, are numbers. *)
From Verif Require Import Py QLemmas PipModel.
Open Scope Q_scope.

(** ** Orientation *)

(** poly_clockwise.py:34, 37: the term of the way from [a] to [b]. *)
Definition term (a b : pt) : Q := fst a * snd b - fst b * snd a.

(** poly_clockwise.py:36-37: the loop over the consecutive points. *)
Fixpoint total_loop (total : Q) (l : list pt) : Q :=
  match l with
  | a :: r => match r with b :: _ => total_loop (total + term a b) r | [] => total end
  | [] => total
  end.

(** poly_clockwise.py:21-42 (is_clockwise). *)
Definition is_clockwise (l : list pt) : res bool :=
  match l with
  | [] => Raise IndexErr                                          (* poly[-1] *)
  | v :: _ => Ok (Qle_bool (total_loop (term (last l v) v) l) 0)
  end.

(** poly_clockwise.py:45-67 (is_clockwise_convex). *)
Definition is_clockwise_convex (l : list pt) : res bool :=
  match l with
  | (x0, y0) :: (x1, y1) :: (x2, y2) :: _ =>
      Ok (Qle_bool ((x1 - x0) * (y2 - y1) - (y1 - y0) * (x2 - x1)) 0)
  | _ => Raise IndexErr
  end.

(** ** Polygons *)

(** polygons.py:16-47: the points and the metadata. *)
Record polygon := mkPoly { pg_points : list pt; pg_meta : Z }.

(** np.round: to the nearest integer, halves to the even one. *)
Definition np_round (q : Q) : Z :=
  let f := Qfloor q in
  let d := q - inject_Z f in
  if Qltb d (1#2) then f
  else if Qltb (1#2) d then (f + 1)%Z
  else if Z.even f then f else (f + 1)%Z.

(** polygons.py:124-131 (_scaling_fun), of one point. *)
Definition pixel (scale : Q * Q) (p : pt) : Z * Z :=
  (np_round (fst p * fst scale), np_round (snd p * snd scale)).
Definition pix_eqb (a b : Z * Z) : bool := (fst a =? fst b)%Z && (snd a =? snd b)%Z.

(** polygons.py:165-169: the loop of thin; [prev] is the scaled point before. *)
Fixpoint thin_loop (scale : Q * Q) (prev : Z * Z) (l : list pt) : list pt :=
  match l with
  | [] => []
  | v :: r =>
      let point := pixel scale v in
      if pix_eqb point prev then thin_loop scale point r else v :: thin_loop scale point r
  end.

(** polygons.py:133-175 (Polygon.thin). *)
Definition thin (scale : Q * Q) (p : polygon) : res polygon :=
  match pg_points p with
  | [] => Raise IndexErr                                          (* sc_poly[0] *)
  | v :: _ =>
      let l := pg_points p in
      let last_same := pt_eqb v (last l v) in
      let thinned := v :: thin_loop scale (pixel scale v) (if last_same then removelast l else l) in
      if (1 <? Z.of_nat (length thinned))%Z
      then Ok (mkPoly (thinned ++ (if last_same then [v] else [])) (pg_meta p))
      else Ok (mkPoly [] (pg_meta p))
  end.

(** ** Sets of polygons *)

(** polygons.py:188-206: [ps_list] says that the metadata are kept in a list, as
    without [data]; with [data] they are an array. *)
Record pset := mkSet { ps_points : list pt; ps_index : list Z; ps_meta : list Z; ps_list : bool }.
Definition ps_new : pset := mkSet [] [0%Z] [] true.
Definition ps_data (points : list pt) (index : list Z) (meta : list Z) : pset := mkSet points index meta false.

(** polygons.py:208-237 (append).  The state is returned also with an exception.
    The array is extended by zeros, whose last [added] rows are then set: all rows
    if [added] is 0, and numpy refuses to fill any number of rows but 0 from none. *)
Definition append (s : pset) (p : polygon) (metadata : option Z) : pset * option exc :=
  let m := match metadata with Some m => m | None => pg_meta p end in
  let old := length (ps_points s) in
  let added := length (pg_points p) in
  let resized := ps_points s ++ repeat (0, 0) added in
  let from := if (Z.of_nat added =? 0)%Z then O else (length resized - added)%nat in
  if negb (Nat.eqb (length resized - from) added) then (s, Some ValueErr)
  else
    let points := firstn from resized ++ pg_points p in
    let index := ps_index s ++ [Z.of_nat (length points)] in
    if ps_list s then (mkSet points index (ps_meta s ++ [m]) true, None)
    else (mkSet points index (ps_meta s) false, Some AttrErr).     (* arrays have no append *)

(** polygons.py:329-331 (__len__), 247-248 (total_num_points). *)
Definition ps_len (s : pset) : Z := (Z.of_nat (length (ps_index s)) - 1)%Z.
Definition ps_total (s : pset) : Z := Z.of_nat (length (ps_points s)).

(** Slices l[a:b] of arrays, with numpy's clipping. *)
Definition clip (n i : Z) : Z := if (i <? 0)%Z then Z.max 0 (i + n) else Z.min i n.
Definition py_slice {A} (l : list A) (a b : Z) : list A :=
  let n := Z.of_nat (length l) in
  let a' := clip n a in
  let b' := clip n b in
  firstn (Z.to_nat (b' - a')) (skipn (Z.to_nat a') l).

(** polygons.py:342-356 (__getitem__). *)
Definition ps_get (s : pset) (i : Z) : res polygon :=
  let n := ps_len s in
  if (n <? i)%Z then Raise IndexErr
  else
    do index <- (if (i <? 0)%Z
                 then if (i <? - n)%Z then Raise IndexErr else Ok (n + i)%Z
                 else Ok i);
    do a <- py_get (ps_index s) index;
    do b <- py_get (ps_index s) (index + 1)%Z;
    do m <- py_get (ps_meta s) index;
    Ok (mkPoly (py_slice (ps_points s) a b) m).

(** polygons.py:333-335 (__iter__), run to its end. *)
Definition ps_iter (s : pset) : res (list polygon) :=
  mapM (ps_get s) (zseq 0 (Z.to_nat (ps_len s))).

(** polygons.py:309-327 (TransformData), for a function of the array.  That its
    result owns its memory, which a later append needs, is assumed. *)
Definition ps_transform (s : pset) (F : list pt -> list pt) : pset :=
  mkSet (F (ps_points s)) (ps_index s) (ps_meta s) (ps_list s).

(** polygons.py:366-372 (__eq__) for two sets whose metadata are lists. *)
Definition pts_eqb (l m : list pt) : bool :=
  Nat.eqb (length l) (length m) && forallb (fun ab => pt_eqb (fst ab) (snd ab)) (combine l m).
Definition zs_eqb (l m : list Z) : bool :=
  Nat.eqb (length l) (length m) && forallb (fun ab => (fst ab =? snd ab)%Z) (combine l m).
Definition ps_eqb (s t : pset) : bool :=
  pts_eqb (ps_points s) (ps_points t) && zs_eqb (ps_meta s) (ps_meta t).

(** polygons.py:377-403 (PolygonSet.thin). *)
Fixpoint thin_polys (scale : Q * Q) (l : list polygon) (acc : pset) : res pset :=
  match l with
  | [] => Ok acc
  | p :: r =>
      do q <- thin scale p;
      if (0 <? Z.of_nat (length (pg_points q)))%Z then
        match append acc q None with
        | (acc', None) => thin_polys scale r acc'
        | (_, Some e) => Raise e
        end
      else thin_polys scale r acc
  end.
Definition ps_thin (s : pset) (scale : Q * Q) : res pset :=
  do l <- ps_iter s; thin_polys scale l ps_new.

(** ** Random points of triangles (geo_routines.py) *)

(** geo_routines.py:101-117 (random_pt_in_tri); [R] and [S] are the two random
    numbers drawn. *)
Definition random_pt_in_tri (R S : Q) (a b c : pt) : pt :=
  let (R, S) := if Qle_bool 1 (R + S) then (1 - R, 1 - S) else (R, S) in
  (fst a + R * (fst b - fst a) + S * (fst c - fst a),
   snd a + R * (snd b - snd a) + S * (snd c - snd a)).

(** geo_routines.py:57-64 (poly_area_weight), given the areas.  They are floats
    of shapely: division by a total of 0 raises. *)
Definition area_weights (areas : list Q) : res (list Q) :=
  let t_area := fold_left Qplus areas 0 in
  mapM (fun s => if Qeq_bool t_area 0 then Raise ZeroDivErr else Ok (s / t_area)) areas.

(** ** Releases from polygons (spills/release.py) *)

Definition tri := (pt * pt * pt)%type.
(** A polygon as the triangulation library cuts it: the triangles and their areas. *)
Definition tpoly := list (tri * Q).

(** numpy's isclose(s, 1.0). *)
Definition close_to_1 (s : Q) : bool := Qle_bool (Qabs (s - 1)) ((1#100000000) + (1#100000)).

Definition qsum (l : list Q) : Q := fold_left Qplus l 0.

(** release.py:907-914: the loop over polygons and weights. *)
Fixpoint weigh_tris (pws : list (tpoly * Q)) : res (list tri * list Q) :=
  match pws with
  | [] => Ok ([], [])
  | (p, w) :: r =>
      do ws <- area_weights (map snd p);
      do tw <- weigh_tris r;
      Ok (map fst p ++ fst tw, map (Qmult w) ws ++ snd tw)
  end.

(** release.py:898-922 (get_polys_as_tris). *)
Definition get_polys_as_tris (polys : list tpoly) (weights : option (list Q)) : res (list tri * list Q) :=
  do tw <-
    match weights with
    | Some ws =>
        if negb (Nat.eqb (length ws) (length polys)) then Raise ValueErr
        else weigh_tris (combine polys ws)
    | None =>
        do ws <- area_weights (map snd (concat polys));
        Ok (map fst (concat polys), ws)
    end;
  if close_to_1 (qsum (snd tw)) then Ok tw else Raise AssertErr.

(** release.py:924-936 (compute_distribution), given the areas; zip stops at the
    end of the shorter list.  Areas that are no numbers are not modelled. *)
Definition compute_distribution (areas thicknesses : list Q) : res (list Q) :=
  let volumes := map (fun at_ => fst at_ * snd at_) (combine areas thicknesses) in
  let total_vol := qsum volumes in
  mapM (fun v => if Qeq_bool total_vol 0 then Raise ZeroDivErr else Ok (v / total_vol)) volumes.

(** release.py:938-957 (prepare_for_model_run) without the check of coordinates.
    An empty list of thicknesses counts as none. *)
Definition poly_prepare (polys : list tpoly) (areas : list Q) (thicknesses weights : option (list Q))
  : res (list tri * list Q) :=
  do ws <- match thicknesses with
           | Some (t :: ts) => do ws <- compute_distribution areas (t :: ts); Ok (Some ws)
           | _ => Ok weights
           end;
  get_polys_as_tris polys ws.

(** release.py:959-975: the positions of the new elements.  [picks] are the random
    choices: the positions of the chosen triangles and the two random numbers of
    each point. *)
Definition poly_positions (tris : list tri) (picks : list (Z * (Q * Q))) : res (list (Q * Q * Q)) :=
  mapM (fun k =>
    do t <- py_get tris (fst k);
    let '(a, b, c) := t in
    let p := random_pt_in_tri (fst (snd k)) (snd (snd k)) a b c in
    Ok (fst p, snd p, 0)) picks.
