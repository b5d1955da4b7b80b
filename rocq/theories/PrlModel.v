(** * Polygon, grid and NESDIS releases; the time zone of a release

    Models gnome/spills/release.py (PolygonRelease, GridRelease, NESDISRelease and the
    time zone of Release) and the functions of gnome/utilities/geometry/geo_routines.py
    they use, on top of ReleaseModel.

    Numbers are rationals without rounding.  What shapely, trimesh, pyproj and geopandas
    compute is given: the triangles of a polygon, its area in square metres (None: NaN)
    and the points of its boundary; reading a shapefile gives the list of features.
    Random draws are given.  Not modelled: arrays in place of lists of weights (their
    truth value raises), get_polygons and get_metadata, the setter of the polygons (which
    fails: it uses a name that is not defined), initial positions of a GridRelease (the
    same), saving. *)
From Coq Require Import String QArith Qround Qabs.
From Verif Require Import Py QLemmas TimeModel ReleaseModel PipModel PolyModel StrModel.
Open Scope list_scope.
Open Scope Z_scope.

(** ** Polygons *)

Definition qpt := (Q * Q)%type.
Definition tri := (qpt * qpt * qpt)%type.

(** geo_routines.py:18-27 (geo_area_of_polygon), 30-49 (triangulate_poly) and the
    coordinates of 83-97, of a polygon or multipolygon. *)
Record world (P : Type) := mkWorld {
  w_tris : P -> list tri;
  w_area : P -> option Q;
  w_coords : P -> list qpt }.
Arguments mkWorld {P}. Arguments w_tris {P}. Arguments w_area {P}. Arguments w_coords {P}.

(** A geojson feature: its geometry and the properties weight and thickness. *)
Record feat (P : Type) := mkFeat { f_poly : P; f_weight : option Q; f_thick : option Q }.
Arguments mkFeat {P}. Arguments f_poly {P}. Arguments f_weight {P}. Arguments f_thick {P}.

Fixpoint qsum (l : list Q) : Q := match l with [] => 0%Q | x :: r => (x + qsum r)%Q end.

(** zip of the features with given values: the properties of the first features are set,
    release.py:829-832, 867-868 and 883-884. *)
Fixpoint set_prop {P} (set : feat P -> Q -> feat P) (fs : list (feat P)) (vs : list Q) : list (feat P) :=
  match fs, vs with
  | f :: fs, v :: vs => set f v :: set_prop set fs vs
  | _, _ => fs
  end.
Definition with_weight {P} (f : feat P) (w : Q) : feat P := mkFeat (f_poly f) (Some w) (f_thick f).
Definition with_thick {P} (f : feat P) (t : Q) : feat P := mkFeat (f_poly f) (f_weight f) (Some t).

(** release.py:823-834 (gen_fc_from_kwargs). *)
Definition gen_fc {P} (polys : list P) (weights thicks : option (list Q)) : list (feat P) :=
  let fs := map (fun p => mkFeat p None None) polys in
  let fs := match thicks with Some ts => set_prop with_thick fs ts | None => fs end in
  match weights with Some ws => set_prop with_weight fs ws | None => fs end.

(** release.py:771-798 (PolygonRelease.__init__): the features; [file] is what the
    shapefile holds. *)
Definition new_feats {P} (file feats : option (list (feat P))) (polys : option (list P))
    (weights thicks : option (list Q)) : res (list (feat P)) :=
  match file, feats with
  | Some _, Some _ => Raise ValueErr
  | Some fs, None => Ok fs
  | None, Some fs => Ok fs
  | None, None =>
      match polys with
      | None => Raise ValueErr
      | Some ps =>
          match weights with
          | Some ws =>
              match thicks with
              | Some _ => Raise ValueErr
              | None => if negb (Nat.eqb (length ws) (length ps)) then Raise ValueErr else Ok (gen_fc ps weights thicks)
              end
          | None => Ok (gen_fc ps weights thicks)
          end
      end
  end.

Definition is_none {A} (o : option A) : bool := match o with None => true | Some _ => false end.
Definition all_or_none (l : list (option Q)) : option (list (option Q)) :=
  if forallb is_none l then None else Some l.

(** release.py:854-857 (thicknesses) and 870-873 (weights). *)
Definition thicks_of {P} (fs : list (feat P)) := all_or_none (map f_thick fs).
Definition weights_of {P} (fs : list (feat P)) := all_or_none (map f_weight fs).

(** The loops of release.py:861-864 and 877-880: deleting a property that is missing is a KeyError,
    and the features before it have lost theirs. *)
Fixpoint del_prop {P} (get : feat P -> option Q) (clear : feat P -> feat P) (fs : list (feat P)) : list (feat P) * option exc :=
  match fs with
  | [] => ([], None)
  | f :: r => match get f with
              | None => (fs, Some KeyErr)
              | Some _ => let '(r, e) := del_prop get clear r in (clear f :: r, e)
              end
  end.
Definition no_thick {P} (f : feat P) : feat P := mkFeat (f_poly f) (f_weight f) None.
Definition no_weight {P} (f : feat P) : feat P := mkFeat (f_poly f) None (f_thick f).

(** release.py:859-868 (thicknesses setter) and 875-884 (weights setter): the features
    afterwards and what was raised. *)
Definition set_thicks {P} (fs : list (feat P)) (vals : option (list Q)) : list (feat P) * option exc :=
  match vals with
  | None => del_prop f_thick no_thick fs
  | Some ts => match weights_of fs with
               | Some _ => (fs, Some ValueErr)
               | None => (set_prop with_thick fs ts, None)
               end
  end.
Definition set_weights {P} (fs : list (feat P)) (vals : option (list Q)) : list (feat P) * option exc :=
  match vals with
  | None => del_prop f_weight no_weight fs
  | Some ws => match thicks_of fs with
               | Some _ => (fs, Some ValueErr)
               | None => (set_prop with_weight fs ws, None)
               end
  end.

(** ** The distribution over the triangles *)

(** shapely's area of a triangle, in square degrees. *)
Definition tri_area (t : tri) : Q :=
  let '((x0, y0), (x1, y1), (x2, y2)) := t in
  (Qabs ((x1 - x0) * (y2 - y0) - (x2 - x0) * (y1 - y0)) / 2)%Q.

(** geo_routines.py:52-64 (poly_area_weight, geo_area false). *)
Definition area_weight (ts : list tri) : res (list Q) :=
  match ts with
  | [] => Ok []
  | _ => let total := qsum (map tri_area ts) in
         if Qeq_bool total 0 then Raise ZeroDivErr else Ok (map (fun t => (tri_area t / total)%Q) ts)
  end.

(** numpy.isclose(s, 1.0). *)
Definition isclose1 (s : Q) : bool := Qle_bool (Qabs (s - 1)) ((1 # 100000000) + (1 # 100000))%Q.

(** release.py:898-922 (get_polys_as_tris). *)
Definition polys_as_tris {P} (W : world P) (polys : list P) (weights : option (list (option Q))) : res (list tri * list Q) :=
  do r <- match weights with
          | Some ws =>
              if negb (Nat.eqb (length ws) (length polys)) then Raise ValueErr
              else do parts <- mapM (fun '(p, w) =>
                     do aw <- area_weight (w_tris W p);
                     match w, aw with
                     | None, _ :: _ => Raise TypeErr
                     | None, [] => Ok (w_tris W p, [])
                     | Some w, _ => Ok (w_tris W p, map (fun a => (w * a)%Q) aw)
                     end) (combine polys ws);
                   Ok (concat (map fst parts), concat (map snd parts))
          | None =>
              let ts := concat (map (w_tris W) polys) in
              do ws <- area_weight ts; Ok (ts, ws)
          end;
  if isclose1 (qsum (snd r)) then Ok r else Raise AssertErr.

(** release.py:924-936 (compute_distribution). *)
Definition compute_distribution {P} (W : world P) (fs : list (feat P)) : res (list Q) :=
  do areas <- mapM (fun f => match w_area W (f_poly f) with Some a => Ok a | None => Raise ValueErr end) fs;
  do vols <- match thicks_of fs with
             | None => Raise TypeErr
             | Some ts => mapM (fun '(a, t) => match t with Some t => Ok (a * t)%Q | None => Raise TypeErr end) (combine areas ts)
             end;
  let total := qsum vols in
  match vols with
  | [] => Ok []
  | _ => if Qeq_bool total 0 then Raise ZeroDivErr else Ok (map (fun v => (v / total)%Q) vols)
  end.

(** geo_routines.py:83-97 (check_valid_polygon). *)
Definition point_ok (p : qpt) : bool :=
  Qltb (-360) (fst p) && Qltb (fst p) 360 && Qltb (-90) (snd p) && Qltb (snd p) 90.
Definition check_poly {P} (W : world P) (p : P) : res unit :=
  if forallb point_ok (w_coords W p) then Ok tt else Raise AssertErr.

(** release.py:890-896 (PolygonRelease.rewind): _previously_released stays. *)
Definition poly_rewind (r : release) : release :=
  mkRel (r_line r) (r_time r) (r_end r) (r_num r) (r_per r) (r_mass r) (r_start_pos r) (r_end_pos r) (r_prev r) None.

(** release.py:938-956 (prepare_for_model_run): the prepared release, the triangles and
    their weights. *)
Definition poly_prepare {P} (W : world P) (r : release) (fs : list (feat P)) (ts : Z) : res (release * list tri * list Q) :=
  do r <- prepare (match r_prep r with Some _ => poly_rewind r | None => r end) ts;
  do _ <- mapM (fun f => check_poly W (f_poly f)) fs;
  do ws <- match thicks_of fs with
           | Some _ => do d <- compute_distribution W fs; Ok (Some (map Some d))
           | None => Ok (weights_of fs)
           end;
  do tw <- polys_as_tris W (map f_poly fs) ws;
  Ok (r, fst tw, snd tw).

(** ** The elements *)

(** geo_routines.py:100-117 (random_pt_in_tri), of the draws u and v (R and S there). *)
Definition random_pt (t : tri) (u v : Q) : qpt :=
  let '((x0, y0), (x1, y1), (x2, y2)) := t in
  let '(u, v) := if Qle_bool 1 (u + v) then (1 - u, 1 - v)%Q else (u, v) in
  ((x0 + u * (x1 - x0) + v * (x2 - x0))%Q, (y0 + u * (y1 - y0) + v * (y2 - y0))%Q).

(** numpy.random.choice with probabilities: refuses negative ones and a sum that is not
    1 within the root of the machine epsilon, 2^-26. *)
Definition choice_ok (ws : list Q) : bool :=
  forallb (fun w => Qle_bool 0 w) ws && Qle_bool (Qabs (qsum ws - 1)) (1 # 67108864).

(** release.py:958-977 (initialize_elements); a draw is the index of a triangle that
    numpy.random.choice picks, and two numbers. *)
Definition init_poly (mass : Q) (ts : list tri) (ws : list Q) (draws : list (nat * Q * Q)) : res (list elem) :=
  if negb (choice_ok ws) then Raise ValueErr
  else mapM (fun '(i, u, v) =>
         do t <- py_get ts (Z.of_nat i);
         let p := random_pt t u v in
         Ok (mkElem [fst p; snd p; 0%Q] mass mass)) draws.

(** spill.py:431-464 for a polygon release. *)
Definition poly_step (s : spill) (ts : list tri) (ws : list Q) (draws : list (nat * Q * Q)) (t1 : Z) : res (spill * list elem) :=
  if negb (s_on s) then Ok (s, [])
  else
    do e <- after_time (s_rel s) t1;
    let n := e - s_count s in
    if n <=? 0 then Ok (s, [])
    else do new <- init_poly (match r_prep (s_rel s) with Some p => p_mass p | None => 0%Q end) ts ws (firstn (Z.to_nat n) draws);
         Ok (mkSpill (s_on s) (s_rel s) (s_count s + n), new).

(** ** Grids *)

Record box := mkBox { b_lon0 : Q; b_lat0 : Q; b_lon1 : Q; b_lat1 : Q }.

(** The nearest integer of a root, halves to the even one, for q >= 0. *)
Definition round_sqrt (q : Q) : Z :=
  let n := Z.sqrt (Qfloor q) in
  let h := ((inject_Z n + (1 # 2)) * (inject_Z n + (1 # 2)))%Q in
  if Qltb q h then n else if Qltb h q then n + 1 else if Z.even n then n else n + 1.

(** release.py:1135-1149 (_compute_resolution); [cosine] is the cosine of the mean
    latitude.  The first quotient, avg^2 / (sqrt(h/w) * avg), is written as the root of
    avg^2 * w / h with the sign of avg; avg is an integer.  Python's division by zero
    raises, NumPy's gives infinity (w = 0 < h: the first quotient is 0) or NaN (w = h =
    0, also avg = w = 0: round raises ValueError). *)
Definition compute_resolution (b : box) (cosine : Q) (avg : Z) : res (Z * Z) :=
  let w := (Qabs (b_lon1 b - b_lon0 b) * cosine)%Q in
  let h := Qabs (b_lat1 b - b_lat0 b) in
  if Qeq_bool w 0 && (Qeq_bool h 0 || (avg =? 0)) then Raise ValueErr
  else if Qeq_bool h 0 || (avg =? 0) then Raise ZeroDivErr
  else
    let rx := if Qeq_bool w 0 then 0 else Z.sgn avg * round_sqrt (inject_Z (avg * avg) * w / h)%Q in
    if rx =? 0 then Raise ZeroDivErr
    else Ok (rx, np_round (inject_Z (avg * avg) / inject_Z rx)%Q).

(** release.py:1033-1073 (GridRelease.__init__): a pair is taken as it is, a single
    integer is the average resolution. *)
Definition new_grid (b : box) (cosine : Q) (resolution : Z + Z * Z) : res (Z * Z) :=
  match resolution with
  | inr p => Ok p
  | inl a => compute_resolution b cosine a
  end.

(** release.py:1074-1083 (num_elements) and 137-213: the release of a grid; the number
    of elements of the base class is not used. *)
Definition grid_rel (rt : Z) (res_ : Z * Z) (mass : Q) : release :=
  mkRel false rt None (Some (fst res_ * snd res_)) None (clip_mass mass) [] None 0 None.

(** release.py:1151-1159 (_compute_grid_points); linspace refuses negative numbers. *)
Definition grid_points (b : box) (res_ : Z * Z) : res (list (list Q)) :=
  let '(rx, ry) := res_ in
  if (rx <? 0) || (ry <? 0) then Raise ValueErr
  else Ok (concat (map (fun lat => map (fun lon => [lon; lat; 0%Q]) (linspace (b_lon0 b) (b_lon1 b) (Z.to_nat rx)))
                    (linspace (b_lat0 b) (b_lat1 b) (Z.to_nat ry)))).

(** release.py:1085-1097 (num_elements_after_time). *)
Definition grid_after (r : release) (t : Z) : Z :=
  match r_prep r with
  | None => 0
  | Some _ => if t <? r_time r then 0 else match r_num r with Some n => n | None => 0 end
  end.

(** release.py:1099-1131 (initialize_elements) within spill.py:431-464.  A slice that is
    not as long as the positions is a ValueError, but one row is broadcast. *)
Definition grid_step (b : box) (res_ : Z * Z) (s : spill) (t1 : Z) : res (spill * list elem) :=
  if negb (s_on s) then Ok (s, [])
  else
    let n := grid_after (s_rel s) t1 - s_count s in
    if n <=? 0 then Ok (s, [])
    else
      do ps <- grid_points b res_;
      let mass := match r_prep (s_rel s) with Some p => p_mass p | None => 0%Q end in
      do rows <- match ps with
                 | [p] => Ok (repeat p (Z.to_nat n))
                 | _ => if Nat.eqb (length ps) (Z.to_nat n) then Ok ps else Raise ValueErr
                 end;
      Ok (mkSpill (s_on s) (s_rel s) (s_count s + n), map (fun p => mkElem p mass mass) rows).

(** ** NESDIS files *)

(** str.lower, of ASCII. *)
Definition lower (s : str) : str := map (fun c => if (65 <=? c) && (c <=? 90) then c + 32 else c) s.

(** A record of the file: the geometry; the time that DATE and TIME give (None: one of
    them is missing or empty, Some None: they can not be read); the property OILTYPE
    (None: missing, Some None: null). *)
Record nrec (P : Type) := mkNrec { n_poly : P; n_time : option (option Z); n_oil : option (option str) }.
Arguments mkNrec {P}. Arguments n_poly {P}. Arguments n_time {P}. Arguments n_oil {P}.

(** release.py:1267-1286 (load_nesdis): the features and their times; [rt] is the time
    given or now. *)
Fixpoint load_nesdis {P} (rt : Z) (l : list (nrec P)) : res (list (feat P * Z)) :=
  match l with
  | [] => Ok []
  | x :: r =>
      let rt := match n_time x with Some (Some t) => t | _ => rt end in
      do th <- match n_oil x with
               | Some None => Raise AttrErr
               | Some (Some s) => Ok (if seqb (lower s) (lit "thick"%string) then (50 # 1000000)%Q else (5 # 1000000)%Q)
               | None => Ok (5 # 1000000)%Q
               end;
      do rest <- load_nesdis rt r;
      Ok ((mkFeat (n_poly x) None (Some th), rt) :: rest)
  end.

(** release.py:1216-1256 (NESDISRelease.__init__) of a file: the release and the
    features; num and per are the numbers given. *)
Definition new_nesdis {P} (file : list (nrec P)) (now : Z) (given : option Z) (num per : option Z) (mass : Q)
    : res (release * list (feat P)) :=
  do fs <- load_nesdis (match given with Some t => t | None => now end) file;
  match fs with
  | [] => Raise IndexErr
  | (_, t) :: _ =>
      do r <- new_release false t num per (Some t) mass [] None;
      Ok (r, map fst fs)
  end.

(** ** The time zone of a release *)

(** release.py:223-242 (timezone_offset setter): the release with its offset (None: no
    time zone), and an offset in microseconds.  The times are shifted one after the
    other; a release without an end gives its time, which is already shifted, as its
    end (325-330). *)
Definition set_zone (r : release) (old new : option Z) : res (release * option Z) :=
  match old, new with
  | Some a, Some b =>
      let off := b - a in
      let rt := r_time r + off in
      let r1 := mkRel (r_line r) rt (r_end r) (r_num r) (r_per r) (r_mass r) (r_start_pos r) (r_end_pos r) (r_prev r) (r_prep r) in
      do e <- check_end rt (Some (end_time r1 + off));
      Ok (mkRel (r_line r) rt e (r_num r) (r_per r) (r_mass r) (r_start_pos r) (r_end_pos r) (r_prev r) (r_prep r), new)
  | _, _ => Ok (r, new)
  end.
