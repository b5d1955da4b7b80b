(** * Surface concentration, hulls and contours

    Models gnome/utilities/surface_concentration.py and gnome/utilities/hull.py
    (calculate_hull, calculate_contours).

    Coordinates, masses and values are rational numbers; ages are whole seconds.
    Taken from outside and left open: the kernel density estimate of SciPy
    (gaussian_kde, [None] for its LinAlgError), the cosine of a latitude in degrees, and
    the geometry of shapely and geopandas (concave hull, buffer, union). *)
From Coq Require Import QArith.
From Verif Require Import Py.
Open Scope Z_scope.

(** ** Surface concentration *)

(** The rows of the arrays that are read: positions, mass, age, spill_num *)
Record elem := Elem { e_lon : Q; e_lat : Q; e_mass : Q; e_age : Z; e_spill : Z }.

Fixpoint qsum (l : list Q) : Q := match l with [] => 0%Q | x :: r => (x + qsum r)%Q end.
Definition qmin2 (a b : Q) : Q := if Qle_bool a b then a else b.
Fixpoint qmin (x : Q) (l : list Q) : Q := match l with [] => x | y :: r => qmin (qmin2 x y) r end.
(** numpy.unique: only the number of values is used *)
Definition qmem (x : Q) (l : list Q) : bool := existsb (Qeq_bool x) l.
Fixpoint distinct (l : list Q) : nat :=
  match l with [] => O | x :: r => if qmem x r then distinct r else S (distinct r) end.
Definition zmin (x : Z) (l : list Z) : Z := fold_left Z.min l x.
Definition zmax (x : Z) (l : list Z) : Z := fold_left Z.max l x.

Section Kde.
(** numpy.cos of a latitude in degrees *)
Variable cosd : Q -> Q.
(** gaussian_kde(xy, weights), to be called with points *)
Variable kde : list (Q * Q) -> option (list Q) -> option (Q * Q -> Q).

(** surface_concentration.py:76-87: the kernel of the elements [k], as a function of
    an element; metres from the lower left corner *)
Definition xy (lon0 lat0 : Q) (e : elem) : Q * Q :=
  (((e_lon e - lon0) * 111325 * cosd lat0)%Q, ((e_lat e - lat0) * 111325)%Q).
Definition weights (k : list elem) : option (list Q) :=
  if Nat.ltb 1 (distinct (map e_mass k))
  then Some (map (fun e => e_mass e / qsum (map e_mass k))%Q k) else None.
Definition kernel (k : list elem) : option (elem -> Q) :=
  match k with
  | [] => None
  | e0 :: r =>
      let lon0 := qmin (e_lon e0) (map e_lon r) in
      let lat0 := qmin (e_lat e0) (map e_lat r) in
      match kde (map (xy lon0 lat0) k) (weights k) with
      | Some f => Some (fun e => f (xy lon0 lat0 e))
      | None => None
      end
  end.

Definition bin_length : Z := 1 * 3600.

(** surface_concentration.py:61-94: one round of the loop for the bin that starts at
    [t]; [c] has a number for each element of the spill [l]. *)
Definition round (l : list elem) (t : Z) (c : list Q) : list Q :=
  let k := filter (fun e => e_age e <? t + bin_length) l in
  if Nat.ltb 2 (distinct (map e_lat k)) && Nat.ltb 2 (distinct (map e_lon k)) then
    match kernel k with
    | None => c
    | Some f =>
        let total := qsum (map e_mass k) in
        map (fun x => let '(e, old) := x in
               if (e_age e <? t + bin_length) && (t <=? e_age e)
               then (if Qle_bool total 0 then f e * inject_Z (Z.of_nat (length k)) else f e * total)%Q
               else old) (combine l c)
    end
  else c.

(** surface_concentration.py:60-95: while t <= max_age, with a bound on the rounds *)
Fixpoint bins (fuel : nat) (l : list elem) (max_age t : Z) (c : list Q) : option (list Q) :=
  match fuel with
  | O => None
  | S n => if t <=? max_age then bins n l max_age (t + bin_length) (round l t c) else Some c
  end.
Definition one_spill (fuel : nat) (l : list elem) : option (list Q) :=
  match l with
  | [] => Some []
  | e :: r => bins fuel l (zmax (e_age e) (map e_age r)) (zmin (e_age e) (map e_age r)) (map (fun _ => 0%Q) l)
  end.

(** surface_concentration.py:97: sc['surface_concentration'][sid] = c *)
Fixpoint scatter (s : Z) (l : list elem) (old c : list Q) : list Q :=
  match l, old with
  | e :: l', o :: old' =>
      if e_spill e =? s then match c with x :: c' => x :: scatter s l' old' c' | [] => o :: scatter s l' old' [] end
      else o :: scatter s l' old' c
  | _, _ => []
  end.
Fixpoint spills (fuel : nat) (l : list elem) (ss : list Z) (conc : list Q) : option (list Q) :=
  match ss with
  | [] => Some conc
  | s :: r =>
      match one_spill fuel (filter (fun e => e_spill e =? s) l) with
      | Some c => spills fuel l r (scatter s l conc c)
      | None => None
      end
  end.
(** surface_concentration.py:31-97: surface_conc_kde *)
Definition surface_conc_kde (fuel : nat) (l : list elem) : option (list Q) :=
  spills fuel l (zsort (nodup Z.eq_dec (map e_spill l))) (map (fun _ => 0%Q) l).

(** surface_concentration.py:13-28: the algorithm is None or '' (0), 'kde' (1) or another
    text.  The result is the new array, [None] if it is not set. *)
Definition compute (fuel : nat) (l : list elem) (algorithm : Z) : option (res (option (list Q))) :=
  if (match l with [] => true | _ => false end) || (algorithm =? 0) then Some (Ok None)
  else if algorithm =? 1 then
    match surface_conc_kde fuel l with Some c => Some (Ok (Some c)) | None => None end
  else Some (Raise ValueErr).
End Kde.

(** ** Hulls and contours *)

Section Geometry.
(** Positions and polygons *)
Variables P H : Type.
(** What concave_hull gives for some points: a polygon or several, a point or a
    line, something else *)
Inductive geom := Poly (h : H) | Thin (h : H) | Other.
Variable concave_hull : list P -> geom.
(** hull.py:11-18: a metre around a point or line *)
Variable buffer : H -> H.
Variable union_all : list H -> H.

(** hull.py:55-61, 71-76, 151-158 *)
Definition hull_of (ps : list P) : option H :=
  match concave_hull ps with Poly h => Some h | Thin h => Some (buffer h) | Other => None end.

(** pandas unique: in the order in which they first appear *)
Fixpoint uniq_from (seen : list Z) (l : list Z) : list Z :=
  match l with
  | [] => []
  | x :: r => if zmem x seen then uniq_from seen r else x :: uniq_from (x :: seen) r
  end.

(** hull.py:21-82: calculate_hull for the containers [scs] (one container is a list of
    one).  The result has the hulls with their spill numbers, [None] for all of them. *)
Definition calculate_hull (scs : list (list (P * Z))) (union_results separate_by_spill : bool) : list (H * option Z) :=
  let all := concat scs in
  match all with
  | [] => []
  | _ =>
      let found :=
        if separate_by_spill then
          concat (map (fun s => match hull_of (map fst (filter (fun x => snd x =? s) all)) with
                                | Some h => [(h, Some s)] | None => [] end)
                      (uniq_from [] (map snd all)))
        else match hull_of (map fst all) with Some h => [(h, None)] | None => [] end in
      if union_results then [(union_all (map fst found), None)] else found
  end.

(** hull.py:84-104: an entry of the list of cutoffs; [None] for a key that is missing *)
Record cutoff := Cutoff { c_cut : Q; c_id : option Z; c_color : option Z; c_label : option Z }.
Record contour := Contour { k_spill : Z; k_cut : Q; k_id : Z; k_color : Z; k_label : Z; k_hull : H }.

(** A container: positions with their spill number, and the columns that there are
    (mass, age, status codes, and some of the others) by name *)
Record container := Container { s_rows : list (P * Z); s_cols : list (Z * list Q) }.

(** hull.py:134: the rows of a spill with the value of the column *)
Definition rows_of (sc : container) (s : Z) (col : list Q) : list (P * Q) :=
  map (fun x => (fst (fst x), snd x)) (filter (fun x => snd (fst x) =? s) (combine (s_rows sc) col)).

(** hull.py:137-148: the rows of the cutoff number [i] of [cs]; [prev] is the value of
    the one before *)
Definition chosen (n i : nat) (prev cut : Q) (rows : list (P * Q)) : list (P * Q) :=
  if Nat.eqb i 0 then filter (fun x => Qle_bool (snd x) cut) rows
  else if Nat.eqb i (n - 1) then filter (fun x => Qle_bool prev (snd x)) rows
  else filter (fun x => Qle_bool prev (snd x)) (filter (fun x => Qle_bool (snd x) cut) rows).

Definition key {A} (o : option A) : res A := match o with Some x => Ok x | None => Raise KeyErr end.

(** hull.py:137-164: the loop over the cutoffs of a spill *)
Fixpoint loop (s : Z) (rows : list (P * Q)) (n i : nat) (prev : Q) (cs : list cutoff) : res (list contour) :=
  match cs with
  | [] => Ok []
  | c :: r =>
      let set := chosen n i prev (c_cut c) rows in
      do here <- match set with
                 | [] => Ok []
                 | _ => match hull_of (map fst set) with
                        | None => Ok []
                        | Some h => do a <- key (c_id c); do b <- key (c_color c); do l <- key (c_label c);
                                    Ok [Contour s (c_cut c) a b l h]
                        end
                 end;
      do rest <- loop s rows n (S i) (c_cut c) r;
      Ok (here ++ rest)
  end.

(** hull.py:107-165: calculate_contours; [structure] has for each spill the column and
    the cutoffs.  A column that is not there raises KeyError when it is looked at. *)
Fixpoint over_spills (sc : container) (structure : list (Z * (Z * list cutoff))) : res (list contour) :=
  match structure with
  | [] => Ok []
  | (s, (param, cs)) :: r =>
      do here <- match cs with
                 | [] => Ok []
                 | _ => do col <- key (dget param (s_cols sc));
                        loop s (rows_of sc s col) (length cs) 0 0%Q cs
                 end;
      do rest <- over_spills sc r;
      Ok (here ++ rest)
  end.
Definition calculate_contours (sc : container) (structure : list (Z * (Z * list cutoff))) : res (list contour) :=
  match s_rows sc with [] => Ok [] | _ => over_spills sc structure end.
End Geometry.
