(** * Hulls, contours and the JSON output of spills

    Models gnome/utilities/hull.py: calculate_hull (21-82), calculate_contours (107-165);
    gnome/outputters/json.py: SpillJsonOutput.generate_cutoff_struct (116-145), the same in
    outputters/erma_data_package.py (905-933), and the records, bounds and contours of SpillJsonOutput.write_output
    (147-274).

    An element is a position, a spill number and values by column; positions and values are integers (only their order is
    used).  concave_hull, buffer_hull (11-18) and union_all are arbitrary functions of what they are given.  A geometry is
    a polygon, a multipolygon, a point, a line or another.  A missing column is a KeyErr, a list that is too short an
    IndexErr, a missing method an AttributeErr.  In line 239 a set of small integers is taken in the order of first
    appearance.  Not modelled: NaN, rounding of the values (166-169), additional data, the GeoDataFrame of line 68, the
    base class (whether a step is written). *)

From Coq Require Import ZArith List Bool Lia.
From Verif Require Import Py.
Import ListNotations.
Open Scope Z_scope.

Inductive col := Mass | SurfConc | Age | Viscosity | Depth | Windage.
Record el := El { e_pos : Z; e_num : Z; e_val : col -> Z }.

Inductive kind := Polygon | MultiPolygon | Pt | Line | Else.
Record geom := Geom { g_kind : kind; g_id : Z }.
Record shapes := Shapes { s_hull : list Z -> geom; s_buffer : geom -> geom; s_union : list geom -> geom }.

(** hull.py:55-61 (and 71-76, 152-158): a hull that is a point or a line is buffered, only polygons are kept. *)
Definition area (s : shapes) (ps : list Z) : option geom :=
  let h := s_hull s ps in
  let h1 := match g_kind h with Pt | Line => s_buffer s h | _ => h end in
  match g_kind h1 with Polygon | MultiPolygon => Some h1 | _ => None end.

(** pandas unique: in the order of first appearance. *)
Fixpoint uniq (seen l : list Z) : list Z :=
  match l with
  | [] => []
  | x :: t => if zmem x seen then uniq seen t else x :: uniq (x :: seen) t
  end.

Definition of_spill (n : Z) (els : list el) : list el := filter (fun e => e_num e =? n) els.

(** hull.py:51-63 *)
Fixpoint spill_hulls (s : shapes) (els : list el) (nums : list Z) : list (geom * option Z) :=
  match nums with
  | [] => []
  | n :: t => match area s (map e_pos (of_spill n els)) with
              | Some g => (g, Some n) :: spill_hulls s els t
              | None => spill_hulls s els t
              end
  end.

(** hull.py:21-82: hulls and spill numbers; several containers are put together (27-36). *)
Definition calculate_hull (s : shapes) (containers : list (list el)) (union separate : bool) : list geom * list (option Z) :=
  let els := concat containers in
  match els with
  | [] => ([], [])
  | _ :: _ =>
      let found := if separate then spill_hulls s els (uniq [] (map e_num els))
                   else match area s (map e_pos els) with Some g => [(g, None)] | None => [] end in
      if union then ([s_union s (map fst found)], [None]) else (map fst found, map snd found)
  end.

(** json.py:139-142 *)
Record cut := Cut { c_cut : Z; c_id : Z; c_color : Z; c_label : Z }.
Record style := Style { t_param : col; t_cuts : list cut }.
Record contour := Contour { n_spill : Z; n_cut : cut; n_geom : geom }.

(** hull.py:137-148: the elements of a spill that a cutoff is for; prev is the cutoff before. *)
Definition in_bin (prev : option Z) (c : cut) (rest : list cut) (x : Z) : bool :=
  match prev with
  | None => x <=? c_cut c
  | Some p => match rest with [] => p <=? x | _ :: _ => (x <=? c_cut c) && (p <=? x) end
  end.

(** hull.py:137-164 *)
Fixpoint spill_contours (s : shapes) (n : Z) (p : col) (els : list el) (prev : option Z) (cuts : list cut) : list contour :=
  match cuts with
  | [] => []
  | c :: rest =>
      let these := filter (fun e => in_bin prev c rest (e_val e p)) els in
      let more := spill_contours s n p els (Some (c_cut c)) rest in
      match these with
      | [] => more
      | _ :: _ => match area s (map e_pos these) with Some g => Contour n c g :: more | None => more end
      end
  end.

(** hull.py:116-130: the columns of the frame; frac_water and density cannot be asked for. *)
Definition columns (surf visc : bool) (p : col) : bool :=
  match p with Mass | Age => true | SurfConc => surf | Viscosity => visc | Depth | Windage => false end.

(** hull.py:133-164 *)
Fixpoint all_contours (s : shapes) (has : col -> bool) (els : list el) (cs : list (Z * style)) : res (list contour) :=
  match cs with
  | [] => Ok []
  | (n, st) :: t =>
      do _ <- (match t_cuts st with [] => Ok tt | _ :: _ => if has (t_param st) then Ok tt else Raise KeyErr end);
      do r <- all_contours s has els t;
      Ok (spill_contours s n (t_param st) (of_spill n els) None (t_cuts st) ++ r)
  end.

(** hull.py:107-165 *)
Definition calculate_contours (s : shapes) (surf visc : bool) (els : list el) (cs : list (Z * style)) : res (list contour) :=
  match cs, els with
  | [], _ | _, [] => Ok []
  | _, _ => all_contours s (columns surf visc) els cs
  end.

(** The appearance of a spill: what is shown (None is not supported), whether contours are wanted, the colour map. *)
Record look := Look { l_data : option col; l_contours : bool; l_numbers : list Z; l_cutoffs : list Z; l_labels : list Z; l_colors : list Z }.

(** json.py:136-142 *)
Fixpoint cuts_from (idx : nat) (vals labels colors : list Z) : res (list cut) :=
  match vals with
  | [] => Ok []
  | v :: t =>
      match nth_error labels idx with
      | None => Raise IndexErr
      | Some lb => match nth_error colors idx with
                   | None => Raise IndexErr
                   | Some co => do r <- cuts_from (S idx) t labels colors; Ok (Cut v (Z.of_nat idx) co lb :: r)
                   end
      end
  end.

(** json.py:119-144, one spill. *)
Definition style_of (k : look) : res style :=
  match l_data k with
  | None => Raise ValueErr
  | Some p => match rev (l_numbers k) with
              | [] => Raise IndexErr
              | m :: _ => do cs <- cuts_from 0 (l_cutoffs k ++ [m]) (l_labels k) (l_colors k); Ok (Style p cs)
              end
  end.

(** json.py:116-145: a spill without appearance or colour map is None; any: erma_data_package.py:908 does not ask whether
    contours are wanted. *)
Fixpoint cutoff_struct (any : bool) (idx : Z) (spills : list (option look)) : res (list (Z * style)) :=
  match spills with
  | [] => Ok []
  | None :: t => cutoff_struct any (idx + 1) t
  | Some k :: t => if any || l_contours k
                   then do st <- style_of k; do r <- cutoff_struct any (idx + 1) t; Ok ((idx, st) :: r)
                   else cutoff_struct any (idx + 1) t
  end.

(** A container as the cache returns it. *)
Record container := Container { k_uncertain : bool; k_els : list el; k_surf : bool; k_visc : bool; k_time : Z }.

(** json.py:180-186: the columns of a record. *)
Record rec := Rec { r_pos : list Z; r_mass : list Z; r_num : list Z; r_length : Z }.
Definition record_of (els : list el) : rec :=
  Rec (map e_pos els) (map (fun e => e_val e Mass) els) (map e_num els) (Z.of_nat (length els)).

(** json.py:239-255: the contours by spill. *)
Definition by_spill (l : list contour) : list (Z * list contour) :=
  map (fun n => (n, filter (fun c => n_spill c =? n) l)) (uniq [] (map n_spill l)).

Record output := Output {
  o_time : Z; o_certain : list rec; o_contours : list (list (Z * list contour)); o_uncertain : list rec;
  o_bounds : list (list geom * list (option Z)) }.

(** json.py:164-259 *)
Fixpoint collect (s : shapes) (bounds : bool) (cs : list (Z * style)) (all l : list container) (out : output) : res output :=
  match l with
  | [] => Ok out
  | k :: t =>
      let r := record_of (k_els k) in
      if k_uncertain k then
        collect s bounds cs all t
          (Output (k_time k) (o_certain out) (o_contours out) (o_uncertain out ++ [r])
             (if bounds then o_bounds out ++ [calculate_hull s (map k_els all) true true] else o_bounds out))
      else
        do c <- calculate_contours s (k_surf k) (k_visc k) (k_els k) cs;
        collect s bounds cs all t
          (Output (k_time k) (o_certain out ++ [r]) (o_contours out ++ [by_spill c]) (o_uncertain out) (o_bounds out))
  end.

(** json.py:161-274: the class has no method output_to_file (271). *)
Definition write_output (s : shapes) (bounds dir : bool) (spills : list (option look)) (l : list container) : res output :=
  do cs <- cutoff_struct false 0 spills;
  do out <- collect s bounds cs l l (Output 0 [] [] [] []);
  if dir then Raise AttrErr else Ok out.
