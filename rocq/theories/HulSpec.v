(** * What hulls, contours and the JSON output of spills should be *)

From Coq Require Import ZArith List Bool Lia.
From Verif Require Import Py HulModel.
Import ListNotations.
Open Scope Z_scope.

(** The i-th of n cutoffs is for the values from the cutoff before it, if any, to itself, if it is not the last of several. *)
Definition for_cutoff (cuts : list Z) (i : nat) (x : Z) : Prop :=
  (i < length cuts)%nat /\
  match i with O => True | S j => exists p, nth_error cuts j = Some p /\ p <= x end /\
  ((i <> O /\ S i = length cuts) \/ exists c, nth_error cuts i = Some c /\ x <= c).

Definition for_cutoff_b (cuts : list Z) (i : nat) (x : Z) : bool :=
  (i <? length cuts)%nat &&
  match i with O => true | S j => match nth_error cuts j with Some p => p <=? x | None => false end end &&
  (negb (i =? 0)%nat && (S i =? length cuts)%nat || match nth_error cuts i with Some c => x <=? c | None => false end).

Definition increasing (l : list Z) : Prop :=
  forall i j a b, (i < j)%nat -> nth_error l i = Some a -> nth_error l j = Some b -> a < b.

Definition elements_of (n : Z) (els : list el) : list el := filter (fun e => e_num e =? n) els.

(** The contour of a spill for its i-th cutoff: around the elements of the spill with such a value, if there are any and
    their hull has an area. *)
Definition contour_at (s : shapes) (els : list el) (n : Z) (st : style) (i : nat) : list contour :=
  match nth_error (t_cuts st) i with
  | None => []
  | Some c =>
      match filter (fun e => for_cutoff_b (map c_cut (t_cuts st)) i (e_val e (t_param st))) (elements_of n els) with
      | [] => []
      | these => match area s (map e_pos these) with Some g => [Contour n c g] | None => [] end
      end
  end.
Definition contours_of (s : shapes) (els : list el) (nst : Z * style) : list contour :=
  flat_map (contour_at s els (fst nst) (snd nst)) (seq 0 (length (t_cuts (snd nst)))).

(** The different values in the order they are first seen. *)
Definition firsts (l : list Z) : list Z := fold_left (fun acc x => if zmem x acc then acc else acc ++ [x]) l [].

(** The shape that is drawn around points: their hull if it is a polygon or several, or what the hull is buffered to if it is
    a point or a line and this is a polygon or several. *)
Definition wide (k : kind) : Prop := k = Polygon \/ k = MultiPolygon.
Definition drawn (s : shapes) (ps : list Z) (g : geom) : Prop :=
  wide (g_kind g) /\
  (g = s_hull s ps \/ ((g_kind (s_hull s ps) = Pt \/ g_kind (s_hull s ps) = Line) /\ g = s_buffer s (s_hull s ps))).

(** The hull of a spill, if it has an area. *)
Definition hull_of (s : shapes) (els : list el) (n : Z) : list (geom * option Z) :=
  match area s (map e_pos (elements_of n els)) with Some g => [(g, Some n)] | None => [] end.

(** A spill that shows contours, and a style made from its appearance. *)
Definition wanted (any : bool) (o : option look) (k : look) : Prop := o = Some k /\ (any = true \/ l_contours k = true).
Definition styled (k : look) (st : style) : Prop :=
  l_data k = Some (t_param st) /\
  exists m before, l_numbers k = before ++ [m] /\ map c_cut (t_cuts st) = l_cutoffs k ++ [m] /\
    map c_id (t_cuts st) = map Z.of_nat (seq 0 (S (length (l_cutoffs k)))) /\
    map c_label (t_cuts st) = firstn (S (length (l_cutoffs k))) (l_labels k) /\
    map c_color (t_cuts st) = firstn (S (length (l_cutoffs k))) (l_colors k).
Definition complete (k : look) : Prop :=
  l_data k <> None /\ l_numbers k <> [] /\ (length (l_cutoffs k) < length (l_labels k))%nat /\ (length (l_cutoffs k) < length (l_colors k))%nat.

(** Examples: a hull is a polygon numbered by the sum of its positions. *)
Definition plain : shapes := Shapes (fun ps => Geom Polygon (fold_left Z.add ps 0)) (fun g => g) (fun l => Geom MultiPolygon (fold_left Z.add (map g_id l) 0)).
Definition at_pos (p n m : Z) : el := El p n (fun _ => m).
