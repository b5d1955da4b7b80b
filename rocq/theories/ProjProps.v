(** * Properties C51 and C59: projections *)
From Verif Require Import Py ProjModel ProjSpec ProjProofs.
Open Scope Q_scope.

(** C51. A pixel turned into lon/lat (its centre) and back is the same pixel; a
    point turned into its pixel and back moves by at most half a pixel; real
    pixel coordinates convert back exactly. *)
Theorem C51_pixel_round_trip :
  forall p, invertible p ->
    (forall z, to_pixel_int p (to_lonlat_int p z) = z) /\
    (forall c, let c' := to_lonlat_int p (to_pixel_int p c) in
       Qabs.Qabs (fst c' - fst c) <= (1#2) / Qabs.Qabs (p_sx p) /\
       Qabs.Qabs (snd c' - snd c) <= (1#2) / Qabs.Qabs (p_sy p)) /\
    (forall c, pt_eq (to_lonlat p (to_pixel p c)) c /\ pt_eq (to_pixel p (to_lonlat p c)) c).
Proof.
  exact (fun p H => conj (fun z => int_round p z H)
                   (conj (fun c => point_round p c H) (fun c => float_round p c H))).
Qed.
Print Assumptions C51_pixel_round_trip.

(** C51. Setting the scale for a proper box and a positive image size gives an
    invertible projection whose image shows the whole box, north up. *)
Theorem C51_scale_shows_box :
  forall b w h, proper b -> 0 < w -> 0 < h ->
    shows_box (geo_scale b w h) b w h /\
    (forall k, 0 < k -> shows_box (flat_scale k b w h) b w h) /\
    shows_box (regular_scale b w h) b w h.
Proof.
  exact (fun b w h Hb Hw Hh => conj (geo_shows b w h Hb Hw Hh)
     (conj (fun k Hk => flat_shows k b w h Hb Hk Hw Hh) (regular_shows b w h Hb Hw Hh))).
Qed.
Print Assumptions C51_scale_shows_box.

(** C51. The image is used in full: the box fills it in one direction at least,
    in both for a regular grid, and the two axes have the same scale (for the
    flat earth, with degrees of longitude shortened by [k]). *)
Theorem C51_scale_fills_image :
  forall b w h k, proper b -> 0 < k ->
  (fills_width (geo_scale b w h) b w \/ fills_height (geo_scale b w h) b h) /\
  p_sx (geo_scale b w h) == - p_sy (geo_scale b w h) /\
  (fills_width (flat_scale k b w h) b w \/ fills_height (flat_scale k b w h) b h) /\
  p_sx (flat_scale k b w h) == k * - p_sy (flat_scale k b w h) /\
  (fills_width (regular_scale b w h) b w /\ fills_height (regular_scale b w h) b h).
Proof. exact scale_fills_image. Qed.
Print Assumptions C51_scale_fills_image.

Theorem C51_shown_box_is_invertible :
  forall p b w h, shows_box p b w h -> invertible p.
Proof. exact shows_invertible. Qed.
Print Assumptions C51_shown_box_is_invertible.

Definition box_ex : bbox := mkBox (-10) 20 30 40.
Example C51_meets : proper box_ex /\ invertible (flat_scale (7#8) box_ex 600 300) /\
  to_pixel_int (flat_scale (7#8) box_ex 600 300) (-9, 33) = (50, 105)%Z.
Proof.
  split; [split; reflexivity|]. split; [split; discriminate|]. vm_compute. reflexivity.
Qed.

(** C51. Rectangular grids with strictly increasing axes: every pixel of the
    grid round-trips. *)
Theorem C51_rectangular_round_trip :
  forall lons lats px py, axis lons -> axis lats ->
    (0 <= px <= Z.of_nat (length lons) - 1)%Z -> (0 <= py <= Z.of_nat (length lats) - 1)%Z ->
    rect_pixel_x lons (rect_lon lons px) = px /\ rect_pixel_y lats (rect_lat lats py) = py.
Proof. exact (fun lons lats px py Hx Hy Hpx Hpy => conj (rect_round_x lons px Hx Hpx) (rect_round_y lats py Hy Hpy)). Qed.
Print Assumptions C51_rectangular_round_trip.

Example C51_rect_meets : axis [-5; 1; 2; 10] /\ rect_lon [-5; 1; 2; 10] 2 == 6 /\
  rect_pixel_y [-5; 1; 2; 10] (-4) = 2%Z.
Proof. repeat split; vm_compute; auto. Qed.

(** C51. Metres to degrees and degrees to metres are inverse. *)
Theorem C51_meters_round_trip :
  forall k a b c, ~ k == 0 ->
  let t1 := meters_to_lonlat k (lonlat_to_meters k (a, b, c)) in
  let t2 := lonlat_to_meters k (meters_to_lonlat k (a, b, c)) in
  (fst (fst t1) == a /\ snd (fst t1) == b /\ snd t1 = c) /\
  (fst (fst t2) == a /\ snd (fst t2) == b /\ snd t2 = c).
Proof. exact meters_round. Qed.
Print Assumptions C51_meters_round_trip.

(** C59. "A conversion leaves the array it is given unchanged" is false:
    to_lonlat overwrites a float array with its result. *)
Theorem C59_to_lonlat_keeps_input_refuted :
  exists p l, invertible p /\ snd (to_lonlat_call p (FloatArray l)) <> FloatArray l.
Proof.
  exists (mkProj 0 0 2 (-2) 1 1), [(3, 3)]. split; [split; discriminate|]. vm_compute. discriminate.
Qed.
Print Assumptions C59_to_lonlat_keeps_input_refuted.

(** Nor is it true of RectangularGridProjection.to_pixel, which clips the
    caller's positions. *)
Theorem C59_rect_to_pixel_keeps_input_refuted :
  exists lons lats l, axis lons /\ axis lats /\ snd (rect_to_pixel_call lons lats true l) <> l.
Proof.
  exists [0; 1], [0; 1], [(5, 5)]. repeat split; try (vm_compute; auto). discriminate.
Qed.
Print Assumptions C59_rect_to_pixel_keeps_input_refuted.

(** C59, what holds: integer arrays and other sequences are not changed, and
    to_pixel of the other projections changes nothing. *)
Theorem C59_keeps_input_partial :
  (forall p a, (forall l, a <> FloatArray l) -> snd (to_lonlat_call p a) = a) /\
  (forall p l, snd (to_pixel_call p l) = l) /\
  (forall lons lats l, snd (rect_to_pixel_call lons lats false l) = l).
Proof. exact (conj call_keeps (conj (fun p l => eq_refl) (fun lons lats l => eq_refl))). Qed.
Print Assumptions C59_keeps_input_partial.
Example C59_meets : forall l, IntArray [(3, 4)%Z] <> FloatArray l.
Proof. discriminate. Qed.
