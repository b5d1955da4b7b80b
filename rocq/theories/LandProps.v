(** * Properties C30-C34: the land check *)
From Verif Require Import Py LandModel LandSpec LandProofs LandProofs2.

(** C30. The walk ends (it never needs more moves than the longer side of the
    movement: [OutOfFuel] is what it would return if it did), and it inspects
    exactly the pixels of the straight line: its outcome is the first obstacle
    on that line, and the line is a connected path from start to end. *)
Theorem C30_walk_terminates_and_is_straight :
  forall g x0 y0 x1 y1, wf g -> all_small x0 y0 x1 y1 ->
    find_first_pixel g x0 y0 x1 y1 <> OutOfFuel /\
    find_first_pixel g x0 y0 x1 y1 = first_obstacle g x0 y0 x1 y1 /\
    line_geometry x0 y0 x1 y1.
Proof. exact land_walk. Qed.
Print Assumptions C30_walk_terminates_and_is_straight.

(** An island in the middle of a 5 x 4 raster. *)
Definition g_ex : raster :=
  mkRaster 5 4 [0;0;0;0; 0;0;0;0; 0;1;1;0; 0;0;0;0; 0;0;0;0].
Example C30_meets : wf g_ex /\ all_small 0 3 4 (-1) /\
  line 0 3 4 (-1) = [(0, 3); (1, 2); (2, 1); (3, 0); (4, -1)] /\
  find_first_pixel g_ex 0 3 4 (-1) = Hit 1 2 2 1 /\
  line 0 0 5 2 = [(0, 0); (1, 0); (2, 1); (3, 1); (4, 2); (5, 2)].
Proof. repeat split; vm_compute; discriminate || reflexivity. Qed.

(** C31. No hit is reported exactly when no pixel of the line is land and no
    diagonal move goes between two land pixels. *)
Theorem C31_no_land_unnoticed :
  forall g x0 y0 x1 y1, wf g -> all_small x0 y0 x1 y1 ->
   (find_first_pixel g x0 y0 x1 y1 = NoHit <->
    (forall p, In p (line x0 y0 x1 y1) -> is_land g p = false) /\
    (forall k p q, nth_error (line x0 y0 x1 y1) k = Some p ->
                   nth_error (line x0 y0 x1 y1) (S k) = Some q -> ~ squeeze g p q)).
Proof. exact ffp_nohit. Qed.
Print Assumptions C31_no_land_unnoticed.

(** C31. A reported hit is a land pixel.  Either the movement started on land,
    or the previous pixel is a neighbour of the hit pixel, it and everything
    before it is water, and the hit is the next pixel of the line or one of the
    two land pixels the next move would squeeze between. *)
Theorem C31_hit_is_first_land :
  forall g x0 y0 x1 y1 px py hx hy, wf g -> all_small x0 y0 x1 y1 ->
  find_first_pixel g x0 y0 x1 y1 = Hit px py hx hy ->
  is_land g (hx, hy) = true /\
  ((px, py) = (x0, y0) /\ (hx, hy) = (x0, y0) \/
   neighbours (px, py) (hx, hy) /\
   exists k, nth_error (line x0 y0 x1 y1) k = Some (px, py) /\
    (forall j p, (j <= k)%nat -> nth_error (line x0 y0 x1 y1) j = Some p -> is_land g p = false) /\
    (forall j p q, (j < k)%nat -> nth_error (line x0 y0 x1 y1) j = Some p ->
                   nth_error (line x0 y0 x1 y1) (S j) = Some q -> ~ squeeze g p q) /\
    exists q, nth_error (line x0 y0 x1 y1) (S k) = Some q /\
      ((hx, hy) = q \/ (is_land g q = false /\ squeeze g (px, py) q /\ (hx, hy) = (fst q, py)))).
Proof. exact ffp_hit. Qed.
Print Assumptions C31_hit_is_first_land.

(** A hit through a diagonal squeeze, a hit from off the grid, a start on land
    and a movement that misses. *)
Example C31_meets : wf g_ex /\ all_small (-3) 1 9 1 /\
  find_first_pixel g_ex (-3) 1 9 1 = Hit 1 1 2 1 /\
  find_first_pixel g_ex 2 1 4 1 = Hit 2 1 2 1 /\
  find_first_pixel g_ex 0 3 4 3 = NoHit /\
  find_first_pixel (mkRaster 2 2 [0; 1; 1; 0]) 0 0 1 1 = Hit 0 0 1 0.
Proof. repeat split; vm_compute; discriminate || reflexivity. Qed.

(** C32. The check never reads a cell outside the raster's buffer, whatever the
    movement, on or off the grid. *)
Theorem C32_never_reads_outside :
  forall g x0 y0 x1 y1, wf g -> all_small x0 y0 x1 y1 ->
  find_first_pixel g x0 y0 x1 y1 <> BadRead /\ find_first_pixel g x0 y0 x1 y1 <> OutOfFuel.
Proof. exact ffp_total. Qed.
Print Assumptions C32_never_reads_outside.

(** Nor does the layered check, for any list of positive ratios. *)
Theorem C32_layered_never_reads_outside :
  forall ratios g x0 y0 x1 y1, wf g -> all_small x0 y0 x1 y1 -> Forall (fun r => 0 < r) ratios ->
  layered_walk (build_layers g ratios) x0 y0 x1 y1 <> BadRead /\
  layered_walk (build_layers g ratios) x0 y0 x1 y1 <> OutOfFuel.
Proof. exact layered_total. Qed.
Print Assumptions C32_layered_never_reads_outside.

(** The model does distinguish a bad read: a raster whose buffer is too short. *)
Example C32_meets : find_first_pixel (mkRaster 2 2 [0; 0]) 0 0 1 1 = BadRead /\
  wf (mkRaster 2 2 [0; 0; 0; 0]) /\ all_small (-7) 5 1 1 /\ Forall (fun r => 0 < r) [32; 16].
Proof. repeat split; vm_compute; try discriminate; repeat constructor. Qed.

(** C33. "The layered check reports a hit exactly when the full-resolution
    check does" is false: a 48 x 32 raster with one land pixel at (12,16), and
    the movement (0,15) -> (40,17), with the default ratio 16. *)
Definition g_miss : raster :=
  mkRaster 48 32 (map (fun i => if i =? 12 * 32 + 16 then 1 else 0) (zseq 0 1536)).
Theorem C33_layered_agrees_refuted :
  exists g x0 y0 x1 y1 px py hx hy,
    wf g /\ all_small x0 y0 x1 y1 /\ on_grid g (x0, y0) /\ on_grid g (x1, y1) /\
    find_first_pixel g x0 y0 x1 y1 = Hit px py hx hy /\
    layered_walk (build_layers g [16]) x0 y0 x1 y1 = NoHit.
Proof.
  exists g_miss, 0, 15, 40, 17, 11, 16, 12, 16.
  repeat split; vm_compute; discriminate || reflexivity.
Qed.
Print Assumptions C33_layered_agrees_refuted.

(** C33, what holds.  A hit of the layered check is the full-resolution hit;
    and the two checks agree on movements inside one row or one column of
    blocks, in particular on movements along an axis.  Missing for the full
    statement: oblique movements over several blocks, where it is false. *)
Theorem C33_layered_partial :
  forall ratios g x0 y0 x1 y1, wf g -> all_small x0 y0 x1 y1 -> Forall (fun r => 0 < r) ratios ->
    (forall px py hx hy,
       layered_walk (build_layers g ratios) x0 y0 x1 y1 = Hit px py hx hy ->
       find_first_pixel g x0 y0 x1 y1 = Hit px py hx hy) /\
    (straight_in_blocks ratios x0 y0 x1 y1 ->
     layered_walk (build_layers g ratios) x0 y0 x1 y1 = find_first_pixel g x0 y0 x1 y1).
Proof. exact layered_partial. Qed.
Print Assumptions C33_layered_partial.

(** C33, a sufficient condition in terms of the movement alone: every layer's
    line visits the block of the pixel that is hit. *)
Theorem C33_layered_visited_partial :
  forall ratios g x0 y0 x1 y1 px py hx hy,
  wf g -> all_small x0 y0 x1 y1 -> Forall (fun r => 0 < r) ratios ->
  find_first_pixel g x0 y0 x1 y1 = Hit px py hx hy ->
  (forall r, In r ratios ->
     In (hx / r, hy / r) (line (Z.quot x0 r) (Z.quot y0 r) (Z.quot x1 r) (Z.quot y1 r))) ->
  layered_walk (build_layers g ratios) x0 y0 x1 y1 = Hit px py hx hy.
Proof. exact layered_complete. Qed.
Print Assumptions C33_layered_visited_partial.

Example C33_meets : wf g_miss /\ all_small 3 16 40 19 /\ straight_in_blocks [16] 3 16 40 19 /\
  layered_walk (build_layers g_miss [16]) 3 16 40 16 = Hit 11 16 12 16 /\
  layered_walk (build_layers g_miss [32; 16]) 12 0 12 30 = Hit 12 15 12 16 /\
  In (12 / 16, 16 / 16) (line (Z.quot 3 16) (Z.quot 16 16) (Z.quot 40 16) (Z.quot 19 16)).
Proof.
  split; [repeat split; vm_compute; discriminate || reflexivity|].
  split; [repeat split; vm_compute; discriminate|].
  split.
  { do 4 (split; [vm_compute; discriminate|]). right. intros r [<-|[]]. reflexivity. }
  split; [vm_compute; reflexivity|]. split; [vm_compute; reflexivity|].
  vm_compute. left. reflexivity.
Qed.

(** C34. A cell of a coarser raster is land exactly when its block contains a
    land pixel, also for the partial blocks at the edges. *)
Theorem C34_coarse_cell_iff_block_has_land :
  forall g r i j, wf g -> 0 < r ->
    (is_land (coarse g r) (i, j) = true <->
     exists x y, is_land g (x, y) = true /\ x / r = i /\ y / r = j).
Proof. exact coarse_land. Qed.
Print Assumptions C34_coarse_cell_iff_block_has_land.

Example C34_meets : wf g_ex /\ coarse g_ex 3 = mkRaster 2 2 [1; 0; 0; 0] /\
  coarse g_ex 2 = mkRaster 3 2 [0; 0; 1; 1; 0; 0].
Proof. repeat split; vm_compute; discriminate || reflexivity. Qed.
