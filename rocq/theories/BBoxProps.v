(** * C50: bounding boxes *)
From Verif Require Import Py PyLemmas QLemmas PipModel BBoxModel BBoxSpec BBoxProofs.
Open Scope Q_scope.

(** The box of points contains them, and is in every box that does. *)
Theorem C50_points : forall l, l <> [] -> exists b, from_points (map fin_pt l) = Ok b /\ proper b /\
  (forall p, In p l -> has b p) /\
  (forall c, (forall p, In p l -> has c p) -> forall p, has b p -> has c p).
Proof. exact from_points_ok. Qed.
Print Assumptions C50_points.
Theorem C50_no_points : from_points [] = Raise ValueErr /\ from_bbarray [] = Raise ValueErr.
Proof. split; reflexivity. Qed.
Print Assumptions C50_no_points.

(** Tests are about points. *)
Theorem C50_point_inside : forall b p, point_inside b (Fin (fst p)) (Fin (snd p)) = true <-> has b p.
Proof. exact point_inside_iff. Qed.
Print Assumptions C50_point_inside.
Theorem C50_inside : forall s b, proper b -> (inside s b = true <-> forall p, has b p -> has s p).
Proof. exact inside_iff. Qed.
Print Assumptions C50_inside.
Theorem C50_overlaps : forall s b, proper s -> proper b -> (overlaps s b = true <-> exists p, has s p /\ has b p).
Proof. exact overlaps_iff. Qed.
Print Assumptions C50_overlaps.
Theorem C50_equality : forall s b, good s -> good b -> (bb_eqb s b = true <-> forall p, has s p <-> has b p).
Proof. exact eq_iff. Qed.
Print Assumptions C50_equality.

(** The box with nothing in it still overlaps the box with everything in it. *)
Theorem C50_null_overlap_refuted : overlaps null_bbox inf_bbox = true /\ ~ exists p, has null_bbox p /\ has inf_bbox p.
Proof. split; [reflexivity|]. intros [p [H _]]. apply (null_none p H). Qed.
Print Assumptions C50_null_overlap_refuted.

(** Merge makes the least box with the points of both. *)
Theorem C50_merge : forall s b, good s -> good b -> good (merge s b) /\
  (forall p, has s p \/ has b p -> has (merge s b) p) /\
  (forall c, (forall p, has s p -> has c p) -> (forall p, has b p -> has c p) -> forall p, has (merge s b) p -> has c p).
Proof.
  intros s b Hs Hb. split; [apply merge_good; auto|]. split; [apply merge_contains; auto|].
  intros c H1 H2. apply merge_least; auto.
Qed.
Print Assumptions C50_merge.
Theorem C50_merge_null : forall b, good b -> merge null_bbox b = b /\ merge b null_bbox = b.
Proof.
  intros b Hb. split; [reflexivity|]. destruct (good_cases b Hb) as [[_ N]| ->]; [|reflexivity].
  unfold merge. rewrite N. reflexivity.
Qed.
Print Assumptions C50_merge_null.
Theorem C50_bbarray : forall l, l <> [] -> (forall b, In b l -> proper b) ->
  exists m, from_bbarray l = Ok m /\ proper m /\
  (forall b p, In b l -> has b p -> has m p) /\
  (forall c, (forall b p, In b l -> has b p -> has c p) -> forall p, has m p -> has c p).
Proof. exact from_bbarray_ok. Qed.
Print Assumptions C50_bbarray.
(** With an empty box among them the result is empty. *)
Theorem C50_bbarray_null_refuted : exists l m b p, (forall x, In x l -> good x) /\ from_bbarray l = Ok m /\
  In b l /\ has b p /\ ~ has m p.
Proof.
  exists [fin_box 0 0 1 1; null_bbox]. eexists. exists (fin_box 0 0 1 1), (1#2, 1#2).
  split; [intros x [<-|[<-|[]]]; [left; split; cbn; lra|right; reflexivity]|]. split; [reflexivity|].
  split; [left; reflexivity|]. split; [repeat split; cbn; lra|]. intros [H _]. exact H.
Qed.
Print Assumptions C50_bbarray_null_refuted.

(** The constructor takes proper boxes and refuses bounds out of order. *)
Theorem C50_constructor : forall a b c d,
  (proper (mkBox a b c d) -> new_bbox a b c d = Ok (mkBox a b c d)) /\
  (forall x y z w, a = Fin x -> b = Fin y -> c = Fin z -> d = Fin w -> (z < x \/ w < y) -> new_bbox a b c d = Raise ValueErr).
Proof.
  intros a b c d. split.
  - intros [Hx Hy]. unfold new_bbox, e_lt. cbn in Hx, Hy.
    destruct a, c; cbn in *; try tauto; destruct b, d; cbn in *; try tauto;
      repeat match goal with |- context [Qle_bool ?u ?v] => destruct (Qle_bool_spec u v) end; cbn; auto; lra.
  - intros x y z w -> -> -> -> H. unfold new_bbox, e_lt. cbn.
    destruct (Qle_bool_spec x z), (Qle_bool_spec y w); cbn; auto; lra.
Qed.
Print Assumptions C50_constructor.

(** The corners as a polygon: the C test finds the points of the box, the upper
    and right sides left out. *)
Theorem C50_corners : forall a b c d l p, a <= c -> b <= d ->
  as_poly (fin_box a b c d) = map fin_pt l ->
  (c_point_in_poly l p = true <-> has (fin_box a b c d) p /\ fst p < c /\ snd p < d).
Proof.
  intros a b c d l p H1 H2 E. unfold as_poly, fin_box in E. cbn [x0 y0 x1 y1] in E.
  destruct l as [|[p1 q1] [|[p2 q2] [|[p3 q3] [|[p4 q4] [|? ?]]]]]; try discriminate E.
  unfold fin_pt in E. cbn in E. injection E as <- <- <- <- <- <- <- <-.
  rewrite box_poly by auto. unfold has. cbn. split; intros; repeat split; try tauto; lra.
Qed.
Print Assumptions C50_corners.

Example C50_meets : proper (fin_box 0 0 1 1) /\ proper (mkBox NInf (Fin 0) (Fin 3) PInf) /\ proper inf_bbox /\
  good null_bbox /\ from_points (map fin_pt [(1, 5); (-2, 3); (0, 9)]) = Ok (fin_box (-2) 3 1 9) /\
  merge (fin_box 0 0 1 1) (fin_box 3 (-1) 4 0) = fin_box 0 (-1) 4 1 /\
  overlaps (fin_box 0 0 1 1) (fin_box 1 1 2 2) = true /\ overlaps (fin_box 0 0 1 1) (fin_box 2 0 3 1) = false /\
  inside (mkBox NInf (Fin 0) (Fin 3) PInf) (fin_box 0 0 1 1) = true /\
  as_poly (fin_box 0 0 1 2) = map fin_pt [(0, 0); (0, 2); (1, 2); (1, 0)].
Proof. repeat split; cbn; try lra. right; reflexivity. Qed.
