(** * C48, C49, C76, C77: polygons, sets of polygons, releases from polygons *)
From Verif Require Import Py PyLemmas QLemmas PipModel PipSpec PipProofs PolyModel PolySpec PolyProofs.
Open Scope Q_scope.

(** ** C48 *)

Theorem C48_area : forall l, l <> [] -> exists b, is_clockwise l = Ok b /\ (b = true <-> signed_area2 l <= 0).
Proof.
  intros l H. exists (Qle_bool (signed_area2 l) 0). split; [apply clockwise_all, H|apply Qle_bool_iff].
Qed.
Print Assumptions C48_area.
Theorem C48_rotation : forall l1 l2, is_clockwise (l1 ++ l2) = is_clockwise (l2 ++ l1).
Proof.
  intros l1 l2. destruct l1 as [|a l1]; [rewrite app_nil_r; reflexivity|].
  rewrite !clockwise_all by (destruct l2; discriminate). rewrite !area_csum, csum_rot. reflexivity.
Qed.
Print Assumptions C48_rotation.
Theorem C48_translation : forall d l, is_clockwise (map (shift d) l) = is_clockwise l.
Proof.
  intros d l. destruct l as [|a l]; [reflexivity|].
  rewrite !clockwise_all by discriminate. rewrite area_shift. reflexivity.
Qed.
Print Assumptions C48_translation.
Theorem C48_reversal : forall l b, ~ signed_area2 l == 0 -> is_clockwise l = Ok b -> is_clockwise (rev l) = Ok (negb b).
Proof.
  intros l b Hn H. destruct l as [|a l]; [discriminate|].
  rewrite clockwise_all in * by (cbn; try destruct (rev l); discriminate). injection H as <-. f_equal.
  rewrite !area_csum in *. rewrite (csum_rev term term_anti).
  destruct (Qle_bool_spec (- csum term (a :: l)) 0), (Qle_bool_spec (csum term (a :: l)) 0); auto; lra.
Qed.
Print Assumptions C48_reversal.
(** Without area both directions count as clockwise. *)
Theorem C48_flat : forall l, l <> [] -> signed_area2 l == 0 -> is_clockwise l = Ok true /\ is_clockwise (rev l) = Ok true.
Proof.
  intros l Hl H. destruct l as [|a l]; [congruence|].
  rewrite !clockwise_all by (cbn; try destruct (rev l); discriminate).
  rewrite area_csum in *. rewrite area_csum, (csum_rev term term_anti), H. split; reflexivity.
Qed.
Print Assumptions C48_flat.
(** The short test agrees for convex polygons. *)
Theorem C48_convex : forall l, turns_one_way l -> is_clockwise_convex l = is_clockwise l.
Proof. exact convex_ok. Qed.
Print Assumptions C48_convex.

Definition dart : list pt := [(0, 0); (4, 0); (1, 1); (0, 4)].
Definition square : list pt := [(0, 0); (0, 4); (4, 4); (4, 0)].
Example C48_meets : signed_area2 dart == 8 /\ is_clockwise dart = Ok false /\ is_clockwise (rev dart) = Ok true /\
  signed_area2 square == -32 /\ turns_one_way square /\ is_clockwise_convex square = Ok true /\
  signed_area2 [(0, 0); (1, 1); (2, 2)] == 0.
Proof.
  split; [reflexivity|]. split; [reflexivity|]. split; [reflexivity|]. split; [reflexivity|].
  split; [|split; reflexivity].
  right. intros x y H. cbn in H. repeat (destruct H as [E|H]; [injection E as <- <-; vm_compute; discriminate|]). destruct H.
Qed.

(** ** C49 *)

(** Whatever was appended and however the points were moved, the set shows the
    polygons that it should. *)
Theorem C49_set : forall os l, should_run os l -> shows (ps_run os) l.
Proof. intros os l H. apply rep_shows, run_rep, H. Qed.
Print Assumptions C49_set.
Theorem C49_every_history : forall os, exists l, should_run os l.
Proof. exact should_run_total. Qed.
Print Assumptions C49_every_history.

(** Appending raises only for a polygon without points, when there are points
    already; then nothing changes. *)
Theorem C49_append : forall os l p m, should_run os l ->
  (pg_points p <> [] \/ no_points l -> snd (append (ps_run os) p m) = None) /\
  (pg_points p = [] -> ~ no_points l -> append (ps_run os) p m = (ps_run os, Some ValueErr)).
Proof.
  intros os l p m H. apply run_rep in H. split.
  - intros Hp. destruct (append_rep _ _ p m H Hp) as [s' [E _]]. rewrite E. reflexivity.
  - intros Hp Hn. apply append_refused with (l := l); auto.
Qed.
Print Assumptions C49_append.

Definition p1 := mkPoly dart 1.
Definition p2 := mkPoly square 2.
Definition swap (p : pt) : pt := (snd p, fst p).
Definition hist : list set_op :=
  [SAppend (mkPoly [] 9) None; SAppend p1 None; STransform swap; SAppend p2 (Some 7%Z); SAppend (mkPoly [] 5) None].
Example C49_meets : should_run hist [mkPoly [] 9; map_poly swap p1; mkPoly square 7] /\
  ps_get (ps_run hist) (-1) = Ok (mkPoly square 7) /\ ps_get (ps_run hist) 3 = Raise IndexErr.
Proof.
  split; [|split; reflexivity].
  change hist with ((((([] ++ [SAppend (mkPoly [] 9) None]) ++ [SAppend p1 None]) ++ [STransform swap])
     ++ [SAppend p2 (Some 7%Z)]) ++ [SAppend (mkPoly [] 5) None]).
  eapply sr_snoc.
  - eapply sr_snoc; [eapply sr_snoc; [eapply sr_snoc; [eapply sr_snoc; [constructor|]|]|]|].
    + apply sh_append. right. intros q [].
    + apply sh_append. left. discriminate.
    + apply sh_trans.
    + apply sh_append. left. discriminate.
  - apply sh_refuse; [reflexivity|]. intros H.
    assert (E : pg_points (with_meta p2 (Some 7%Z)) = []) by (apply H; right; right; left; reflexivity). discriminate E.
Qed.

(** A set made from data cannot be appended to: the points are added, then the
    metadata, kept in an array, cannot be. *)
Theorem C49_from_data_refuted : exists points index meta p s',
  shows (ps_data points index meta) [mkPoly points 1] /\
  append (ps_data points index meta) p None = (s', Some AttrErr) /\
  ps_len s' = 2%Z /\ ps_get s' 1 = Raise IndexErr.
Proof.
  exists dart, [0%Z; 4%Z], [1%Z], p2. eexists. split; [|split; [reflexivity|split; reflexivity]].
  split; [reflexivity|]. split; [|split; reflexivity].
  intros i. assert (H : rep (mkSet dart [0%Z; 4%Z] [1%Z] true) [mkPoly dart 1]) by (repeat split).
  change (ps_get (ps_data dart [0%Z; 4%Z] [1%Z]) i) with (ps_get (mkSet dart [0%Z; 4%Z] [1%Z] true) i).
  apply rep_get, H.
Qed.
Print Assumptions C49_from_data_refuted.

(** Sets that compare equal have as many polygons and the same points and
    metadata, but not always the same polygons. *)
Theorem C49_equality_partial : forall os os' l l', should_run os l -> should_run os' l' ->
  (ps_eqb (ps_run os) (ps_run os') = true <->
   map pg_meta l = map pg_meta l' /\ Forall2 pt_same (concat (map pg_points l)) (concat (map pg_points l'))).
Proof.
  intros os os' l l' H H'. apply run_rep in H as [Ep [_ [Em _]]]. apply run_rep in H' as [Ep' [_ [Em' _]]].
  unfold ps_eqb. rewrite andb_true_iff, pts_eqb_iff, zs_eqb_iff, Ep, Ep', Em, Em'. tauto.
Qed.
Print Assumptions C49_equality_partial.
Theorem C49_equality_refuted : exists os os' l l', should_run os l /\ should_run os' l' /\
  ps_eqb (ps_run os) (ps_run os') = true /\ map pg_points l <> map pg_points l'.
Proof.
  exists [SAppend (mkPoly [(0, 0)] 1) None; SAppend (mkPoly [(1, 1); (2, 2)] 1) None],
         [SAppend (mkPoly [(0, 0); (1, 1)] 1) None; SAppend (mkPoly [(2, 2)] 1) None].
  exists [mkPoly [(0, 0)] 1; mkPoly [(1, 1); (2, 2)] 1], [mkPoly [(0, 0); (1, 1)] 1; mkPoly [(2, 2)] 1].
  assert (G : forall p q, pg_points p <> [] -> pg_points q <> [] -> should_run [SAppend p None; SAppend q None] [p; q]).
  { intros p q Hp Hq. change [SAppend p None; SAppend q None] with (([] ++ [SAppend p None]) ++ [SAppend q None]).
    change [p; q] with (([] ++ [with_meta p None]) ++ [with_meta q None]).
    eapply sr_snoc; [eapply sr_snoc; [constructor|]|]; apply sh_append; auto. }
  split; [apply G; discriminate|]. split; [apply G; discriminate|]. split; [reflexivity|discriminate].
Qed.
Print Assumptions C49_equality_refuted.

(** ** C76: thinning does not change the picture *)

Theorem C76_picture : forall s p q, thin s p = Ok q ->
  (pg_points q <> [] -> drawn s q = drawn s p) /\
  (pg_points q = [] <-> exists x, forall v, In v (pg_points p) -> pixel s v = x) /\
  pg_meta q = pg_meta p /\
  (forall v, In v (pg_points q) -> In v (pg_points p)) /\
  (pg_points q <> [] -> closed p -> closed q).
Proof.
  intros s p q H. split; [apply thin_drawn, H|]. split; [apply thin_empty, H|]. split; [apply (thin_meta s), H|].
  split; [intros v; apply (thin_in s), H|]. apply (thin_closed s); exact H.
Qed.
Print Assumptions C76_picture.
(** As far as possible: consecutive vertices are in different pixels, except that
    the closing vertex of a closed polygon may be in the pixel of the one before. *)
Theorem C76_thin : forall s p q, thin s p = Ok q -> pg_points q <> [] ->
  (closed p -> dedup (map (pixel s) (removelast (pg_points q))) = map (pixel s) (removelast (pg_points q))) /\
  (~ closed p -> dedup (map (pixel s) (pg_points q)) = map (pixel s) (pg_points q)).
Proof.
  intros s p q H Hq. pose proof (thin_tight s p q H Hq) as Ht. destruct p as [[|v r] m]; [discriminate|].
  rewrite closed_iff. cbn [pg_points] in Ht. destruct (pt_eqb v (last (v :: r) v)); split; intros K; try congruence; exact Ht.
Qed.
Print Assumptions C76_thin.
Theorem C76_answers : forall s p, (exists q, thin s p = Ok q) <-> pg_points p <> [].
Proof. exact thin_ok. Qed.
Print Assumptions C76_answers.
Theorem C76_again : forall s p q, thin s p = Ok q -> pg_points q <> [] -> closed p \/ ~ closed q -> thin s q = Ok q.
Proof. exact thin_idem. Qed.
Print Assumptions C76_again.

(** A set: its polygons in turn, without those that fall into one pixel; it fails
    if some polygon has no points. *)
Theorem C76_set : forall os l s, should_run os l ->
  ((forall p, In p l -> pg_points p <> []) ->
     exists s' qs, ps_thin (ps_run os) s = Ok s' /\ mapM (thin s) l = Ok qs /\
       shows s' (filter (fun q => match pg_points q with [] => false | _ => true end) qs)) /\
  ((exists p, In p l /\ pg_points p = []) -> ps_thin (ps_run os) s = Raise IndexErr).
Proof.
  intros os l s H. apply run_rep in H. unfold ps_thin. rewrite (rep_iter _ _ H). cbn [bind]. split.
  - intros Hne. destruct (thin_polys_ok s l ps_new [] rep_new Hne) as [s' [qs [E1 [E2 E3]]]].
    exists s', qs. split; auto. split; auto. apply rep_shows, E3.
  - intros He. eapply thin_polys_fail; eauto. apply rep_new.
Qed.
Print Assumptions C76_set.

Definition ring_poly := mkPoly [(0, 0); (1#8, 0); (4, 1#3); (4, 4); (1#4, 4); (0, 1#5); (0, 0)] 3.
Example C76_meets : thin (1, 1) ring_poly = Ok (mkPoly [(0, 0); (4, 1#3); (4, 4); (1#4, 4); (0, 1#5); (0, 0)] 3) /\
  closed ring_poly /\ thin (1#10, 1#10) ring_poly = Ok (mkPoly [] 3) /\
  drawn (1, 1) ring_poly = [(0, 0); (4, 0); (4, 4); (0, 4); (0, 0)]%Z.
Proof. split; [reflexivity|]. split; [apply closed_iff; reflexivity|]. split; reflexivity. Qed.

(** ** C77: releases from polygons follow the weights *)

Theorem C77_weights : forall polys areas ws0 ts ws,
  poly_prepare polys areas None (Some ws0) = Ok (ts, ws) ->
  length ws0 = length polys /\ ts = map fst (concat polys) /\ length ws = length ts /\
  Qabs (qsum ws - 1) <= (1#100000000) + (1#100000) /\
  forall i p w, nth_error polys i = Some p -> nth_error ws0 i = Some w -> p <> [] -> share polys (ts, ws) i == w.
Proof.
  intros polys areas ws0 ts ws H. cbn [poly_prepare bind] in H.
  destruct (given_shares _ _ _ _ H) as [E1 [E2 [E3 E4]]].
  split; auto. split; auto. split; auto. split; [apply (prepared_close _ _ _ _ H)|].
  intros i p w Hp Hw Hne. rewrite (E4 i p w Hp Hw). destruct p; [congruence|reflexivity].
Qed.
Print Assumptions C77_weights.
Theorem C77_areas : forall polys areas ts ws,
  poly_prepare polys areas None None = Ok (ts, ws) ->
  ts = map fst (concat polys) /\ length ws = length ts /\
  Qabs (qsum ws - 1) <= (1#100000000) + (1#100000) /\
  forall i, share polys (ts, ws) i == qsum (map snd (nth i polys [])) / qsum (map snd (concat polys)).
Proof.
  intros polys areas ts ws H. cbn [poly_prepare bind] in H.
  destruct (default_shares _ _ _ H) as [E1 [E2 E3]].
  split; auto. split; auto. split; [apply (prepared_close _ _ _ _ H)|]. exact E3.
Qed.
Print Assumptions C77_areas.
(** With thicknesses: by volume, whatever the weights. *)
Theorem C77_volumes : forall polys areas th w0 ts ws, th <> [] ->
  poly_prepare polys areas (Some th) w0 = Ok (ts, ws) ->
  ts = map fst (concat polys) /\ length ws = length ts /\
  Qabs (qsum ws - 1) <= (1#100000000) + (1#100000) /\
  forall i p a t, nth_error polys i = Some p -> p <> [] -> nth_error areas i = Some a -> nth_error th i = Some t ->
    share polys (ts, ws) i == a * t / qsum (map (fun x => fst x * snd x) (combine areas th)).
Proof.
  intros polys areas th w0 ts ws Hth H. destruct th as [|t0 th]; [congruence|]. unfold poly_prepare in H. cbv iota in H.
  destruct (compute_distribution areas (t0 :: th)) as [ds|] eqn:Ed; cbn [bind] in H; [|discriminate H].
  destruct (given_shares _ _ _ _ H) as [E1 [E2 [E3 E4]]]. destruct (distribution_ok _ _ _ Ed) as [_ D].
  split; auto. split; auto. split; [apply (prepared_close _ _ _ _ H)|].
  intros i p a t Hp Hne Ha Ht. destruct (D i a t Ha Ht) as [w [Hw Ew]]. rewrite (E4 i p w Hp Hw), <- Ew.
  destruct p; [congruence|reflexivity].
Qed.
Print Assumptions C77_volumes.
(** Each position is in a triangle of the polygons. *)
Theorem C77_positions : forall tris picks ps, poly_positions tris picks = Ok ps ->
  (forall k, In k picks -> 0 <= fst (snd k) < 1 /\ 0 <= snd (snd k) < 1) ->
  Forall2 (fun k q => exists a b c, py_get tris (fst k) = Ok (a, b, c) /\
    in_triangle a b c (fst q) /\ snd q == 0) picks ps.
Proof. exact positions_in. Qed.
Print Assumptions C77_positions.
Theorem C77_positions_answers : forall tris picks, (forall k, In k picks -> exists t, py_get tris (fst k) = Ok t) ->
  exists ps, poly_positions tris picks = Ok ps.
Proof. exact positions_total. Qed.
Print Assumptions C77_positions_answers.
(** No place is left out: every point of the triangle, but for the side opposite
    the first vertex, comes from some draw. *)
Theorem C77_everywhere : forall a b c p u v w, 0 < u -> 0 <= v -> 0 <= w -> u + v + w == 1 ->
  fst p == u * fst a + v * fst b + w * fst c -> snd p == u * snd a + v * snd b + w * snd c ->
  exists R S, 0 <= R < 1 /\ 0 <= S < 1 /\ pt_same (random_pt_in_tri R S a b c) p.
Proof. exact tri_point_all. Qed.
Print Assumptions C77_everywhere.
(** In a polygon the triangles count by their areas. *)
Theorem C77_triangles : forall (polys : list tpoly) areas th w ts ws, poly_prepare polys areas th w = Ok (ts, ws) ->
  forall i p j t ar, nth_error polys i = Some p -> nth_error p j = Some (t, ar) ->
  let k := (length (concat (firstn i polys)) + j)%nat in
  nth_error ts k = Some t /\
  exists x, nth_error ws k = Some x /\ x * qsum (map snd p) == share polys (ts, ws) i * ar.
Proof.
  intros polys areas th w ts ws H i p j t ar Hi Hj. unfold poly_prepare in H.
  match type of H with (do _ <- ?e; _) = _ => destruct e as [w'|] end; [|discriminate]. cbn [bind] in H.
  apply (tris_even _ _ _ _ H); auto.
Qed.
Print Assumptions C77_triangles.
(** The release can start: without weights if there is any area, with weights if
    all polygons have area and the weights add up to one, as closely as isclose asks. *)
Theorem C77_starts : forall (polys : list tpoly) areas,
  (~ qsum (map snd (concat polys)) == 0 -> exists tw, poly_prepare polys areas None None = Ok tw) /\
  (forall ws, length ws = length polys -> (forall p, In p polys -> p <> [] /\ ~ qsum (map snd p) == 0) ->
    ((exists tw, poly_prepare polys areas None (Some ws) = Ok tw) <-> Qabs (qsum ws - 1) <= (1#100000000) + (1#100000))) /\
  (forall ws, length ws <> length polys -> poly_prepare polys areas None (Some ws) = Raise ValueErr).
Proof.
  intros polys areas. split; [apply default_answers|]. split; [intros ws; apply given_answers|].
  intros ws H. unfold poly_prepare. cbn [bind]. unfold get_polys_as_tris.
  destruct (Nat.eqb_spec (length ws) (length polys)); [congruence|reflexivity].
Qed.
Print Assumptions C77_starts.

Definition t1 : tri := ((0, 0), (4, 0), (4, 4)).
Definition t2 : tri := ((0, 0), (4, 4), (0, 4)).
Definition t3 : tri := ((10, 0), (12, 0), (12, 2)).
Definition polys : list tpoly := [[(t1, 8); (t2, 8)]; [(t3, 2)]].
Example C77_meets :
  (exists ws, poly_prepare polys [16; 2] None (Some [1#4; 3#4]) = Ok ([t1; t2; t3], ws)) /\
  (exists ws, poly_prepare polys [16; 2] None None = Ok ([t1; t2; t3], ws)) /\
  (exists ws, poly_prepare polys [16; 2] (Some [1; 3]) None = Ok ([t1; t2; t3], ws)) /\
  poly_prepare polys [16; 2] None (Some [1#4; 1#4]) = Raise AssertErr /\
  (exists ps, poly_positions [t1; t2; t3] [(2%Z, (1#2, 3#4)); (0%Z, (1#3, 1#5))] = Ok ps).
Proof. repeat split; try (eexists; reflexivity). Qed.
