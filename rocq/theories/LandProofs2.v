(** * Consequences of the walk theorem; coarse rasters and the layered check *)
From Verif Require Import Py PyLemmas LandModel LandSpec LandProofs.

(** ** Geometry of the line *)
Lemma line_step_neighbours x0 y0 x1 y1 k : 0 <= k < line_length x0 y0 x1 y1 ->
  neighbours (line_pixel x0 y0 x1 y1 k) (line_pixel x0 y0 x1 y1 (k + 1)).
Proof.
  intros Hk. assert (HN : line_length x0 y0 x1 y1 = Z.max (Z.abs (x1-x0)) (Z.abs (y1-y0))) by reflexivity.
  unfold neighbours. rewrite !line_pixel_off. cbn [fst snd].
  set (dx := Z.abs (x1-x0)) in *. set (dy := Z.abs (y1-y0)) in *.
  assert (0 <= dx) by lia. assert (0 <= dy) by lia.
  destruct (o_step dx dy k) as [Ei [Ej Eb]]; try lia. rewrite Ei, Ej.
  assert (Hor : (2 * oerr dx dy k >? - dy) = true \/ (2 * oerr dx dy k <? dx) = true).
  { destruct (Z.ltb_spec (2 * oerr dx dy k) dx); [right; reflexivity|left]. apply Z.gtb_lt. lia. }
  unfold b2z.
  destruct (sx_cases x0 x1) as [[-> ?]|[-> ?]], (sy_cases y0 y1) as [[-> ?]|[-> ?]];
    destruct (2 * oerr dx dy k >? - dy), (2 * oerr dx dy k <? dx);
    (split; [intros E; pose proof (f_equal fst E) as E1; pose proof (f_equal snd E) as E2; cbn [fst snd] in E1, E2;
            destruct Hor; try discriminate; lia|lia]).
Qed.

Lemma line_near x0 y0 x1 y1 k : 0 <= k <= line_length x0 y0 x1 y1 ->
  let p := line_pixel x0 y0 x1 y1 k in
  2 * Z.abs ((fst p - x0) * (y1 - y0) - (snd p - y0) * (x1 - x0)) <= line_length x0 y0 x1 y1.
Proof.
  intros Hk. cbv zeta. assert (HN : line_length x0 y0 x1 y1 = Z.max (Z.abs (x1-x0)) (Z.abs (y1-y0))) by reflexivity.
  rewrite line_pixel_off. cbn [fst snd].
  assert (Ex : x1 - x0 = sgn_to x0 x1 * Z.abs (x1 - x0)) by (destruct (sx_cases x0 x1) as [[-> ?]|[-> ?]]; lia).
  assert (Ey : y1 - y0 = sgn_to y0 y1 * Z.abs (y1 - y0)) by (destruct (sy_cases y0 y1) as [[-> ?]|[-> ?]]; lia).
  assert (Hs : Z.abs (sgn_to x0 x1 * sgn_to y0 y1) = 1)
    by (destruct (sx_cases x0 x1) as [[-> ?]|[-> ?]], (sy_cases y0 y1) as [[-> ?]|[-> ?]]; reflexivity).
  rewrite HN in *.
  assert (Hd1 : 0 <= Z.abs (x1 - x0)) by lia. assert (Hd2 : 0 <= Z.abs (y1 - y0)) by lia.
  assert (EE : forall i j, (x0 + sgn_to x0 x1 * i - x0) * (y1 - y0) - (y0 + sgn_to y0 y1 * j - y0) * (x1 - x0) =
    (sgn_to x0 x1 * sgn_to y0 y1) * (i * Z.abs (y1 - y0) - j * Z.abs (x1 - x0))).
  { intros i j. revert Ex Ey. generalize (Z.abs (x1 - x0)) as ax, (Z.abs (y1 - y0)) as ay. intros ax ay Ex Ey.
    rewrite Ex, Ey. ring. }
  rewrite EE. clear EE.
  rewrite Z.abs_mul, Hs, Z.mul_1_l.
  revert Hk Hd1 Hd2. generalize (Z.abs (x1 - x0)) as dx, (Z.abs (y1 - y0)) as dy. clear.
  intros dx dy Hk Hd1 Hd2. unfold oi, oj. destruct (Z.leb_spec dy dx).
  - destruct (Z.eq_dec dx 0) as [->|]; [assert (dy = 0) by lia; subst dy; rewrite !Z.mul_0_r; cbn; lia|].
    pose proof (nearest_bounds (k * dy) dx ltac:(lia)). lia.
  - pose proof (nearest_bounds (k * dx) dy ltac:(lia)). lia.
Qed.

Lemma line_nth x0 y0 x1 y1 k : (k <= Z.to_nat (line_length x0 y0 x1 y1))%nat ->
  nth_error (line x0 y0 x1 y1) k = Some (line_pixel x0 y0 x1 y1 (Z.of_nat k)).
Proof.
  intros Hk. unfold line. rewrite nth_error_map, zseq_nth by lia. reflexivity.
Qed.

Lemma line_len x0 y0 x1 y1 : Z.of_nat (length (line x0 y0 x1 y1)) = line_length x0 y0 x1 y1 + 1.
Proof. unfold line. rewrite map_length, zseq_length. unfold line_length. lia. Qed.

Lemma line_cons x0 y0 x1 y1 : line x0 y0 x1 y1 = (x0, y0) :: tl (line x0 y0 x1 y1).
Proof. unfold line. cbn [zseq map tl]. rewrite line_first. reflexivity. Qed.

Lemma line_head x0 y0 x1 y1 : exists r, line x0 y0 x1 y1 = (x0, y0) :: r.
Proof. eexists. apply line_cons. Qed.

Lemma line_end x0 y0 x1 y1 : nth_error (line x0 y0 x1 y1) (Z.to_nat (line_length x0 y0 x1 y1)) = Some (x1, y1).
Proof.
  rewrite line_nth by lia. rewrite Z2Nat.id by (unfold line_length; lia). rewrite line_last. reflexivity.
Qed.

Lemma line_In x0 y0 x1 y1 p : In p (line x0 y0 x1 y1) <->
  exists k, 0 <= k <= line_length x0 y0 x1 y1 /\ p = line_pixel x0 y0 x1 y1 k.
Proof.
  unfold line. rewrite in_map_iff. assert (0 <= line_length x0 y0 x1 y1) by (unfold line_length; lia).
  split.
  - intros [k [<- Hk]]. apply zseq_In in Hk. exists k. split; auto. lia.
  - intros [k [Hk ->]]. exists k. split; auto. apply zseq_In. lia.
Qed.

Lemma line_geometry_holds x0 y0 x1 y1 : line_geometry x0 y0 x1 y1.
Proof.
  unfold line_geometry. cbv zeta. pose proof (line_len x0 y0 x1 y1) as HL.
  assert (HN : line_length x0 y0 x1 y1 = Z.max (Z.abs (x1-x0)) (Z.abs (y1-y0))) by reflexivity.
  split; [lia|]. split; [rewrite line_cons; reflexivity|].
  split.
  { replace (length (line x0 y0 x1 y1) - 1)%nat with (Z.to_nat (line_length x0 y0 x1 y1)) by lia.
    apply line_end. }
  split.
  { intros k p q Hp Hq.
    assert (S k < length (line x0 y0 x1 y1))%nat by (apply nth_error_Some; congruence).
    rewrite line_nth in Hp, Hq by lia. 
    assert (p = line_pixel x0 y0 x1 y1 (Z.of_nat k)) as -> by congruence.
    assert (q = line_pixel x0 y0 x1 y1 (Z.of_nat k + 1)) as ->
      by (replace (Z.of_nat k + 1) with (Z.of_nat (S k)) by lia; congruence).
    apply line_step_neighbours. lia. }
  split; intros p Hp; apply line_In in Hp as [k [Hk ->]].
  - apply line_bbox; auto.
  - rewrite <- HN. apply line_near; auto.
Qed.

(** ** scan *)
Lemma scan_cases g : forall qs p,
  match scan g p qs with
  | NoHit => True
  | Hit _ _ _ _ => True
  | _ => False
  end.
Proof.
  induction qs as [|q r IH]; intros p; cbn [scan]; auto.
  destruct (is_land g q); auto. destruct (_ && _); auto. apply IH.
Qed.

Lemma scan_nohit g : forall qs p,
  scan g p qs = NoHit <->
  (forall q, In q qs -> is_land g q = false) /\
  (forall k a b, nth_error (p :: qs) k = Some a -> nth_error (p :: qs) (S k) = Some b -> ~ squeeze g a b).
Proof.
  induction qs as [|q r IH]; intros p; cbn [scan].
  - split; auto. intros _. split; [intros q []|]. intros [|k] a b H1 H2; cbn in H2; [discriminate|].
    destruct k; discriminate.
  - destruct (is_land g q) eqn:El.
    { split; [discriminate|]. intros [H _]. rewrite (H q (or_introl eq_refl)) in El. discriminate. }
    destruct (is_land g (fst q, snd p) && is_land g (fst p, snd q) && negb (fst p =? fst q) && negb (snd p =? snd q)) eqn:Es.
    { split; [discriminate|]. intros [_ H]. exfalso. apply (H O p q eq_refl eq_refl).
      unfold squeeze. do 3 (apply andb_true_iff in Es as [Es ?]).
      repeat split; auto; lia. }
    rewrite IH. split; intros [H1 H2]; split.
    + intros q' [<-|Hq']; auto.
    + intros [|k] a b Ha Hb.
      * cbn in Ha, Hb. injection Ha as <-. injection Hb as <-. intros [S1 [S2 [S3 S4]]].
        rewrite S3, S4 in Es. cbn in Es. lia.
      * apply (H2 k a b); [exact Ha|exact Hb].
    + intros q' Hq'. apply H1. right; auto.
    + intros k a b Ha Hb. apply (H2 (S k) a b); [exact Ha|exact Hb].
Qed.

Lemma scan_hit g : forall qs p px py hx hy,
  scan g p qs = Hit px py hx hy ->
  exists k, nth_error (p :: qs) k = Some (px, py) /\
    is_land g (hx, hy) = true /\
    (forall j q, (0 < j <= k)%nat -> nth_error (p :: qs) j = Some q -> is_land g q = false) /\
    (forall j a b, (j < k)%nat -> nth_error (p :: qs) j = Some a -> nth_error (p :: qs) (S j) = Some b -> ~ squeeze g a b) /\
    exists q, nth_error (p :: qs) (S k) = Some q /\
      ((hx, hy) = q \/ (is_land g q = false /\ squeeze g (px, py) q /\ (hx, hy) = (fst q, py))).
Proof.
  induction qs as [|q r IH]; intros p px py hx hy; cbn [scan]; [discriminate|].
  destruct (is_land g q) eqn:El.
  { intros [= <- <- <- <-]. exists O. destruct p as [p1 p2], q as [q1 q2]. cbn [fst snd].
    split; auto. split; auto. split; [intros j q' Hj; lia|]. split; [intros j a b Hj; lia|].
    exists (q1, q2). split; auto. }
  destruct (is_land g (fst q, snd p) && is_land g (fst p, snd q) && negb (fst p =? fst q) && negb (snd p =? snd q)) eqn:Es.
  { intros [= <- <- <- <-]. exists O. destruct p as [p1 p2], q as [q1 q2]. cbn [fst snd] in *.
    do 3 (apply andb_true_iff in Es as [Es ?]).
    split; auto. split; auto. split; [intros j q' Hj; lia|]. split; [intros j a b Hj; lia|].
    exists (q1, q2). split; auto. right. split; auto. split; auto. unfold squeeze. cbn [fst snd].
    repeat split; auto; lia. }
  intros H. destruct (IH _ _ _ _ _ H) as [k [H1 [H2 [H3 [H3' H4]]]]].
  exists (S k). split; [exact H1|]. split; auto. split; [|split].
  - intros [|j] q' Hj Hq'; [lia|]. destruct j as [|j].
    + cbn in Hq'. injection Hq' as <-. auto.
    + apply (H3 (S j) q'); [lia|exact Hq'].
  - intros [|j] a b Hj Ha Hb.
    + cbn in Ha, Hb. injection Ha as <-. injection Hb as <-. intros [S1 [S2 [S3 S4]]].
      rewrite S3, S4 in Es. cbn in Es. lia.
    + apply (H3' j a b); [lia|exact Ha|exact Hb].
  - exact H4.
Qed.

(** ** Consequences for find_first_pixel *)
Lemma ffp_total g x0 y0 x1 y1 : wf g -> all_small x0 y0 x1 y1 ->
  find_first_pixel g x0 y0 x1 y1 <> BadRead /\ find_first_pixel g x0 y0 x1 y1 <> OutOfFuel.
Proof.
  intros Hw [H1 [H2 [H3 H4]]]. rewrite find_first_pixel_spec by auto. unfold first_obstacle.
  destruct (is_land g (x0, y0)); [split; discriminate|].
  pose proof (scan_cases g (tl (line x0 y0 x1 y1)) (x0, y0)).
  destruct (scan _ _ _); try contradiction; split; discriminate.
Qed.

Lemma ffp_nohit g x0 y0 x1 y1 : wf g -> all_small x0 y0 x1 y1 ->
  (find_first_pixel g x0 y0 x1 y1 = NoHit <->
   (forall p, In p (line x0 y0 x1 y1) -> is_land g p = false) /\
   (forall k p q, nth_error (line x0 y0 x1 y1) k = Some p ->
                  nth_error (line x0 y0 x1 y1) (S k) = Some q -> ~ squeeze g p q)).
Proof.
  intros Hw [H1 [H2 [H3 H4]]]. rewrite find_first_pixel_spec by auto. unfold first_obstacle.
  rewrite (line_cons x0 y0 x1 y1). cbn [tl].
  destruct (is_land g (x0, y0)) eqn:E.
  - split; [discriminate|]. intros [H _]. rewrite (H _ (or_introl eq_refl)) in E. discriminate.
  - rewrite scan_nohit. split; intros [Ha Hb]; split; auto.
    + intros p [<-|Hp]; auto.
    + intros p Hp. apply Ha. right; auto.
Qed.

Lemma ffp_hit g x0 y0 x1 y1 px py hx hy : wf g -> all_small x0 y0 x1 y1 ->
  find_first_pixel g x0 y0 x1 y1 = Hit px py hx hy ->
  is_land g (hx, hy) = true /\
  ((px, py) = (x0, y0) /\ (hx, hy) = (x0, y0) \/
   neighbours (px, py) (hx, hy) /\
   exists k, nth_error (line x0 y0 x1 y1) k = Some (px, py) /\
    (forall j p, (j <= k)%nat -> nth_error (line x0 y0 x1 y1) j = Some p -> is_land g p = false) /\
    (forall j p q, (j < k)%nat -> nth_error (line x0 y0 x1 y1) j = Some p ->
                   nth_error (line x0 y0 x1 y1) (S j) = Some q -> ~ squeeze g p q) /\
    exists q, nth_error (line x0 y0 x1 y1) (S k) = Some q /\
      ((hx, hy) = q \/ (is_land g q = false /\ squeeze g (px, py) q /\ (hx, hy) = (fst q, py)))).
Proof.
  intros Hw [H1 [H2 [H3 H4]]]. rewrite find_first_pixel_spec by auto. unfold first_obstacle.
  destruct (is_land g (x0, y0)) eqn:E.
  - intros [= <- <- <- <-]. split; auto.
  - intros Hs. apply scan_hit in Hs. rewrite <- line_cons in Hs.
    destruct Hs as [k [Ha [Hb [Hc [Hc' [q [Hd He]]]]]]]. split; auto. right.
    pose proof (line_geometry_holds x0 y0 x1 y1) as (_ & _ & _ & Hn & _).
    pose proof (Hn _ _ _ Ha Hd) as Hnb.
    split.
    + destruct He as [->|[_ [[S1 [S2 _]] ->]]]; auto.
      destruct Hnb as [_ [N1 N2]]. unfold neighbours. cbn [fst snd] in *. split; [congruence|lia].
    + exists k. split; auto. split; [|split; auto].
      * intros [|j] p Hj Hp.
        -- rewrite line_cons in Hp. cbn in Hp. injection Hp as <-. auto.
        -- apply (Hc (S j) p); auto. lia.
      * exists q. auto.
Qed.

(** ** Coarse rasters *)
Lemma ceil_div_pos a b : 0 < b -> 0 <= a -> 0 <= ceil_div a b /\ (forall x, 0 <= x -> (x < ceil_div a b <-> x * b < a)).
Proof.
  intros Hb Ha. unfold ceil_div.
  pose proof (Z.div_mod (- a) b ltac:(lia)) as H1. pose proof (Z.mod_pos_bound (- a) b Hb) as H2.
  split; [nia|]. intros x Hx. nia.
Qed.

Lemma slice_range_In a b n x : In x (slice_range a b n) <-> a <= x < Z.min b n.
Proof. unfold slice_range. rewrite zseq_In. lia. Qed.

Lemma cell_land g x y : wf g -> on_grid g (x, y) -> negb (cell g x y =? 0) = is_land g (x, y).
Proof.
  intros Hw Ho. destruct (rd_on g x y Hw Ho) as [c [E1 E2]]. rewrite at32_on in E1 by auto.
  unfold cell. rewrite E1. auto.
Qed.

Lemma any_land_iff g r i j : wf g -> 0 < r -> 0 <= i -> 0 <= j ->
  any_land g r i j = true <->
  exists x y, is_land g (x, y) = true /\ x / r = i /\ y / r = j.
Proof.
  intros Hw Hr Hi Hj. unfold any_land. rewrite existsb_exists. split.
  - intros [x [Hx H]]. apply existsb_exists in H as [y [Hy H]].
    apply slice_range_In in Hx, Hy.
    assert (Ho : on_grid g (x, y)) by (unfold on_grid; cbn; nia).
    rewrite cell_land in H by auto. exists x, y. split; auto.
    split; apply Z.div_unique_pos with (r := x - r * i) || idtac.
    + symmetry. apply Z.div_unique_pos with (x - r * i); lia.
    + symmetry. apply Z.div_unique_pos with (y - r * j); lia.
  - intros [x [y [Hl [Ex Ey]]]]. pose proof (is_land_on _ _ Hl) as Ho. destruct Ho as [Ho1 Ho2]. cbn in Ho1, Ho2.
    pose proof (Z.div_mod x r ltac:(lia)). pose proof (Z.mod_pos_bound x r Hr).
    pose proof (Z.div_mod y r ltac:(lia)). pose proof (Z.mod_pos_bound y r Hr).
    exists x. split; [apply slice_range_In; rewrite Ex in *; nia|].
    apply existsb_exists. exists y. split; [apply slice_range_In; rewrite Ey in *; nia|].
    rewrite cell_land; auto. split; cbn; lia.
Qed.

Lemma flat_map_rows_nth {A} (f : Z -> Z -> A) h n : forall a i j,
  (i < n)%nat -> (j < h)%nat ->
  nth_error (flat_map (fun i => map (f i) (zseq 0 h)) (zseq a n)) (i * h + j) =
  Some (f (a + Z.of_nat i) (Z.of_nat j)).
Proof.
  induction n as [|n IH]; intros a i j Hi Hj; [lia|]. cbn [zseq flat_map].
  destruct i as [|i].
  - rewrite nth_error_app1 by (rewrite map_length, zseq_length; lia).
    rewrite nth_error_map. cbn [Nat.mul Nat.add]. rewrite zseq_nth by lia. cbn [option_map].
    f_equal. f_equal; lia.
  - rewrite nth_error_app2 by (rewrite map_length, zseq_length; cbn; lia).
    rewrite map_length, zseq_length.
    replace (S i * h + j - h)%nat with (i * h + j)%nat by (cbn; lia).
    rewrite IH by lia. f_equal. f_equal; lia.
Qed.

Lemma flat_map_rows_length {A} (f : Z -> Z -> A) h n : forall a,
  length (flat_map (fun i => map (f i) (zseq 0 h)) (zseq a n)) = (n * h)%nat.
Proof.
  induction n as [|n IH]; intros a; cbn [zseq flat_map]; auto.
  rewrite app_length, map_length, zseq_length, IH. lia.
Qed.

Lemma coarse_wf g r : wf g -> 0 < r -> wf (coarse g r).
Proof.
  intros [H1 [H2 [H3 H4]]] Hr. unfold wf, coarse. cbn [rw rh cells].
  destruct (ceil_div_pos (rw g) r Hr H1) as [Ha Ha']. destruct (ceil_div_pos (rh g) r Hr H2) as [Hb Hb'].
  split; auto. split; auto. split.
  - rewrite flat_map_rows_length. lia.
  - assert (ceil_div (rw g) r <= rw g).
    { destruct (Z_lt_ge_dec (rw g) (ceil_div (rw g) r)); [|lia].
      apply Ha' in l; nia. }
    assert (ceil_div (rh g) r <= rh g).
    { destruct (Z_lt_ge_dec (rh g) (ceil_div (rh g) r)); [|lia].
      apply Hb' in l; nia. }
    nia.
Qed.

Lemma coarse_land g r i j : wf g -> 0 < r ->
  (is_land (coarse g r) (i, j) = true <->
   exists x y, is_land g (x, y) = true /\ x / r = i /\ y / r = j).
Proof.
  intros Hw Hr. pose proof Hw as [H1 [H2 [H3 H4]]].
  destruct (ceil_div_pos (rw g) r Hr H1) as [Ha Ha']. destruct (ceil_div_pos (rh g) r Hr H2) as [Hb Hb'].
  assert (Hcell : forall i j, 0 <= i < ceil_div (rw g) r -> 0 <= j < ceil_div (rh g) r ->
    is_land (coarse g r) (i, j) = any_land g r i j).
  { clear i j. intros i j Hi Hj. unfold is_land, coarse. cbn [rw rh cells fst snd].
    replace (Z.to_nat (i * ceil_div (rh g) r + j))
      with (Z.to_nat i * Z.to_nat (ceil_div (rh g) r) + Z.to_nat j)%nat by lia.
    rewrite flat_map_rows_nth by lia.
    rewrite !Z2Nat.id by lia. cbn [Z.add].
    destruct (Z.leb_spec 0 i); [|lia]. destruct (Z.ltb_spec i (ceil_div (rw g) r)); [|lia].
    destruct (Z.leb_spec 0 j); [|lia]. destruct (Z.ltb_spec j (ceil_div (rh g) r)); [|lia].
    cbn [andb]. destruct (any_land g r i j); reflexivity. }
  split.
  - intros H. pose proof (is_land_on _ _ H) as [Ho1 Ho2]. cbn [rw rh coarse fst snd] in Ho1, Ho2.
    rewrite Hcell in H by auto. apply any_land_iff in H; auto; lia.
  - intros [x [y [Hl [Ex Ey]]]]. pose proof (is_land_on _ _ Hl) as [Ho1 Ho2]. cbn [fst snd] in *.
    pose proof (Z.div_mod x r ltac:(lia)). pose proof (Z.mod_pos_bound x r Hr).
    pose proof (Z.div_mod y r ltac:(lia)). pose proof (Z.mod_pos_bound y r Hr).
    assert (Hi : 0 <= i < ceil_div (rw g) r).
    { assert (0 <= i) by (subst i; apply Z.div_pos; lia). split; auto. apply Ha'; auto. nia. }
    assert (Hj : 0 <= j < ceil_div (rh g) r).
    { assert (0 <= j) by (subst j; apply Z.div_pos; lia). split; auto. apply Hb'; auto. nia. }
    rewrite Hcell by auto. apply any_land_iff; auto; try lia. exists x, y. auto.
Qed.

(** ** The layered check *)
Lemma layered_hit_last : forall layers g x0 y0 x1 y1 px py hx hy,
  layered_walk (layers ++ [(g, 1)]) x0 y0 x1 y1 = Hit px py hx hy ->
  find_first_pixel g x0 y0 x1 y1 = Hit px py hx hy.
Proof.
  induction layers as [|[g1 r1] rest IH]; intros g x0 y0 x1 y1 px py hx hy; cbn [app layered_walk].
  - rewrite !Z.quot_1_r. destruct (find_first_pixel g x0 y0 x1 y1); try discriminate. auto.
  - destruct (find_first_pixel g1 _ _ _ _); try discriminate.
    destruct (rest ++ [(g, 1)]) eqn:E; [destruct rest; discriminate|]. rewrite <- E. apply IH.
Qed.

Lemma small_quot c r : small c -> 0 < r -> small (Z.quot c r).
Proof.
  unfold small. intros H Hr.
  assert (Z.abs (Z.quot c r) <= Z.abs c).
  { rewrite <- Z.quot_abs by lia. rewrite (Z.abs_eq r) by lia. rewrite Z.quot_div_nonneg by lia.
    apply Z.div_le_upper_bound; nia. }
  lia.
Qed.

(** If, in every coarser layer, the coarse line visits the block of every
    land pixel that full resolution would stop at, nothing is missed. *)
Lemma layered_complete : forall ratios g x0 y0 x1 y1 px py hx hy,
  wf g -> all_small x0 y0 x1 y1 -> Forall (fun r => 0 < r) ratios ->
  find_first_pixel g x0 y0 x1 y1 = Hit px py hx hy ->
  (forall r, In r ratios ->
     In (hx / r, hy / r) (line (Z.quot x0 r) (Z.quot y0 r) (Z.quot x1 r) (Z.quot y1 r))) ->
  layered_walk (build_layers g ratios) x0 y0 x1 y1 = Hit px py hx hy.
Proof.
  induction ratios as [|r rest IH]; intros g x0 y0 x1 y1 px py hx hy Hw Hs Hr Hh Hin;
    unfold build_layers; cbn [map app layered_walk].
  - rewrite !Z.quot_1_r, Hh. reflexivity.
  - inversion Hr as [|? ? Hr1 Hr2]; subst.
    assert (Hw' : wf (coarse g r)) by (apply coarse_wf; auto).
    assert (Hs' : all_small (Z.quot x0 r) (Z.quot y0 r) (Z.quot x1 r) (Z.quot y1 r)).
    { destruct Hs as [S1 [S2 [S3 S4]]]. repeat split; apply small_quot; auto. }
    assert (Hland : is_land (coarse g r) (hx / r, hy / r) = true).
    { apply coarse_land; auto. exists hx, hy. split; auto. apply (ffp_hit g x0 y0 x1 y1 px py hx hy Hw Hs Hh). }
    destruct (find_first_pixel (coarse g r) _ _ _ _) eqn:E.
    + apply (ffp_nohit _ _ _ _ _ Hw' Hs') in E as [E _].
      rewrite (E _ (Hin r (or_introl eq_refl))) in Hland. discriminate.
    + destruct (map (fun r0 => (coarse g r0, r0)) rest ++ [(g, 1)]) eqn:El; [destruct rest; discriminate|].
      rewrite <- El. fold (build_layers g rest). apply IH; auto. intros r' Hr'. apply Hin. right; auto.
    + destruct (ffp_total _ _ _ _ _ Hw' Hs') as [H _]. congruence.
    + destruct (ffp_total _ _ _ _ _ Hw' Hs') as [_ H]. congruence.
Qed.

(** Straight moves along one axis over non-negative pixels are not affected. *)
Lemma nearest_0 b : nearest 0 b = 0.
Proof.
  unfold nearest. destruct (Z.eq_dec b 0) as [->|]; [reflexivity|].
  destruct (Z_lt_ge_dec 0 b).
  - replace (b - 2 * 0) with b by lia. rewrite Z.div_small by lia. reflexivity.
  - replace (b - 2 * 0) with b by lia.
    replace (2 * b) with (-(2 * (-b))) by lia. replace b with (- - b) at 1 by lia.
    rewrite Z.div_opp_opp by lia. rewrite Z.div_small by lia. reflexivity.
Qed.

Lemma line_horizontal x0 x1 y x : Z.min x0 x1 <= x <= Z.max x0 x1 -> In (x, y) (line x0 y x1 y).
Proof.
  intros H. apply line_In. exists (Z.abs (x - x0)). unfold line_length. split; [lia|].
  unfold line_pixel. replace (y - y) with 0 by lia. cbn [Z.abs].
  destruct (Z.leb_spec 0 (Z.abs (x1 - x0))); [|lia]. rewrite Z.mul_0_r, nearest_0.
  destruct (sx_cases x0 x1) as [[-> ?]|[-> ?]]; f_equal; lia.
Qed.

Lemma line_vertical y0 y1 x y : Z.min y0 y1 <= y <= Z.max y0 y1 -> In (x, y) (line x y0 x y1).
Proof.
  intros H. apply line_In. exists (Z.abs (y - y0)). unfold line_length. split; [lia|].
  unfold line_pixel. replace (x - x) with 0 by lia. cbn [Z.abs].
  destruct (Z.leb_spec (Z.abs (y1 - y0)) 0).
  - assert (y0 = y1) by lia. subst y1. assert (y = y0) by lia. subst y.
    replace (y0 - y0) with 0 by lia. cbn. f_equal; lia.
  - rewrite Z.mul_0_r, nearest_0.
    destruct (sy_cases y0 y1) as [[-> ?]|[-> ?]]; f_equal; lia.
Qed.

Lemma hit_in_bbox g x0 y0 x1 y1 px py hx hy :
  wf g -> all_small x0 y0 x1 y1 -> find_first_pixel g x0 y0 x1 y1 = Hit px py hx hy ->
  Z.min x0 x1 <= hx <= Z.max x0 x1 /\ Z.min y0 y1 <= hy <= Z.max y0 y1.
Proof.
  intros Hw Hs Hh. destruct (ffp_hit _ _ _ _ _ _ _ _ _ Hw Hs Hh) as [_ [[_ E]|[_ [k [Ha [_ [_ [q [Hb Hc]]]]]]]]].
  - injection E as -> ->. lia.
  - pose proof (line_geometry_holds x0 y0 x1 y1) as (_ & _ & _ & _ & Hbb & _).
    pose proof (Hbb _ (nth_error_In _ _ Ha)) as Hpa. pose proof (Hbb _ (nth_error_In _ _ Hb)) as Hpb.
    cbn [fst snd] in *. destruct Hc as [<-|[_ [_ E]]]; [cbn in Hpb; lia|]. injection E as -> ->. lia.
Qed.

Lemma quot_div_mono a b c r : 0 < r -> 0 <= a -> 0 <= b -> Z.min a b <= c <= Z.max a b ->
  Z.min (Z.quot a r) (Z.quot b r) <= c / r <= Z.max (Z.quot a r) (Z.quot b r).
Proof.
  intros Hr Ha Hb Hc. rewrite !Z.quot_div_nonneg by lia.
  destruct (Z_le_gt_dec a b).
  - pose proof (Z.div_le_mono a c r Hr ltac:(lia)). pose proof (Z.div_le_mono c b r Hr ltac:(lia)). lia.
  - pose proof (Z.div_le_mono b c r Hr ltac:(lia)). pose proof (Z.div_le_mono c a r Hr ltac:(lia)). lia.
Qed.

Lemma layered_total ratios g x0 y0 x1 y1 :
  wf g -> all_small x0 y0 x1 y1 -> Forall (fun r => 0 < r) ratios ->
  layered_walk (build_layers g ratios) x0 y0 x1 y1 <> BadRead /\
  layered_walk (build_layers g ratios) x0 y0 x1 y1 <> OutOfFuel.
Proof.
  intros Hw Hs Hr.
  induction Hr as [|r rest Hr1 Hr IH]; unfold build_layers; cbn [map app layered_walk].
    - rewrite !Z.quot_1_r. destruct (ffp_total g x0 y0 x1 y1 Hw Hs). destruct (find_first_pixel g x0 y0 x1 y1);
        split; congruence.
    - assert (Hw' : wf (coarse g r)) by (apply coarse_wf; auto).
      assert (Hs' : all_small (Z.quot x0 r) (Z.quot y0 r) (Z.quot x1 r) (Z.quot y1 r)).
      { destruct Hs as [S1 [S2 [S3 S4]]]. repeat split; apply small_quot; auto. }
      destruct (ffp_total _ _ _ _ _ Hw' Hs').
      destruct (find_first_pixel (coarse g r) _ _ _ _); try (split; congruence).
      destruct (map (fun r0 => (coarse g r0, r0)) rest ++ [(g, 1)]) eqn:El; [destruct rest; discriminate|].
      rewrite <- El. exact IH.
Qed.

Lemma layered_straight ratios g x0 y0 x1 y1 :
  wf g -> all_small x0 y0 x1 y1 -> Forall (fun r => 0 < r) ratios ->
  straight_in_blocks ratios x0 y0 x1 y1 ->
  layered_walk (build_layers g ratios) x0 y0 x1 y1 = find_first_pixel g x0 y0 x1 y1.
Proof.
  intros Hw Hs Hr [Hx0 [Hy0 [Hx1 [Hy1 Hst]]]].
  assert (HrI : forall r, In r ratios -> 0 < r) by (rewrite Forall_forall in Hr; exact Hr).
  pose proof (layered_total ratios g x0 y0 x1 y1 Hw Hs Hr) as Hlay.
  destruct (ffp_total g x0 y0 x1 y1 Hw Hs) as [T1 T2].
  destruct (find_first_pixel g x0 y0 x1 y1) as [|px py hx hy| |] eqn:E; try congruence.
  - destruct (layered_walk (build_layers g ratios) x0 y0 x1 y1) as [|px py hx hy| |] eqn:EL;
      destruct Hlay; try congruence.
    unfold build_layers in EL. apply layered_hit_last in EL. congruence.
  - apply layered_complete; auto. intros r Hri. specialize (HrI r Hri).
    destruct (hit_in_bbox _ _ _ _ _ _ _ _ _ Hw Hs E) as [Hb1 Hb2].
    pose proof (quot_div_mono x0 x1 hx r HrI Hx0 Hx1 Hb1) as Q1.
    pose proof (quot_div_mono y0 y1 hy r HrI Hy0 Hy1 Hb2) as Q2.
    destruct Hst as [Hst|Hst]; specialize (Hst r Hri).
    + assert (Eq : Z.quot x0 r = Z.quot x1 r) by (rewrite !Z.quot_div_nonneg by lia; exact Hst).
      rewrite <- Eq in *. replace (hx / r) with (Z.quot x0 r) by lia. apply line_vertical. lia.
    + assert (Eq : Z.quot y0 r = Z.quot y1 r) by (rewrite !Z.quot_div_nonneg by lia; exact Hst).
      rewrite <- Eq in *. replace (hy / r) with (Z.quot y0 r) by lia. apply line_horizontal. lia.
Qed.

Lemma land_walk g x0 y0 x1 y1 : wf g -> all_small x0 y0 x1 y1 ->
    find_first_pixel g x0 y0 x1 y1 <> OutOfFuel /\
    find_first_pixel g x0 y0 x1 y1 = first_obstacle g x0 y0 x1 y1 /\
    line_geometry x0 y0 x1 y1.
Proof.
  intros Hw Hs. split; [apply ffp_total; auto|]. split; [|apply line_geometry_holds].
  destruct Hs as [H1 [H2 [H3 H4]]]. apply find_first_pixel_spec; auto.
Qed.

Lemma layered_partial ratios g x0 y0 x1 y1 :
  wf g -> all_small x0 y0 x1 y1 -> Forall (fun r => 0 < r) ratios ->
    (forall px py hx hy,
       layered_walk (build_layers g ratios) x0 y0 x1 y1 = Hit px py hx hy ->
       find_first_pixel g x0 y0 x1 y1 = Hit px py hx hy) /\
    (straight_in_blocks ratios x0 y0 x1 y1 ->
     layered_walk (build_layers g ratios) x0 y0 x1 y1 = find_first_pixel g x0 y0 x1 y1).
Proof.
  intros Hw Hs Hr. split.
  - intros px py hx hy. apply layered_hit_last.
  - apply layered_straight; auto.
Qed.
