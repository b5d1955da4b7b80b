(** * The walk finds the first obstacle on the straight line *)
From Verif Require Import Py PyLemmas LandModel LandSpec.
From Coq Require Import Psatz.

Lemma i32_id z : -2147483648 <= z < 2147483648 -> i32 z = z.
Proof. intros H. unfold i32. rewrite Z.mod_small; lia. Qed.

(** ** nearest *)
Lemma nearest_bounds a b : 0 < b -> - b <= 2 * (b * nearest a b - a) < b.
Proof.
  intros Hb. unfold nearest.
  pose proof (Z.div_mod (b - 2 * a) (2 * b) ltac:(lia)) as H1.
  pose proof (Z.mod_pos_bound (b - 2 * a) (2 * b) ltac:(lia)) as H2. nia.
Qed.

Lemma nearest_unique a b j : 0 < b -> - b <= 2 * (b * j - a) < b -> nearest a b = j.
Proof. intros Hb H. pose proof (nearest_bounds a b Hb). nia. Qed.

(** ** Offsets along the two axes after k moves *)
Definition oi (dx dy k : Z) : Z := if dy <=? dx then k else nearest (k * dx) dy.
Definition oj (dx dy k : Z) : Z := if dy <=? dx then nearest (k * dy) dx else k.
Definition oerr (dx dy k : Z) : Z := dx * (1 + oj dx dy k) - dy * (1 + oi dx dy k).

Definition b2z (b : bool) : Z := if b then 1 else 0.

Lemma o_step dx dy k :
  0 <= dx -> 0 <= dy -> 0 <= k < Z.max dx dy ->
  let mx := 2 * oerr dx dy k >? - dy in
  let my := 2 * oerr dx dy k <? dx in
  oi dx dy (k + 1) = oi dx dy k + b2z mx /\
  oj dx dy (k + 1) = oj dx dy k + b2z my /\
  - 3 * Z.max dx dy <= 2 * oerr dx dy k <= 3 * Z.max dx dy.
Proof.
  intros Hx Hy Hk mx my. unfold mx, my, oerr, oi, oj. clear mx my.
  destruct (Z.leb_spec dy dx) as [Hd|Hd].
  - assert (0 < dx) by lia.
    pose proof (nearest_bounds (k * dy) dx ltac:(lia)) as HB.
    set (j := nearest (k * dy) dx) in *.
    assert (Hmx : (2 * (dx * (1 + j) - dy * (1 + k)) >? - dy) = true).
    { destruct (Z.eq_dec dx dy) as [E|E].
      - subst dy. assert (j = k) by nia. subst j. rewrite H0. lia.
      - lia. }
    rewrite Hmx. cbn [b2z]. split; [reflexivity|]. split; [|lia].
    apply nearest_unique; auto.
    destruct (Z.ltb_spec (2 * (dx * (1 + j) - dy * (1 + k))) dx); cbn [b2z]; lia.
  - assert (0 < dy) by lia.
    pose proof (nearest_bounds (k * dx) dy ltac:(lia)) as HB.
    set (i := nearest (k * dx) dy) in *.
    assert (Hmy : (2 * (dx * (1 + k) - dy * (1 + i)) <? dx) = true) by lia.
    rewrite Hmy. cbn [b2z]. split; [|split; [reflexivity|lia]].
    apply nearest_unique; auto. rewrite Z.gtb_ltb.
    destruct (Z.ltb_spec (- dy) (2 * (dx * (1 + k) - dy * (1 + i)))); cbn [b2z]; lia.
Qed.

Lemma o_zero dx dy : 0 <= dx -> 0 <= dy -> oi dx dy 0 = 0 /\ oj dx dy 0 = 0.
Proof.
  intros Hx Hy. unfold oi, oj. destruct (Z.leb_spec dy dx); split; auto.
  - destruct (Z.eq_dec dx 0) as [->|]; [reflexivity|]. apply nearest_unique; lia.
  - apply nearest_unique; lia.
Qed.

Lemma o_last dx dy : 0 <= dx -> 0 <= dy ->
  oi dx dy (Z.max dx dy) = dx /\ oj dx dy (Z.max dx dy) = dy.
Proof.
  intros Hx Hy. unfold oi, oj. destruct (Z.leb_spec dy dx).
  - rewrite Z.max_l by lia. split; auto.
    destruct (Z.eq_dec dx 0) as [->|]; [|apply nearest_unique; lia].
    assert (dy = 0) by lia. subst. reflexivity.
  - rewrite Z.max_r by lia. split; auto. apply nearest_unique; lia.
Qed.

Lemma o_not_last dx dy k : 0 <= dx -> 0 <= dy -> 0 <= k < Z.max dx dy ->
  ~ (oi dx dy k = dx /\ oj dx dy k = dy).
Proof.
  intros Hx Hy Hk. unfold oi, oj. destruct (Z.leb_spec dy dx); lia.
Qed.

(** monotone *)
Lemma o_mono dx dy (n : nat) : forall k,
  0 <= dx -> 0 <= dy -> 0 <= k -> k + Z.of_nat n <= Z.max dx dy ->
  oi dx dy k <= oi dx dy (k + Z.of_nat n) /\ oj dx dy k <= oj dx dy (k + Z.of_nat n).
Proof.
  induction n as [|n IH]; intros k Hx Hy Hk Hn.
  - rewrite Z.add_0_r. lia.
  - destruct (IH k) as [H1 H2]; try lia.
    destruct (o_step dx dy (k + Z.of_nat n)) as [H3 [H4 _]]; try lia.
    replace (k + Z.of_nat (S n)) with (k + Z.of_nat n + 1) by lia. rewrite H3, H4.
    unfold b2z.
    destruct (2 * oerr dx dy (k + Z.of_nat n) >? - dy);
    destruct (2 * oerr dx dy (k + Z.of_nat n) <? dx); lia.
Qed.

Lemma o_mono' dx dy a b :
  0 <= dx -> 0 <= dy -> 0 <= a <= b -> b <= Z.max dx dy ->
  oi dx dy a <= oi dx dy b /\ oj dx dy a <= oj dx dy b.
Proof.
  intros. replace b with (a + Z.of_nat (Z.to_nat (b - a))) by lia. apply o_mono; lia.
Qed.

Lemma o_range dx dy k : 0 <= dx -> 0 <= dy -> 0 <= k <= Z.max dx dy ->
  0 <= oi dx dy k <= dx /\ 0 <= oj dx dy k <= dy.
Proof.
  intros Hx Hy Hk. destruct (o_mono' dx dy 0 k) as [H1 H2]; try lia.
  destruct (o_mono' dx dy k (Z.max dx dy)) as [H3 H4]; try lia.
  destruct (o_zero dx dy Hx Hy) as [E1 E2]. destruct (o_last dx dy Hx Hy) as [E3 E4]. lia.
Qed.

(** ** Pixels of the line *)
Section Line.
  Variables x0 y0 x1 y1 : Z.
  Notation dx := (Z.abs (x1 - x0)).
  Notation dy := (Z.abs (y1 - y0)).
  Notation sx := (sgn_to x0 x1).
  Notation sy := (sgn_to y0 y1).
  Notation N := (line_length x0 y0 x1 y1).

  Lemma line_pixel_off k :
    line_pixel x0 y0 x1 y1 k = (x0 + sx * oi dx dy k, y0 + sy * oj dx dy k).
  Proof. unfold line_pixel, oi, oj. destruct (dy <=? dx); reflexivity. Qed.

  Lemma sx_cases : (sx = 1 /\ x0 < x1) \/ (sx = -1 /\ x1 <= x0).
  Proof. unfold sgn_to. destruct (Z.ltb_spec x0 x1); lia. Qed.
  Lemma sy_cases : (sy = 1 /\ y0 < y1) \/ (sy = -1 /\ y1 <= y0).
  Proof. unfold sgn_to. destruct (Z.ltb_spec y0 y1); lia. Qed.

  Lemma line_first : line_pixel x0 y0 x1 y1 0 = (x0, y0).
  Proof.
    rewrite line_pixel_off. destruct (o_zero dx dy) as [-> ->]; try lia.
    f_equal; lia.
  Qed.

  Lemma line_last : line_pixel x0 y0 x1 y1 N = (x1, y1).
  Proof.
    rewrite line_pixel_off. unfold line_length.
    destruct (o_last dx dy) as [-> ->]; try lia.
    destruct sx_cases as [[-> ?]|[-> ?]], sy_cases as [[-> ?]|[-> ?]]; f_equal; lia.
  Qed.

  Lemma line_before_last k : 0 <= k < N -> line_pixel x0 y0 x1 y1 k <> (x1, y1).
  Proof.
    intros Hk. rewrite line_pixel_off. intros E. injection E as E1 E2.
    apply (o_not_last dx dy k); try lia; [exact Hk|].
    destruct sx_cases as [[Hs ?]|[Hs ?]], sy_cases as [[Ht ?]|[Ht ?]]; rewrite Hs in E1; rewrite Ht in E2; lia.
  Qed.

  Lemma line_bbox k : 0 <= k <= N ->
    Z.min x0 x1 <= fst (line_pixel x0 y0 x1 y1 k) <= Z.max x0 x1 /\
    Z.min y0 y1 <= snd (line_pixel x0 y0 x1 y1 k) <= Z.max y0 y1.
  Proof.
    intros Hk. rewrite line_pixel_off. cbn [fst snd].
    destruct (o_range dx dy k) as [H1 H2]; try lia; [exact Hk|].
    destruct sx_cases as [[Hs ?]|[Hs ?]], sy_cases as [[Ht ?]|[Ht ?]]; rewrite Hs, Ht; lia.
  Qed.

  (** Once the line has left a rectangle it does not come back. *)
  Lemma line_leaves m n a b k :
    0 <= a < b -> b <= k <= N ->
    off_grid m n (fst (line_pixel x0 y0 x1 y1 a)) (snd (line_pixel x0 y0 x1 y1 a)) = false ->
    off_grid m n (fst (line_pixel x0 y0 x1 y1 b)) (snd (line_pixel x0 y0 x1 y1 b)) = true ->
    off_grid m n (fst (line_pixel x0 y0 x1 y1 k)) (snd (line_pixel x0 y0 x1 y1 k)) = true.
  Proof.
    intros Ha Hk. rewrite !line_pixel_off. cbn [fst snd].
    assert (HN : N = Z.max dx dy) by reflexivity.
    destruct (o_mono' dx dy a b) as [H1 H2]; try lia.
    destruct (o_mono' dx dy b k) as [H3 H4]; try lia.
    revert H1 H2 H3 H4.
    generalize (oi dx dy a), (oi dx dy b), (oi dx dy k), (oj dx dy a), (oj dx dy b), (oj dx dy k).
    intros i1 i2 i3 j1 j2 j3 H1 H2 H3 H4. unfold off_grid.
    destruct sx_cases as [[Hs ?]|[Hs ?]], sy_cases as [[Ht ?]|[Ht ?]]; rewrite Hs, Ht; lia.
  Qed.
End Line.

(** ** Reads *)
Lemma is_land_on g p : is_land g p = true -> on_grid g p.
Proof.
  unfold is_land, on_grid. intros H.
  repeat (apply andb_true_iff in H; destruct H as [H ?]). lia.
Qed.

Lemma off_grid_land g x y : off_grid (rw g) (rh g) x y = true -> is_land g (x, y) = false.
Proof.
  intros H. destruct (is_land g (x, y)) eqn:E; auto. apply is_land_on in E.
  unfold on_grid, off_grid in *. cbn [fst snd] in *. lia.
Qed.

Lemma on_grid_off g p : on_grid g p <-> off_grid (rw g) (rh g) (fst p) (snd p) = false.
Proof. unfold on_grid, off_grid. lia. Qed.

Lemma at32_on g x y : wf g -> on_grid g (x, y) -> at32 (rh g) x y = x * rh g + y.
Proof.
  intros [H1 [H2 [H3 H4]]] [Hx Hy]. cbn [fst snd] in *. unfold at32.
  rewrite (i32_id (x * rh g)) by nia. apply i32_id. nia.
Qed.

Lemma rd_on g x y : wf g -> on_grid g (x, y) ->
  exists c, rd g (at32 (rh g) x y) = Some c /\ is_land g (x, y) = negb (c =? 0).
Proof.
  intros Hwf Hon. rewrite at32_on by auto. destruct Hwf as [H1 [H2 [H3 H4]]]. destruct Hon as [Hx Hy].
  cbn [fst snd] in *. unfold rd.
  assert (Hi : 0 <= x * rh g + y < rw g * rh g) by nia.
  destruct (Z.ltb_spec (x * rh g + y) 0); [lia|].
  destruct (nth_error (cells g) (Z.to_nat (x * rh g + y))) as [c|] eqn:E.
  - exists c. split; auto. unfold is_land. cbn [fst snd]. rewrite E.
    destruct (Z.leb_spec 0 x); [|lia]. destruct (Z.ltb_spec x (rw g)); [|lia].
    destruct (Z.leb_spec 0 y); [|lia]. destruct (Z.ltb_spec y (rh g)); [|lia]. reflexivity.
  - apply nth_error_None in E. lia.
Qed.

(** ** scan over pixels that are all off the raster *)
Lemma scan_off g qs : forall p,
  (forall q, In q qs -> off_grid (rw g) (rh g) (fst q) (snd q) = true) ->
  scan g p qs = NoHit.
Proof.
  induction qs as [|[qx qy] r IH]; intros [px py] H; cbn [scan]; auto. cbn [fst snd].
  pose proof (H (qx, qy) (or_introl eq_refl)) as Hq. cbn [fst snd] in Hq.
  rewrite (off_grid_land _ _ _ Hq).
  destruct (is_land g (qx, py)) eqn:E1; cbn [andb].
  - destruct (is_land g (px, qy)) eqn:E2; cbn [andb].
    + apply is_land_on in E1. apply is_land_on in E2.
      unfold on_grid, off_grid in *; cbn [fst snd] in *. lia.
    + apply IH. intros; apply H; right; auto.
  - apply IH. intros; apply H; right; auto.
Qed.

(** The rest of the line after pixel k. *)
Definition rest (x0 y0 x1 y1 k : Z) (n : nat) : list (Z * Z) :=
  map (line_pixel x0 y0 x1 y1) (zseq (k + 1) n).

(** One turn of the loop, in terms of consecutive pixels of the line. *)
Lemma walk_turn g x0 y0 x1 y1 n k w :
  small x0 -> small y0 -> small x1 -> small y1 ->
  let dx := Z.abs (x1 - x0) in
  let dy := Z.abs (y1 - y0) in
  let sx := sgn_to x0 x1 in
  let sy := sgn_to y0 y1 in
  0 <= k < line_length x0 y0 x1 y1 ->
  let px := fst (line_pixel x0 y0 x1 y1 k) in
  let py := snd (line_pixel x0 y0 x1 y1 k) in
  let qx := fst (line_pixel x0 y0 x1 y1 (k + 1)) in
  let qy := snd (line_pixel x0 y0 x1 y1 (k + 1)) in
  let next w' := walk n g dx dy sx sy x1 y1 (oerr dx dy (k + 1)) qx qy w' in
  walk (S n) g dx dy sx sy x1 y1 (oerr dx dy k) px py w =
  if off_grid (rw g) (rh g) qx qy then (if w then NoHit else next w)
  else match rd g (at32 (rh g) qx qy) with
       | None => BadRead
       | Some c =>
         if negb (c =? 0) then Hit px py qx qy
         else if w && negb (px =? qx) && negb (py =? qy) then
           match rd g (at32 (rh g) qx py) with
           | None => BadRead
           | Some c1 =>
             if negb (c1 =? 0) then
               match rd g (at32 (rh g) px qy) with
               | None => BadRead
               | Some c2 => if negb (c2 =? 0) then Hit px py qx py else next true
               end
             else next true
           end
         else next true
       end.
Proof.
  intros Hx0 Hy0 Hx1 Hy1 dx dy sx sy Hk px py qx qy next. unfold small in *.
  assert (Hdx : 0 <= dx <= 536870912) by (unfold dx; lia).
  assert (Hdy : 0 <= dy <= 536870912) by (unfold dy; lia).
  assert (HN : line_length x0 y0 x1 y1 = Z.max dx dy) by reflexivity.
  pose proof (line_before_last x0 y0 x1 y1 k Hk) as Hnl.
  pose proof (line_bbox x0 y0 x1 y1 k ltac:(lia)) as [Hb1 Hb2].
  pose proof (line_bbox x0 y0 x1 y1 (k+1) ltac:(lia)) as [Hb3 Hb4].
  destruct (o_step dx dy k) as [Ei [Ej Eb]]; try lia.
  assert (Hsx : sx = 1 \/ sx = -1) by (destruct (sx_cases x0 x1) as [[? ?]|[? ?]]; auto).
  assert (Hsy : sy = 1 \/ sy = -1) by (destruct (sy_cases y0 y1) as [[? ?]|[? ?]]; auto).
  assert (Epx : px = x0 + sx * oi dx dy k) by (unfold px; rewrite line_pixel_off; reflexivity).
  assert (Epy : py = y0 + sy * oj dx dy k) by (unfold py; rewrite line_pixel_off; reflexivity).
  assert (Eqx : qx = x0 + sx * oi dx dy (k+1)) by (unfold qx; rewrite line_pixel_off; reflexivity).
  assert (Eqy : qy = y0 + sy * oj dx dy (k+1)) by (unfold qy; rewrite line_pixel_off; reflexivity).
  assert (Hor1 : oerr dx dy (k+1) = oerr dx dy k - dy * b2z (2 * oerr dx dy k >? - dy)
                                    + dx * b2z (2 * oerr dx dy k <? dx)).
  { unfold oerr at 1. rewrite Ei, Ej. unfold oerr. ring. }
  rewrite Ei in Eqx. rewrite Ej in Eqy.
  fold px py in Hb1, Hb2. fold qx qy in Hb3, Hb4.
  assert (Hend : (px =? x1) && (py =? y1) = false).
  { apply andb_false_iff. rewrite !Z.eqb_neq. destruct (Z.eq_dec px x1); [|left; auto]. right.
    intros E. apply Hnl. unfold px, py in *. destruct (line_pixel x0 y0 x1 y1 k); cbn in *; congruence. }
  unfold next. clear next Hnl.
  generalize dependent (oerr dx dy (k+1)). intros err' Hor1.
  generalize dependent (oerr dx dy k). intros E Ei Ej Eb Eqx Eqy Hor1.
  clearbody px py qx qy sx sy dx dy.
  cbn [walk]. rewrite Hend.
  rewrite (i32_id (2 * E)), (i32_id (- dy)) by lia.
  destruct (2 * E >? - dy) eqn:Hmx, (2 * E <? dx) eqn:Hmy; cbn [b2z] in *;
    rewrite ?(i32_id (E - dy)) by lia; rewrite ?(i32_id (px + sx)), ?(i32_id (py + sy)) by lia.
  - rewrite (i32_id (E - dy + dx)) by lia.
    replace (E - dy + dx) with err' by lia.
    replace (px + sx) with qx by lia. replace (py + sy) with qy by lia.
    rewrite (i32_id (qy - sy)), (i32_id (qx - sx)) by lia.
    replace (qy - sy) with py by lia. replace (qx - sx) with px by lia.
    destruct (Z.eqb_spec px qx); [lia|]. destruct (Z.eqb_spec py qy); [lia|]. reflexivity.
  - replace (E - dy) with err' by lia.
    replace (px + sx) with qx by lia. replace py with qy by lia.
    rewrite Z.eqb_refl. cbn [negb]. rewrite !andb_false_r. reflexivity.
  - rewrite (i32_id (E + dx)) by lia. replace (E + dx) with err' by lia.
    replace (py + sy) with qy by lia. replace px with qx by lia.
    rewrite Z.eqb_refl. cbn [negb]. rewrite !andb_false_r. reflexivity.
  - replace E with err' by lia. replace px with qx by lia. replace py with qy by lia.
    rewrite !Z.eqb_refl. cbn [negb]. rewrite !andb_false_r. reflexivity.
Qed.

Lemma walk_scan g x0 y0 x1 y1 :
  wf g -> small x0 -> small y0 -> small x1 -> small y1 ->
  let dx := Z.abs (x1 - x0) in
  let dy := Z.abs (y1 - y0) in
  forall (n : nat) k w, 0 <= k -> k + Z.of_nat n = line_length x0 y0 x1 y1 ->
    w = negb (off_grid (rw g) (rh g) (fst (line_pixel x0 y0 x1 y1 k)) (snd (line_pixel x0 y0 x1 y1 k))) ->
    walk (S n) g dx dy (sgn_to x0 x1) (sgn_to y0 y1) x1 y1 (oerr dx dy k)
         (fst (line_pixel x0 y0 x1 y1 k)) (snd (line_pixel x0 y0 x1 y1 k)) w
    = scan g (line_pixel x0 y0 x1 y1 k) (rest x0 y0 x1 y1 k n).
Proof.
  intros Hwf Hx0 Hy0 Hx1 Hy1 dx dy n. subst dx dy.
  induction n as [|n IH]; intros k w Hk HN Hw.
  - assert (k = line_length x0 y0 x1 y1) by lia. subst k. cbn [walk rest zseq map scan].
    rewrite line_last. cbn [fst snd]. rewrite !Z.eqb_refl. reflexivity.
  - rewrite (walk_turn g x0 y0 x1 y1 (S n) k w Hx0 Hy0 Hx1 Hy1) by lia.
    specialize (IH (k + 1)).
    pose proof (line_leaves x0 y0 x1 y1 (rw g) (rh g) k (k+1)) as Hleave.
    change (rest x0 y0 x1 y1 k (S n)) with (line_pixel x0 y0 x1 y1 (k+1) :: rest x0 y0 x1 y1 (k+1) n).
    assert (Hrest : forall q, In q (rest x0 y0 x1 y1 (k+1) n) ->
       exists k', q = line_pixel x0 y0 x1 y1 k' /\ k + 1 < k' <= line_length x0 y0 x1 y1).
    { intros q Hq. unfold rest in Hq. apply in_map_iff in Hq as [k' [<- Hk']].
      apply zseq_In in Hk'. exists k'. split; auto. lia. }
    set (R := rest x0 y0 x1 y1 (k+1) n) in *.
    set (p := line_pixel x0 y0 x1 y1 k) in *.
    set (q := line_pixel x0 y0 x1 y1 (k+1)) in *.
    clearbody R. destruct p as [px py]. destruct q as [qx qy]. cbn [fst snd] in *.
    destruct (off_grid (rw g) (rh g) qx qy) eqn:Eoff.
    + (* the next pixel is off the raster *)
      destruct w.
      * symmetry. apply scan_off. intros q' [<-|Hq']; [exact Eoff|].
        destruct (Hrest _ Hq') as [k' [-> Hk']]. apply Hleave; auto; [lia|lia|].
        symmetry in Hw. apply negb_true_iff in Hw. exact Hw.
      * rewrite (IH false) by (auto; lia). cbn [scan fst snd].
        rewrite (off_grid_land _ _ _ Eoff).
        symmetry in Hw. apply negb_false_iff in Hw.
        destruct (is_land g (qx, py)) eqn:E1; cbn [andb]; auto.
        destruct (is_land g (px, qy)) eqn:E2; cbn [andb]; auto.
        apply is_land_on in E1. apply is_land_on in E2.
        unfold on_grid, off_grid in *; cbn [fst snd] in *. lia.
    + assert (Hq : on_grid g (qx, qy)) by (apply on_grid_off; exact Eoff).
      destruct (rd_on g qx qy Hwf Hq) as [c [-> Hc]]. cbn [scan fst snd]. rewrite Hc.
      destruct (negb (c =? 0)); auto.
      pose proof (IH true ltac:(lia) ltac:(lia) ltac:(cbn; rewrite ?Eoff; reflexivity)) as IHt.
      destruct w; cbn [andb].
      * symmetry in Hw. apply negb_true_iff in Hw.
        assert (Hp : on_grid g (px, py)) by (apply on_grid_off; exact Hw).
        assert (H1 : on_grid g (qx, py)) by (unfold on_grid in *; cbn [fst snd] in *; lia).
        assert (H2 : on_grid g (px, qy)) by (unfold on_grid in *; cbn [fst snd] in *; lia).
        destruct (rd_on g qx py Hwf H1) as [c1 [-> Hc1]].
        destruct (rd_on g px qy Hwf H2) as [c2 [-> Hc2]].
        rewrite Hc1, Hc2, IHt.
        destruct (px =? qx), (py =? qy), (negb (c1 =? 0)), (negb (c2 =? 0)); reflexivity.
      * rewrite IHt. symmetry in Hw. apply negb_false_iff in Hw.
        destruct (is_land g (qx, py)) eqn:E1; cbn [andb]; auto.
        destruct (is_land g (px, qy)) eqn:E2; cbn [andb]; auto.
        apply is_land_on in E1. apply is_land_on in E2.
        unfold on_grid, off_grid in *; cbn [fst snd] in *. lia.
Qed.

Theorem find_first_pixel_spec g x0 y0 x1 y1 :
  wf g -> small x0 -> small y0 -> small x1 -> small y1 ->
  find_first_pixel g x0 y0 x1 y1 = first_obstacle g x0 y0 x1 y1.
Proof.
  intros Hwf Hx0 Hy0 Hx1 Hy1. unfold find_first_pixel, first_obstacle.
  assert (Htl : tl (line x0 y0 x1 y1) =
                rest x0 y0 x1 y1 0 (Z.to_nat (line_length x0 y0 x1 y1))) by reflexivity.
  rewrite Htl.
  assert (HN0 : 0 <= line_length x0 y0 x1 y1) by (unfold line_length; lia).
  destruct (overlap_grid (rw g) (rh g) x0 y0 x1 y1) eqn:Eov; cbn [negb].
  - unfold small in *.
    rewrite (i32_id (x1 - x0)), (i32_id (y1 - y0)) by lia.
    rewrite (i32_id (Z.abs (x1 - x0))), (i32_id (Z.abs (y1 - y0))) by lia.
    rewrite (i32_id (Z.abs (x1 - x0) - Z.abs (y1 - y0))) by lia.
    change (if x0 <? x1 then 1 else -1) with (sgn_to x0 x1).
    change (if y0 <? y1 then 1 else -1) with (sgn_to y0 y1).
    change (Z.max (Z.abs (x1 - x0)) (Z.abs (y1 - y0))) with (line_length x0 y0 x1 y1).
    pose proof (walk_scan g x0 y0 x1 y1 Hwf Hx0 Hy0 Hx1 Hy1
                  (Z.to_nat (line_length x0 y0 x1 y1)) 0) as HW.
    rewrite line_first in HW. cbn [fst snd] in HW.
    assert (HE : oerr (Z.abs (x1 - x0)) (Z.abs (y1 - y0)) 0 = Z.abs (x1 - x0) - Z.abs (y1 - y0)).
    { unfold oerr. destruct (o_zero (Z.abs (x1 - x0)) (Z.abs (y1 - y0))) as [-> ->]; lia. }
    rewrite HE in HW.
    destruct (off_grid (rw g) (rh g) x0 y0) eqn:Eoff; cbn [negb] in *.
    + rewrite (off_grid_land _ _ _ Eoff). rewrite HW by (auto; lia). reflexivity.
    + assert (Hp : on_grid g (x0, y0)) by (apply on_grid_off; exact Eoff).
      destruct (rd_on g x0 y0 Hwf Hp) as [c [-> Hc]]. rewrite Hc.
      destruct (negb (c =? 0)); auto. rewrite HW by (auto; lia). reflexivity.
  - assert (Hall : forall k, 0 <= k <= line_length x0 y0 x1 y1 ->
      off_grid (rw g) (rh g) (fst (line_pixel x0 y0 x1 y1 k)) (snd (line_pixel x0 y0 x1 y1 k)) = true).
    { intros k Hk. pose proof (line_bbox x0 y0 x1 y1 k Hk) as [H1 H2].
      unfold overlap_grid in Eov. unfold off_grid.
      destruct ((x0 <? 0) && (x1 <? 0)) eqn:E1; [lia|].
      destruct ((y0 <? 0) && (y1 <? 0)) eqn:E2; [lia|].
      destruct ((x0 >=? rw g) && (x1 >=? rw g)) eqn:E3; [lia|].
      destruct ((y0 >=? rh g) && (y1 >=? rh g)) eqn:E4; [lia|]. discriminate. }
    pose proof (Hall 0 ltac:(lia)) as H0. rewrite line_first in H0. cbn [fst snd] in H0.
    rewrite (off_grid_land _ _ _ H0). symmetry. apply scan_off.
    intros q Hq. unfold rest in Hq. apply in_map_iff in Hq as [k [<- Hk]].
    apply zseq_In in Hk. apply Hall. lia.
Qed.
