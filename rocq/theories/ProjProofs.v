From Verif Require Import Py PyLemmas QLemmas ProjModel ProjSpec.
Open Scope Q_scope.

Lemma float_round p c : invertible p -> pt_eq (to_lonlat p (to_pixel p c)) c /\ pt_eq (to_pixel p (to_lonlat p c)) c.
Proof.
  intros [Hx Hy]. unfold pt_eq, to_lonlat, to_pixel. cbn [fst snd].
  repeat split; field; auto.
Qed.

Lemma int_round p z : invertible p -> to_pixel_int p (to_lonlat_int p z) = z.
Proof.
  intros Hi. unfold to_pixel_int, to_lonlat_int.
  destruct (float_round p (inject_Z (fst z) + (1#2), inject_Z (snd z) + (1#2)) Hi) as [_ [Ha Hb]].
  cbn [fst snd] in Ha, Hb. rewrite Ha, Hb. destruct z as [x y]. cbn [fst snd].
  f_equal; apply Qfloor_unique; lra.
Qed.

Lemma half_bound (v s : Q) (z : Z) : ~ s == 0 -> inject_Z z <= v < inject_Z z + 1 ->
  Qabs ((inject_Z z + (1#2) - v) / s) <= (1#2) / Qabs s.
Proof.
  intros Hs Hv. unfold Qdiv. rewrite Qabs_Qmult.
  rewrite Qabs_Qinv. apply Qmult_le_compat_r.
  - apply Qabs_case; lra.
  - apply Qinv_le_0_compat. apply Qabs_nonneg.
Qed.

Lemma point_round p c : invertible p ->
  let c' := to_lonlat_int p (to_pixel_int p c) in
  Qabs (fst c' - fst c) <= (1#2) / Qabs (p_sx p) /\ Qabs (snd c' - snd c) <= (1#2) / Qabs (p_sy p).
Proof.
  intros [Hx Hy] c'. subst c'. unfold to_lonlat_int, to_pixel_int, to_lonlat, to_pixel. cbn [fst snd].
  split.
  - set (v := (fst c - p_cx p) * p_sx p + p_ox p).
    assert (E : (inject_Z (Qfloor v) + (1 # 2) - p_ox p) / p_sx p + p_cx p - fst c
              == (inject_Z (Qfloor v) + (1#2) - v) / p_sx p) by (unfold v; field; auto).
    rewrite E. apply half_bound; auto. apply Qfloor_bounds.
  - set (v := (snd c - p_cy p) * p_sy p + p_oy p).
    assert (E : (inject_Z (Qfloor v) + (1 # 2) - p_oy p) / p_sy p + p_cy p - snd c
              == (inject_Z (Qfloor v) + (1#2) - v) / p_sy p) by (unfold v; field; auto).
    rewrite E. apply half_bound; auto. apply Qfloor_bounds.
Qed.

Lemma Qdiv_pos a b : 0 < a -> 0 < b -> 0 < a / b.
Proof. intros. apply Qlt_shift_div_l; lra. Qed.

Lemma scale_pick bw bh w h : 0 < bw -> 0 < bh -> 0 < w -> 0 < h ->
  let s := if Qle_bool (bw / bh) (w / h) then h / bh else w / bw in
  0 < s /\ s * bw <= w /\ s * bh <= h /\ (s * bw == w \/ s * bh == h).
Proof.
  intros Hbw Hbh Hw Hh s. subst s.
  destruct (Qle_bool_spec (bw / bh) (w / h)) as [H|H].
  - assert (bw * h <= w * bh).
    { pose proof (Qmul_pos bh h Hbh Hh).
      assert (bw / bh * (bh * h) <= w / h * (bh * h)) by (apply Qmult_le_compat_r; lra).
      assert (bw / bh * (bh * h) == bw * h) by (field; lra).
      assert (w / h * (bh * h) == w * bh) by (field; lra). lra. }
    split; [apply Qdiv_pos; auto|].
    assert (E1 : h / bh * bw == bw * h / bh) by (field; lra).
    assert (E2 : h / bh * bh == h) by (field; lra).
    rewrite E1, E2. split; [|split; [lra|right; reflexivity]].
    apply Qle_shift_div_r; auto.
  - assert (w * bh <= bw * h).
    { pose proof (Qmul_pos bh h Hbh Hh).
      assert (w / h * (bh * h) <= bw / bh * (bh * h)) by (apply Qmult_le_compat_r; lra).
      assert (bw / bh * (bh * h) == bw * h) by (field; lra).
      assert (w / h * (bh * h) == w * bh) by (field; lra). lra. }
    split; [apply Qdiv_pos; auto|].
    assert (E1 : w / bw * bh == w * bh / bw) by (field; lra).
    assert (E2 : w / bw * bw == w) by (field; lra).
    rewrite E1, E2. split; [lra|split; [|left; reflexivity]].
    apply Qle_shift_div_r; auto. lra.
Qed.

Lemma fit_axis x0 x1 s w x : 0 < s -> x0 <= x <= x1 -> s * (x1 - x0) <= w ->
  0 <= (x - (x0 + x1) / 2) * s + w / 2 <= w.
Proof.
  intros Hs Hx Hw.
  assert (E : (x - (x0 + x1) / 2) * s + w / 2 == (2 * (x * s) - (x0 * s + x1 * s) + w) / 2) by field.
  rewrite E. assert (x0 * s <= x * s) by (apply Qmult_le_compat_r; lra).
  assert (x * s <= x1 * s) by (apply Qmult_le_compat_r; lra).
  assert (s * (x1 - x0) == x1 * s - x0 * s) by ring.
  split; [apply Qle_shift_div_l|apply Qle_shift_div_r]; lra.
Qed.

Lemma fit_axis_neg x0 x1 s w x : 0 < s -> x0 <= x <= x1 -> s * (x1 - x0) <= w ->
  0 <= (x - (x0 + x1) / 2) * - s + w / 2 <= w.
Proof.
  intros Hs Hx Hw. pose proof (fit_axis x0 x1 s w x Hs Hx Hw) as H.
  assert (E : (x - (x0 + x1) / 2) * - s + w / 2 == w - ((x - (x0 + x1) / 2) * s + w / 2)) by field.
  rewrite E. lra.
Qed.

Lemma geo_shows b w h : proper b -> 0 < w -> 0 < h -> shows_box (geo_scale b w h) b w h.
Proof.
  intros [Hx Hy] Hw Hh. unfold geo_scale.
  destruct (scale_pick (b_x1 b - b_x0 b) (b_y1 b - b_y0 b) w h) as [Hs [H1 [H2 _]]]; try lra.
  cbv zeta in *.
  set (s := if Qle_bool _ _ then _ else _) in *. unfold shows_box. cbn [p_sx p_sy].
  split; auto. split; [lra|]. intros c [Hcx Hcy]. unfold to_pixel. cbn [fst snd p_cx p_cy p_sx p_sy p_ox p_oy].
  split; [apply fit_axis|apply fit_axis_neg]; auto.
Qed.

Lemma flat_shows k b w h : proper b -> 0 < k -> 0 < w -> 0 < h -> shows_box (flat_scale k b w h) b w h.
Proof.
  intros [Hx Hy] Hk Hw Hh. unfold flat_scale.
  destruct (scale_pick ((b_x1 b - b_x0 b) * k) (b_y1 b - b_y0 b) w h) as [Hs [H1 [H2 _]]]; try lra; [apply Qmul_pos; lra|].
  cbv zeta in *.
  set (s := if Qle_bool _ _ then _ else _) in *. unfold shows_box. cbn [p_sx p_sy].
  split; [apply Qmul_pos; lra|]. split; [lra|]. intros c [Hcx Hcy]. unfold to_pixel. cbn [fst snd p_cx p_cy p_sx p_sy p_ox p_oy].
  split; [apply fit_axis|apply fit_axis_neg]; auto; [apply Qmul_pos; lra|].
  assert (s * k * (b_x1 b - b_x0 b) == s * ((b_x1 b - b_x0 b) * k)) as -> by ring. auto.
Qed.

Lemma regular_shows b w h : proper b -> 0 < w -> 0 < h -> shows_box (regular_scale b w h) b w h.
Proof.
  intros [Hx Hy] Hw Hh. unfold regular_scale.
  assert (S1 : 0 < w / (b_x1 b - b_x0 b)) by (apply Qdiv_pos; lra).
  assert (S2 : 0 < h / (b_y1 b - b_y0 b)) by (apply Qdiv_pos; lra).
  assert (E : - h / (b_y1 b - b_y0 b) == - (h / (b_y1 b - b_y0 b))) by (field; lra).
  unfold shows_box. cbn [p_sx p_sy]. split; auto. split; [lra|].
  intros c [Hcx Hcy]. unfold to_pixel. cbn [fst snd p_cx p_cy p_sx p_sy p_ox p_oy]. rewrite E.
  split; [apply fit_axis|apply fit_axis_neg]; auto.
  - assert (w / (b_x1 b - b_x0 b) * (b_x1 b - b_x0 b) == w) as -> by (field; lra). lra.
  - assert (h / (b_y1 b - b_y0 b) * (b_y1 b - b_y0 b) == h) as -> by (field; lra). lra.
Qed.

Lemma shows_invertible p b w h : shows_box p b w h -> invertible p.
Proof. intros [H1 [H2 _]]. split; intros E; rewrite E in *; lra. Qed.

Lemma meters_round k a b c : ~ k == 0 ->
  let t1 := meters_to_lonlat k (lonlat_to_meters k (a, b, c)) in
  let t2 := lonlat_to_meters k (meters_to_lonlat k (a, b, c)) in
  (fst (fst t1) == a /\ snd (fst t1) == b /\ snd t1 = c) /\
  (fst (fst t2) == a /\ snd (fst t2) == b /\ snd t2 = c).
Proof.
  intros Hk. cbv zeta. unfold meters_to_lonlat, lonlat_to_meters. cbn [fst snd].
  assert (~ deg_per_m == 0) by (unfold deg_per_m; discriminate).
  repeat split; field; auto.
Qed.

(** ** Interpolation *)
Lemma increasing_nth l : forall i, increasing l -> (S i < length l)%nat -> qnth l i < qnth l (S i).
Proof.
  induction l as [|x [|y r] IH]; intros i Hi Hl; cbn [length] in Hl; try lia.
  destruct Hi as [Hxy Hr]. destruct i as [|i]; [exact Hxy|].
  apply (IH i Hr). cbn [length] in *. lia.
Qed.

Lemma increasing_lt l : increasing l -> forall d i, (i + S d < length l)%nat -> qnth l i < qnth l (i + S d).
Proof.
  intros Hl. induction d as [|d IH]; intros i Hi.
  - replace (i + 1)%nat with (S i) by lia. apply increasing_nth; auto. lia.
  - apply Qlt_trans with (qnth l (i + S d)); [apply IH; lia|].
    replace (i + S (S d))%nat with (S (i + S d)) by lia. apply increasing_nth; auto. lia.
Qed.

Lemma increasing_le l i j : increasing l -> (i <= j < length l)%nat -> qnth l i <= qnth l j.
Proof.
  intros Hl Hij. destruct (Nat.eq_dec i j) as [->|]; [lra|].
  pose proof (increasing_lt l Hl (j - i - 1) i ltac:(lia)).
  replace (i + S (j - i - 1))%nat with j in * by lia. lra.
Qed.

Lemma searchsorted_spec xs v : 
  (searchsorted xs v <= length xs)%nat /\
  (forall i, (i < searchsorted xs v)%nat -> qnth xs i < v) /\
  ((searchsorted xs v < length xs)%nat -> v <= qnth xs (searchsorted xs v)).
Proof.
  induction xs as [|x r [H1 [H2 H3]]]; cbn [searchsorted length].
  - repeat split; intros; lia.
  - destruct (Qle_bool_spec v x) as [H|H].
    + repeat split; try lia. intros _. exact H.
    + split; [lia|]. split.
      * intros [|i] Hi; [exact H|]. apply H2. lia.
      * intros Hi. apply H3. lia.
Qed.

Lemma interp_on xs ys v k :
  increasing xs -> (S k < length xs)%nat -> qnth xs k <= v <= qnth xs (S k) ->
  interp xs ys v == (qnth ys (S k) - qnth ys k) / (qnth xs (S k) - qnth xs k) * (v - qnth xs k) + qnth ys k.
Proof.
  intros Hx Hk Hv. unfold interp.
  destruct (searchsorted_spec xs v) as [S1 [S2 S3]]. set (i := searchsorted xs v) in *.
  (* k <= i <= k+1, or v = xs[k] *)
  assert (Hi : (i <= S k)%nat).
  { destruct (le_lt_dec i (S k)); auto. specialize (S2 (S k) l). lra. }
  assert (Hki : (k <= i)%nat).
  { destruct (le_lt_dec k i); auto. specialize (S3 ltac:(lia)).
    pose proof (increasing_lt xs Hx (k - i - 1) i ltac:(lia)) as H.
    replace (i + S (k - i - 1))%nat with k in H by lia. lra. }
  destruct (Nat.eq_dec i (S k)) as [Ei|Ei].
  - rewrite Ei. replace (Nat.max 1 (Nat.min (S k) (length xs - 1))) with (S k) by lia.
    replace (S k - 1)%nat with k by lia. reflexivity.
  - assert (Eik : i = k) by lia. rewrite Eik in *.
    assert (Ev : v == qnth xs k) by (specialize (S3 ltac:(lia)); lra).
    destruct k as [|k].
    + replace (Nat.max 1 (Nat.min 0 (length xs - 1))) with 1%nat by lia. reflexivity.
    + replace (Nat.max 1 (Nat.min (S k) (length xs - 1))) with (S k) by lia.
      replace (S k - 1)%nat with k by lia. rewrite Ev.
      pose proof (increasing_nth xs k Hx ltac:(lia)). pose proof (increasing_nth xs (S k) Hx ltac:(lia)).
      field. split; lra.
Qed.

Lemma arange_length n : length (arange n) = n.
Proof. unfold arange. rewrite map_length, seq_length. reflexivity. Qed.

Lemma arange_nth n i : (i < n)%nat -> qnth (arange n) i = inject_Z (Z.of_nat i).
Proof.
  intros H. unfold qnth, arange.
  rewrite (nth_indep _ 0 (inject_Z (Z.of_nat 0))) by (rewrite map_length, seq_length; auto).
  rewrite (map_nth (fun i => inject_Z (Z.of_nat i))). rewrite seq_nth by auto. reflexivity.
Qed.

Lemma arange_increasing n : increasing (arange n).
Proof.
  unfold arange. generalize 0%nat. induction n as [|[|n] IH]; intros a; cbn; auto.
  split; [|apply (IH (S a))]. rewrite <- Zlt_Qlt. lia.
Qed.

(** A real pixel coordinate inside the raster lies in some cell interval. *)
Lemma locate n q : (2 <= n)%nat -> 0 <= q <= inject_Z (Z.of_nat (n - 1)) ->
  exists k, (S k < n)%nat /\ inject_Z (Z.of_nat k) <= q <= inject_Z (Z.of_nat k) + 1.
Proof.
  intros Hn Hq. pose proof (Qfloor_bounds q) as Hf.
  assert (H0 : (0 <= Qfloor q)%Z).
  { pose proof (Qfloor_resp_le 0 q ltac:(lra)) as H. exact H. }
  assert (H1 : (Qfloor q <= Z.of_nat (n - 1))%Z).
  { rewrite <- (Qfloor_Z (Z.of_nat (n - 1))). apply Qfloor_resp_le. lra. }
  destruct (Z.eq_dec (Qfloor q) (Z.of_nat (n - 1))) as [E|E].
  - exists (n - 2)%nat. split; [lia|].
    assert (Eq : inject_Z (Z.of_nat (n - 1)) == inject_Z (Z.of_nat (n - 2)) + 1).
    { replace (n - 1)%nat with (S (n - 2)) by lia. apply inject_Z_nat_S. }
    rewrite E in Hf. lra.
  - exists (Z.to_nat (Qfloor q)). split; [lia|]. rewrite Z2Nat.id by lia. lra.
Qed.

(** interpolating forth and back is the identity *)
Lemma interp_round xs q : axis xs -> 0 <= q <= inject_Z (Z.of_nat (length xs - 1)) ->
  let v := interp (arange (length xs)) xs q in
  interp xs (arange (length xs)) v == q /\ qnth xs 0 <= v <= qlast xs.
Proof.
  intros [Hx Hn] Hq v. destruct (locate _ _ Hn Hq) as [k [Hk Hkq]].
  assert (Hv : v == (qnth xs (S k) - qnth xs k) * (q - inject_Z (Z.of_nat k)) + qnth xs k).
  { unfold v. rewrite (interp_on _ _ q k).
    - rewrite !arange_nth by lia. rewrite inject_Z_nat_S. field. lra.
    - apply arange_increasing.
    - rewrite arange_length; auto.
    - rewrite !arange_nth by lia. rewrite inject_Z_nat_S. lra. }
  pose proof (increasing_nth xs k Hx Hk) as Hs.
  assert (Hb : qnth xs k <= v <= qnth xs (S k)).
  { rewrite Hv. set (d := qnth xs (S k) - qnth xs k) in *. set (t := q - inject_Z (Z.of_nat k)).
    assert (0 <= t <= 1) by (unfold t; lra). assert (0 < d) by (unfold d; lra).
    assert (0 <= d * t) by (apply Qmul_nonneg; lra).
    assert (0 <= d * (1 - t)) by (apply Qmul_nonneg; lra).
    assert (d * (1 - t) == d - d * t) by ring. unfold d in *. lra. }
  split.
  - rewrite (interp_on xs _ v k Hx Hk Hb). rewrite !arange_nth by lia. rewrite inject_Z_nat_S, Hv. field. lra.
  - pose proof (increasing_le xs 0 k Hx ltac:(lia)).
    pose proof (increasing_le xs (S k) (length xs - 1) Hx ltac:(lia)). unfold qlast. lra.
Qed.

Lemma qclip_in v lo hi : lo <= v <= hi -> qclip v lo hi == v.
Proof.
  intros H. unfold qclip. destruct (Qle_bool_spec v lo); [lra|]. destruct (Qle_bool_spec hi v); lra.
Qed.

Lemma qclip_range v lo hi : lo <= hi -> lo <= qclip v lo hi <= hi.
Proof.
  intros H. unfold qclip. destruct (Qle_bool_spec v lo); [lra|]. destruct (Qle_bool_spec hi v); lra.
Qed.

Lemma Qfloor_comp_eq a b : a == b -> Qfloor a = Qfloor b.
Proof. intros E. rewrite E. reflexivity. Qed.

Global Instance searchsorted_proper : Proper (eq ==> Qeq ==> eq) searchsorted.
Proof.
  intros xs ? <- a b E. induction xs as [|x r IH]; cbn; auto.
  destruct (Qle_bool_spec a x), (Qle_bool_spec b x); auto; exfalso; lra.
Qed.
Global Instance interp_proper : Proper (eq ==> eq ==> Qeq ==> Qeq) interp.
Proof.
  intros xs ? <- ys ? <- a b E. unfold interp. rewrite (searchsorted_proper xs xs eq_refl a b E). rewrite E. reflexivity.
Qed.

Lemma nat_pos_Q n : (2 <= n)%nat -> 1 <= inject_Z (Z.of_nat (n - 1)).
Proof. intros H. change 1 with (inject_Z 1). rewrite <- Zle_Qle. lia. Qed.

Lemma rect_round_x lons p : axis lons -> (0 <= p <= Z.of_nat (length lons) - 1)%Z ->
  rect_pixel_x lons (rect_lon lons p) = p.
Proof.
  intros Ha Hp. unfold rect_pixel_x, rect_lon. pose proof Ha as [_ Hn].
  set (M := inject_Z (Z.of_nat (length lons - 1))). set (q := qclip (inject_Z p + (1#2)) 0 M).
  assert (HM : 1 <= M) by (apply nat_pos_Q; auto).
  assert (Hq : 0 <= q <= M) by (apply qclip_range; lra).
  destruct (interp_round lons q Ha Hq) as [H1 H2]. cbv zeta in *.
  rewrite (Qfloor_comp_eq _ q).
  2:{ rewrite <- H1 at 2. apply interp_proper; auto. apply qclip_in. exact H2. }
  assert (Hp0 : inject_Z 0 <= inject_Z p) by (rewrite <- Zle_Qle; lia).
  assert (Hp1 : inject_Z p <= M) by (unfold M; rewrite <- Zle_Qle; lia).
  change (inject_Z 0) with 0 in Hp0.
  apply Qfloor_unique; unfold q, qclip; destruct (Qle_bool_spec (inject_Z p + (1#2)) 0);
    destruct (Qle_bool_spec M (inject_Z p + (1#2))); try lra.
Qed.

Lemma rect_round_y lats p : axis lats -> (0 <= p <= Z.of_nat (length lats) - 1)%Z ->
  rect_pixel_y lats (rect_lat lats p) = p.
Proof.
  intros Ha Hp. unfold rect_pixel_y, rect_lat. pose proof Ha as [_ Hn].
  set (M := inject_Z (Z.of_nat (length lats - 1))). set (q := qclip (inject_Z p + (1#2)) 0 M).
  assert (HM : 1 <= M) by (apply nat_pos_Q; auto).
  assert (Hq : 0 <= q <= M) by (apply qclip_range; lra).
  destruct (interp_round lats (M - q) Ha) as [H1 H2]; [fold M; lra|]. cbv zeta in *.
  rewrite (Qfloor_comp_eq _ q).
  2:{ assert (E : forall a, a == M - q -> M - a == q) by (intros; lra). apply E. clear E.
      rewrite <- H1 at 2. apply interp_proper; auto. apply qclip_in. exact H2. }
  assert (Hp0 : inject_Z 0 <= inject_Z p) by (rewrite <- Zle_Qle; lia).
  assert (Hp1 : inject_Z p <= M) by (unfold M; rewrite <- Zle_Qle; lia).
  change (inject_Z 0) with 0 in Hp0.
  apply Qfloor_unique; unfold q, qclip; destruct (Qle_bool_spec (inject_Z p + (1#2)) 0);
    destruct (Qle_bool_spec M (inject_Z p + (1#2))); try lra.
Qed.

Lemma call_keeps p a : (forall l, a <> FloatArray l) -> snd (to_lonlat_call p a) = a.
Proof. destruct a; intros H; cbn; auto. exfalso. apply (H l); auto. Qed.

Lemma scale_fills bw bh w h : 0 < bw -> 0 < bh ->
  let s := if Qle_bool (bw / bh) (w / h) then h / bh else w / bw in s * bw == w \/ s * bh == h.
Proof.
  intros Hb Hh. cbv zeta. destruct (Qle_bool _ _); [right|left]; field; lra.
Qed.
Lemma scale_fills_image b w h k : proper b -> 0 < k ->
  (fills_width (geo_scale b w h) b w \/ fills_height (geo_scale b w h) b h) /\
  p_sx (geo_scale b w h) == - p_sy (geo_scale b w h) /\
  (fills_width (flat_scale k b w h) b w \/ fills_height (flat_scale k b w h) b h) /\
  p_sx (flat_scale k b w h) == k * - p_sy (flat_scale k b w h) /\
  (fills_width (regular_scale b w h) b w /\ fills_height (regular_scale b w h) b h).
Proof.
  intros [Hx Hy] Hk.
  assert (Hkx : 0 < (b_x1 b - b_x0 b) * k) by (apply Qmul_pos; lra).
  destruct (scale_fills (b_x1 b - b_x0 b) (b_y1 b - b_y0 b) w h) as [G|G]; try lra;
  destruct (scale_fills ((b_x1 b - b_x0 b) * k) (b_y1 b - b_y0 b) w h) as [F|F]; try lra; cbv zeta in *;
  unfold geo_scale, flat_scale, regular_scale, fills_width, fills_height, to_pixel;
  cbv zeta; cbn [fst snd p_cx p_cy p_sx p_sy p_ox p_oy];
  set (s := if Qle_bool ((b_x1 b - b_x0 b) / _) _ then _ else _) in *;
  set (s' := if Qle_bool ((b_x1 b - b_x0 b) * k / _) _ then _ else _) in *;
  (split; [(left; rewrite <- G; ring) || (right; rewrite <- G; ring)|]);
  (split; [ring|]); (split; [(left; rewrite <- F; ring) || (right; rewrite <- F; ring)|]);
  (split; [ring|split; field; lra]).
Qed.
