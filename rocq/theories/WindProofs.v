From Coq Require Import Reals Lra Lia.
From Verif Require Import Py WxModel WxProofs WindModel WindSpec.
Open Scope R_scope.

Lemma Ok_inj1 : forall A (x y : A), Ok x = Ok y -> x = y.
Proof. intros A x y H. injection H as ->. reflexivity. Qed.

(** ** Angles *)
Lemma sin_period_Z : forall x k, sin (x + 2 * IZR k * PI) = sin x.
Proof.
  intros x k. destruct (Z_le_gt_dec 0 k) as [H|H].
  - rewrite <- (Z2Nat.id k H), <- INR_IZR_INZ. apply sin_period.
  - rewrite <- (sin_period (x + 2 * IZR k * PI) (Z.to_nat (- k))). rewrite INR_IZR_INZ, Z2Nat.id by lia. rewrite opp_IZR. f_equal. ring.
Qed.
Lemma cos_period_Z : forall x k, cos (x + 2 * IZR k * PI) = cos x.
Proof.
  intros x k. destruct (Z_le_gt_dec 0 k) as [H|H].
  - rewrite <- (Z2Nat.id k H), <- INR_IZR_INZ. apply cos_period.
  - rewrite <- (cos_period (x + 2 * IZR k * PI) (Z.to_nat (- k))). rewrite INR_IZR_INZ, Z2Nat.id by lia. rewrite opp_IZR. f_equal. ring.
Qed.
Lemma rmod_range : forall x m, 0 < m -> 0 <= rmod x m < m.
Proof.
  intros x m M. unfold rmod. destruct (base_Int_part (x / m)) as [B1 B2]. set (k := IZR (Int_part (x / m))) in *. clearbody k.
  assert (E : x = m * (x / m)) by (field; lra). set (y := x / m) in *. clearbody y. subst x. split; nra.
Qed.
Lemma PI_neq : PI <> 0. Proof. pose proof PI_RGT_0. lra. Qed.
Lemma angle_out : forall a, exists k, deg2rad (rmod (rad2deg a + 360) 360) = a + 2 * IZR k * PI.
Proof.
  intros a. exists (1 - Int_part ((rad2deg a + 360) / 360))%Z. rewrite minus_IZR. unfold rmod. set (k := IZR (Int_part _)). clearbody k.
  unfold deg2rad, rad2deg. field. exact PI_neq.
Qed.

Lemma hyp_pos : forall x y, x <> 0 -> sqrt (x * x + y * y) = Rabs x * sqrt (1 + (y / x) * (y / x)).
Proof.
  intros x y N. rewrite <- (sqrt_Rsqr_abs x). rewrite <- sqrt_mult; [|apply Rle_0_sqr|nra]. f_equal. unfold Rsqr. field. exact N.
Qed.
Lemma one_plus : forall t, 0 < 1 + t * t. Proof. intros t. nra. Qed.
Lemma atan_parts : forall t, sin (atan t) * sqrt (1 + t * t) = t /\ cos (atan t) * sqrt (1 + t * t) = 1.
Proof.
  intros t. pose proof (sqrt_lt_R0 _ (one_plus t)) as P. rewrite sin_atan, cos_atan. unfold Rsqr.
  set (s := sqrt (1 + t * t)) in *. clearbody s. split; field; lra.
Qed.
Lemma arctan2_parts : forall y x, sqrt (x * x + y * y) * sin (arctan2 y x) = y /\ sqrt (x * x + y * y) * cos (arctan2 y x) = x.
Proof.
  intros y x. unfold arctan2. destruct (Rltb 0 x) eqn:X1.
  - apply Rltb_iff in X1. rewrite hyp_pos by lra. rewrite Rabs_right by lra. destruct (atan_parts (y / x)) as [A B].
    split; [transitivity (x * (sin (atan (y / x)) * sqrt (1 + y / x * (y / x)))); [ring|rewrite A; field; lra]|transitivity (x * (cos (atan (y / x)) * sqrt (1 + y / x * (y / x)))); [ring|rewrite B; ring]].
  - destruct (Rltb x 0) eqn:X2.
    + apply Rltb_iff in X2. rewrite hyp_pos by lra. rewrite Rabs_left by lra. destruct (atan_parts (y / x)) as [A B].
      assert (Z : sin (if Rltb y 0 then atan (y / x) - PI else atan (y / x) + PI) = - sin (atan (y / x)) /\ cos (if Rltb y 0 then atan (y / x) - PI else atan (y / x) + PI) = - cos (atan (y / x))).
      { destruct (Rltb y 0); [|split; [apply neg_sin|apply neg_cos]]. split.
        - rewrite sin_minus, sin_PI, cos_PI. ring.
        - rewrite cos_minus, sin_PI, cos_PI. ring. }
      destruct Z as [-> ->].
      split; [transitivity (x * (sin (atan (y / x)) * sqrt (1 + y / x * (y / x)))); [ring|rewrite A; field; lra]|transitivity (x * (cos (atan (y / x)) * sqrt (1 + y / x * (y / x)))); [ring|rewrite B; ring]].
    + assert (x = 0). { destruct (Rtotal_order x 0) as [L|[E|G]]; [apply Rltb_iff in L; congruence|exact E|apply Rltb_iff in G; congruence]. }
      subst x. rewrite Rmult_0_l, Rplus_0_l. destruct (Rltb 0 y) eqn:Y1.
      * apply Rltb_iff in Y1. rewrite sqrt_square by lra. rewrite sin_PI2, cos_PI2. split; ring.
      * destruct (Rltb y 0) eqn:Y2.
        -- apply Rltb_iff in Y2. replace (y * y) with ((- y) * (- y)) by ring. rewrite sqrt_square by lra. rewrite sin_neg, cos_neg, sin_PI2, cos_PI2. split; ring.
        -- assert (y = 0). { destruct (Rtotal_order y 0) as [L|[E|G]]; [apply Rltb_iff in L; congruence|exact E|apply Rltb_iff in G; congruence]. }
           subst y. rewrite Rmult_0_l, sqrt_0. split; ring.
Qed.

Lemma deg_same : forall d, deg2rad d = d / 180 * PI.
Proof. intros d. unfold deg2rad. field. Qed.
Lemma out_polar : forall v, air 1 true (uv_to_r_theta_wind v) = v /\ normal true (uv_to_r_theta_wind v).
Proof.
  intros [a b]. unfold air, uv_to_r_theta_wind, normal. cbn [fst snd]. rewrite <- deg_same.
  destruct (angle_out (arctan2 (-1 * a) (-1 * b))) as [k ->]. rewrite sin_period_Z, cos_period_Z.
  destruct (arctan2_parts (-1 * a) (-1 * b)) as [S C]. replace (-1 * b * (-1 * b) + -1 * a * (-1 * a)) with (a * a + b * b) in S, C by ring.
  split; [f_equal|intros _; split; [apply sqrt_pos|apply rmod_range; lra]].
  - transitivity (- (sqrt (a * a + b * b) * sin (arctan2 (-1 * a) (-1 * b)))); [ring|rewrite S; ring].
  - transitivity (- (sqrt (a * a + b * b) * cos (arctan2 (-1 * a) (-1 * b)))); [ring|rewrite C; ring].
Qed.
Lemma in_polar : forall v, to_uv v = air 1 true v.
Proof. intros [r d]. unfold to_uv, air. cbn [fst snd]. rewrite <- deg_same. f_equal; ring. Qed.

(** A polar pair is determined by the wind unless that is 0. *)
Lemma polar_unique : forall u v w, 0 < u -> normal true v -> normal true w -> air u true v = air u true w -> 0 < fst v -> v = w.
Proof.
  intros u [r d] [r' d'] U N N' E R. destruct (N eq_refl) as [_ D], (N' eq_refl) as [R' D']. cbn [fst snd] in *. unfold air in E. cbn [fst snd] in E.
  injection E as E1 E2. rewrite <- !deg_same in E1, E2. set (x := deg2rad d) in *. set (x' := deg2rad d') in *.
  assert (F1 : r * sin x = r' * sin x') by (apply (Rmult_eq_reg_l (- u)); [rewrite <- !Rmult_assoc; rewrite (Rmult_comm (-u) r), (Rmult_comm (-u) r'); lra|lra]).
  assert (F2 : r * cos x = r' * cos x') by (apply (Rmult_eq_reg_l (- u)); [rewrite <- !Rmult_assoc; rewrite (Rmult_comm (-u) r), (Rmult_comm (-u) r'); lra|lra]).
  pose proof (sin2_cos2 x) as Q. pose proof (sin2_cos2 x') as Q'. unfold Rsqr in Q, Q'.
  assert (RR : r = r').
  { apply Rsqr_inj; [lra|exact R'|]. unfold Rsqr. transitivity ((r * sin x) * (r * sin x) + (r * cos x) * (r * cos x)).
    - transitivity (r * r * (sin x * sin x + cos x * cos x)); [rewrite Q; ring|ring].
    - rewrite F1, F2. transitivity (r' * r' * (sin x' * sin x' + cos x' * cos x')); [ring|rewrite Q'; ring]. }
  subst r'. assert (G1 : sin x = sin x') by (apply (Rmult_eq_reg_l r); [exact F1|lra]). assert (G2 : cos x = cos x') by (apply (Rmult_eq_reg_l r); [exact F2|lra]).
  f_equal. pose proof PI_RGT_0 as PP.
  (* x - x' has cosine 1 and lies in (-2 pi, 2 pi) *)
  assert (C1 : cos (x - x') = 1) by (rewrite cos_minus, G1, G2; lra).
  assert (S0 : sin ((x - x') / 2) = 0).
  { assert (H : cos (2 * ((x - x') / 2)) = 1) by (replace (2 * ((x - x') / 2)) with (x - x') by field; exact C1).
    rewrite cos_2a_sin in H. apply Rsqr_0_uniq. unfold Rsqr. lra. }
  apply sin_eq_0_0 in S0. destruct S0 as [k K]. unfold x, x', deg2rad in K.
  assert (K' : d - d' = 360 * IZR k). { apply (Rmult_eq_reg_r (PI / 360)); [|apply Rgt_not_eq; lra]. transitivity ((d * PI / 180 - d' * PI / 180) / 2); [field|rewrite K; field]. }
  assert (k = 0)%Z. { assert (IZR k < 1) by lra. assert (IZR k > -1) by lra. apply lt_IZR in H. assert (-1 < k)%Z by (apply lt_IZR; exact H0). lia. }
  subst k. lra.
Qed.

(** ** Conversion of units *)
Definition faithful (c : coord) : Prop := c <> StrUV.
Lemma convert_air : forall c u u' v, faithful c -> 0 < u' -> air u' (polar c) (convert_units c u u' v) = air u (polar c) v.
Proof.
  intros c u u' [a b] F U. unfold air, convert_units. destruct c; cbn [polar fst snd]; try (contradiction F; reflexivity).
  - f_equal; field; lra.
  - f_equal; field; lra.
  - f_equal; field; lra.
Qed.
Lemma convert_sensible : forall c u v, 0 < u -> sensible (polar c) v -> sensible (polar c) (convert_units c u 1 v).
Proof.
  intros c u [a b] U S P. specialize (S P). destruct c; try discriminate; cbn [convert_units fst snd] in *; split; try apply S; unfold Rdiv; rewrite Rinv_1, Rmult_1_r; nra.
Qed.
Lemma convert_normal : forall c u v, 0 < u -> normal (polar c) v -> normal (polar c) (convert_units c 1 u v).
Proof.
  intros c u [a b] U S P. specialize (S P). destruct c; try discriminate; cbn [convert_units fst snd] in *; split; try apply S; unfold Rdiv; rewrite Rmult_1_r; pose proof (Rinv_0_lt_compat u U); nra.
Qed.
Lemma existsb_none : forall (f : entry -> bool) l, (forall e, In e l -> f e = false) -> existsb f l = false.
Proof. intros f l H. induction l as [|a l IH]; [reflexivity|]. cbn [existsb]. rewrite (H a (or_introl eq_refl)), IH by (intros e I; apply H; right; exact I). reflexivity. Qed.
Lemma Rltb_no : forall a b, b <= a -> Rltb a b = false.
Proof. intros a b H. destruct (Rltb a b) eqn:E; [apply Rltb_iff in E; lra|reflexivity]. Qed.
Lemma Rltb_yes : forall a b, a < b -> Rltb a b = true.
Proof. intros a b H. apply Rltb_iff. exact H. Qed.
Lemma to_pairs_ok : forall c l, (forall e, In e l -> sensible (polar c) (snd e)) -> to_time_value_pair c l = Ok (map (fun e => (fst e, air 1 (polar c) (snd e))) l).
Proof.
  intros c l S. unfold to_time_value_pair. destruct (polar c).
  - unfold r_theta_to_uv_wind. rewrite !existsb_none.
    + cbn [orb]. f_equal. apply map_ext. intros e. rewrite in_polar. reflexivity.
    + intros e I. apply Rltb_no. apply (S e I eq_refl).
    + intros e I. apply Rltb_no. apply (S e I eq_refl).
    + intros e I. apply Rltb_no. apply (S e I eq_refl).
  - f_equal. rewrite <- (map_id l) at 1. apply map_ext. intros [t [a b]]. unfold air. cbn [fst snd]. rewrite !Rmult_1_r. reflexivity.
Qed.
Lemma to_pairs_bad : forall c l e, polar c = true -> In e l -> ~ sensible true (snd e) -> to_time_value_pair c l = Raise ValueErr.
Proof.
  intros c l e P I N. unfold to_time_value_pair. rewrite P. unfold r_theta_to_uv_wind.
  destruct (existsb (fun e0 => Rltb 360 (snd (snd e0))) l) eqn:E1; [reflexivity|]. destruct (existsb (fun e0 => Rltb (snd (snd e0)) 0) l) eqn:E2; [reflexivity|]. cbn [orb].
  destruct (existsb (fun e0 => Rltb (fst (snd e0)) 0) l) eqn:E3; [reflexivity|]. exfalso. apply N. intros _.
  assert (Q : forall f, existsb f l = false -> f e = false). { intros f X. destruct (f e) eqn:Y; [|reflexivity]. assert (existsb f l = true) by (apply existsb_exists; exists e; split; assumption). congruence. }
  apply Q in E1. apply Q in E2. apply Q in E3. cbv beta in *.
  split; [|split].
  - destruct (Rle_lt_dec 0 (fst (snd e))) as [L|L]; [exact L|]. apply Rltb_yes in L. pose proof (eq_trans (eq_sym L) E3) as X. discriminate X.
  - destruct (Rle_lt_dec 0 (snd (snd e))) as [L|L]; [exact L|]. apply Rltb_yes in L. pose proof (eq_trans (eq_sym L) E2) as X. discriminate X.
  - destruct (Rle_lt_dec (snd (snd e)) 360) as [L|L]; [exact L|]. apply Rltb_yes in L. pose proof (eq_trans (eq_sym L) E1) as X. discriminate X.
Qed.

(** ** The order check *)
Lemma in_order_cons : forall a l, in_order (a :: l) -> in_order l.
Proof. intros a l H l1 p q l2 E. apply (H (a :: l1) p q l2). rewrite E. reflexivity. Qed.
Lemma diffs_order : forall l, diffs_ok l = true <-> in_order l.
Proof.
  intros l. split.
  - induction l as [|a l IH]; intros H l1 p q l2 E; [destruct l1; discriminate|].
    destruct l as [|b l]; [destruct l1 as [|x [|y l1]]; discriminate|].
    cbn [diffs_ok] in H. apply andb_prop in H. destruct H as [H1 H2]. destruct l1 as [|x l1]; cbn [app] in E.
    + injection E; intros; subst. destruct (Z.leb_spec (fst q - fst p) 0); [discriminate|lia].
    + apply (IH H2 l1 p q l2). injection E. intros E' _. exact E'.
  - induction l as [|a l IH]; intros A; [reflexivity|]. destruct l as [|b l]; [reflexivity|].
    cbn [diffs_ok]. apply andb_true_intro. split; [pose proof (A [] a b l eq_refl) as L; destruct (Z.leb_spec (fst b - fst a) 0); [lia|reflexivity]|].
    apply IH. exact (in_order_cons _ _ A).
Qed.
Lemma in_order_map : forall (f : entry -> entry) k l, (forall e, fst (f e) = fst e + k)%Z -> in_order l -> in_order (map f l).
Proof.
  intros f k l F H l1 p q l2 E. apply map_eq_app in E. destruct E as [m1 [m2 [E [E1 E2]]]]. apply map_eq_cons in E2. destruct E2 as [p' [m3 [E2 [Ep E3]]]]. apply map_eq_cons in E3. destruct E3 as [q' [m4 [E3 [Eq _]]]].
  subst. rewrite !F. specialize (H m1 p' q' m4 eq_refl). lia.
Qed.

Lemma Forall2_map : forall (f g : entry -> entry) (P : entry -> entry -> Prop) l, (forall e, In e l -> P (f e) (g e)) -> Forall2 P (map f l) (map g l).
Proof. intros f g P l. induction l as [|a l IH]; intros H; cbn; constructor; [apply H; left; reflexivity|apply IH; intros e I; apply H; right; exact I]. Qed.
Lemma same_air_trans : forall u p l u' p' l' u'' p'' l'', same_air u p l u' p' l' -> same_air u' p' l' u'' p'' l'' -> same_air u p l u'' p'' l''.
Proof.
  intros u p l u' p' l' u'' p'' l'' H. revert l''. induction H as [|e e' l l' [T A] H IH]; intros l'' H'; inversion H' as [|? e'' ? ? [T' A'] H'']; subst; constructor; [split; congruence|apply IH; exact H''].
Qed.
Lemma same_air_sym : forall u p l u' p' l', same_air u p l u' p' l' -> same_air u' p' l' u p l.
Proof. intros u p l u' p' l' H. induction H as [|e e' l l' [T A] H IH]; constructor; [split; congruence|exact IH]. Qed.

(** What is stored is given out. *)
Lemma air_id : forall v, air 1 false v = v.
Proof. intros [a b]. unfold air. cbn [fst snd]. rewrite !Rmult_1_r. reflexivity. Qed.
Lemma get_air : forall w u c, faithful c -> 0 < u -> same_air 1 false (stored w) u (polar c) (get_wind_data w (Some u) c) /\ Forall (fun e => normal (polar c) (snd e)) (get_wind_data w (Some u) c).
Proof.
  intros w u c F U. unfold get_wind_data, to_datetime_value_2d. destruct (polar c) eqn:P.
  - rewrite map_map. cbn [fst snd]. split.
    + rewrite <- (map_id (stored w)) at 1. apply Forall2_map. intros e _. cbn [fst snd]. split; [reflexivity|]. rewrite <- P at 1. rewrite convert_air by assumption. rewrite P, air_id. symmetry. apply out_polar.
    + apply Forall_forall. intros x I. apply in_map_iff in I. destruct I as [e [<- _]]. cbn [snd]. rewrite <- P. apply convert_normal; [exact U|]. rewrite P. apply out_polar.
  - split.
    + rewrite <- (map_id (stored w)) at 1. apply Forall2_map. intros e _. cbn [fst snd]. split; [reflexivity|]. rewrite <- P at 2. rewrite convert_air by assumption. rewrite P. reflexivity.
    + apply Forall_forall. intros x _ Q. discriminate.
Qed.
Lemma set_air : forall c u l, faithful c -> 0 < u -> (forall e, In e l -> sensible (polar c) (snd e)) ->
  exists st, to_time_value_pair c (map (fun e => (fst e, convert_units c u 1 (snd e))) l) = Ok st /\ same_air u (polar c) l 1 false st.
Proof.
  intros c u l F U S. rewrite to_pairs_ok.
  - eexists. split; [reflexivity|]. rewrite map_map. cbn [fst snd]. rewrite <- (map_id l) at 1. apply Forall2_map. intros e _. cbn [fst snd]. split; [reflexivity|].
    rewrite convert_air by (try assumption; lra). rewrite air_id. reflexivity.
  - intros x I. apply in_map_iff in I. destruct I as [e [<- I]]. apply convert_sensible; [exact U|apply S; exact I].
Qed.

(** ** The Rayleigh distribution *)
Lemma sq_pos : forall x, x <> 0 -> 0 < x * x. Proof. intros x H. nra. Qed.
Definition spread (g : R) : R := sqrt (2 / PI) * sqrt (-1 * ln (g * g)).
Lemma new_speed_ok : forall d s v, 0 < s -> s < 5 / 10 -> new_speed d s v = Some (fst v * spread (match d with Up => 5 / 10 - s | _ => 5 / 10 + s end)).
Proof.
  intros d s v S1 S2. unfold new_speed, quantile, sigma_from_wind, spread. destruct d.
  - replace (1 - (5 / 10 + s)) with (5 / 10 - s) by lra. rewrite (Rltb_yes 0 ((5 / 10 - s) * (5 / 10 - s))) by (apply sq_pos; lra). f_equal. ring.
  - replace (1 - (5 / 10 - s)) with (5 / 10 + s) by lra. rewrite (Rltb_yes 0 ((5 / 10 + s) * (5 / 10 + s))) by (apply sq_pos; lra). f_equal. ring.
  - replace (1 - (5 / 10 - s)) with (5 / 10 + s) by lra. rewrite (Rltb_yes 0 ((5 / 10 + s) * (5 / 10 + s))) by (apply sq_pos; lra). f_equal. ring.
Qed.
Lemma spread_form : forall g, 0 < g <= 1 -> spread g * spread g = 4 / PI * - ln g /\ 0 <= spread g.
Proof.
  intros g [G1 G2]. pose proof PI_RGT_0 as PP. unfold spread. split.
  - rewrite ln_mult by assumption. assert (L : ln g <= 0). { destruct G2 as [G2| ->]; [left; rewrite <- ln_1; apply ln_increasing; assumption|rewrite ln_1; lra]. }
    transitivity ((sqrt (2 / PI) * sqrt (2 / PI)) * (sqrt (-1 * (ln g + ln g)) * sqrt (-1 * (ln g + ln g)))); [ring|].
    rewrite !sqrt_sqrt; [field; lra|lra|]. apply Rlt_le. apply Rdiv_lt_0_compat; lra.
  - apply Rmult_le_pos; apply sqrt_pos.
Qed.
Lemma sq_lt : forall x y, 0 <= x -> 0 <= y -> (x < y <-> x * x < y * y). Proof. intros x y X Y. split; nra. Qed.
Lemma spread_lt : forall g, 0 < g <= 1 -> (spread g < 1 <-> exp (- (PI / 4)) < g).
Proof.
  intros g G. destruct (spread_form g G) as [F P]. pose proof PI_RGT_0 as PP.
  rewrite (sq_lt (spread g) 1) by lra. rewrite F.
  assert (X : 4 / PI * - ln g < 1 * 1 <-> - (PI / 4) < ln g).
  { assert (E : ln g = PI / 4 * (4 / PI * ln g)) by (field; lra). set (y := 4 / PI * ln g) in *. replace (4 / PI * - ln g) with (- y) by (unfold y; ring). clearbody y. rewrite E. split; intros H; nra. }
  rewrite X. split; intros H.
  - apply exp_increasing in H. rewrite exp_ln in H by apply G. exact H.
  - apply ln_increasing in H; [|apply exp_pos]. rewrite ln_exp in H. exact H.
Qed.
Lemma spread_gt : forall g, 0 < g <= 1 -> (1 < spread g <-> g < exp (- (PI / 4))).
Proof.
  intros g G. destruct (spread_form g G) as [F P]. pose proof PI_RGT_0 as PP.
  rewrite (sq_lt 1 (spread g)) by lra. rewrite F.
  assert (X : 1 * 1 < 4 / PI * - ln g <-> ln g < - (PI / 4)).
  { assert (E : ln g = PI / 4 * (4 / PI * ln g)) by (field; lra). set (y := 4 / PI * ln g) in *. replace (4 / PI * - ln g) with (- y) by (unfold y; ring). clearbody y. rewrite E. split; intros H; nra. }
  rewrite X. split; intros H.
  - apply exp_increasing in H. rewrite exp_ln in H by apply G. exact H.
  - apply ln_increasing in H; [|apply G]. rewrite ln_exp in H. exact H.
Qed.
Lemma pow_incr_lt : forall x y n, 0 < x -> x < y -> x ^ S n < y ^ S n.
Proof. intros x y n X Y. induction n as [|n IH]; [cbn; lra|]. change (x ^ S (S n)) with (x * x ^ S n). change (y ^ S (S n)) with (y * y ^ S n). pose proof (pow_lt x (S n) X). nra. Qed.
(** exp (-pi/4) is less than 0.49. *)
Lemma exp_quarter : exp (- (PI / 4)) < 49 / 100.
Proof.
  pose proof PI2_3_2 as P3. rewrite exp_Ropp.
  assert (H : 2048 / 1000 < exp (PI / 4)).
  { apply Rlt_trans with (exp (8 * (3 / 32))).
    - assert (E : exp (8 * (3 / 32)) = exp (3 / 32) ^ 8). { replace (8 * (3 / 32)) with (3/32 + 3/32 + 3/32 + 3/32 + 3/32 + 3/32 + 3/32 + 3/32) by field. rewrite !exp_plus. ring. }
      rewrite E. assert (B : 1 + 3 / 32 < exp (3 / 32)) by (apply exp_ineq1; lra).
      apply Rlt_trans with ((1 + 3 / 32) ^ 8); [lra|]. apply pow_incr_lt; lra.
    - apply exp_increasing. lra. }
  apply (Rmult_lt_reg_r (exp (PI / 4))); [apply exp_pos|]. rewrite Rinv_l by (apply Rgt_not_eq, exp_pos). nra.
Qed.
Lemma same_air_order : forall u p u' p' l l', same_air u p l u' p' l' -> in_order l -> in_order l'.
Proof.
  intros u p u' p' s l B O l1 x y l2 E. unfold same_air in B. rewrite E in B. apply Forall2_app_inv_r in B. destruct B as [s1 [s2 [_ [B E']]]].
  inversion B as [|p1 ? s3 ? [Tp _] B']; subst. inversion B' as [|q1 ? s4 ? [Tq _] _]; subst. specialize (O s1 p1 q1 s4 eq_refl). lia.
Qed.
Lemma scaled_same : forall u k l a b, same_air u true (map (fun e : entry => (fst e, (fst (snd e) * k, snd (snd e)))) l) 1 false a -> same_air u true l 1 false b ->
  a = map (fun e : entry => (fst e, (k * fst (snd e), k * snd (snd e)))) b.
Proof.
  intros u k l a b A C. revert a A. induction C as [|x y l b [T E] C IH]; intros a A; inversion A as [|? z ? a' [T' E'] A']; subst; [reflexivity|].
  cbn [map]. rewrite (IH a' A'). f_equal. cbn [fst snd] in *. destruct z as [tz vz]. cbn [fst snd] in *. subst tz. rewrite air_id in E, E'. rewrite T. f_equal. rewrite <- E', <- E. unfold air. cbn [fst snd]. f_equal; ring.
Qed.
Lemma mapM_speed : forall d s l, 0 < s -> s < 5 / 10 ->
  mapM (fun e : entry => match new_speed d s (snd e) with Some r => Ok (fst e, (r, snd (snd e))) | None => Raise AssertErr end) l =
  Ok (map (fun e : entry => (fst e, (fst (snd e) * spread (match d with Up => 5 / 10 - s | _ => 5 / 10 + s end), snd (snd e)))) l).
Proof. intros d s l S1 S2. induction l as [|e l IH]; [reflexivity|]. cbn [mapM map]. rewrite new_speed_ok by assumption. cbn [bind]. rewrite IH. reflexivity. Qed.
Lemma sensible_back : forall c u v, polar c = true -> 0 < u -> sensible true (convert_units c u 1 v) -> sensible true v.
Proof.
  intros c u [a b] P U S _. specialize (S eq_refl). destruct c; try discriminate; cbn [convert_units fst snd] in *; destruct S as [S1 S2]; split; try exact S2;
    unfold Rdiv in S1; rewrite Rinv_1, Rmult_1_r in S1; destruct (Rle_lt_dec 0 a) as [L|L]; try exact L; nra.
Qed.
