(** * C94: the uncertain wind *)
From Verif Require Import Py PyLemmas WxModel WxProofs WunModel WunSpec.
From Coq Require Import Reals Lra.
Open Scope R_scope.

Lemma sqrt_sqr : forall x, 0 <= x -> sqrt x * sqrt x = x.
Proof. exact sqrt_sqrt. Qed.

Lemma sqs_le : forall norm s2, 0 <= norm -> 0 <= s2 -> 0 <= sqrt (Rmax (norm * norm - s2) 0) <= norm.
Proof.
  intros norm s2 H1 H2. split; [apply sqrt_pos|]. apply Rle_trans with (sqrt (norm * norm)); [apply sqrt_le_1_alt|rewrite sqrt_square; lra].
  apply Rmax_lub; [lra|nra].
Qed.

Lemma speed_pos : forall w, 0 <= speed w.
Proof. intros. apply sqrt_pos. Qed.

(** The uncertain move is never undefined; for a wind of at least 1 m/s it is the wind
    turned by the record's angle times the spread, times the step and a factor that is
    not negative; the speed is at most (1 + c^2)/cos(angle) times that of the wind. *)
Theorem C94_turned : forall s2 sth diff dt r rnd (wind : R * R), 0 <= s2 -> dt <> 0 -> 1 <= speed wind ->
  exists k, disturb_wind s2 sth diff dt r rnd (times dt wind) = Ok (times dt (times k (turned (degrees (snd r * sth)) wind))) /\
    0 <= k /\ (0 < cos (degrees (snd r * sth)) -> k * cos (degrees (snd r * sth)) <= 1 + fst r * fst r).
Proof.
  intros s2 sth diff dt r rnd [u v] H2 Hd Hs. unfold disturb_wind, times, turned, degrees, speed in *. cbn [fst snd] in *.
  replace (dt * u / dt) with u by (field; exact Hd). replace (dt * v / dt) with v by (field; exact Hd).
  set (norm := sqrt (u * u + v * v)) in *. set (a := snd r * sth * PI / 180).
  destruct (sqs_le norm s2 (sqrt_pos _) H2) as [Q1 Q2]. set (sqs := sqrt (Rmax (norm * norm - s2) 0)) in *.
  unfold nsqrt. destruct (Rltb (norm - sqs) 0) eqn:N; [apply Rltb_iff in N; lra|]. cbn [bind].
  destruct (Rltb norm 1) eqn:L; [apply Rltb_iff in L; lra|]. clear N L.
  set (q := sqrt (norm - sqs)). set (m := sqrt sqs). set (x := fst r * q + m).
  assert (Eq : q * q = norm - sqs) by (apply sqrt_sqrt; lra). assert (Em : m * m = sqs) by (apply sqrt_sqrt; lra).
  set (c := Rmax (cos a) (1 / 1000)). assert (Hc : 1 / 1000 <= c) by apply Rmax_r.
  rewrite (Rmax_left norm) by lra.
  exists (x * x / c / norm). split; [f_equal; f_equal; field; split; lra|].
  assert (Hx : x * x <= (1 + fst r * fst r) * norm).
  { assert (x * x + (q - fst r * m) * (q - fst r * m) = (1 + fst r * fst r) * norm) by (unfold x; replace norm with (q * q + m * m) by lra; ring).
    pose proof (Rle_0_sqr (q - fst r * m)) as Hs0. unfold Rsqr in Hs0. lra. }
  clearbody x norm. assert (H0 : 0 <= x * x) by (pose proof (Rle_0_sqr x) as G; unfold Rsqr in G; exact G).
  split. { unfold Rdiv. apply Rmult_le_pos; [apply Rmult_le_pos; [exact H0|]|]; left; apply Rinv_0_lt_compat; lra. }
  intros Hcos. assert (cos a <= c) by apply Rmax_l.
  apply (Rmult_le_reg_r (norm * c)); [apply Rmult_lt_0_compat; lra|].
  replace (x * x / c / norm * cos a * (norm * c)) with (x * x * cos a) by (field; split; lra).
  apply Rle_trans with (x * x * c); [apply Rmult_le_compat_l; assumption|].
  rewrite <- Rmult_assoc. apply Rmult_le_compat_r; lra.
Qed.
Print Assumptions C94_turned.
Example C94_turned_meets : 0 <= 1 /\ 900 <> 0 /\ 1 <= speed (3, 4).
Proof.
  split; [lra|]. split; [lra|]. unfold speed. cbn [fst snd]. replace (3 * 3 + 4 * 4) with (5 * 5) by ring. rewrite sqrt_square; lra.
Qed.

(** The spreads are zero when the delay ends, and grow. *)
Theorem C94_spreads : forall scale since, 0 <= scale -> 0 <= since -> sigma2 scale 0 = 0 /\ sigma_theta scale 0 = 0 /\
  0 <= sigma2 scale since /\ 0 <= sigma_theta scale since /\
  forall later, since <= later -> sigma2 scale since <= sigma2 scale later /\ sigma_theta scale since <= sigma_theta scale later.
Proof.
  intros k t Hk Ht. assert (P : forall t, 0 <= npow t (147 / 1000)). { intros x. unfold npow. destruct (Rltb 0 x); [left; apply exp_pos|lra]. }
  assert (M : forall a b, 0 <= a -> a <= b -> npow a (147 / 1000) <= npow b (147 / 1000)).
  { intros a b Ha Hab. unfold npow at 1. destruct (Rltb 0 a) eqn:L; [|apply P]. apply Rltb_iff in L. unfold npow.
    rewrite (proj2 (Rltb_iff 0 b)) by lra. apply Rle_Rpower_l; lra. }
  split. { unfold sigma2, npow. destruct (Rltb 0 0) eqn:L; [apply Rltb_iff in L; lra|]. lra. }
  split. { unfold sigma_theta. rewrite !sqrt_0. lra. }
  assert (S0 : 0 <= k * (315 / 1000) * npow t (147 / 1000)) by (apply Rmult_le_pos; [lra|apply P]).
  split. { unfold sigma2. apply Rmult_le_pos; [apply Rmult_le_pos; exact S0|lra]. }
  split. { unfold sigma_theta. apply Rmult_le_pos; [lra|apply sqrt_pos]. }
  intros l Hl. split.
  - unfold sigma2. apply Rmult_le_compat_r; [lra|]. assert (k * (315 / 1000) * npow t (147 / 1000) <= k * (315 / 1000) * npow l (147 / 1000)).
    { apply Rmult_le_compat_l; [lra|apply M; assumption]. }
    apply Rmult_le_compat; assumption.
  - unfold sigma_theta. apply Rmult_le_compat_l; [lra|]. apply sqrt_le_1_alt, sqrt_le_1_alt. exact Hl.
Qed.
Print Assumptions C94_spreads.
Example C94_spreads_meets : 0 <= 2 /\ 0 <= 3600.
Proof. lra. Qed.

(** With spreads of zero a wind of at least 1 m/s is not changed, whatever the record. *)
Theorem C94_start_partial : forall diff dt r rnd (wind : R * R), dt <> 0 -> 1 <= speed wind ->
  disturb_wind 0 0 diff dt r rnd (times dt wind) = Ok (times dt wind).
Proof.
  intros diff dt r rnd [u v] Hd Hs. unfold disturb_wind, times, speed in *. cbn [fst snd] in *.
  replace (dt * u / dt) with u by (field; exact Hd). replace (dt * v / dt) with v by (field; exact Hd).
  set (norm := sqrt (u * u + v * v)) in *. rewrite Rminus_0_r. rewrite (Rmax_left (norm * norm)) by nra. rewrite sqrt_square by lra.
  rewrite Rminus_diag_eq by reflexivity. unfold nsqrt. destruct (Rltb 0 0) eqn:L; [apply Rltb_iff in L; lra|]. cbn [bind]. clear L.
  destruct (Rltb norm 1) eqn:L; [apply Rltb_iff in L; lra|]. rewrite Rmult_0_r.
  replace (0 * PI / 180) with 0 by field. rewrite cos_0, sin_0, sqrt_0. rewrite (Rmax_left 1), (Rmax_left norm) by lra.
  rewrite Rmult_0_r, Rplus_0_l. rewrite sqrt_sqrt by lra. f_equal. f_equal; field; lra.
Qed.
Print Assumptions C94_start_partial.
Example C94_start_partial_meets : -900 <> 0 /\ 1 <= speed (1, 0).
Proof. split; [lra|]. unfold speed. cbn [fst snd]. replace (1 * 1 + 0 * 0) with (1 * 1) by ring. rewrite sqrt_square; lra. Qed.

(** A lighter wind is: with spreads of zero an element that half a metre per second would
    drive 450 m in 15 minutes moves less than 1 m, whatever is drawn. *)
Theorem C94_light_refuted : exists dt (wind : R * R), dt = 900 /\ speed wind = 1 / 2 /\ fst (times dt wind) = 450 /\
  forall r rnd, -1 <= fst rnd <= 1 -> -1 <= snd rnd <= 1 ->
    exists d, disturb_wind 0 0 (diffusion dt) dt r rnd (times dt wind) = Ok d /\ speed d < 1.
Proof.
  exists 900, (1 / 2, 0). assert (Hs : speed (1 / 2, 0) = 1 / 2).
  { unfold speed. cbn [fst snd]. replace (1 / 2 * (1 / 2) + 0 * 0) with (1 / 2 * (1 / 2)) by ring. apply sqrt_square. lra. }
  split; [reflexivity|]. split; [exact Hs|]. split; [unfold times; cbn [fst snd]; lra|]. intros r rnd H1 H2.
  unfold disturb_wind, times, speed in *. cbn [fst snd] in *.
  replace (900 * (1 / 2) / 900) with (1 / 2) by field. replace (900 * 0 / 900) with 0 by field. rewrite Hs.
  rewrite Rminus_0_r. rewrite (Rmax_left (1 / 2 * (1 / 2))) by lra. rewrite sqrt_square by lra.
  rewrite Rminus_diag_eq by reflexivity. unfold nsqrt. destruct (Rltb 0 0) eqn:L; [apply Rltb_iff in L; lra|]. cbn [bind]. clear L.
  rewrite (proj2 (Rltb_iff (1 / 2) 1)) by lra. rewrite Rmult_0_r.
  replace (0 * PI / 180) with 0 by field. rewrite cos_0, sqrt_0. rewrite (Rmax_left 1), (Rmax_left (1 / 2)) by lra.
  rewrite Rmult_0_r, Rplus_0_l. rewrite sqrt_sqrt by lra. eexists. split; [reflexivity|]. cbn [fst snd].
  assert (D : 0 <= diffusion 900 <= 1). { unfold diffusion. rewrite (Rabs_right 900) by lra. split; [apply sqrt_pos|]. replace (6 * (1000000 / 10000) / 900) with (2 / 3) by field.
    apply Rle_trans with (sqrt 1); [apply sqrt_le_1_alt; lra|rewrite sqrt_1; lra]. }
  set (k := diffusion 900) in *. clearbody k. apply Rlt_le_trans with (sqrt 1); [apply sqrt_lt_1_alt|rewrite sqrt_1; lra]. split.
  - pose proof (Rle_0_sqr (1 / 2 * (1 / 2 / 1 / (1 / 2)) * k * fst rnd)) as G. pose proof (Rle_0_sqr (0 * (1 / 2 / 1 / (1 / 2)) * k * snd rnd)) as G'. unfold Rsqr in *. lra.
  - replace (1 / 2 * (1 / 2 / 1 / (1 / 2)) * k * fst rnd) with (1 / 2 * (k * fst rnd)) by field.
    replace (0 * (1 / 2 / 1 / (1 / 2)) * k * snd rnd) with 0 by field.
    assert (-1 <= k * fst rnd <= 1) by nra. nra.
Qed.
Print Assumptions C94_light_refuted.

(** A record turns the wind by at most 60 degrees at the spread it was drawn for, unless
    all the candidates drawn turn it by more. *)
Theorem C94_pick : forall sth first retries, length retries = 10%nat ->
  Rabs (snd (pick sth first retries) * sth) <= 60 \/
  forall d, In d (first :: retries) -> 60 < Rabs (snd (record d) * sth).
Proof.
  intros sth first retries L. unfold pick. rewrite firstn_all2 by lia.
  assert (T : forall r, too_far sth r = false -> Rabs (snd r * sth) <= 60).
  { intros r H. unfold too_far in H. destruct (Rlt_le_dec 60 (Rabs (sth * snd r))) as [Q|Q]; [rewrite (proj2 (Rltb_iff _ _) Q) in H; discriminate|]. rewrite Rmult_comm. exact Q. }
  assert (T' : forall r, too_far sth r = true -> 60 < Rabs (snd r * sth)).
  { intros r H. unfold too_far in H. apply Rltb_iff in H. rewrite Rmult_comm. exact H. }
  destruct (too_far sth (record first)) eqn:E; [|left; apply T; exact E].
  destruct (find _ retries) as [d|] eqn:F.
  - apply find_some in F. destruct F as [_ F]. apply negb_true_iff in F. left. apply T. exact F.
  - right. intros d [<-|I]; [apply T'; exact E|]. apply T'. pose proof (find_none _ _ F d I) as G. cbn in G. apply negb_false_iff in G. exact G.
Qed.
Print Assumptions C94_pick.
Example C94_pick_meets : length (repeat (1 / 2, 1 / 2) 10) = 10%nat.
Proof. reflexivity. Qed.
