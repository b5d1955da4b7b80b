(** * Lemmas about waves *)
From Coq Require Import Lia Reals Lra Bool.
From Verif Require Import Py PyLemmas WxModel WavModel WavSpec.
Local Open Scope R_scope.

Lemma rpow_pos : forall x p, 0 < x -> rpow x p = Rpower x p.
Proof. intros x p H. unfold rpow. destruct (Req_EM_T x 0); [lra|reflexivity]. Qed.
Lemma rpow_nonneg : forall x p, 0 <= rpow x p.
Proof. intros x p. unfold rpow. destruct (Req_EM_T x 0); [lra|]. unfold Rpower. left. apply exp_pos. Qed.
Lemma rpow_le : forall x y p, 0 <= p -> 0 <= x -> x <= y -> rpow x p <= rpow y p.
Proof.
  intros x y p P X Y. unfold rpow at 1. destruct (Req_EM_T x 0); [apply rpow_nonneg|].
  rewrite rpow_pos by lra. apply Rle_Rpower_l; lra.
Qed.

Lemma gravity_pos : 0 < gravity.
Proof. unfold gravity. lra. Qed.
Lemma limit_pos : 4 < limit < 5.
Proof. unfold limit. lra. Qed.

(** The two branches of the wind stress factor: the first stays below the second. *)
Lemma frac_pow : forall a b n, (0 < b)%Z -> (IZR a / IZR b) ^ n = IZR (a ^ Z.of_nat n) / IZR (b ^ Z.of_nat n).
Proof.
  intros a b n B. unfold Rdiv. rewrite Rpow_mult_distr, pow_inv. rewrite <- !pow_IZR. reflexivity.
Qed.
Lemma frac_lt : forall a b c d, (0 < b)%Z -> (0 < d)%Z -> (a * c < b * d)%Z -> IZR a / IZR b * (IZR c / IZR d) < 1.
Proof.
  intros a b c d B D L. apply IZR_lt in B. apply IZR_lt in D. apply IZR_lt in L. rewrite !mult_IZR in L.
  replace (IZR a / IZR b * (IZR c / IZR d)) with (IZR a * IZR c / (IZR b * IZR d)) by (field; lra).
  apply Rmult_lt_reg_r with (IZR b * IZR d); [nra|]. unfold Rdiv. rewrite Rmult_assoc, Rinv_l by nra. lra.
Qed.
Lemma frac_pow_lt : forall a b c d n m, (0 < b)%Z -> (0 < d)%Z -> (a ^ Z.of_nat n * c ^ Z.of_nat m < b ^ Z.of_nat n * d ^ Z.of_nat m)%Z ->
  (IZR a / IZR b) ^ n * (IZR c / IZR d) ^ m < 1.
Proof. intros a b c d n m B D L. rewrite !frac_pow by assumption. apply frac_lt; [apply Z.pow_pos_nonneg; lia|apply Z.pow_pos_nonneg; lia|exact L]. Qed.
Lemma limit_number : (71 / 100) ^ 100 * limit ^ 23 < 1.
Proof. unfold limit. apply frac_pow_lt; vm_compute; reflexivity. Qed.
Lemma limit_below : 71 / 100 * Rpower limit (123 / 100) < limit.
Proof.
  pose proof limit_pos as LP.
  replace (123 / 100) with (1 + 23 / 100) by field. rewrite Rpower_plus, Rpower_1 by lra.
  set (q := Rpower limit (23 / 100)).
  assert (Q : 0 < q) by (unfold q, Rpower; apply exp_pos).
  assert (X : 71 / 100 * q < 1).
  { destruct (Rlt_le_dec (71 / 100 * q) 1) as [H|H]; [exact H|]. exfalso.
    assert (P : 1 <= (71 / 100 * q) ^ 100) by (apply pow_R1_Rle; exact H).
    rewrite Rpow_mult_distr in P.
    assert (E : q ^ 100 = limit ^ 23).
    { rewrite <- (Rpower_pow 100 q) by exact Q. unfold q. rewrite Rpower_mult.
      rewrite <- (Rpower_pow 23 limit) by lra. f_equal. rewrite !INR_IZR_INZ. simpl. field. }
    rewrite E in P. pose proof limit_number. lra. }
  nra.
Qed.

Lemma stress_nonneg : forall u, 0 <= u -> 0 <= stress u.
Proof. intros u U. unfold stress. destruct (Rlt_dec u limit); [|lra]. pose proof (rpow_nonneg u (123 / 100)). lra. Qed.
Lemma stress_grows : grows stress.
Proof.
  intros x y X Y. unfold stress. pose proof limit_pos.
  destruct (Rlt_dec x limit) as [A|A], (Rlt_dec y limit) as [B|B]; try lra.
  - pose proof (rpow_le x y (123 / 100)). lra.
  - pose proof (rpow_le x limit (123 / 100)) as P. rewrite (rpow_pos limit) in P by lra. pose proof limit_below. lra.
Qed.
Lemma stress_below : forall u, 0 <= u -> u < limit -> stress u < limit.
Proof.
  intros u U L. unfold stress. destruct (Rlt_dec u limit); [|lra]. pose proof limit_pos.
  pose proof (rpow_le u limit (123 / 100)) as P. rewrite (rpow_pos limit) in P by lra. pose proof limit_below. lra.
Qed.

(** Heights without the bound of 30 m. *)
Definition open_sea (ws : R) : R := 243 / 1000 * ws * ws / gravity.
Definition near_coast (f ws : R) : R := 16 / 10000 * sqrt (f / gravity) * ws.

Lemma open_sea_grows : forall a b, 0 <= a -> a <= b -> open_sea a <= open_sea b.
Proof.
  intros a b A B. unfold open_sea. pose proof gravity_pos. apply Rmult_le_compat_r; [left; apply Rinv_0_lt_compat; lra|]. nra.
Qed.
Lemma near_coast_le : forall f ws, 0 <= f -> 0 <= ws -> f <= 2268 * (ws * ws) -> near_coast f ws <= open_sea ws.
Proof.
  intros f ws F W H. unfold near_coast, open_sea. pose proof gravity_pos as G.
  assert (S : sqrt (f / gravity) <= 243 / 1000 * ws / gravity / (16 / 10000)).
  { rewrite <- (sqrt_square (243 / 1000 * ws / gravity / (16 / 10000))).
    - apply sqrt_le_1_alt. apply Rle_trans with (2268 * (ws * ws) / gravity).
      + apply Rmult_le_compat_r; [left; apply Rinv_0_lt_compat; lra|lra].
      + replace (243 / 1000 * ws / gravity / (16 / 10000) * (243 / 1000 * ws / gravity / (16 / 10000)))
          with ((243 * 243 / (1000 * 1000) / (16 * 16 / (10000 * 10000)) / gravity) * (ws * ws) / gravity) by (field; lra).
        apply Rmult_le_compat_r; [left; apply Rinv_0_lt_compat; lra|]. apply Rmult_le_compat_r; [nra|]. unfold gravity. lra.
    - repeat apply Rmult_le_pos; try lra; left; apply Rinv_0_lt_compat; lra. }
  replace (243 / 1000 * ws * ws / gravity) with (16 / 10000 * (243 / 1000 * ws / gravity / (16 / 10000)) * ws) by (field; lra).
  apply Rmult_le_compat_r; [exact W|]. apply Rmult_le_compat_l; [lra|exact S].
Qed.
Lemma near_coast_ge : forall f ws, 0 <= f -> 0 <= ws -> 2268 * (ws * ws) <= f -> open_sea ws <= 51 / 50 * near_coast f ws.
Proof.
  intros f ws F W H. unfold near_coast, open_sea. pose proof gravity_pos as G.
  assert (S : 243 / 1000 * ws / gravity / (16 / 10000) <= 51 / 50 * sqrt (f / gravity)).
  { assert (Y : 243 / 1000 * ws / gravity / (16 / 10000) / (51 / 50) <= sqrt (f / gravity)); [|lra].
    rewrite <- (sqrt_square (243 / 1000 * ws / gravity / (16 / 10000) / (51 / 50))).
    - apply sqrt_le_1_alt. apply Rle_trans with (2268 * (ws * ws) / gravity).
      + replace (243 / 1000 * ws / gravity / (16 / 10000) / (51 / 50) * (243 / 1000 * ws / gravity / (16 / 10000) / (51 / 50)))
          with ((243 * 243 / (1000 * 1000) / (16 * 16 / (10000 * 10000)) / (51 * 51 / (50 * 50)) / gravity) * (ws * ws) / gravity) by (field; lra).
        apply Rmult_le_compat_r; [left; apply Rinv_0_lt_compat; lra|]. apply Rmult_le_compat_r; [nra|]. unfold gravity. lra.
      + apply Rmult_le_compat_r; [left; apply Rinv_0_lt_compat; lra|lra].
    - repeat apply Rmult_le_pos; try lra; left; apply Rinv_0_lt_compat; lra. }
  replace (243 / 1000 * ws * ws / gravity) with (16 / 10000 * (243 / 1000 * ws / gravity / (16 / 10000)) * ws) by (field; lra).
  replace (51 / 50 * (16 / 10000 * sqrt (f / gravity) * ws)) with (16 / 10000 * (51 / 50 * sqrt (f / gravity)) * ws) by ring.
  apply Rmult_le_compat_r; [exact W|]. apply Rmult_le_compat_l; [lra|exact S].
Qed.
Lemma near_coast_grows : forall f f' a b, 0 <= f -> f <= f' -> 0 <= a -> a <= b -> near_coast f a <= near_coast f' b.
Proof.
  intros f f' a b F FF A B. unfold near_coast. pose proof gravity_pos.
  assert (S : sqrt (f / gravity) <= sqrt (f' / gravity)).
  { apply sqrt_le_1_alt. apply Rmult_le_compat_r; [left; apply Rinv_0_lt_compat; lra|lra]. }
  pose proof (sqrt_pos (f / gravity)). apply Rmult_le_compat; nra.
Qed.
Lemma open_sea_nonneg : forall ws, 0 <= open_sea ws.
Proof. intros ws. unfold open_sea. pose proof gravity_pos. apply Rmult_le_pos; [nra|left; apply Rinv_0_lt_compat; lra]. Qed.
Lemma near_coast_nonneg : forall f ws, 0 <= ws -> 0 <= near_coast f ws.
Proof. intros f ws W. unfold near_coast. pose proof (sqrt_pos (f / gravity)). nra. Qed.

Lemma height_open : forall u, wave_height u None = Rmin (707 / 1000 * open_sea (stress u)) 30.
Proof. reflexivity. Qed.
Lemma height_fetch : forall u f, wave_height u (Some f) =
  Rmin (707 / 1000 * (if Rlt_dec f (2268 * (stress u * stress u)) then near_coast f (stress u) else open_sea (stress u))) 30.
Proof. reflexivity. Qed.
Lemma Rmin_mono : forall a b c, a <= b -> Rmin a c <= Rmin b c.
Proof. intros a b c H. unfold Rmin. destruct (Rle_dec a c), (Rle_dec b c); lra. Qed.

(** ** The wind of waves *)
Definition eps : R := 1 - 123 / 100 * (813008 / 1000000).
Lemma eps_value : 0 < eps < 2 / 10000000.
Proof. unfold eps. lra. Qed.

Lemma sqrt_open : forall ws, 0 <= ws -> sqrt (gravity * open_sea ws / (243 / 1000)) = ws.
Proof.
  intros ws W. unfold open_sea. pose proof gravity_pos.
  replace (gravity * (243 / 1000 * ws * ws / gravity) / (243 / 1000)) with (ws * ws) by (field; lra).
  apply sqrt_square. exact W.
Qed.

Lemma exp_ge : forall x, 1 + x <= exp x.
Proof. intros x. destruct (Req_dec x 0) as [->|N]; [rewrite exp_0; lra|]. left. apply exp_ineq1. exact N. Qed.

(** The error of the rounded exponent. *)
Lemma round_trip_low : forall u, 0 < u -> u < limit -> Rabs (rpow (rpow u (123 / 100)) (813008 / 1000000) - u) <= 1 / 100000.
Proof.
  intros u U L. pose proof limit_pos as LP. pose proof eps_value as EV.
  rewrite (rpow_pos u) by exact U.
  assert (P : 0 < Rpower u (123 / 100)) by (unfold Rpower; apply exp_pos).
  rewrite rpow_pos by exact P. rewrite Rpower_mult.
  replace (123 / 100 * (813008 / 1000000)) with (1 - eps) by (unfold eps; ring).
  unfold Rpower. set (l := ln u).
  assert (EU : exp l = u) by (apply exp_ln; exact U).
  set (y := exp ((1 - eps) * l)). assert (Y : 0 < y) by apply exp_pos.
  assert (YU : u = y * exp (eps * l)).
  { unfold y. rewrite <- exp_plus. rewrite <- EU. f_equal. ring. }
  pose proof (exp_ge (eps * l)) as A. pose proof (exp_pos (eps * l)) as A'.
  destruct (Rle_dec 0 l) as [P0|N0].
  - assert (L4 : l <= 4).
    { pose proof (exp_ge l). rewrite EU in *. lra. }
    assert (M : exp (- (eps * l)) * exp (eps * l) = 1) by (rewrite <- exp_plus, Rplus_opp_l, exp_0; reflexivity).
    pose proof (exp_ge (- (eps * l))) as B.
    assert (E : y = u * exp (- (eps * l))) by (rewrite YU; rewrite Rmult_assoc, (Rmult_comm (exp (eps * l))), M; ring).
    assert (EL : 0 <= eps * l <= 8 / 10000000) by nra.
    assert (LE1 : y <= u). { rewrite YU. nra. }
    rewrite Rabs_left1 by lra. rewrite E at 1. nra.
  - assert (NL : l < 0) by lra.
    assert (LE1 : u <= y).
    { rewrite YU. assert (X : exp (eps * l) <= 1); [|nra]. rewrite <- exp_0. left. apply exp_increasing. nra. }
    rewrite Rabs_right by lra.
    assert (D : y - u <= eps * (y * - l)). { rewrite YU at 1. nra. }
    assert (Z : y * (- l) <= 2).
    { set (z := (1 - eps) * l) in *. assert (ZL : - l <= 2 * - z) by (unfold z; nra).
      pose proof (exp_ge (- z)) as C. assert (M : y * exp (- z) = 1) by (unfold y; rewrite <- exp_plus, Rplus_opp_r, exp_0; reflexivity).
      assert (ZZ : y * (1 - z) <= 1) by nra. nra. }
    assert (K : 0 <= y * - l) by nra. nra.
Qed.

(** ** White caps *)
Lemma decay_pos : forall s, 0 <= s -> 254 / 100 <= whitecap_decay s.
Proof. intros s S. unfold whitecap_decay. lra. Qed.
Definition cap_rate (u : R) : R := if Rlt_dec u 4 then 125 / 10000 * u else 1 / 100 * u + 1 / 100.
Lemma whitecaps_eq : forall u s, whitecaps u s = Rmin (cap_rate u / whitecap_decay s * (1 / 2)) 1.
Proof. intros u s. unfold whitecaps, cap_rate. destruct (Rlt_dec u 4); reflexivity. Qed.
Lemma cap_rate_grows : grows cap_rate.
Proof. intros x y X Y. unfold cap_rate. destruct (Rlt_dec x 4), (Rlt_dec y 4); lra. Qed.
Lemma cap_rate_nonneg : forall u, 0 <= u -> 0 <= cap_rate u.
Proof. intros u U. unfold cap_rate. destruct (Rlt_dec u 4); lra. Qed.
