(** * Proofs about dissolution *)
From Coq Require Import Reals Lra Lia.
From Verif Require Import Py PyLemmas WxModel WxProofs DisModel DisSpec.
Open Scope R_scope.

Lemma clip_bounds lo hi x : lo <= hi -> lo <= clip lo hi x <= hi.
Proof.
  intros H. unfold clip. split.
  - apply Rmin_glb; [apply Rmax_r|exact H].
  - apply Rmin_r.
Qed.

(** ** Times *)
Lemma u10_pos e : 0 < u10 e.
Proof. unfold u10. pose proof (Rmax_r (wind e) (1 / 100)). lra. Qed.
Lemma breaking_bounds u t : 1 / 100 <= breaking u t <= 1.
Proof. apply clip_bounds. lra. Qed.
Lemma calm_pos u t : 0 < t -> 0 < calm_time (breaking u t) t.
Proof.
  intros Ht. unfold calm_time. pose proof (breaking_bounds u t) as B.
  apply Rmult_lt_0_compat; [|exact Ht].
  assert (1 <= / breaking u t) by (rewrite <- Rinv_1; apply Rinv_le_contravar; lra). unfold Rdiv. lra.
Qed.
Lemma calm_pos_e e : 0 < calm_time (breaking (u10 e) (period (u10 e))) (period (u10 e)).
Proof. apply calm_pos. unfold period. pose proof (u10_pos e). lra. Qed.

Lemma t_calm_bounds e dt twc : twc <= dt -> 0 <= t_calm e dt twc <= dt - twc.
Proof. intros H. unfold t_calm. apply clip_bounds. lra. Qed.

Lemma refloat_nan h kw delta : 0 <= h -> (refloat h kw delta = NaN <-> kw = 0 /\ h = 0).
Proof.
  intros Hh. unfold refloat, fdiv. destruct (Req_EM_T kw 0) as [E|E].
  - destruct (Rlt_dec 0 (75 / 100 * h)).
    + destruct (Rlt_dec delta 0); split; intros H; try discriminate; lra.
    + destruct (Rlt_dec (75 / 100 * h) 0); [lra|]. split; [intros _; split; [exact E|lra]|reflexivity].
  - split; [discriminate|tauto].
Qed.
Lemma fmul_pos_nan a r : 0 < r -> fmul a r = NaN -> a = NaN.
Proof. intros H. destruct a; simpl; try discriminate; try reflexivity; unfold sgn_inf; destruct (Rlt_dec 0 r); try discriminate; contradiction. Qed.

Lemma f_wc_fin e kw delta : 0 <= height e ->
  ((exists f, f_wc e kw delta = Fin f) <-> ~ (kw = 0 /\ height e = 0)) /\
  (forall f, f_wc e kw delta = Fin f -> 0 <= f <= 1) /\
  (kw = 0 /\ height e = 0 -> f_wc e kw delta = NaN).
Proof.
  intros Hh. unfold f_wc. set (c := calm_time _ _).
  assert (0 < / c) as Hc by (apply Rinv_0_lt_compat, calm_pos_e).
  pose proof (refloat_nan (height e) kw delta Hh) as N.
  split; [|split].
  - split.
    + intros [f Hf] K. apply N in K. rewrite K in Hf. discriminate.
    + intros K. destruct (fmul (refloat (height e) kw delta) (/ c)) eqn:E; simpl; eauto.
      apply fmul_pos_nan in E; [|exact Hc]. tauto.
  - intros f. destruct (fmul (refloat (height e) kw delta) (/ c)) eqn:E; simpl; intros H; try discriminate; injection H as <-.
    + apply clip_bounds. lra.
    + unfold Rmin, Rmax. repeat destruct (Rle_dec _ _); lra.
    + unfold Rmin. destruct (Rle_dec _ _); lra.
  - intros K. apply N in K. now rewrite K.
Qed.

(** Heavy droplets spend no time in the water column. *)
Lemma f_wc_heavy e kw delta f : 0 <= height e -> kw < 0 -> f_wc e kw delta = Fin f -> f = 0.
Proof.
  intros Hh K H. unfold f_wc in H. set (c := calm_time _ _) in H.
  assert (0 < / c) as Hc by (apply Rinv_0_lt_compat, calm_pos_e).
  unfold refloat, fdiv in H. destruct (Req_EM_T kw 0) as [E|E]; [lra|]. simpl in H. injection H as <-.
  assert (/ kw < 0) by (now apply Rinv_lt_0_compat).
  assert (75 / 100 * height e / kw * / c <= 0).
  { unfold Rdiv. assert (75 * / 100 * height e * / kw <= 0) by nra. nra. }
  unfold clip. rewrite Rmax_right by lra. rewrite Rmin_left; lra.
Qed.

(** ** Rates *)
Lemma k_ow_arom c : arom c = true -> 0 < k_ow c.
Proof. intros H. unfold k_ow, mask. rewrite H. pose proof (exp_pos (59 / 1000 * 1000 * molwt c / rho c)). lra. Qed.
Lemma k_ow_other c : arom c = false -> k_ow c = 0.
Proof. intros H. unfold k_ow, mask. rewrite H. ring. Qed.

Lemma fmul_nan_zero a : nan_to_num (fmul a 0) = 0.
Proof. destruct a; simpl; try ring; unfold sgn_inf; destruct (Rlt_dec 0 0); try lra; destruct (Rlt_dec 0 0); try lra; reflexivity. Qed.

Lemma slick_other wp c a x : arom c = false -> slick_rate wp c a x = 0.
Proof. intros H. unfold slick_rate. destruct x; [|reflexivity]. unfold mask at 1. rewrite H. apply fmul_nan_zero. Qed.
Lemma slick_arom wp c a x : arom c = true -> slick_rate wp c a (Some x) = x / k_ow c * (1 / 100 * wp) * a.
Proof.
  intros H. pose proof (k_ow_arom c H). unfold slick_rate, fdiv. destruct (Req_EM_T (k_ow c) 0); [lra|].
  simpl. unfold mask. rewrite H. ring.
Qed.
Lemma slick_nonneg wp c a x : 0 <= wp -> 0 <= a -> (forall y, x = Some y -> 0 <= y) -> 0 <= slick_rate wp c a x.
Proof.
  intros Hw Ha Hx. destruct (arom c) eqn:E; [|rewrite slick_other by exact E; lra].
  destruct x as [x|]; [|unfold slick_rate, nan_to_num; lra]. rewrite slick_arom by exact E. pose proof (k_ow_arom c E) as K. specialize (Hx x eq_refl).
  assert (0 <= x / k_ow c) by (unfold Rdiv; apply Rmult_le_pos; [exact Hx|left; now apply Rinv_0_lt_compat]).
  apply Rmult_le_pos; [apply Rmult_le_pos|]; lra.
Qed.

Lemma drop_other c kw d v x : arom c = false -> drop_rate c kw d v x = 0.
Proof.
  intros H. unfold drop_rate. destruct x as [x|]; [|reflexivity]. unfold mask. rewrite H, (k_ow_other c H), Rmult_0_r.
  unfold fdiv at 1. destruct (Req_EM_T 0 0) as [_|N]; [|contradiction].
  destruct (Rlt_dec 0 0); [lra|]. destruct (Rlt_dec 0 0); [lra|]. simpl.
  destruct (droplet_area d v); reflexivity.
Qed.
Lemma droplet_area_is d v : 0 <= d -> 0 <= v -> droplet_area d v = NaN \/ exists a, droplet_area d v = Fin a /\ 0 <= a.
Proof.
  intros Hd Hv. pose proof PI_RGT_0 as P. unfold droplet_area, fdiv. revert P. generalize PI. intros p P.
  destruct (Req_EM_T (4 / 3 * p * (d / 2 * (d / 2) * (d / 2))) 0) as [E|E].
  - left. assert (d = 0) as ->.
    { destruct Hd as [Hd|<-]; [|reflexivity]. exfalso.
      assert (0 < 4 / 3 * p * (d / 2 * (d / 2) * (d / 2))) by (repeat apply Rmult_lt_0_compat; lra). lra. }
    replace (4 * p * (0 / 2 * (0 / 2))) with 0 by field.
    destruct (Rlt_dec 0 v); [|destruct (Rlt_dec v 0)]; simpl; unfold sgn_inf; destruct (Rlt_dec 0 0); try lra; destruct (Rlt_dec 0 0); try lra; reflexivity.
  - right. eexists. split; [reflexivity|].
    assert (0 <= d / 2) by lra.
    assert (0 <= 4 / 3 * p * (d / 2 * (d / 2) * (d / 2))) by (repeat apply Rmult_le_pos; lra).
    apply Rmult_le_pos; [|repeat apply Rmult_le_pos; lra].
    unfold Rdiv at 1. apply Rmult_le_pos; [exact Hv|]. left. apply Rinv_0_lt_compat. lra.
Qed.
Lemma drop_nonneg c kw d v x : 0 <= kw -> 0 <= d -> 0 <= v -> (forall y, x = Some y -> 0 <= y) -> 0 <= drop_rate c kw d v x.
Proof.
  intros Hk Hd Hv Hx. destruct (arom c) eqn:E; [|rewrite drop_other by exact E; lra].
  destruct x as [x|]; [|unfold drop_rate, nan_to_num; lra]. specialize (Hx x eq_refl). pose proof (k_ow_arom c E) as K.
  unfold drop_rate, fdiv at 1. destruct (Req_EM_T (k_ow c) 0); [lra|]. unfold mask. rewrite E. simpl.
  destruct (droplet_area_is d v Hd Hv) as [->|(a & -> & Ha)]; [unfold fmul2, nan_to_num; lra|]. cbn [fmul2 fmul nan_to_num].
  apply Rmult_le_pos; [|exact Ha]. apply Rmult_le_pos; [|lra]. unfold Rdiv. apply Rmult_le_pos; [lra|]. left. now apply Rinv_0_lt_compat.
Qed.

(** ** Limits *)
Lemma limit_bounds m t : 0 <= m -> 0 <= t -> 0 <= limit m t <= m.
Proof. intros Hm Ht. unfold limit, Rmin. destruct (Rle_dec (m - t) 0); lra. Qed.
Lemma limit_zero m : 0 <= m -> limit m 0 = 0.
Proof. intros Hm. unfold limit, Rmin. destruct (Rle_dec (m - 0) 0); lra. Qed.

(** ** Sums *)
Lemma zipw_nonneg {A B} (f : A -> B -> R) l l' : (forall a b, In a l -> In b l' -> 0 <= f a b) -> 0 <= sumr (zipw f l l').
Proof.
  intros H. apply sumr_nonneg. apply Forall_forall. intros x Hx. unfold zipw in Hx. apply in_map_iff in Hx.
  destruct Hx as ([a b] & <- & Hp). simpl. apply H; [eapply in_combine_l|eapply in_combine_r]; eauto.
Qed.
Lemma volume_nonneg cs e : sound_comps cs -> sound cs e -> 0 <= volume cs e.
Proof.
  intros Hc (_ & Hm & _). apply zipw_nonneg. intros m c Im Ic. rewrite Forall_forall in Hm.
  unfold Rdiv. apply Rmult_le_pos; [now apply Hm|]. left. apply Rinv_0_lt_compat. now apply Hc.
Qed.
Lemma masses_sum_nonneg cs e : sound cs e -> 0 <= sumr (masses e).
Proof. intros (_ & Hm & _). now apply sumr_nonneg. Qed.
Lemma conc_nonneg cs e l : sound_comps cs -> sound cs e -> concentration cs e = Some l -> Forall (fun x => 0 <= x) l.
Proof.
  intros Hc Hs H. pose proof (masses_sum_nonneg cs e Hs) as S. unfold concentration in H.
  destruct (Req_EM_T (sumr (masses e)) 0); [discriminate|]. injection H as <-.
  destruct Hs as (_ & Hm & _). assert (0 < / sumr (masses e)) by (apply Rinv_0_lt_compat; lra).
  apply Forall_forall. intros x Hx. apply in_map_iff in Hx. destruct Hx as (y & <- & Hy). rewrite Forall_forall in Hm.
  apply Rmult_le_pos; [unfold Rdiv; apply Rmult_le_pos; [now apply Hm|lra]|].
  apply zipw_nonneg. intros m c Im Ic. apply Rmult_le_pos; [unfold Rdiv; apply Rmult_le_pos; [now apply Hm|lra]|].
  left. now apply Hc.
Qed.
Definition conc_row (cs : list comp) (e : elem) : list (option R) :=
  match concentration cs e with Some l => map Some l | None => map (fun _ => None) (masses e) end.
Lemma conc_row_length cs e : length (conc_row cs e) = length (masses e).
Proof.
  unfold conc_row, concentration. destruct (Req_EM_T (sumr (masses e)) 0); now rewrite !map_length.
Qed.
Lemma conc_row_nonneg cs e : sound_comps cs -> sound cs e -> Forall (fun x => forall y, x = Some y -> 0 <= y) (conc_row cs e).
Proof.
  intros Hc Hs. unfold conc_row. destruct (concentration cs e) as [l|] eqn:E.
  - pose proof (conc_nonneg cs e l Hc Hs E) as F. clear -F. induction F; simpl; constructor; auto. intros y Hy. now injection Hy as <-.
  - clear. induction (masses e); simpl; constructor; auto. intros y Hy. discriminate.
Qed.

(** ** One element *)
Definition diss_row (cs : list comp) (wp kw d v a twc tc : R) (ms : list R) (xs : list (option R)) : list R :=
  zipw (fun (mx : R * option R) c => limit (fst mx) (drop_rate c (kw + 134 / 1000) d v (snd mx) * twc + slick_rate wp c a (snd mx) * tc)) (combine ms xs) cs.

Lemma diss_row_ok : forall cs ms xs wp kw d v a twc tc,
  length ms = length cs -> length xs = length ms ->
  Forall (fun m => 0 <= m) ms -> Forall (fun x => forall y, x = Some y -> 0 <= y) xs ->
  0 <= wp -> 0 <= d -> 0 <= v -> 0 <= a -> 0 <= twc -> 0 <= tc -> (twc = 0 \/ 0 <= kw) ->
  Forall2 (fun cm x => 0 <= x <= snd cm /\ (arom (fst cm) = false -> x = 0)) (combine cs ms) (diss_row cs wp kw d v a twc tc ms xs).
Proof.
  induction cs as [|c cs IH]; intros [|m ms] [|x xs] wp kw d v a twc tc L1 L2 Hm Hx Hw Hd Hv Ha Ht Hc K; simpl in *; try lia; [constructor|].
  inversion Hm; inversion Hx; subst. unfold diss_row, zipw. simpl. constructor.
  - simpl. assert (0 <= drop_rate c (kw + 134 / 1000) d v x * twc) as P1.
    { destruct K as [->|K]; [rewrite Rmult_0_r; lra|]. apply Rmult_le_pos; [|exact Ht]. apply drop_nonneg; auto. lra. }
    assert (0 <= slick_rate wp c a x * tc) as P2 by (apply Rmult_le_pos; [now apply slick_nonneg|exact Hc]).
    split; [apply limit_bounds; [assumption|lra]|].
    intros E. rewrite drop_other, slick_other by exact E. rewrite !Rmult_0_l, Rplus_0_r. now apply limit_zero.
  - apply IH; auto.
Qed.

Lemma dissolve1_is cs dt wp e water r : 0 <= dt -> 0 <= height e -> dissolve1 cs dt wp e water = r ->
  let delta := water - avg_rho cs e in let kw := k_w delta (drop e) in
  (r = Raise AssertErr /\ kw = 0 /\ height e = 0) \/
  exists f, f_wc e kw delta = Fin f /\ 0 <= f <= 1 /\ ~ (kw = 0 /\ height e = 0) /\
    r = Ok (diss_row cs wp kw (drop e) (volume cs e) (area e) (f * dt) (t_calm e dt (f * dt)) (masses e) (conc_row cs e)).
Proof.
  intros Hdt Hh H delta kw. destruct (f_wc_fin e kw delta Hh) as (A & B & C).
  unfold dissolve1 in H. fold delta in H. fold kw in H.
  destruct (f_wc e kw delta) as [f| | |] eqn:E.
  - right. exists f. specialize (B f eq_refl). split; [reflexivity|]. split; [exact B|].
    split; [apply A; eauto|].
    assert (0 <= f * dt <= dt) as T by nra. pose proof (t_calm_bounds e dt (f * dt) (proj2 T)) as TC.
    destruct (Rle_dec (t_calm e dt (f * dt)) dt); [|lra]. destruct (Rle_dec (f * dt) dt); [|lra].
    destruct (Rle_dec (f * dt + t_calm e dt (f * dt)) dt); [|lra]. now rewrite <- H.
  - exfalso. assert (~ (kw = 0 /\ height e = 0)) as N by (intros K; now specialize (C K)). apply A in N. destruct N; discriminate.
  - exfalso. assert (~ (kw = 0 /\ height e = 0)) as N by (intros K; now specialize (C K)). apply A in N. destruct N; discriminate.
  - left. split; [congruence|]. destruct (Req_EM_T kw 0) as [K|K].
    + destruct (Req_EM_T (height e) 0) as [K2|K2]; [tauto|]. exfalso. destruct A as [_ A]. destruct A; [tauto|discriminate].
    + exfalso. destruct A as [_ A]. destruct A; [tauto|discriminate].
Qed.

Lemma dissolve1_ok cs dt wp e water l : sound_comps cs -> sound cs e -> 0 <= dt -> 0 <= wp -> dissolve1 cs dt wp e water = Ok l ->
  Forall2 (fun cm x => 0 <= x <= snd cm /\ (arom (fst cm) = false -> x = 0)) (combine cs (masses e)) l.
Proof.
  intros Hc Hs Hdt Hw H. pose proof Hs as (L & Hm & Hd & Ha & Hh).
  destruct (dissolve1_is cs dt wp e water _ Hdt Hh H) as [(K & _)|(f & E & Hf & _ & K)]; [discriminate|]. injection K as ->.
  assert (0 <= f * dt <= dt) as T by nra. pose proof (t_calm_bounds e dt (f * dt) (proj2 T)) as TC.
  apply diss_row_ok; auto; try tauto; try lra.
  - apply conc_row_length.
  - now apply conc_row_nonneg.
  - now apply volume_nonneg.
  - destruct (Rlt_le_dec (k_w (water - avg_rho cs e) (drop e)) 0) as [K|K]; [left|now right].
    rewrite (f_wc_heavy _ _ _ _ Hh K E). ring.
Qed.

Lemma prodr_nonneg l : Forall (fun x => 0 < x) l -> 0 < prodr l.
Proof. intros H. induction H; simpl; [lra|]. now apply Rmult_lt_0_compat. Qed.
Lemma wind_prod_pos es : 0 < wind_prod es.
Proof.
  unfold wind_prod. apply prodr_nonneg. apply Forall_forall. intros x Hx. apply in_map_iff in Hx. destruct Hx as (e & <- & _).
  pose proof (u10_pos e). lra.
Qed.

Lemma mapM_Forall2 {A B} (f : A -> res B) : forall l l', mapM f l = Ok l' -> Forall2 (fun a b => f a = Ok b) l l'.
Proof.
  induction l as [|a l IH]; intros l' H; simpl in H; [injection H as <-; constructor|].
  destruct (f a) eqn:E; simpl in H; [|discriminate]. destruct (mapM f l) eqn:E2; simpl in H; [|discriminate]. injection H as <-.
  constructor; auto.
Qed.
Lemma mapM_raise {A B} (f : A -> res B) : forall l e, mapM f l = Raise e -> exists a, In a l /\ f a = Raise e.
Proof.
  induction l as [|a l IH]; intros e H; simpl in H; [discriminate|].
  destruct (f a) eqn:E; simpl in H.
  - destruct (mapM f l) eqn:E2; simpl in H; [discriminate|]. injection H as <-. destruct (IH _ eq_refl) as (b & Ib & Hb). exists b. split; [now right|exact Hb].
  - injection H as <-. exists a. split; [now left|exact E].
Qed.

Lemma oil_density_is cs e : oil_density cs (masses e) = avg_rho cs e.
Proof.
  unfold oil_density, avg_rho. destruct (Req_EM_T (sumr (masses e)) 0); [reflexivity|].
  generalize (sumr (masses e)) n. intros s Hs. unfold zipw. induction (combine (masses e) cs) as [|p l IH]; simpl; [unfold Rdiv; ring|].
  rewrite <- IH. change (fold_right Rplus 0) with sumr. field. exact Hs.
Qed.
Lemma k_w_zero delta d : k_w delta d = 0 <-> d = 0 \/ delta = 0.
Proof.
  unfold k_w. split.
  - intros H. apply Rmult_integral in H. destruct H as [H|H].
    + apply Rmult_integral in H. destruct H; [lra|now right].
    + apply Rmult_integral in H. left. tauto.
  - intros [->| ->]; ring.
Qed.
Lemma stuck_is cs water e : stuck cs water e <-> k_w (water - avg_rho cs e) (drop e) = 0 /\ height e = 0.
Proof.
  unfold stuck. rewrite oil_density_is, k_w_zero. split; intros [A B]; split; auto; destruct B as [B|B] || destruct A as [A|A]; auto; right; lra.
Qed.

(** ** Masses after the step *)
Lemma minus_row : forall cs ms l, length ms = length cs ->
  Forall2 (fun cm x => 0 <= x <= snd cm /\ (arom (fst cm) = false -> x = 0)) (combine cs ms) l ->
  Forall2 (fun cm n => shrinks (fst cm) (snd cm) n) (combine cs ms) (zipw Rminus ms l) /\ sumr (zipw Rminus ms l) = sumr ms - sumr l.
Proof.
  induction cs as [|c cs IH]; intros [|m ms] l L F; simpl in *; try lia.
  - inversion F; subst. split; [constructor|]. simpl. ring.
  - inversion F as [|? x ? l' [B N] F']; subst. destruct (IH ms l' ltac:(lia) F') as [P S]. unfold zipw in *. simpl in *. split.
    + constructor; [|exact P]. unfold shrinks. simpl. split; [lra|]. intros E. rewrite N by exact E. ring.
    + change (fold_right Rplus 0) with sumr in *. rewrite S. ring.
Qed.
