(** * Properties C175 to C177: dissolution *)
From Coq Require Import Reals Lra Lia.
From Verif Require Import Py PyLemmas WxModel WxProofs DisModel DisSpec DisProofs.
Open Scope R_scope.

(** ** C175: dissolution takes from the aromatic components, no more than there is, and books it *)

(** With NumPy 1: if the step does not fail, every component keeps between nothing and what
    it had, components that are not aromatic keep all, the mass of an element is that of
    its components, and what is lost is added to the mass balance. *)
Theorem C175_masses_partial : forall cs dt water es mb new ms mb', sound_comps cs -> Forall (sound cs) es -> 0 <= dt ->
  weather false cs dt water es mb = Ok (new, ms, mb') ->
  Forall2 (elem_shrinks cs) es new /\ ms = map sumr new /\ mb' - mb = total (map masses es) - total new /\ mb <= mb'.
Proof.
  intros cs dt water es mb new ms mb' Hc Hs Hdt H. unfold weather in H.
  destruct es as [|e0 es0]; [injection H as <- <- <-; unfold total; simpl; repeat split; try constructor; lra|].
  remember (e0 :: es0) as es. clear Heqes. unfold dissolve_oil in H.
  pose proof (wind_prod_pos es) as W. revert W H. generalize (wind_prod es). intros wp W H.
  destruct (mapM (fun e => dissolve1 cs dt wp e water) es) as [diss|] eqn:E; [|discriminate]. simpl in H. injection H as <- <- <-.
  apply mapM_Forall2 in E.
  assert (Forall2 (elem_shrinks cs) es (zipw (fun e d => zipw Rminus (masses e) d) es diss) /\
          total (zipw (fun e d => zipw Rminus (masses e) d) es diss) = total (map masses es) - sumr (map sumr diss) /\
          0 <= sumr (map sumr diss)) as (A & B & C).
  { induction E as [|e d es diss E F IH]; [unfold total; simpl; repeat split; try constructor; lra|].
    inversion Hs as [|? ? S1 S2]; subst. destruct (IH S2) as (A & B & C).
    pose proof (dissolve1_ok cs dt wp e water d Hc S1 Hdt (Rlt_le _ _ W) E) as D.
    destruct (minus_row cs (masses e) d (proj1 S1) D) as [P S].
    assert (0 <= sumr d) as Dn.
    { apply sumr_nonneg. clear -D. induction D as [|? ? ? ? [Q _]]; constructor; auto. lra. }
    unfold zipw in *. simpl. unfold total in *. simpl. change (fold_right Rplus 0) with sumr in *. split; [|split].
    - constructor; [exact P|exact A].
    - rewrite S, B. ring.
    - lra. }
  split; [exact A|]. split; [reflexivity|]. split; lra.
Qed.
Print Assumptions C175_masses_partial.

(** With NumPy 2, which the project asks for, every step with oil at the surface fails. *)
Theorem C175_numpy_refuted : forall cs dt water es mb, es <> [] -> weather true cs dt water es mb = Raise AttrErr.
Proof. intros cs dt water [|e es] mb H; [contradiction|reflexivity]. Qed.
Print Assumptions C175_numpy_refuted.

(** ** C176: the times in the water column and at the surface fit into the step *)

(** The part of a step a droplet spends in the water column and the time its slick is calm
    are not negative and not longer than the step together; oil that is heavier than the
    water spends no time in the water column. *)
Theorem C176_times : forall e kw delta dt f, 0 <= dt -> 0 <= height e -> f_wc e kw delta = Fin f ->
  0 <= f * dt /\ 0 <= t_calm e dt (f * dt) /\ f * dt + t_calm e dt (f * dt) <= dt /\ (kw < 0 -> f = 0).
Proof.
  intros e kw delta dt f Hdt Hh H. destruct (f_wc_fin e kw delta Hh) as (_ & B & _). specialize (B f H).
  assert (0 <= f * dt <= dt) as T by nra. pose proof (t_calm_bounds e dt (f * dt) (proj2 T)).
  repeat split; try lra. intros K. now apply (f_wc_heavy e kw delta).
Qed.
Print Assumptions C176_times.

(** A step fails, in an assertion, just if there is an element without waves whose droplets
    have no size or are as dense as the water. *)
Theorem C176_fails : forall cs dt water es mb, Forall (sound cs) es -> 0 <= dt ->
  (weather false cs dt water es mb = Raise AssertErr <-> exists e, In e es /\ stuck cs water e) /\
  (forall x, weather false cs dt water es mb = Raise x -> x = AssertErr).
Proof.
  intros cs dt water es mb Hs Hdt.
  assert (forall x, weather false cs dt water es mb = Raise x -> x = AssertErr /\ exists e, In e es /\ stuck cs water e) as P.
  { intros x H. unfold weather in H. destruct es as [|e0 es0]; [discriminate|]. remember (e0 :: es0) as es. clear Heqes.
    unfold dissolve_oil in H. destruct (mapM (fun e => dissolve1 cs dt (wind_prod es) e water) es) as [d|y] eqn:E; [discriminate|].
    simpl in H. injection H as <-. apply mapM_raise in E. destruct E as (e & I & E).
    rewrite Forall_forall in Hs. destruct (Hs e I) as (_ & _ & _ & _ & Hh).
    destruct (dissolve1_is cs dt (wind_prod es) e water _ Hdt Hh E) as [(K & Z1 & Z2)|(f & _ & _ & _ & K)]; [|discriminate].
    injection K as ->. split; [reflexivity|]. exists e. split; [exact I|]. now apply stuck_is. }
  split; [split|].
  - intros H. now apply P in H.
  - intros (e & I & S). destruct (weather false cs dt water es mb) as [[[new ms] mb']|x] eqn:H; [exfalso|destruct (P x eq_refl) as [-> _]; reflexivity].
    unfold weather in H. destruct es as [|e0 es0]; [destruct I|]. remember (e0 :: es0) as es. clear Heqes.
    unfold dissolve_oil in H. destruct (mapM (fun e => dissolve1 cs dt (wind_prod es) e water) es) as [d|y] eqn:E; [|discriminate].
    apply mapM_Forall2 in E. revert E. generalize (wind_prod es). intros wp E.
    assert (exists d', dissolve1 cs dt wp e water = Ok d') as [d' D].
    { clear -E I. induction E as [|a b l l' Q F IH]; [destruct I|]. destruct I as [->|I]; eauto. }
    rewrite Forall_forall in Hs. destruct (Hs e I) as (_ & _ & _ & _ & Hh).
    apply stuck_is in S. destruct (dissolve1_is cs dt wp e water _ Hdt Hh D) as [(K & _)|(f & _ & _ & N & _)]; [discriminate|contradiction].
  - intros x H. now apply P in H.
Qed.
Print Assumptions C176_fails.

(** So oil on calm water fails as long as nothing has set the droplet size, which starts at 0. *)
Theorem C176_calm_refuted : forall cs dt water ms a u mb, 0 <= dt -> length ms = length cs -> Forall (fun m => 0 <= m) ms -> 0 <= a ->
  weather false cs dt water [Elem ms 0 a u 0] mb = Raise AssertErr.
Proof.
  intros cs dt water ms a u mb Hdt L Hm Ha. apply C176_fails; [|exact Hdt|].
  - constructor; [|constructor]. unfold sound. simpl. repeat split; auto; lra.
  - eexists. split; [now left|]. split; [reflexivity|]. now left.
Qed.
Print Assumptions C176_calm_refuted.

(** Two components, waves and droplets: the step succeeds. *)
Definition ex_cs : list comp := [Comp true 100 800; Comp false 300 900].
Definition ex_e : elem := Elem [3; 5] (1 / 10000) 10 7 1.
Lemma ex_sound : sound_comps ex_cs /\ Forall (sound ex_cs) [ex_e; ex_e].
Proof.
  split.
  - intros c [<-|[<-|[]]]; simpl; lra.
  - assert (sound ex_cs ex_e) by (unfold sound; simpl; repeat split; try lra; repeat constructor; lra). constructor; [assumption|]. constructor; [assumption|constructor].
Qed.
Example C175_masses_meets : sound_comps ex_cs /\ Forall (sound ex_cs) [ex_e; ex_e] /\ exists r, weather false ex_cs 900 1025 [ex_e; ex_e] 0 = Ok r.
Proof.
  split; [apply ex_sound|]. split; [apply ex_sound|].
  destruct (C176_fails ex_cs 900 1025 [ex_e; ex_e] 0 (proj2 ex_sound) ltac:(lra)) as [A B].
  destruct (weather false ex_cs 900 1025 [ex_e; ex_e] 0) as [r|x] eqn:E; [eauto|]. exfalso.
  specialize (B x eq_refl). subst x. destruct (proj1 A eq_refl) as (e & [<-|[<-|[]]] & S & _); simpl in S; lra.
Qed.
Example C176_times_meets : exists f, f_wc ex_e 1 1 = Fin f.
Proof. apply f_wc_fin; simpl; lra. Qed.

(** ** C177: what dissolves from an element is its own affair *)

(** True of an element without a slick area: what dissolves from it is the same whatever
    the other elements are. *)
Theorem C177_own_partial : forall cs dt water es es' i j e, sound_comps cs -> nth_error es i = Some e -> nth_error es' j = Some e -> area e = 0 ->
  forall d d', dissolve_oil false cs dt water es = Ok d -> dissolve_oil false cs dt water es' = Ok d' -> nth_error d i = nth_error d' j.
Proof.
  intros cs dt water es es' i j e Hc Hi Hj Ha d d' H H'. unfold dissolve_oil in *.
  apply mapM_Forall2 in H, H'. revert H H'. generalize (wind_prod es) (wind_prod es'). intros wp wp' H H'.
  assert (forall w l l' k, Forall2 (fun a b => dissolve1 cs dt w a water = Ok b) l l' -> nth_error l k = Some e ->
    exists r, nth_error l' k = Some r /\ dissolve1 cs dt w e water = Ok r) as N.
  { intros w l l' k F. revert k. induction F as [|a b l l' Q F IH]; intros [|k] Hk; simpl in *; try discriminate.
    - injection Hk as ->. eauto.
    - now apply IH. }
  destruct (N _ _ _ _ H Hi) as (r & R1 & R2). destruct (N _ _ _ _ H' Hj) as (r' & R1' & R2'). rewrite R1, R1'.
  assert (dissolve1 cs dt wp e water = dissolve1 cs dt wp' e water) as E; [|congruence].
  unfold dissolve1. destruct (f_wc _ _ _); try reflexivity.
  repeat (destruct (Rle_dec _ _); try reflexivity). f_equal. unfold zipw. apply map_ext_in. intros [mx c] Hin. simpl. f_equal. f_equal. f_equal.
  rewrite Ha. clear. unfold slick_rate. destruct (snd mx) as [x|]; [|reflexivity].
  assert (forall a k, nan_to_num (fmul (fmul a 0) k) = 0) as Z.
  { intros a k. destruct a; simpl; try ring; unfold sgn_inf; destruct (Rlt_dec 0 0); try lra; destruct (Rlt_dec 0 0); try lra; reflexivity. }
  now rewrite !Z.
Qed.
Print Assumptions C177_own_partial.

(** False with a slick: the winds of all elements are multiplied, so of two equal elements
    each loses less than one of them would alone. *)
Theorem C177_company_refuted : exists cs dt water e x y, sound_comps cs /\ sound cs e /\ 0 < dt /\
  dissolve_oil false cs dt water [e] = Ok [[x]] /\ dissolve_oil false cs dt water [e; e] = Ok [[y]; [y]] /\ y < x.
Proof.
  set (c := Comp true 1 1). set (e := Elem [1] 1 1 0 0).
  assert (sound_comps [c]) as Sc by (intros ? [<-|[]]; simpl; lra).
  assert (sound [c] e) as Se by (unfold sound; simpl; repeat split; try lra; repeat constructor; lra).
  assert (avg_rho [c] e = 1) as Rho.
  { unfold avg_rho. simpl. destruct (Req_EM_T (1 + 0) 0); [lra|]. unfold zipw. simpl. field. }
  assert (k_w (0 - avg_rho [c] e) (drop e) < 0) as K by (rewrite Rho; unfold k_w; simpl; lra).
  set (t := t_calm e 1 0).
  assert (0 < t <= 1) as T.
  { unfold t, t_calm, clip. pose proof (calm_pos_e e) as P. unfold Rmin, Rmax. repeat destruct (Rle_dec _ _); lra. }
  assert (u10 e = 1 / 100) as U by (unfold u10; simpl; apply Rmax_right; lra).
  assert (18 / 10 <= k_ow c) as Kow.
  { unfold k_ow, mask. simpl. pose proof (exp_ineq1 (59 / 1000 * 1000 * 1 / 1) ltac:(lra)). lra. }
  assert (forall wp, 0 <= wp <= 1 -> dissolve1 [c] 1 wp e 0 = Ok [1 / k_ow c * (1 / 100 * wp) * t]) as D.
  { intros wp Hw. destruct (dissolve1_is [c] 1 wp e 0 _ ltac:(lra) ltac:(simpl; lra) eq_refl) as [(_ & Z & _)|(f & F & _ & _ & ->)]; [lra|].
    rewrite (f_wc_heavy e _ _ f ltac:(simpl; lra) K F). rewrite Rmult_0_l. fold t.
    assert (conc_row [c] e = [Some 1]) as ->.
    { unfold conc_row, concentration. simpl. destruct (Req_EM_T (1 + 0) 0); [lra|]. unfold zipw. simpl. f_equal. f_equal. field. }
    unfold diss_row, zipw. change (masses e) with [1]. cbn [combine map fst snd]. rewrite slick_arom by reflexivity. change (area e) with 1. rewrite Rmult_0_r, Rplus_0_l, Rmult_1_r.
    f_equal. f_equal. unfold limit. rewrite Rmin_right; [ring|].
    assert (0 < / k_ow c <= 1).
    { split; [apply Rinv_0_lt_compat; lra|]. rewrite <- Rinv_1. apply Rinv_le_contravar; lra. }
    unfold Rdiv. assert (1 * / k_ow c * (1 * / 100 * wp) <= 1 / 100) by nra.
    assert (0 <= 1 * / k_ow c * (1 * / 100 * wp)) by nra. nra. }
  exists [c], 1, 0, e, (1 / k_ow c * (1 / 100 * wind_prod [e]) * t), (1 / k_ow c * (1 / 100 * wind_prod [e; e]) * t).
  split; [exact Sc|]. split; [exact Se|]. split; [lra|].
  assert (wind_prod [e] = 1 / 360000) as W1 by (unfold wind_prod; simpl; rewrite U; field).
  assert (wind_prod [e; e] = 1 / 360000 * (1 / 360000)) as W2 by (unfold wind_prod; simpl; rewrite U; field).
  split; [|split].
  - unfold dissolve_oil. simpl. rewrite D by (rewrite W1; lra). reflexivity.
  - unfold dissolve_oil. simpl. rewrite D by (rewrite W2; lra). reflexivity.
  - rewrite W1, W2. assert (0 < / k_ow c) by (apply Rinv_0_lt_compat; lra).
    assert (0 < 1 / k_ow c * t) by (unfold Rdiv; rewrite Rmult_1_l; apply Rmult_lt_0_compat; lra). nra.
Qed.
Print Assumptions C177_company_refuted.
Example C177_own_meets : area (Elem [3; 5] (1 / 10000) 0 7 1) = 0 /\ exists d, dissolve_oil false ex_cs 900 1025 [Elem [3; 5] (1 / 10000) 0 7 1; ex_e] = Ok d.
Proof.
  split; [reflexivity|].
  assert (Forall (sound ex_cs) [Elem [3; 5] (1 / 10000) 0 7 1; ex_e]) as S.
  { constructor; [unfold sound; simpl; repeat split; try lra; repeat constructor; lra|]. pose proof (proj2 ex_sound) as Q. inversion Q. assumption. }
  destruct (C176_fails ex_cs 900 1025 [Elem [3; 5] (1 / 10000) 0 7 1; ex_e] 0 S ltac:(lra)) as [A B].
  unfold weather in *. destruct (dissolve_oil false ex_cs 900 1025 [Elem [3; 5] (1 / 10000) 0 7 1; ex_e]) as [d|x] eqn:E; [eauto|]. exfalso.
  specialize (B x eq_refl). subst x. destruct (proj1 A eq_refl) as (e & [<-|[<-|[]]] & Q & _); simpl in Q; lra.
Qed.
