(** * C27, C28, C83-C88: spreading, Langmuir cells, emulsification *)
From Verif Require Import Py PyLemmas WxModel WxSpec WxProofs SprModel SprSpec SprProofs.
From Coq Require Import Reals Lra.
Open Scope R_scope.

(** ** Examples of elements *)

Definition blob : list sel :=
  [mkS true 0 1000 2 40 40 (1 / 2) 900 900 0 1; mkS true 0 1000 2 60 60 (1 / 2) 900 900 0 1;
   mkS false 0 1000 2 50 50 1 900 900 0 1; mkS true 1 10 1 70 70 1 900 900 0 1].
Lemma blob_spreadable : forall e, In e blob -> spreadable e.
Proof. intros e H. repeat destruct H as [<-|H]; try contradiction; unfold spreadable; cbn; lra. Qed.

(** ** C27: Fay spreading *)

(** A step succeeds; an element that spreads keeps its Fay area or lets it grow, up to
    its volume over the least thickness; it grows if it may; the others stay. *)
Theorem C27_step : forall nu b limit dt l, 0 < dt -> (forall e, In e l -> spreadable e) ->
  exists l', fay_weather nu b limit dt l = Ok l' /\
    Forall2 (fun e e' => if p_in e
                         then p_fay e <= p_fay e' <= Rmax (p_fay e) (p_init e / p_rho e / limit) /\ p_area e' = p_fay e' /\
                              (fay_t0 nu b (first_vol l (p_spill e)) < p_age e + dt -> 0 < p_fay e < p_init e / p_rho e / limit ->
                               p_fay e < p_fay e')
                         else e' = e) l l'.
Proof.
  intros nu b limit dt l Hd Hl. rewrite fay_weather_map by (auto; intros e He _; apply (Hl e He)). eexists. split; [reflexivity|].
  apply f2_map_in. intros e He. destruct (p_in e); [|reflexivity]. destruct (Hl e He) as [_ [_ [H3 [H4 _]]]].
  pose proof (fay_el_ok nu b limit dt (first_vol l (p_spill e)) e Hd H3 H4) as [G1 [G2 [_ G4]]]. cbv zeta in *. unfold fay_max in *. auto.
Qed.
Print Assumptions C27_step.
Example C27_step_meets : exists l', fay_weather (1 / 1000000) (1 / 10) (1 / 100) 60 blob = Ok l' /\ length l' = 4%nat.
Proof.
  destruct (C27_step (1 / 1000000) (1 / 10) (1 / 100) 60 blob ltac:(lra) blob_spreadable) as [l' [H1 H2]]. exists l'. split; [exact H1|].
  apply Forall2_length in H2. rewrite <- H2. reflexivity.
Qed.
(** Before the time t0 of its spill an element does not spread. *)
Theorem C27_waits : forall nu b limit dt l l', fay_weather nu b limit dt l = Ok l' ->
  Forall2 (fun e e' => p_age e + dt <= fay_t0 nu b (first_vol l (p_spill e)) -> p_fay e' = p_fay e) l l'.
Proof.
  intros nu b limit dt l l' H. unfold fay_weather in H. destruct (existsb _ l); [discriminate|]. apply Ok_inj in H. subst l'.
  apply f2_map. intros e He. destruct (p_in e); [|reflexivity]. unfold fay_el. cbv zeta. cbn [set_fay p_fay].
  destruct (Rltb (fay_t0 nu b (first_vol l (p_spill e))) (p_age e + dt)) eqn:E; [apply Rltb_iff in E; lra|reflexivity].
Qed.
Print Assumptions C27_waits.
Example C27_waits_meets : let nu := 1 / 1000000 in let b := 1 / 10 in exists e, In e blob /\ p_in e = true /\
  p_age e + 1 <= fay_t0 nu b (first_vol blob (p_spill e)).
Proof.
  cbv zeta. exists (mkS true 1 10 1 70 70 1 900 900 0 1). split; [right; right; right; left; reflexivity|]. split; [reflexivity|]. cbn [p_age p_spill].
  change (first_vol blob 1) with 1. unfold fay_t0, k1, k0, sq.
  assert (F : Rpower (1000000 * / 8) (1 / 3) <= Rpower (1 / (1 / 1000000 * gravity * (1 / 10))) (1 / 3)).
  { apply Rle_Rpower_l; [lra|]. unfold gravity. lra. }
  assert (G : Rpower (1000000 * / 8) (1 / 3) = 50).
  { replace (1000000 * / 8) with (Rpower 50 3).
    - rewrite Rpower_mult. replace (3 * (1 / 3)) with 1 by field. apply Rpower_1. lra.
    - replace 3 with (INR 3) by (cbn; lra). rewrite Rpower_pow by lra. cbn. lra. }
  lra.
Qed.
(** Over a run the Fay area of an element never shrinks and never exceeds a bound that
    its first area and the largest areas respect. *)
Theorem C27_run : forall nu b limit A h l,
  Forall (fun p => 0 < fst p /\ keeps_fay (snd p) /\
                   (forall e, p_init e / p_rho e / limit <= A -> p_init (snd p e) / p_rho (snd p e) / limit <= A)) h ->
  (forall e, In e l -> spreadable e /\ p_fay e <= A /\ p_init e / p_rho e / limit <= A) ->
  exists l', fay_run nu b limit h l = Ok l' /\ Forall2 (fun e e' => p_fay e <= p_fay e' <= A) l l'.
Proof.
  intros nu b limit A h l Hh Hl. apply fay_run_ok.
  - eapply Forall_impl; [|exact Hh]. intros p [H1 [H2 _]]. auto.
  - intros e He. apply Hl; auto.
  - intros e He. apply Hl; auto.
  - eapply Forall_impl; [|exact Hh]. intros p H. apply H.
  - intros e He. apply Hl; auto.
Qed.
Print Assumptions C27_run.
Definition aged (e : sel) : sel := mkS (p_in e) (p_spill e) (p_age e + 60) (p_bulk e) (p_fay e) (p_area e) (p_vf e) (p_init e) (p_rho e) (p_max e) (p_cov e).
Example C27_run_meets : forall nu b, exists l', fay_run nu b (1 / 100) [(60, aged); (60, aged)] blob = Ok l' /\
  Forall2 (fun e e' => p_fay e <= p_fay e' <= 100) blob l'.
Proof.
  intros nu b. apply C27_run.
  - assert (K : keeps_fay aged) by (intros e He; split; [reflexivity|]; unfold spreadable, aged in *; cbn in *; lra).
    apply Forall_forall. intros p [<-|[<-|[]]]; cbn [fst snd]; (split; [lra|]; split; [exact K|]; intros e He; exact He).
  - intros e He. split; [apply blob_spreadable; auto|]. repeat destruct He as [<-|He]; try contradiction; cbn; lra.
Qed.

(** ** C28: the coverage *)

Theorem C28_coverage : forall v thick buoy, 1 / 10 <= coverage v thick buoy <= 1.
Proof. intros. apply fclip_bounds. Qed.
Print Assumptions C28_coverage.
(** Langmuir cells lower the area to a tenth to all of the Fay area, for all elements
    (any mass, density, area, wind) that are weathered, and nothing else changes. *)
Theorem C28_weather : forall rho_w wind l,
  Forall2 (fun e e' => (p_in e = true -> 1 / 10 <= p_cov e' <= 1 /\ p_area e' = p_fay e * p_cov e' /\ p_fay e' = p_fay e) /\
                       (p_in e = false -> e' = e)) l (lang_weather rho_w wind l).
Proof. apply lang_rel. Qed.
Print Assumptions C28_weather.
Example C28_weather_meets : exists e, In e (lang_weather 1000 (fun _ => 10) blob) /\ p_in e = true /\ p_spill e = 1%Z /\ 7 <= p_area e <= 70.
Proof.
  unfold lang_weather, blob. cbn [filter p_in map]. eexists. split; [right; right; right; left; reflexivity|]. cbn [p_in p_spill p_area p_fay].
  split; [reflexivity|]. split; [reflexivity|]. match goal with |- context [coverage ?a ?b ?c] => pose proof (C28_coverage a b c) as K; set (x := coverage a b c) in * end. lra.
Qed.

(** ** C83: Fay spreading and the number of elements *)

Theorem C83_cut : forall nu b limit dt s l, 0 < dt -> (forall e, In e l -> spreadable e) -> 0 < s < 1 ->
  fay_weather nu b limit dt (scut s l) = do l' <- fay_weather nu b limit dt l; Ok (scut s l').
Proof. exact fay_cut. Qed.
Print Assumptions C83_cut.
(** So the area of the whole is the same. *)
Theorem C83_area : forall nu b limit dt s l l' c', 0 < dt -> (forall e, In e l -> spreadable e) -> 0 < s < 1 ->
  fay_weather nu b limit dt l = Ok l' -> fay_weather nu b limit dt (scut s l) = Ok c' ->
  sumr (map p_fay c') = sumr (map p_fay l') /\ sumr (map p_area c') = sumr (map p_area l').
Proof.
  intros nu b limit dt s l l' c' Hd Hl Hs H1 H2. rewrite fay_cut, H1 in H2 by auto. cbn [bind] in H2. apply Ok_inj in H2. subst c'.
  clear. induction l' as [|e r [IH1 IH2]]; [split; reflexivity|]. unfold scut in *. cbn [flat_map app map]. rewrite !sumr_cons, IH1, IH2. cbn [stimes p_fay p_area].
  split; ring.
Qed.
Print Assumptions C83_area.
Example C83_meets : exists c', fay_weather (1 / 1000000) (1 / 10) (1 / 100) 60 (scut (1 / 3) blob) = Ok c' /\ length c' = 8%nat.
Proof.
  destruct (C27_step (1 / 1000000) (1 / 10) (1 / 100) 60 blob ltac:(lra) blob_spreadable) as [l' [H1 H2]].
  rewrite C83_cut, H1 by (try apply blob_spreadable; lra). cbn [bind]. eexists. split; [reflexivity|]. apply Forall2_length in H2.
  cbn [length blob] in H2. destruct l' as [|? [|? [|? [|? [|]]]]]; try discriminate. reflexivity.
Qed.

(** ** C84: the least thickness *)

(** Any kinematic viscosity: between 1e-5 and 1.00009e-4. *)
Theorem C84_bounds_partial : forall vo, 1 / 100000 <= thickness_limit vo <= 100000909 / 1000000000000.
Proof. intros vo. unfold thickness_limit. destruct (Rle_dec (1 / 10000) vo); [lra|]. destruct (Rle_dec (1 / 1000000) vo); lra. Qed.
Print Assumptions C84_bounds_partial.
(** It grows with the viscosity, up to the jump at 1e-4. *)
Theorem C84_monotone_partial : forall u v, u <= v -> (v < 1 / 10000 \/ 1 / 10000 <= u \/ u <= 99999 / 1000000000) ->
  thickness_limit u <= thickness_limit v.
Proof.
  intros u v H K. unfold thickness_limit. destruct (Rle_dec (1 / 10000) u), (Rle_dec (1 / 10000) v), (Rle_dec (1 / 1000000) u), (Rle_dec (1 / 1000000) v); lra.
Qed.
Print Assumptions C84_monotone_partial.
Example C84_meets : thickness_limit (1 / 2000000) = 1 / 100000 /\ thickness_limit (1 / 20000) < thickness_limit (1 / 10) /\
  thickness_limit (1 / 2000000) < thickness_limit (1 / 20000).
Proof. unfold thickness_limit. repeat (destruct (Rle_dec _ _)); lra. Qed.
(** A more viscous oil may get a smaller least thickness: the line does not end at the value above it. *)
Theorem C84_refuted : exists u v, u < v /\ thickness_limit v < thickness_limit u.
Proof. exists (999995 / 10000000000), (1 / 10000). split; [lra|]. unfold thickness_limit. repeat (destruct (Rle_dec _ _)); lra. Qed.
Print Assumptions C84_refuted.

(** ** C85: the first areas *)

(** Elements released together have a positive area each, together the area of the
    blob, which is at most its volume over the least thickness, in proportion to their
    volumes. *)
Theorem C85_first : forall limit nu b l, 0 < limit -> l <> [] -> (forall e, In e l -> 0 < p_init e /\ 0 < p_rho e) ->
  let l' := first_areas limit nu b l in
  let vol := sumr (map (fun e => p_init e / p_rho e) l) in
  sumr (map p_fay l') = init_area limit nu b vol /\ sumr (map p_fay l') <= vol / limit /\ sumr (map p_vf l') = 1 /\
  Forall2 (fun e e' => 0 < p_fay e' /\ p_area e' = p_fay e' /\ 0 < p_vf e' <= 1 /\ p_bulk e' = vol /\ p_fay e' <= p_init e / p_rho e / limit /\
                       p_fay e' * vol = init_area limit nu b vol * (p_init e / p_rho e)) l l'.
Proof.
  intros limit nu b l Hl Hn H. cbv zeta. set (vol := sumr (map (fun e => p_init e / p_rho e) l)).
  assert (V : forall e, In e l -> 0 < p_init e / p_rho e).
  { intros e He. destruct (H e He). unfold Rdiv. apply Rmult_lt_0_compat; auto. apply Rinv_0_lt_compat; auto. }
  assert (P : 0 < vol /\ forall e, In e l -> p_init e / p_rho e <= vol).
  { assert (Q : 0 <= vol /\ (forall e, In e l -> p_init e / p_rho e <= vol)).
    { unfold vol. clear - V. induction l as [|e r IH]; [split; [cbn; lra|intros e []]|]. cbn [map]. rewrite sumr_cons.
      destruct IH as [I1 I2]; [intros; apply V; right; auto|]. pose proof (V e (or_introl eq_refl)). split; [lra|].
      intros x [<-|Hx]; [lra|]. specialize (I2 x Hx). lra. }
    destruct Q as [Q1 Q2]. split; [|exact Q2]. destruct l as [|e r]; [congruence|]. specialize (Q2 e (or_introl eq_refl)). specialize (V e (or_introl eq_refl)). lra. }
  destruct P as [P Q]. destruct (first_areas_sum limit nu b l P) as [S1 S2]. fold vol in S1. destruct (init_area_ok limit nu b vol Hl P) as [I1 I2].
  split; [exact S1|]. split; [rewrite S1; exact I2|]. split; [exact S2|]. unfold first_areas. fold vol. clear S1 S2.
  clearbody vol. clear Hn. induction l as [|e r IH]; cbn [map]; [constructor|]. constructor; [|apply IH; intros; [apply H|apply V|apply Q]; right; auto].
  cbn [p_fay p_area p_vf p_bulk]. specialize (V e (or_introl eq_refl)). specialize (Q e (or_introl eq_refl)).
  destruct (Rlt_dec 0 vol); [|contradiction]. assert (Iv : 0 < / vol) by (apply Rinv_0_lt_compat; auto).
  assert (0 < p_init e / p_rho e / vol) by (unfold Rdiv at 1; apply Rmult_lt_0_compat; auto).
  assert (Le : p_init e / p_rho e / vol <= 1).
  { unfold Rdiv at 1. apply Rmult_le_reg_r with vol; auto. rewrite Rmult_assoc, Rinv_l by lra. lra. }
  repeat split; auto.
  - apply Rmult_lt_0_compat; auto.
  - apply Rle_trans with (vol / limit * (p_init e / p_rho e / vol)); [apply Rmult_le_compat_r; lra|]. right. field. destruct (H e (or_introl eq_refl)). repeat split; lra.
  - field. destruct (H e (or_introl eq_refl)). repeat split; lra.
Qed.
Print Assumptions C85_first.
Example C85_meets : let l' := first_areas (1 / 100000) (1 / 1000000) (1 / 10) blob in Forall (fun e => spreadable e) l' /\ sumr (map p_vf l') = 1.
Proof.
  cbv zeta. destruct (C85_first (1 / 100000) (1 / 1000000) (1 / 10) blob) as [_ [_ [H1 H2]]]; [lra|discriminate| |].
  - intros e He. repeat destruct He as [<-|He]; try contradiction; cbn; lra.
  - split; [|exact H1]. apply Forall_forall. intros e He. unfold first_areas, blob in *. cbn [map p_in p_spill p_age p_init p_rho p_max p_cov] in *.
    repeat match goal with X : Forall2 _ (_ :: _) _ |- _ => inversion X; subst; clear X end.
    repeat match goal with X : _ /\ _ |- _ => destruct X end. cbn [p_fay p_vf p_bulk p_area] in *.
    repeat destruct He as [<-|He]; try contradiction; unfold spreadable; cbn [p_age p_bulk p_fay p_vf p_init p_rho]; repeat split; try lra; cbn; lra.
Qed.

(** ** C86: wind and Langmuir cells *)

(** More wind, a thinner or a denser oil: less covered. *)
Theorem C86_monotone : forall v1 v2 t1 t2 b1 b2, 0 <= v1 <= v2 -> 0 < t1 <= t2 -> 0 < b1 <= b2 ->
  coverage v2 (Fin t1) b1 <= coverage v1 (Fin t2) b2.
Proof. intros. apply coverage_mono; lra. Qed.
Print Assumptions C86_monotone.
(** The bounds for the wind that are reported are where the coverage reaches its limits. *)
Theorem C86_bounds : forall wind thick buoy, 0 <= wind -> 0 < thick -> 0 < buoy ->
  let c := coverage (wind * (5 / 1000)) (Fin thick) buoy in
  (c = 1 <-> wind <= fst (wind_bounds buoy thick)) /\ (c = 1 / 10 <-> snd (wind_bounds buoy thick) <= wind).
Proof.
  intros w t b Hw Ht Hb. cbv zeta. split; split; intros H.
  - destruct (Rle_dec w (fst (wind_bounds b t))) as [|N]; auto. exfalso. destruct (Rle_dec (snd (wind_bounds b t)) w) as [K|K].
    + rewrite coverage_gale in H by auto. lra.
    + pose proof (coverage_between w t b Ht Hb ltac:(lra)). lra.
  - apply coverage_calm; auto; lra.
  - destruct (Rle_dec (snd (wind_bounds b t)) w) as [|N]; auto. exfalso. destruct (Rle_dec w (fst (wind_bounds b t))) as [K|K].
    + rewrite coverage_calm in H by (auto; lra). lra.
    + pose proof (coverage_between w t b Ht Hb ltac:(lra)). lra.
  - apply coverage_gale; auto.
Qed.
Print Assumptions C86_bounds.
Example C86_meets : coverage (0 * (5 / 1000)) (Fin (1 / 1000)) (1 / 10) = 1 /\ fst (wind_bounds (1 / 10) (1 / 1000)) < snd (wind_bounds (1 / 10) (1 / 1000)).
Proof.
  split.
  - apply (C86_bounds 0 (1 / 1000) (1 / 10)); try lra. unfold wind_bounds. cbn [fst]. pose proof (sqrt_pos (4 * (1 / 1000) * (1 / 10) * gravity / sq PI)). lra.
  - unfold wind_bounds. cbn [fst snd]. assert (P : 0 < / sq PI) by (apply Rinv_0_lt_compat; unfold sq; pose proof PI_RGT_0; apply Rmult_lt_0_compat; auto).
    assert (sqrt (4 * (1 / 1000) * (1 / 10) * gravity / sq PI) < sqrt (1000 * 4 * (1 / 1000) * (1 / 10) * gravity / sq PI)); [|lra].
    unfold gravity, Rdiv in *. apply sqrt_lt_1; lra.
Qed.

(** ** C87: emulsification *)

(** Over any run from fresh elements the fraction of water only grows and stays
    between 0 and the most the oil takes up; no error is raised. *)
Theorem C87_run : forall hours c ymax h l, 0 < ymax < 1 -> (forall e, In e l -> m_y e = 0 /\ m_s e = 0) ->
  Forall (fun p => 0 <= fst p /\ forall e, later e (snd p e)) h ->
  exists l', emul_run hours c ymax h l = Ok l' /\ Forall2 (fun e e' => m_y e <= m_y e' <= ymax) l l'.
Proof.
  intros hours c ymax h l Hy Hl Hh.
  destruct (emul_run_ok hours c ymax Hy h l Hh) as [l' [E1 E2]].
  - intros e He. destruct (Hl e He) as [H1 H2]. unfold emul_inv. rewrite H1, H2. split; [|split; [|auto]].
    + pose proof (cut_pos ymax drop_min Hy ltac:(unfold drop_min; lra)). lra.
    + unfold water_of. rewrite Rmult_0_l. replace (0 / (6 + 0)) with 0 by field. rewrite Rmin_left; lra.
  - exists l'. split; [exact E1|]. clear - E2. induction E2; constructor; auto. destruct H. unfold wet in *. lra.
Qed.
Print Assumptions C87_run.
(** It grows from one moment of the run to any later one: a run after a run. *)
Theorem C87_grows : forall hours c ymax h1 h2 l l1, 0 < ymax < 1 -> (forall e, In e l -> m_y e = 0 /\ m_s e = 0) ->
  Forall (fun p => 0 <= fst p /\ forall e, later e (snd p e)) (h1 ++ h2) -> emul_run hours c ymax h1 l = Ok l1 ->
  exists l2, emul_run hours c ymax h2 l1 = Ok l2 /\ Forall2 (fun e e' => m_y e <= m_y e' <= ymax) l1 l2.
Proof.
  intros hours c ymax h1 h2 l l1 Hy Hl Hh E. apply Forall_app in Hh as [Hh1 Hh2].
  assert (I : forall e, In e l1 -> emul_inv (if Rltb 0 hours then hours * 3600 else hours) c ymax e).
  { apply (emul_run_inv hours c ymax Hy h1 l l1); auto. intros e He. destruct (Hl e He) as [H1 H2]. unfold emul_inv. rewrite H1, H2. split; [|split; [|auto]].
    + pose proof (cut_pos ymax drop_min Hy ltac:(unfold drop_min; lra)). lra.
    + unfold water_of. rewrite Rmult_0_l. replace (0 / (6 + 0)) with 0 by field. rewrite Rmin_left; lra. }
  destruct (emul_run_ok hours c ymax Hy h2 l1 Hh2 I) as [l' [E1 E2]]. exists l'. split; [exact E1|]. clear - E2. induction E2; constructor; auto. destruct H. unfold wet in *. lra.
Qed.
Print Assumptions C87_grows.
(** Nothing is taken up before the time or the evaporated fraction at which the oil
    begins to emulsify; from then on it is if the wind blows. *)
Theorem C87_begins : forall dt hours c ymax e, 0 < ymax < 1 -> 0 < dt -> 0 <= m_s e < 6 / drop_min * (ymax / (1 - ymax)) -> 0 < m_k e -> 0 < hours ->
  exists e', emul_weather dt hours c ymax [e] = Ok ([e'], if Rltb 0 (m_mass e) then Some (m_y e') else None) /\
    (m_age e < hours * 3600 -> m_y e' = 0) /\ (hours * 3600 <= m_age e -> m_s e < m_s e' /\ 0 < m_y e').
Proof.
  intros dt hours c ymax e Hy Hd Hs Hk Hh. unfold emul_weather. destruct (Rle_dec ymax 0); [lra|].
  assert (T : Rltb 0 hours = true) by (apply Rltb_iff; auto). rewrite T. set (tm := hours * 3600).
  destruct (emul_el_ok dt tm c ymax e Hy ltac:(lra)) as [e' [E1 [E2 [E3 [E4 [E5 [E6 [E7 [E8 E9]]]]]]]]]; [lra|lra|].
  cbn [mapM]. rewrite E1. cbn [bind]. exists e'. split.
  - cbn [map]. rewrite !sumr_cons. cbn [sumr]. replace (m_mass e' + sumr []) with (m_mass e) by (rewrite E9; cbn; ring).
    destruct (Rltb 0 (m_mass e)) eqn:M; [|reflexivity]. apply Rltb_iff in M. f_equal. f_equal. f_equal. rewrite E9. cbn. field. lra.
  - assert (Tm : 0 < tm) by (unfold tm; lra). assert (N : Rltb tm 0 = false) by (destruct (Rltb tm 0) eqn:K; auto; apply Rltb_iff in K; lra).
    split; intros A.
    + assert (F : emulsifies tm c e = false).
      { unfold emulsifies. rewrite N. assert (K : Rltb (m_age e) tm = true) by (apply Rltb_iff; exact A). rewrite K. cbn. rewrite andb_false_r. reflexivity. }
      rewrite E3, (E5 F). unfold water_of. rewrite Rmult_0_l. replace (0 / (6 + 0)) with 0 by field. rewrite Rmin_left; lra.
    + assert (F : emulsifies tm c e = true).
      { unfold emulsifies. rewrite N. assert (K : Rltb (m_age e) tm = false) by (destruct (Rltb (m_age e) tm) eqn:K; auto; apply Rltb_iff in K; lra). rewrite K. reflexivity. }
      assert (G : m_s e < m_s e').
      { unfold emul_el in E1. cbv zeta in E1. rewrite F in E1. destruct (Rltb _ 0) in E1; [discriminate|]. apply Ok_inj in E1. rewrite <- E1. cbn [m_s].
        apply Rmin_glb_lt; [|apply Hs]. match goal with |- _ < _ + _ * _ * exp ?z => pose proof (exp_pos z) as X; set (w := exp z) in * end.
        assert (0 < m_k e * dt * w) by (apply Rmult_lt_0_compat; auto; apply Rmult_lt_0_compat; auto). lra. }
      split; [exact G|]. rewrite E3. unfold water_of. apply Rmin_glb_lt; [|lra]. unfold drop_max. assert (P : 0 < m_s e') by lra.
      assert (0 < / (6 + m_s e' * (1 / 100000))) by (apply Rinv_0_lt_compat; lra). unfold Rdiv at 1. apply Rmult_lt_0_compat; lra.
Qed.
Print Assumptions C87_begins.
(** The water content booked is the fraction of water of the emulsion: within the same bounds. *)
Theorem C87_booked : forall dt hours c ymax l l' w, 0 < ymax < 1 -> 0 <= dt -> (forall e, In e l -> 0 <= m_s e /\ 0 <= m_k e /\ 0 <= m_mass e) ->
  emul_weather dt hours c ymax l = Ok (l', Some w) -> 0 <= w <= ymax.
Proof.
  intros dt hours c ymax l l' w Hy Hd Hl H. unfold emul_weather in H. destruct l as [|e0 r0]; [discriminate|].
  set (l := e0 :: r0) in *. clearbody l. destruct (Rle_dec ymax 0); [lra|]. set (tm := if Rltb 0 hours then hours * 3600 else hours) in *. clearbody tm.
  destruct (mapM (emul_el dt tm c ymax) l) as [l1|] eqn:E; [|discriminate]. cbn [bind] in H.
  destruct (Rltb 0 (sumr (map m_mass l1))) eqn:Ht; [|discriminate]. apply Ok_inj in H. injection H as _ <-. apply Rltb_iff in Ht.
  apply water_content_bounds; auto. clear Ht. revert l1 E. induction l as [|e r IH]; intros l1 E; [injection E as <-; intros ? []|].
  cbn [mapM] in E. destruct (Hl e (or_introl eq_refl)) as [H1 [H2 H3]].
  destruct (emul_el_ok dt tm c ymax e Hy Hd H1 H2) as [e' [E1 [E2 [E3 [_ [_ [_ [_ [_ E4]]]]]]]]]. rewrite E1 in E. cbn [bind] in E.
  destruct (mapM (emul_el dt tm c ymax) r) as [r1|]; [|discriminate]. cbn [bind] in E. apply Ok_inj in E. subst l1.
  intros x [<-|Hx]; [rewrite E4; split; auto; unfold wet; rewrite E3; apply water_of_bounds; lra|].
  apply (IH ltac:(intros; apply Hl; right; auto) r1 eq_refl x Hx).
Qed.
Print Assumptions C87_booked.
Definition older (e : mel) : mel := mkM (m_y e) (m_s e) (m_evap e) (m_age e + 3600) (m_bull e) (uptake 10) (m_mass e).
Example C87_meets : forall l', emul_run 2 0 (9 / 10) [(3600, older); (3600, older); (3600, older)] [mkM 0 0 0 0 (-1) 0 5] = Ok l' ->
  exists e, l' = [e] /\ 0 < m_y e <= 9 / 10.
Proof.
  intros l' H.
  assert (K : 0 < uptake 10) by (unfold uptake, drop_max; lra).
  assert (P : forall h, Forall (fun p => 0 <= fst p /\ forall e, later e (snd p e)) (repeat (3600, older) h)).
  { intros h. apply Forall_forall. intros p Hp. apply repeat_spec in Hp. subst p. cbn [fst snd]. split; [lra|]. intros e. unfold later, older. cbn. repeat split; lra. }
  cbn [emul_run] in H.
  assert (D : 0 < 6 / drop_min * (9 / 10 / (1 - 9 / 10))) by (apply cut_pos; unfold drop_min; lra).
  destruct (C87_begins 3600 2 0 (9 / 10) (mkM 0 0 0 3600 (-1) (uptake 10) 5)) as [e1 [B1 [B2 _]]]; cbn [m_s m_k]; try lra.
  assert (X : map older [mkM 0 0 0 0 (-1) 0 5] = [mkM 0 0 0 3600 (-1) (uptake 10) 5]) by (cbn [map]; unfold older; cbn; repeat f_equal; lra).
  rewrite X, B1 in H. cbn [bind fst] in H.
  assert (Q : m_s e1 = 0 /\ m_age e1 = 3600 /\ m_mass e1 = 5).
  { unfold emul_weather in B1. destruct (Rle_dec (9 / 10) 0); [lra|]. cbn [mapM] in B1.
    destruct (emul_el_ok 3600 (if Rltb 0 2 then 2 * 3600 else 2) 0 (9 / 10) (mkM 0 0 0 3600 (-1) (uptake 10) 5)) as [e' [E1 [_ [_ [_ [E5 [_ [E7 [_ E9]]]]]]]]]; cbn [m_s m_k]; try lra.
    rewrite E1 in B1. cbn [bind] in B1. apply Ok_inj in B1. injection B1 as B1 _. subst e1. rewrite E7, E9. split; [|split; reflexivity]. apply E5.
    assert (T : Rltb 0 2 = true) by (apply Rltb_iff; lra). rewrite T. unfold emulsifies. cbn [m_age m_evap].
    assert (U : Rltb 3600 (2 * 3600) = true) by (apply Rltb_iff; lra). assert (V : Rltb (2 * 3600) 0 = false) by (destruct (Rltb (2 * 3600) 0) eqn:W; auto; apply Rltb_iff in W; lra).
    rewrite U, V. cbn. apply andb_false_r. }
  destruct Q as [Q1 [Q2 Q3]].
  destruct (C87_begins 3600 2 0 (9 / 10) (older e1)) as [e2 [C1 [_ C3]]]; unfold older; cbn [m_s m_k]; rewrite ?Q1; try lra.
  fold (older e1) in *. cbn [map] in H. rewrite C1 in H. cbn [bind fst] in H.
  destruct (C3 ltac:(unfold older; cbn; lra)) as [C4 C5].
  destruct (C87_grows 2 0 (9 / 10) [(3600, older); (3600, older)] [(3600, older)] [mkM 0 0 0 0 (-1) 0 5] [e2]) as [l2 [G1 G2]]; try lra.
  - intros e [<-|[]]. split; reflexivity.
  - apply (P 3%nat).
  - cbn [emul_run]. rewrite X, B1. cbn [bind fst map]. rewrite C1. reflexivity.
  - cbn [emul_run] in G1. change (map older [e2]) with [older e2] in *. rewrite H in G1. apply Ok_inj in G1. subst l2. inversion G2; subst.
    match goal with Y : Forall2 _ [] _ |- _ => inversion Y; subst end. eexists. split; [reflexivity|]. lra.
Qed.

(** ** C88: one spill and another *)

(** Spreading of a spill does not depend on the other spills. *)
Theorem C88_fay : forall nu b limit dt l k, 0 < dt -> (forall e, In e l -> spreadable e) ->
  fay_weather nu b limit dt (filter (fun e => (p_spill e =? k)%Z) l) =
  do l' <- fay_weather nu b limit dt l; Ok (filter (fun e => (p_spill e =? k)%Z) l').
Proof. exact fay_spill. Qed.
Print Assumptions C88_fay.
(** Nor do Langmuir cells if the wind is everywhere the same. *)
Theorem C88_langmuir_partial : forall rho_w w l k,
  lang_weather rho_w (fun _ => w) (filter (fun e => (p_spill e =? k)%Z) l) =
  filter (fun e => (p_spill e =? k)%Z) (lang_weather rho_w (fun _ => w) l).
Proof. exact lang_spill. Qed.
Print Assumptions C88_langmuir_partial.
(** Otherwise the wind over one spill makes cells in another. *)
Theorem C88_langmuir_refuted : exists rho_w wind l k,
  map p_cov (lang_weather rho_w wind (filter (fun e => (p_spill e =? k)%Z) l)) <>
  map p_cov (filter (fun e => (p_spill e =? k)%Z) (lang_weather rho_w wind l)).
Proof.
  exists 1000, (fun e => if (p_spill e =? 0)%Z then 0 else 1000), [mkS true 0 0 1 1000 1000 1 900 900 0 1; mkS true 1 0 1 1000 1000 1 900 900 0 1], 0%Z.
  unfold lang_weather. cbn [filter p_spill Z.eqb p_in map rmax sumr first_vol p_bulk p_fay p_rho p_cov andb].
  change (first_vol [mkS true 0 0 1 1000 1000 1 900 900 0 1] 0) with 1.
  change (first_vol [mkS true 0 0 1 1000 1000 1 900 900 0 1; mkS true 1 0 1 1000 1000 1 900 900 0 1] 0) with 1.
  assert (F : fdiv 1 (sumr [1000]) = Fin (1 / 1000)).
  { unfold fdiv. replace (sumr [1000]) with 1000 by (cbn; ring). destruct (Req_EM_T 1000 0); [lra|reflexivity]. }
  rewrite F. replace ((1000 - 900) / 1000) with (1 / 10) by field. rewrite (Rmax_right (0 * (5 / 1000))) by lra. rewrite coverage_calm.
  - rewrite coverage_gale; [|lra|lra|].
    + intros H. injection H as H. lra.
    + unfold wind_bounds. cbn [snd]. assert (sqrt (1000 * 4 * (1 / 1000) * (1 / 10) * gravity / sq PI) <= sqrt 1).
      { apply sqrt_le_1_alt. unfold sq. pose proof PI_RGT_0 as P0. pose proof PI2_3_2 as P1. assert (9 <= PI * PI) by (replace 9 with (3 * 3) by ring; apply Rmult_le_compat; lra).
        apply Rmult_le_reg_r with (PI * PI); [lra|]. unfold Rdiv at 1. rewrite Rmult_assoc, Rinv_l by lra. unfold gravity. lra. }
      rewrite sqrt_1 in H. lra.
  - lra.
  - lra.
  - unfold wind_bounds. cbn [fst]. pose proof (sqrt_pos (4 * (1 / 1000) * (1 / 10) * gravity / sq PI)). lra.
Qed.
Print Assumptions C88_langmuir_refuted.
Example C88_meets : filter (fun e => (p_spill e =? 1)%Z) blob <> [] /\ length (filter (fun e => (p_spill e =? 0)%Z) blob) = 3%nat.
Proof. split; [discriminate|reflexivity]. Qed.
