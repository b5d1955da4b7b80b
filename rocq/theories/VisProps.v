(** * Properties of viscosities and vapour pressures *)
From Coq Require Import ZArith QArith Reals Qreals List Bool Lia Lra Psatz.
From Verif Require Import Py PyLemmas VisModel VisSpec VisProofs.
Import ListNotations.
Open Scope R_scope.

(** Two fresh measurements and a weathered one. *)
Definition voil2 : voil := VOil [2; 5; 1] [300; 290; 280] [0; 1 # 10; 0]%Q None.
Lemma voil2_wf : vwell_formed voil2.
Proof. split; reflexivity. Qed.
Lemma voil2_measured v T : vmeasured voil2 v T <-> (v = 2 /\ T = 300) \/ (v = 1 /\ T = 280).
Proof.
  split.
  - intros (i & w & H1 & H2 & H3 & H4). destruct i as [|[|[|i]]]; cbn in H1, H2, H3.
    + left. split; congruence.
    + injection H3 as <-. discriminate.
    + right. split; congruence.
    + destruct i; discriminate.
  - intros [(-> & ->)|(-> & ->)]; [exists 0%nat, 0%Q|exists 2%nat, 0%Q]; repeat split.
Qed.
Definition voil3 : voil := VOil [1; 5; 2] [300; 290; 280] [0; 1 # 10; 0]%Q None.
Lemma voil3_measured v T : vmeasured voil3 v T <-> (v = 1 /\ T = 300) \/ (v = 2 /\ T = 280).
Proof.
  split.
  - intros (i & w & H1 & H2 & H3 & H4). destruct i as [|[|[|i]]]; cbn in H1, H2, H3.
    + left. split; congruence.
    + injection H3 as <-. discriminate.
    + right. split; congruence.
    + destruct i; discriminate.
  - intros [(-> & ->)|(-> & ->)]; [exists 0%nat, 0%Q|exists 2%nat, 0%Q]; repeat split.
Qed.

(** ** C129: viscosity at a temperature *)

(** With one measurement, or two at different temperatures, the curve passes
    through them. *)
Theorem C129_through : forall lsq o v T, least_squares lsq ->
  vwell_formed o -> vphysical o -> v_const o = None -> vmeasured o v T ->
  (nfresh o = 1%nat \/
   nfresh o = 2%nat /\ exists v1 T1 v2 T2, vmeasured o v1 T1 /\ vmeasured o v2 T2 /\ T1 <> T2) ->
  viscosity lsq o T v.
Proof.
  intros lsq o v T LS W P U M N.
  assert (I : In (T, v) (points o)) by (apply points_in; assumption).
  assert (PP : forall t k, In (t, k) (points o) -> 0 < k /\ 0 < t) by (intros t k J; apply P, points_in; assumption).
  pose proof (points_length o W) as L. pose proof (determine_eq lsq o W) as DE.
  destruct (P v T M) as (Pv & PT).
  unfold viscosity, kvis_at_temp. rewrite U.
  destruct N as [N|(N & v1 & T1 & v2 & T2 & M1 & M2 & Ne)]; rewrite N in L.
  - destruct (points o) as [|p [|q r]]; try discriminate. destruct I as [->|[]].
    rewrite DE. cbn [bind]. eexists. f_equal. f_equal. rewrite Rmult_assoc, <- exp_plus.
    replace (-2100 / T + 2100 / T) with 0 by (field; lra). rewrite exp_0. ring.
  - apply (points_in o W) in M1, M2.
    destruct (points o) as [|[ta va] [|[tb vb] [|c r]]]; try discriminate. rewrite DE. cbn [bind].
    set (l := map xy [(ta, va); (tb, vb)]) in *.
    assert (Nab : ta <> tb).
    { destruct M1 as [E|[E|[]]], M2 as [E'|[E'|[]]]; injection E as -> ->; injection E' as -> ->; congruence. }
    destruct (PP ta va (or_introl eq_refl)) as (Pva & Pta).
    destruct (PP tb vb (or_intror (or_introl eq_refl))) as (Pvb & Ptb).
    assert (Nx : 1 / tb - 1 / ta <> 0).
    { replace (1 / tb - 1 / ta) with ((ta - tb) / (ta * tb)) by (field; lra).
      assert (0 < ta * tb) by (apply Rmult_lt_0_compat; assumption).
      intros H0. apply (f_equal (fun z => z * (ta * tb))) in H0. unfold Rdiv in H0.
      rewrite Rmult_assoc, Rinv_l, Rmult_1_r, Rmult_0_l in H0 by lra. lra. }
    assert (Z0 : cost l (fst (lsq l)) (snd (lsq l)) = 0).
    { set (s := (ln vb - ln va) / (1 / tb - 1 / ta)). set (b := ln va - s * (1 / ta)).
      destruct (LS l) as (Min & _). specialize (Min b s).
      assert (Z1 : cost l b s = 0).
      { apply cost_all_zero. intros x y J. unfold l, xy in J. cbn in J. destruct J as [E|[E|[]]]; injection E as <- <-.
        - unfold b. ring.
        - unfold b, s. field. split; [lra|]. split; [lra|].
          intros Hc. apply Nx. replace (1 / tb - 1 / ta) with ((ta - tb) / (tb * ta)) by (field; lra).
          rewrite Hc. unfold Rdiv. ring. }
      pose proof (cost_nonneg l (fst (lsq l)) (snd (lsq l))). lra. }
    eexists. f_equal. f_equal.
    assert (Lin : ln v = fst (lsq l) + snd (lsq l) * (1 / T)).
    { apply (cost_zero l _ _ Z0). unfold l, xy. cbn. destruct I as [E|[E|[]]]; injection E as <- <-; auto. }
    rewrite <- exp_plus.
    replace (fst (lsq l) + snd (lsq l) / T) with (ln v) by (rewrite Lin; unfold Rdiv; ring).
    apply exp_ln, Pv.
Qed.
Print Assumptions C129_through.

Example C129_through_meets : vmeasured voil2 2 300 /\ nfresh voil2 = 2%nat /\ vphysical voil2 /\
  forall lsq, least_squares lsq -> viscosity lsq voil2 300 2.
Proof.
  assert (M : vmeasured voil2 2 300) by (apply voil2_measured; auto).
  assert (P : vphysical voil2) by (intros v T H; apply voil2_measured in H; destruct H as [(-> & ->)|(-> & ->)]; lra).
  split; [exact M|]. split; [reflexivity|]. split; [exact P|]. intros lsq LS.
  apply C129_through; auto; [exact voil2_wf|]. right. split; [reflexivity|].
  exists 2, 300, 1, 280. split; [exact M|]. split; [apply voil2_measured; auto|lra].
Qed.

(** It is positive and does not rise with the temperature, if the measurements do
    not, and there is one only or they are not all at one temperature. *)
Theorem C129_falls_partial : forall lsq o, least_squares lsq ->
  vwell_formed o -> vphysical o -> vfalls o -> v_const o = None ->
  (nfresh o = 1%nat \/ exists v1 T1 v2 T2, vmeasured o v1 T1 /\ vmeasured o v2 T2 /\ T1 <> T2) ->
  (forall T, exists v, viscosity lsq o T v /\ 0 < v) /\
  (forall T1 T2 v1 v2, 0 < T1 -> T1 <= T2 -> viscosity lsq o T1 v1 -> viscosity lsq o T2 v2 -> v2 <= v1).
Proof.
  intros lsq o LS W P F U N.
  assert (PP : forall t k, In (t, k) (points o) -> 0 < k /\ 0 < t) by (intros t k J; apply P, points_in; assumption).
  assert (C : exists A k, determine lsq o = Ok (A, k) /\ 0 < A /\ 0 <= k).
  { rewrite (determine_eq lsq o W).
    assert (G : 0 <= snd (lsq (map xy (points o))) \/ nfresh o = 1%nat).
    { destruct N as [N|(v1 & T1 & v2 & T2 & M1 & M2 & Ne)]; [now right|]. left. apply slope_nonneg; [exact LS| |].
      - intros p q Ip Iq. apply in_map_iff in Ip, Iq. destruct Ip as ((ta & va) & <- & Ip), Iq as ((tb & vb) & <- & Iq).
        destruct (PP _ _ Ip) as (Pva & Pta). destruct (PP _ _ Iq) as (Pvb & Ptb). apply (points_in o W) in Ip, Iq. cbn.
        assert (Inv : forall a b, 0 < a -> a <= b -> 1 / b <= 1 / a).
        { intros a b Ha L. unfold Rdiv. rewrite !Rmult_1_l. now apply Rinv_le_contravar. }
        destruct (Rtotal_order ta tb) as [L|[E|L]].
        + specialize (F _ _ _ _ Ip Iq L). pose proof (Inv ta tb Pta (Rlt_le _ _ L)).
          pose proof (ln_le_ vb va Pvb F). apply Rmult_le_pos; lra.
        + subst. replace (1 / tb - 1 / tb) with 0 by ring. lra.
        + specialize (F _ _ _ _ Iq Ip L). pose proof (Inv tb ta Ptb (Rlt_le _ _ L)).
          pose proof (ln_le_ va vb Pva F).
          replace ((1 / ta - 1 / tb) * (ln va - ln vb)) with ((1 / tb - 1 / ta) * (ln vb - ln va)) by ring.
          apply Rmult_le_pos; lra.
      - apply (points_in o W) in M1, M2. exists (xy (T1, v1)), (xy (T2, v2)).
        split; [now apply in_map|]. split; [now apply in_map|]. cbn.
        destruct (PP _ _ M1) as (_ & H1). destruct (PP _ _ M2) as (_ & H2).
        unfold Rdiv. rewrite !Rmult_1_l. intros E. apply Ne.
        rewrite <- (Rinv_inv T1), <- (Rinv_inv T2). now rewrite E. }
    pose proof (points_length o W) as L.
    destruct (points o) as [|[t k] r] eqn:Ep.
    - destruct G as [G|G]; [|cbn in L; rewrite G in L; discriminate].
      eexists. eexists. split; [reflexivity|]. split; [apply exp_pos|exact G].
    - destruct r as [|q r].
      + eexists. eexists. split; [reflexivity|]. destruct (PP t k (or_introl eq_refl)) as (Pk & _).
        split; [apply Rmult_lt_0_compat; [exact Pk|apply exp_pos]|lra].
      + destruct G as [G|G]; [|cbn in L; rewrite G in L; discriminate].
        eexists. eexists. split; [reflexivity|]. split; [apply exp_pos|exact G]. }
  destruct C as (A & k & E & PA & Pk).
  assert (V : forall T v, viscosity lsq o T v <-> v = A * exp (k / T)).
  { intros T v. unfold viscosity, kvis_at_temp. rewrite U, E. cbn [bind]. split.
    - intros (o' & H). injection H as <- _. reflexivity.
    - intros ->. eexists. reflexivity. }
  split.
  - intros T. exists (A * exp (k / T)). split; [now apply V|]. apply Rmult_lt_0_compat; [exact PA|apply exp_pos].
  - intros T1 T2 v1 v2 P1 L12 H1 H2. apply V in H1, H2. subst. now apply curve_falls.
Qed.
Print Assumptions C129_falls_partial.

Example C129_falls_meets : vwell_formed voil3 /\ vphysical voil3 /\ vfalls voil3 /\
  exists v1 T1 v2 T2, vmeasured voil3 v1 T1 /\ vmeasured voil3 v2 T2 /\ T1 <> T2.
Proof.
  split; [split; reflexivity|]. split.
  { intros v T H. apply voil3_measured in H. destruct H as [(-> & ->)|(-> & ->)]; lra. }
  split.
  { intros v1 T1 v2 T2 H1 H2 L. apply voil3_measured in H1, H2.
    destruct H1 as [(-> & ->)|(-> & ->)], H2 as [(-> & ->)|(-> & ->)]; lra. }
  exists 1, 300, 2, 280. split; [apply voil3_measured; auto|]. split; [apply voil3_measured; auto|lra].
Qed.

(** Two measurements at one temperature of an oil thinner than 1 m2/s, as every oil
    is: the constant of the curve is negative, so the oil gets more viscous when it
    gets warmer. *)
Theorem C129_same_temperature_refuted : forall lsq v T, least_squares lsq -> 0 < v < 1 -> 0 < T ->
  let o := VOil [v; v] [T; T] [0; 0]%Q None in
  vwell_formed o /\ vphysical o /\ vfalls o /\
  forall T1 T2 v1 v2, 0 < T1 -> T1 < T2 -> viscosity lsq o T1 v1 -> viscosity lsq o T2 v2 -> v1 < v2.
Proof.
  intros lsq v T LS Pv PT o.
  assert (M : forall v' T', vmeasured o v' T' -> v' = v /\ T' = T).
  { intros v' T' (i & w & H1 & H2 & _). destruct i as [|[|i]]; cbn in H1, H2.
    - split; congruence.
    - split; congruence.
    - destruct i; discriminate. }
  split; [split; reflexivity|]. split; [intros v' T' H; apply M in H; destruct H as (-> & ->); lra|].
  split; [intros a b c d H1 H2 L; apply M in H1, H2; destruct H1 as (-> & ->), H2 as (-> & ->); lra|].
  set (l := map xy [(T, v); (T, v)]).
  assert (K : snd (lsq l) < 0).
  { set (x := 1 / T). set (y := ln v).
    assert (Py : y < 0) by (unfold y; rewrite <- ln_1; apply ln_increasing; lra).
    assert (Px : 0 < x) by (unfold x, Rdiv; rewrite Rmult_1_l; now apply Rinv_0_lt_compat).
    destruct (LS l) as (Min & Norm).
    assert (Zc : forall b s, b + s * x = y -> cost l b s = 0).
    { intros b s H. apply cost_all_zero. intros x' y' J. unfold l, xy in J. cbn in J.
      destruct J as [E|[E|[]]]; injection E as <- <-; fold x y; lra. }
    set (b := fst (lsq l)) in *. set (s := snd (lsq l)) in *.
    set (d := 1 + x ^ 2). assert (Pd : 0 < d) by (unfold d; nra).
    assert (Z1 : cost l (y / d) (x * y / d) = 0) by (apply Zc; unfold d; field; unfold d in Pd; lra).
    assert (Z0 : cost l b s = 0).
    { specialize (Min (y / d) (x * y / d)). pose proof (cost_nonneg l b s). lra. }
    assert (Lin : y = b + s * x) by (apply (cost_zero l b s Z0); unfold l, xy; cbn; now left).
    specialize (Norm (y / d) (x * y / d)). rewrite Z1, Z0 in Norm. specialize (Norm eq_refl).
    assert (En : (y / d) ^ 2 + (x * y / d) ^ 2 = y ^ 2 / d) by (unfold d; field; unfold d in Pd; lra).
    rewrite En in Norm. destruct (Rlt_le_dec s 0) as [G|G]; [exact G|]. exfalso.
    assert (Hb : y ^ 2 <= b ^ 2 + s ^ 2).
    { assert (H : b = y - s * x) by lra. rewrite H.
      assert (H2 : 0 <= s * x) by (apply Rmult_le_pos; lra).
      assert (H3 : 0 <= - y * (s * x)) by (apply Rmult_le_pos; lra).
      pose proof (pow2_ge_0 (s * x)). pose proof (pow2_ge_0 s).
      replace ((y - s * x) ^ 2) with (y ^ 2 + 2 * (- y * (s * x)) + (s * x) ^ 2) by ring. lra. }
    assert (Hd : y ^ 2 / d < y ^ 2).
    { assert (Y2 : 0 < y ^ 2) by nra. apply Rmult_lt_reg_r with d; [exact Pd|].
      replace (y ^ 2 / d * d) with (y ^ 2) by (field; lra).
      assert (X2 : 0 < x ^ 2) by nra. assert (0 < y ^ 2 * x ^ 2) by (apply Rmult_lt_0_compat; assumption).
      replace (y ^ 2 * d) with (y ^ 2 + y ^ 2 * x ^ 2) by (unfold d; ring). lra. }
    lra. }
  intros T1 T2 v1 v2 P1 L12 (o1 & H1) (o2 & H2).
  assert (DE : determine lsq o = Ok (exp (fst (lsq l)), snd (lsq l))).
  { rewrite determine_eq by (split; reflexivity). reflexivity. }
  unfold kvis_at_temp in H1, H2. cbn [v_const o] in H1, H2. rewrite DE in H1, H2. cbn [bind] in H1, H2.
  injection H1 as <- _. injection H2 as <- _.
  apply Rmult_lt_compat_l; [apply exp_pos|]. apply exp_increasing.
  set (k := snd (lsq l)) in *. assert (/ T2 < / T1) by (apply Rinv_lt_contravar; [apply Rmult_lt_0_compat; lra|exact L12]).
  unfold Rdiv. nra.
Qed.
Print Assumptions C129_same_temperature_refuted.

(** An oil without any measurement of fresh oil is given a viscosity of 1 m2/s at
    every temperature, instead of an error. *)
Theorem C129_no_data_refuted : forall lsq ks ts ws, least_squares lsq ->
  length ts = length ks -> length ws = length ks -> Forall (fun w => ~ (w == 0)%Q) ws ->
  forall T, viscosity lsq (VOil ks ts ws None) T 1.
Proof.
  intros lsq ks ts ws LS L1 L2 F T. set (o := VOil ks ts ws None).
  assert (W : vwell_formed o) by (split; assumption).
  assert (E : points o = []).
  { destruct (points o) as [|[t k] r] eqn:Ep; [reflexivity|]. exfalso.
    assert (I : In (t, k) (points o)) by (rewrite Ep; now left). apply (points_in o W) in I.
    destruct I as (i & w & _ & _ & H3 & H4). cbn in H3. rewrite Forall_forall in F. apply (F w); [|exact H4].
    now apply nth_error_In in H3. }
  unfold viscosity, kvis_at_temp. cbn [v_const o]. fold o. rewrite (determine_eq lsq o W), E. cbn [map bind].
  destruct (LS []) as (_ & Norm). specialize (Norm 0 0 eq_refl).
  assert (B : fst (lsq []) = 0) by nra. assert (S0 : snd (lsq []) = 0) by nra.
  rewrite B, S0. eexists. f_equal. f_equal. rewrite exp_0. replace (0 / T) with 0 by (unfold Rdiv; ring). rewrite exp_0. ring.
Qed.
Print Assumptions C129_no_data_refuted.

(** The constants are kept: a second call gives what a first call would have given;
    but measurements changed after the first call are not used. *)
Theorem C129_kept : forall lsq o T v o', kvis_at_temp lsq o T = Ok (v, o') ->
  (forall T2 w, viscosity lsq o' T2 w <-> viscosity lsq o T2 w) /\
  v_kvis o' = v_kvis o /\ v_temps o' = v_temps o /\ v_weath o' = v_weath o.
Proof.
  intros lsq o T v o' H. unfold kvis_at_temp in H.
  set (c := match v_const o with Some c => Ok c | None => determine lsq o end) in *.
  destruct c as [[A k]|e] eqn:Ec; [|discriminate]. cbn [bind] in H. injection H as <- <-.
  split; [|auto]. intros T2 w. unfold viscosity, kvis_at_temp. fold c. rewrite Ec. cbn [v_const bind]. reflexivity.
Qed.
Print Assumptions C129_kept.

Theorem C129_stale_refuted : forall lsq, least_squares lsq -> exists o T v o',
  kvis_at_temp lsq o T = Ok (v, o') /\
  (let o2 := VOil [2 * v] (v_temps o') (v_weath o') (v_const o') in
   nfresh o2 = 1%nat /\ vwell_formed o2 /\ vmeasured o2 (2 * v) T /\
   viscosity lsq o2 T v /\ 0 < v /\ ~ viscosity lsq o2 T (2 * v)).
Proof.
  intros lsq LS.
  assert (V : viscosity lsq (VOil [1] [300] [0]%Q None) 300 1).
  { apply C129_through; auto.
    - split; reflexivity.
    - intros v T (i & w & H1 & H2 & _). destruct i as [|i]; [|destruct i; discriminate]. cbn in *.
      injection H1 as <-. injection H2 as <-. lra.
    - exists 0%nat, 0%Q. repeat split. }
  destruct V as (o' & H). exists (VOil [1] [300] [0]%Q None), 300, 1, o'. split; [exact H|].
  assert (HH := H). unfold kvis_at_temp, determine in H. cbn in H. injection H as Hv <-. cbn [v_temps v_weath v_const].
  split; [reflexivity|]. split; [split; reflexivity|]. split; [exists 0%nat, 0%Q; repeat split; cbn; auto|].
  assert (G : forall w, viscosity lsq (VOil [2 * 1] [300] [0]%Q (Some (1 * exp (-2100 / 300), 2100))) 300 w <-> w = 1).
  { intros w. unfold viscosity, kvis_at_temp. cbn [v_const bind]. split.
    - intros (o2 & E). injection E as <- _. exact Hv.
    - intros ->. eexists. f_equal. f_equal. exact Hv. }
  split; [now apply G|]. split; [lra|]. intros C. apply G in C. lra.
Qed.
Print Assumptions C129_stale_refuted.

(** ** C130: viscosity during a run *)

(** After the update every element is at least as viscous as its oil, and that at
    least as the fresh oil; both grow with the fraction evaporated, the viscosity
    also with the water content, up to 99 per cent of water. *)
Theorem C130_update_partial : forall v0, 0 < v0 ->
  recalc_visc1 v0 0 0 = (Some v0, v0) /\
  forall fe fw fe' fw', 0 <= fe -> fe <= fe' -> 0 <= fw -> fw <= fw' -> fw' <= 99 / 100 ->
  exists v v', fst (recalc_visc1 v0 fe fw) = Some v /\ fst (recalc_visc1 v0 fe' fw') = Some v' /\
    v0 <= snd (recalc_visc1 v0 fe fw) /\ snd (recalc_visc1 v0 fe fw) <= v /\
    snd (recalc_visc1 v0 fe fw) <= snd (recalc_visc1 v0 fe' fw') /\ v <= v' /\
    snd (recalc_visc1 v0 fe fw) <= v0 * exp (10 * fe) /\ v0 * exp fe <= snd (recalc_visc1 v0 fe fw).
Proof.
  intros v0 P. split.
  - unfold recalc_visc1. destruct (Rle_dec _ _) as [C|C]; [unfold visc_f_ref in C; lra|].
    rewrite Rmult_0_r, exp_0, Rmult_1_r.
    replace (0 / visc_f_ref / (1187 / 1000 - 0 / visc_f_ref)) with 0 by (unfold Rdiv; ring).
    rewrite Rplus_0_r. unfold Rpower. rewrite ln_1, Rmult_0_r, exp_0, Rmult_1_r. reflexivity.
  - intros fe fw fe' fw' P1 L1 P2 L2 U.
    destruct (wfac_mono fw fw' P2 L2 U) as (D2 & D1 & W1 & W12). unfold recalc_visc1.
    destruct (Rle_dec (1187 / 1000 - fw / visc_f_ref) 0) as [C|C]; [lra|].
    destruct (Rle_dec (1187 / 1000 - fw' / visc_f_ref) 0) as [C'|C']; [lra|]. cbn [fst snd].
    fold (wfac fw). fold (wfac fw').
    set (a := v0 * exp (kv1 v0 * fe)). set (a' := v0 * exp (kv1 v0 * fe')).
    assert (Aa : a <= a') by (now apply oil_visc_mono).
    assert (A0 : v0 <= a).
    { unfold a. replace v0 with (v0 * exp (kv1 v0 * 0)) at 1 by (rewrite Rmult_0_r, exp_0; ring). now apply oil_visc_mono. }
    assert (R1 : 1 <= Rpower (wfac fw) (249 / 100)) by (apply rpower_ge1; lra).
    assert (R2 : Rpower (wfac fw) (249 / 100) <= Rpower (wfac fw') (249 / 100)) by (apply rpower_mono; lra).
    eexists. eexists. split; [reflexivity|]. split; [reflexivity|]. split; [exact A0|]. split; [nra|]. split; [exact Aa|].
    split; [apply Rmult_le_compat; lra|].
    pose proof (kv1_range v0) as K.
    assert (Ex : forall x y, x <= y -> exp x <= exp y).
    { intros x y [L|E]; [left; now apply exp_increasing|right; now rewrite E]. }
    split; unfold a; apply Rmult_le_compat_l; try lra; apply Ex; nra.
Qed.
Print Assumptions C130_update_partial.

Example C130_update_meets : 0 <= 1 / 10 /\ 0 <= 1 / 2 <= 99 / 100 /\
  exists v, fst (recalc_visc1 1 (1 / 10) (1 / 2)) = Some v /\ 1 <= v.
Proof.
  split; [lra|]. split; [lra|]. destruct (C130_update_partial 1 ltac:(lra)) as (_ & H).
  destruct (H (1/10) (1/2) (1/10) (1/2)) as (v & v' & E & _ & A & B & _); try lra.
  exists v. split; [exact E|]. lra.
Qed.

(** With nothing but water in the emulsion the viscosity is not a number. *)
Theorem C130_water_refuted : forall v0 fe, fst (recalc_visc1 v0 fe 1) = None.
Proof.
  intros v0 fe. unfold recalc_visc1. destruct (Rle_dec _ _) as [C|C]; [reflexivity|].
  exfalso. apply C. unfold visc_f_ref. lra.
Qed.
Print Assumptions C130_water_refuted.

(** The update of a container does this for every element, at the viscosity of the
    oil at the temperature of the water, and for none if the oil does not weather. *)
Theorem C130_container : forall lsq o T l,
  recalc_viscosity lsq false o T l = Ok l /\
  forall v0, viscosity lsq o T v0 ->
  exists l', recalc_viscosity lsq true o T l = Ok l' /\
    Forall2 (fun e e' => ve_fe e' = ve_fe e /\ ve_fw e' = ve_fw e /\
                         (ve_visc e', ve_oil e') = recalc_visc1 v0 (ve_fe e) (ve_fw e)) l l'.
Proof.
  intros lsq o T l. split; [reflexivity|]. intros v0 (o' & E).
  destruct l as [|e0 l0]; [exists []; split; [reflexivity|constructor]|].
  unfold recalc_viscosity. rewrite E. cbn [bind]. eexists. split; [reflexivity|].
  generalize (e0 :: l0). intros l. induction l as [|e l IH]; cbn [map]; constructor; [|exact IH].
  destruct (recalc_visc1 v0 (ve_fe e) (ve_fw e)) as [v vo]. cbn. auto.
Qed.
Print Assumptions C130_container.

(** ** C131: vapour pressure *)

(** At its boiling point the vapour pressure of a component is that of the
    atmosphere; it rises with the temperature, so below the boiling point it is lower. *)
Theorem C131_boiling_partial : forall bp, 1 <= bp ->
  vapor1 bp bp = 101325 /\
  (forall T1 T2, 19 / 100 * bp - 18 < T1 -> T1 < T2 -> 0 < vapor1 bp T1 /\ vapor1 bp T1 < vapor1 bp T2) /\
  (forall T, 19 / 100 * bp - 18 < T -> T < bp -> vapor1 bp T < 101325).
Proof.
  intros bp P.
  assert (B : vapor1 bp bp = 101325).
  { unfold vapor1. 
    match goal with |- exp (_ * ?v) * _ = _ => replace v with 0 by ring end.
    rewrite Rmult_0_r, exp_0. ring. }
  assert (M : forall T1 T2, 19 / 100 * bp - 18 < T1 -> T1 < T2 -> 0 < vapor1 bp T1 /\ vapor1 bp T1 < vapor1 bp T2).
  { intros T1 T2 L1 L2. unfold vapor1. split; [apply Rmult_lt_0_compat; [apply exp_pos|lra]|].
    apply Rmult_lt_compat_r; [lra|]. apply exp_increasing. apply Rmult_lt_compat_l; [now apply vapor_coeff|].
    assert (1 / (T2 - (19 / 100 * bp - 18)) < 1 / (T1 - (19 / 100 * bp - 18))); [|lra].
    unfold Rdiv. rewrite !Rmult_1_l. apply Rinv_lt_contravar; [apply Rmult_lt_0_compat; lra|lra]. }
  split; [exact B|]. split; [exact M|]. intros T L1 L2. rewrite <- B. now apply M.
Qed.
Print Assumptions C131_boiling_partial.

Example C131_boiling_meets : 1 <= 700 /\ 19 / 100 * 700 - 18 < 288 /\ vapor1 700 288 < 101325.
Proof. split; [lra|]. split; [lra|]. apply (C131_boiling_partial 700); lra. Qed.

(** For a component with a boiling point so high that the temperature is below
    0.19 times it less 18, it is above that of the atmosphere. *)
Theorem C131_heavy_refuted : forall bp T, 1 <= bp -> T < 19 / 100 * bp - 18 -> T < bp /\ 101325 < vapor1 bp T.
Proof.
  intros bp T P L. split; [lra|]. unfold vapor1.
  assert (H : 1 < exp ((875 / 100 + 1987 / 1000 * ln bp) * (bp - (19 / 100 * bp - 18)) ^ 2 / (97 / 100 * (1987 / 1000) * bp) *
    (1 / (bp - (19 / 100 * bp - 18)) - 1 / (T - (19 / 100 * bp - 18))))); [|lra].
  rewrite <- exp_0 at 1. apply exp_increasing. apply Rmult_lt_0_compat; [now apply vapor_coeff|].
  assert (0 < / (bp - (19 / 100 * bp - 18))) by (apply Rinv_0_lt_compat; lra).
  assert (/ (T - (19 / 100 * bp - 18)) < 0) by (apply Rinv_lt_0_compat; lra).
  unfold Rdiv. lra.
Qed.
Print Assumptions C131_heavy_refuted.

Example C131_heavy_meets : 300 < 19 / 100 * 2000 - 18 /\ 101325 < vapor1 2000 300.
Proof. split; [lra|]. apply C131_heavy_refuted; lra. Qed.

(** Calls that go through the cache of two entries which all oils share return what
    the formula gives, whatever the order of the oils and temperatures, as long as
    no boiling point is changed. *)
Theorem C131_cache_partial : forall bp ops,
  Forall (fun op => exists o T, op = Pressure o T) ops ->
  vrun (VS bp []) ops =
    map (fun op => match op with Pressure o T => Some (pressure (bp o) T) | _ => None end) ops.
Proof.
  intros bp ops F.
  assert (G : forall s, s_bp s = bp -> valid_c bp (s_cache s) -> vrun s ops =
    map (fun op => match op with Pressure o T => Some (pressure (bp o) T) | _ => None end) ops).
  { induction F as [|op ops (o & T & ->) F IH]; intros s Eb V; cbn [vrun map]; [reflexivity|].
    rewrite <- Eb in V. destruct (vop_pressure s o T V) as (A & B & C).
    destruct (vop1 s (Pressure o T)) as [s' x]. cbn [fst snd] in *. subst x. rewrite Eb in *.
    f_equal. apply IH; [congruence|]. exact C. }
  apply (G (VS bp [])); [reflexivity|constructor].
Qed.
Print Assumptions C131_cache_partial.

Example C131_cache_meets :
  vrun (VS (fun o => [IZR o]) [])
    [Pressure 1 280%Q; Pressure 2 280%Q; Pressure 1 280%Q; Pressure 3 (560 # 2)%Q; Pressure 2 (560 # 2)%Q] =
  [Some (pressure [1] 280%Q); Some (pressure [2] 280%Q); Some (pressure [1] 280%Q);
   Some (pressure [3] (560 # 2)%Q); Some (pressure [2] (560 # 2)%Q)].
Proof.
  rewrite C131_cache_partial; [reflexivity|]. repeat constructor; eexists; eexists; reflexivity.
Qed.

(** After the boiling points of an oil are changed the cached pressures are still
    returned. *)
Theorem C131_stale_refuted : forall o T a b, pressure a T <> pressure b T ->
  vrun (VS (fun _ => a) []) [Pressure o T; SetBoiling o b; Pressure o T] =
    [Some (pressure a T); None; Some (pressure a T)] /\
  pressure a T <> pressure b T.
Proof.
  intros o T a b N. split; [|exact N].
  assert (K : key_eqb (o, T) (o, T) = true) by (apply key_eqb_spec; split; [reflexivity|apply Qeq_refl]).
  cbn [vrun vop1 lfind s_cache s_bp firstn]. rewrite K. reflexivity.
Qed.
Print Assumptions C131_stale_refuted.

Example C131_stale_meets : pressure [700] 700%Q <> pressure [600] 700%Q.
Proof.
  unfold pressure. cbn [map]. replace (Q2R 700) with 700 by (unfold Q2R; cbn; field).
  intros E. injection E as E.
  destruct (C131_boiling_partial 700) as (B7 & _); [lra|]. destruct (C131_boiling_partial 600) as (B6 & M6 & _); [lra|].
  destruct (M6 600 700) as (_ & L); lra.
Qed.
