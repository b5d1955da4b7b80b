(** * Properties of oils: density, new elements, mass balance *)
From Coq Require Import ZArith QArith Qminmax List Bool Lia Lqa Qfield.
From Verif Require Import Py PyLemmas QLemmas OilModel OilSpec OilProofs.
Import ListNotations.
Open Scope Q_scope.

(** An oil of two fresh measurements and one of weathered oil, in no order. *)
Definition oil2 : oil :=
  Oil 25 270 [900; 1000; 950] [303; 273; 288] [0; 0; 1 # 10] [1 # 4; 3 # 4] [800; 1000] None true.

Lemma oil2_measured r T : measured oil2 r T <-> (r = 900 /\ T = 303) \/ (r = 1000 /\ T = 273).
Proof.
  split.
  - intros (i & w & H1 & H2 & H3 & H4).
    destruct i as [|[|[|i]]]; cbn in H1, H2, H3.
    + left. split; congruence.
    + right. split; congruence.
    + injection H3 as <-. discriminate.
    + destruct i; discriminate.
  - intros [(-> & ->)|(-> & ->)].
    + exists 0%nat, 0. repeat split.
    + exists 1%nat, 0. repeat split.
Qed.
Lemma oil2_wf : well_formed oil2.
Proof. split; reflexivity. Qed.
Lemma oil2_one : one_per_temperature oil2.
Proof.
  intros i j ti tj wi wj N H1 H2 W1 H3 H4 W2.
  destruct i as [|[|[|i]]]; cbn in H1, H2; try (destruct i; discriminate);
  destruct j as [|[|[|j]]]; cbn in H3, H4; try (destruct j; discriminate); try congruence;
  injection H1 as <-; injection H3 as <-; try (injection H2 as <-; discriminate);
  try (injection H4 as <-; discriminate); intros C; discriminate C.
Qed.
Lemma oil2_physical : physical oil2.
Proof.
  split; [reflexivity|]. intros r T M. apply oil2_measured in M.
  destruct M as [(-> & ->)|(-> & ->)]; repeat split.
Qed.
Lemma oil2_expands : expands oil2.
Proof.
  intros r1 T1 r2 T2 M1 M2 L. apply oil2_measured in M1, M2.
  destruct M1 as [(-> & ->)|(-> & ->)], M2 as [(-> & ->)|(-> & ->)]; lra.
Qed.

(** ** C124: the density of an oil at a temperature *)

(** At the temperature of a measurement of fresh oil, it is the measured density. *)
Theorem C124_measured : forall o rho T,
  well_formed o -> one_per_temperature o -> physical o -> measured o rho T ->
  exists v, density_at_temp o T = Ok v /\ v == rho.
Proof.
  intros o rho T W O P M. destruct (oil_list o W O) as (l & E & S0 & Ml).
  assert (I : In (D rho T) l) by (apply Ml; exact M).
  assert (K : Forall okd l).
  { rewrite Forall_forall. intros d J. apply Ml in J. destruct P as (_ & P). exact (P _ _ J). }
  rewrite E. rewrite Qltb_false by (apply qmin_in, in_map_iff; exists (D rho T); split; [reflexivity|exact I]).
  destruct l as [|a r]; [contradiction|].
  rewrite (dens_list_eq _ a r T (strict_sorted _ S0)).
  rewrite Qltb_false.
  - apply (walk_at (o_api o) r a (D rho T) K S0 I).
  - destruct I as [->|I]; [cbn; lra|]. destruct S0 as (F & _). rewrite Forall_forall in F.
    specialize (F _ I). cbn in F. lra.
Qed.
Print Assumptions C124_measured.

Example C124_measured_meets :
  measured oil2 900 303 /\ exists v, density_at_temp oil2 303 = Ok v /\ v == 900.
Proof.
  assert (M : measured oil2 900 303) by (apply oil2_measured; auto).
  split; [exact M|]. apply C124_measured; [exact oil2_wf|exact oil2_one|exact oil2_physical|exact M].
Qed.

(** It depends on the api, the pour point and the measurements of fresh oil only:
    not on their order, nor on measurements of weathered oil. *)
Theorem C124_data_only : forall o o',
  well_formed o -> one_per_temperature o -> well_formed o' -> one_per_temperature o' ->
  o_api o = o_api o' -> o_pour o = o_pour o' ->
  (forall r T, measured o r T <-> measured o' r T) ->
  forall T, density_at_temp o T = density_at_temp o' T.
Proof.
  intros o o' W O W' O' A P M T.
  destruct (oil_list o W O) as (l & E & S0 & Ml). destruct (oil_list o' W' O') as (l' & E' & S' & Ml').
  assert (EL : l = l').
  { apply strict_unique; auto. intros d. rewrite Ml, Ml'. apply M. }
  subst l'. rewrite E, E', A, P. reflexivity.
Qed.
Print Assumptions C124_data_only.

Example C124_data_only_meets :
  let o' := Oil 25 270 [1000; 900] [273; 303] [0; 0] [1] [900] None true in
  well_formed o' /\ one_per_temperature o' /\ (forall r T, measured oil2 r T <-> measured o' r T) /\
  forall T, density_at_temp oil2 T = density_at_temp o' T.
Proof.
  set (o' := Oil 25 270 [1000; 900] [273; 303] [0; 0] [1] [900] None true). intros o''. subst o''.
  assert (W : well_formed o') by (split; reflexivity).
  assert (O : one_per_temperature o').
  { intros i j ti tj wi wj N H1 H2 _ H3 H4 _.
    destruct i as [|[|i]]; cbn in H1; try (destruct i; discriminate);
    destruct j as [|[|j]]; cbn in H3; try (destruct j; discriminate); try congruence;
    injection H1 as <-; injection H3 as <-; intros C; discriminate C. }
  assert (M : forall r T, measured oil2 r T <-> measured o' r T).
  { intros r T. rewrite oil2_measured. split.
    - intros [(-> & ->)|(-> & ->)]; [exists 1%nat, 0|exists 0%nat, 0]; repeat split.
    - intros (i & w & H1 & H2 & H3 & H4). destruct i as [|[|i]]; cbn in H1, H2.
      + right. split; congruence.
      + left. split; congruence.
      + destruct i; discriminate. }
  split; [exact W|]. split; [exact O|]. split; [exact M|].
  apply (C124_data_only oil2 o'); auto; [exact oil2_wf|exact oil2_one].
Qed.

(** It never rises with the temperature, is positive, and lies between the
    measurements on both sides of the temperature. *)
Theorem C124_warm : forall o,
  well_formed o -> one_per_temperature o -> physical o -> expands o ->
  (exists r T, measured o r T) ->
  (forall T, exists v, density_at_temp o T = Ok v /\ 0 < v) /\
  (forall T1 T2 v1 v2, T1 <= T2 ->
     density_at_temp o T1 = Ok v1 -> density_at_temp o T2 = Ok v2 -> v2 <= v1) /\
  (forall ra Ta rb Tb T v, measured o ra Ta -> measured o rb Tb -> Ta <= T <= Tb ->
     density_at_temp o T = Ok v -> rb <= v <= ra).
Proof.
  intros o W O P X M0.
  destruct (oil_value o W O P X M0) as (api & a & r & m & Pm & A & F & Ch & S0 & E).
  assert (Pos : forall T, 0 < (if Qltb T m then m else T)).
  { intros T. destruct (Qltb T m) eqn:C; [exact Pm|]. apply Qltb_no in C. lra. }
  assert (Anti : forall T1 T2 v1 v2, T1 <= T2 ->
     density_at_temp o T1 = Ok v1 -> density_at_temp o T2 = Ok v2 -> v2 <= v1).
  { intros T1 T2 v1 v2 L E1 E2. rewrite E in E1. rewrite E in E2.
    apply (dens_list_anti api a r _ _ v1 v2 (Pos T1)) with (6 := E1) (7 := E2); auto.
    destruct (Qltb T1 m) eqn:C1, (Qltb T2 m) eqn:C2; rewrite ?Qltb_iff, ?Qltb_no in *; lra. }
  split; [|split; [exact Anti|]].
  - intros T. rewrite E. apply dens_list_ok; auto.
  - intros ra Ta rb Tb T v Ma Mb (L1 & L2) Ev.
    destruct (C124_measured o ra Ta W O P Ma) as (va & Ea & Va).
    destruct (C124_measured o rb Tb W O P Mb) as (vb & Eb & Vb).
    pose proof (Anti _ _ _ _ L1 Ea Ev). pose proof (Anti _ _ _ _ L2 Ev Eb). lra.
Qed.
Print Assumptions C124_warm.

Example C124_warm_meets : forall v, density_at_temp oil2 290 = Ok v -> 900 <= v <= 1000.
Proof.
  intros v E.
  destruct (C124_warm oil2 oil2_wf oil2_one oil2_physical oil2_expands) as (_ & _ & B).
  { exists 900, 303. apply oil2_measured. auto. }
  apply (B 1000 273 900 303 290 v); auto; [apply oil2_measured; auto|apply oil2_measured; auto|].
  split; lra.
Qed.

(** Below the pour point and all measurements it no longer changes; without a
    measurement of fresh oil there is no density. *)
Theorem C124_cold : forall o, well_formed o -> one_per_temperature o ->
  (forall T T', colder_than_data o T -> colder_than_data o T' ->
     density_at_temp o T = density_at_temp o T') /\
  ((forall r T, ~ measured o r T) -> forall T, density_at_temp o T = Raise ValueErr).
Proof.
  intros o W O. destruct (oil_list o W O) as (l & E & S0 & Ml).
  assert (Low : forall T, colder_than_data o T -> Qltb T (qmin (o_pour o) (map d_t l)) = true).
  { intros T (H1 & H2). apply Qltb_true, qmin_gt; [exact H1|].
    rewrite Forall_forall. intros y I. apply in_map_iff in I. destruct I as (d & <- & I).
    apply Ml in I. exact (H2 _ _ I). }
  split.
  - intros T T' C C'. rewrite !E, (Low T C), (Low T' C'). reflexivity.
  - intros N T. rewrite E. destruct l as [|a r]; [reflexivity|].
    exfalso. apply (N (d_rho a) (d_t a)). apply Ml. now left.
Qed.
Print Assumptions C124_cold.

Example C124_cold_meets : density_at_temp oil2 100 = density_at_temp oil2 200 /\
  density_at_temp (Oil 25 270 [900] [303] [1 # 10] [1] [900] None true) 288 = Raise ValueErr.
Proof.
  split.
  - apply (C124_cold oil2 oil2_wf oil2_one); (split; [reflexivity|]); intros r t M;
    apply oil2_measured in M; destruct M as [(_ & ->)|(_ & ->)]; reflexivity.
  - reflexivity.
Qed.

(** ** C125: continuity *)

(** Between two neighbouring measurements the density changes no faster than the
    straight line between them falls, and just below the upper one it is within
    the square of the difference over the density. *)
Theorem C125_segment_partial : forall o ra Ta rb Tb,
  well_formed o -> one_per_temperature o -> physical o -> expands o ->
  measured o ra Ta -> measured o rb Tb -> Ta < Tb ->
  (forall r T, measured o r T -> ~ (Ta < T /\ T < Tb)) ->
  forall T1 T2 v1 v2, Ta <= T1 -> T1 <= T2 -> T2 < Tb ->
  density_at_temp o T1 = Ok v1 -> density_at_temp o T2 = Ok v2 ->
  v1 - v2 <= (ra - rb) / (Tb - Ta) * (T2 - T1) /\ v1 - rb <= (ra - rb) / (Tb - Ta) * (Tb - T1) + (ra - rb) * (ra - rb) / ra.
Proof.
  intros o ra Ta rb Tb W O P X Ma Mb L N T1 T2 v1 v2 L1 L12 L2 E1 E2.
  destruct (oil_list o W O) as (l & E & S0 & Ml).
  set (a := D ra Ta). set (b := D rb Tb).
  assert (Ia : In a l) by (apply Ml; exact Ma). assert (Ib : In b l) by (apply Ml; exact Mb).
  assert (Seg : forall T, Ta <= T -> T < Tb -> density_at_temp o T = between a b T).
  { intros T H1 H2. rewrite E.
    assert (Q0 : qmin (o_pour o) (map d_t l) <= Ta) by (apply qmin_in, in_map_iff; exists a; split; [reflexivity|exact Ia]).
    rewrite Qltb_false by lra. destruct l as [|c r]; [contradiction|].
    rewrite (dens_list_eq _ c r T (strict_sorted _ S0)). rewrite Qltb_false.
    - apply walk_segment; auto. intros d I. apply Ml in I. apply (N _ _ I).
    - destruct Ia as [->|Ia]; [exact H1|]. destruct S0 as (F & _). rewrite Forall_forall in F.
      specialize (F _ Ia). cbn in F. lra. }
  assert (A : okd a) by (destruct P as (_ & P); exact (P _ _ Ma)).
  assert (B : okd b) by (destruct P as (_ & P); exact (P _ _ Mb)).
  assert (Er : rb <= ra) by (apply (X _ _ _ _ Ma Mb L)).
  rewrite Seg in E1 by lra. rewrite Seg in E2 by lra.
  destruct (between_val a b T1 A B L Er L1) as (u1 & U1 & V1 & P1). rewrite E1 in U1. injection U1 as <-.
  assert (L1' : d_t a <= T2) by (cbn; lra).
  destruct (between_val a b T2 A B L Er L1') as (u2 & U2 & V2 & P2). rewrite E2 in U2. injection U2 as <-.
  pose proof (kab_nonneg a b A B L Er) as K. cbn [d_t d_rho a b] in *.
  assert (Ra : 0 < ra) by apply A. assert (Rb : 0 < rb) by apply B.
  assert (KR : ra * kab a b == (ra - rb) / (Tb - Ta)) by (unfold kab; cbn; field; lra).
  set (k := kab a b) in *. clearbody k.
  assert (G1 : 0 <= k * (T1 - Ta)) by (apply Qmul_nonneg; lra).
  assert (G2 : 0 <= k * (T2 - Ta)) by (apply Qmul_nonneg; lra).
  assert (G12 : 0 <= k * (T2 - T1)) by (apply Qmul_nonneg; lra).
  assert (Slope : forall x y, 1 <= x -> x <= y -> ra / x - ra / y <= ra * (y - x)).
  { intros x y Hx Hxy. setoid_replace (ra / x - ra / y) with (ra * (y - x) / (x * y)) by (field; lra).
    assert (1 * 1 <= x * y).
    { apply Qle_trans with (x * 1); [lra|]. rewrite !(Qmult_comm x). apply Qmult_le_compat_r; lra. }
    assert (0 <= ra * (y - x)) by (apply Qmul_nonneg; lra).
    apply Qle_shift_div_r; [lra|].
    setoid_replace (ra * (y - x)) with (ra * (y - x) * 1) at 1 by ring.
    rewrite !(Qmult_comm (ra * (y - x))). apply Qmult_le_compat_r; lra. }
  split.
  - rewrite V1, V2, <- KR.
    eapply Qle_trans; [apply Slope; lra|]. apply Qle_lteq. right. ring.
  - assert (GB : 0 <= k * (Tb - T1)) by (apply Qmul_nonneg; lra).
    assert (S1 : ra / (1 + k * (T1 - Ta)) - ra / (1 + k * (Tb - Ta)) <= ra * (k * (Tb - T1))).
    { eapply Qle_trans; [apply Slope; lra|]. apply Qle_lteq. right. ring. }
    assert (KB : k * (Tb - Ta) == (ra - rb) / ra).
    { assert (k == (ra - rb) / (Tb - Ta) / ra) by (rewrite <- KR; field; lra). rewrite H. field. lra. }
    assert (S2 : ra / (1 + k * (Tb - Ta)) - rb <= (ra - rb) * (ra - rb) / ra).
    { rewrite KB. setoid_replace (ra / (1 + (ra - rb) / ra) - rb) with ((ra - rb) * (ra - rb) / (ra + (ra - rb))) by (field; lra).
      assert (SQ : 0 <= (ra - rb) * (ra - rb)) by (apply Qmul_nonneg; lra).
      apply Qle_shift_div_r; [lra|].
      assert (0 <= (ra - rb) * (ra - rb) / ra * (ra - rb)).
      { apply Qmul_nonneg; [|lra]. apply Qle_shift_div_l; lra. }
      setoid_replace ((ra - rb) * (ra - rb) / ra * (ra + (ra - rb)))
        with ((ra - rb) * (ra - rb) + (ra - rb) * (ra - rb) / ra * (ra - rb)) by (field; lra).
      lra. }
    rewrite V1, <- KR. lra.
Qed.
Print Assumptions C125_segment_partial.

Example C125_segment_meets : forall v1 v2,
  density_at_temp oil2 280 = Ok v1 -> density_at_temp oil2 290 = Ok v2 -> v1 - v2 <= 100 / 30 * 10.
Proof.
  intros v1 v2 E1 E2.
  destruct (C125_segment_partial oil2 1000 273 900 303 oil2_wf oil2_one oil2_physical oil2_expands)
    with (T1 := 280) (T2 := 290) (v1 := v1) (v2 := v2) as (H & _); auto.
  - apply oil2_measured. auto.
  - apply oil2_measured. auto.
  - reflexivity.
  - intros r T M (L1 & L2). apply oil2_measured in M. destruct M as [(_ & ->)|(_ & ->)]; lra.
  - lra.
  - lra.
  - lra.
Qed.

(** The density is not continuous: it jumps down at the upper of two measurements.
    With 1000 kg/m3 at 273 K and 900 at 303 K it is above 909 all the way up to
    303 K, where it is 900. *)
Theorem C125_continuous_refuted : exists o,
  well_formed o /\ one_per_temperature o /\ physical o /\ expands o /\
  measured o 1000 273 /\ measured o 900 303 /\
  (forall T v, 273 <= T -> T < 303 -> density_at_temp o T = Ok v -> 909 <= v) /\
  (exists v, density_at_temp o 303 = Ok v /\ v == 900).
Proof.
  exists oil2. split; [exact oil2_wf|]. split; [exact oil2_one|]. split; [exact oil2_physical|].
  split; [exact oil2_expands|]. split; [apply oil2_measured; auto|]. split; [apply oil2_measured; auto|].
  split; [|apply C124_measured_meets].
  intros T v L1 L2 E.
  rewrite (dat_eq oil2 [D 900 303; D 1000 273] eq_refl T) in E.
  change (tsort [D 900 303; D 1000 273]) with [D 1000 273; D 900 303] in E.
  change (qmin (o_pour oil2) (map d_t [D 1000 273; D 900 303])) with 270 in E.
  rewrite Qltb_false in E by lra. rewrite dens_list_eq in E.
  2:{ cbn. repeat split; repeat constructor; cbn; lra. }
  cbn [d_t walk] in E. rewrite Qltb_false in E by lra. rewrite Qltb_true in E by lra.
  set (a := D 1000 273) in *. set (b := D 900 303) in *.
  assert (A : okd a) by (repeat split). assert (B : okd b) by (repeat split).
  destruct (between_val a b T A B) as (u & U & V & P); [reflexivity|cbn; lra|exact L1|].
  rewrite E in U. injection U as <-. rewrite V. apply Qle_shift_div_l; [exact P|].
  assert (K : kab a b == 1 # 300) by reflexivity. rewrite K. cbn. lra.
Qed.
Print Assumptions C125_continuous_refuted.

(** ** C126: new elements *)

(** New elements of oil: components in the mass fractions of the oil, adding up to
    its mass if the fractions add up to 1; the fate goes by depth and status; the
    viscosity is that at the temperature of the water of the environment; the
    density is that of the oil, at most that of the water, in the water of the oil
    itself, or else in a new [Water()].  Elements already there are untouched. *)
Theorem C126_new_partial : forall w300 kv o env old new,
  new <> [] -> o_weatherable o = true ->
  let vw := water_used (o_water o) env default_water w300 in
  let dw := match o_water o with Some w => w | None => w300 end in
  forall rho, density_at_temp o (fst dw) = Ok rho ->
  exists new', init_oil w300 kv o env (length new) (old ++ new) = Ok (old ++ new') /\
    Forall2 (new_oil_element o kv (fst vw) rho (snd dw)) new new' /\
    (qsuml (o_frac o) == 1 -> Forall (fun e => qsuml (e_comps e) == e_mass e) new').
Proof.
  intros w300 kv o env old new NE Wth vw dw rho E.
  assert (P : (0 < length new)%nat) by (destruct new; [contradiction|cbn; lia]).
  assert (V : water_or_default (pick_water w300 (o_water o) env) = vw).
  { unfold vw, pick_water. destruct env as [[|]|], (o_water o); reflexivity. }
  unfold init_oil, init_viscosity. rewrite Wth, V. destruct vw as [vt vr] eqn:Ev. cbn [fst].
  rewrite (on_slice_app _ _ old new eq_refl P).
  rewrite on_slice_app; [|rewrite map_length; reflexivity|exact P].
  rewrite on_slice_app; [|rewrite !map_length; reflexivity|exact P].
  unfold init_density.
  assert (W : water_or_default (pick_water w300 (o_water o) None) = dw).
  { unfold dw. cbn [pick_water]. now destruct (o_water o). }
  rewrite W. destruct dw as [dt dr]. cbn [fst snd] in *. rewrite E. cbn [bind].
  rewrite on_slice_app; [|rewrite !map_length; reflexivity|exact P].
  eexists. split; [reflexivity|].
  pose proof (new_oil_map o kv vt rho dr new) as F. split; [exact F|].
  intros Fr. clear -F Fr. revert F. generalize (map (set_density (Some (if Qltb dr rho then dr else rho)))
      (map (fun e => set_comps (map (fun f => f * e_mass e) (o_frac o)) e)
        (map (fun e => set_fate (if Qeq_bool (e_z e) 0 && (e_status e =? in_water)%Z
                                 then surface_weather else subsurf_weather) e)
          (map (set_visc (Some (kv vt))) new)))). intros new' F.
  induction F as [|e e' l l' H F IH]; constructor; [|exact IH].
  destruct H as (Hm & _ & _ & _ & _ & Hs & _). rewrite Hs, Fr, Hm. ring.
Qed.
Print Assumptions C126_new_partial.

Definition el (m z : Q) (st : Z) : elem := Elem m [] z st 0 None None None 0.

Example C126_new_meets :
  exists new', init_oil (300, 1023) (fun T => T / 1000) oil2 (Some (Some (280, 1025))) 2
      ([el 7 0 2] ++ [el 4 0 2; el 8 5 2]) = Ok ([el 7 0 2] ++ new') /\
    map e_comps new' = [[(1#4) * 4; (3#4) * 4]; [(1#4) * 8; (3#4) * 8]] /\
    map e_fate new' = [2%Z; 4%Z] /\ map e_visc new' = [Some (280 / 1000); Some (280 / 1000)] /\
    Forall (fun e => qsuml (e_comps e) == e_mass e) new'.
Proof.
  eexists. split; [vm_compute; reflexivity|]. cbn.
  split; [reflexivity|]. split; [reflexivity|]. split; [reflexivity|]. repeat constructor.
Qed.

(** The density is not that in the water of the model: [initialize_elements] does
    not pass the environment on, so a model with water at 275 K starts its elements
    with the density the oil has at the 300 K of a new [Water()]. *)
Theorem C126_water_refuted : exists w300 kv o w e rho,
  o_water o = None /\ o_weatherable o = true /\ well_formed o /\ physical o /\ expands o /\
  density_at_temp o (fst w) = Ok rho /\ rho < snd w /\
  exists e', init_oil w300 kv o (Some (Some w)) 1 [e] = Ok [e'] /\
    e_visc e' = Some (kv (fst w)) /\
    exists d, e_density e' = Some d /\ d < rho - 50.
Proof.
  set (rho := match density_at_temp oil2 275 with Ok v => v | _ => 0 end).
  exists (300, 1023), (fun _ => 1), oil2, (275, 1025), (el 4 0 2), rho.
  split; [reflexivity|]. split; [reflexivity|]. split; [exact oil2_wf|]. split; [exact oil2_physical|].
  split; [exact oil2_expands|]. split; [vm_compute; reflexivity|]. split; [vm_compute; reflexivity|].
  eexists. split; [vm_compute; reflexivity|]. split; [reflexivity|].
  eexists. split; [reflexivity|]. vm_compute. reflexivity.
Qed.
Print Assumptions C126_water_refuted.

(** A substance that does not weather: fate, density, nothing else. *)
Theorem C126_inert : forall w300 std env old new, new <> [] ->
  let w := water_used None env default_water w300 in
  exists new', init_non w300 std env (length new) (old ++ new) = Ok (old ++ new') /\
    Forall2 (fun e e' => e_fate e' = non_weather /\ (exists d, e_density e' = Some d /\ d == Qmin std (snd w)) /\
      e_mass e' = e_mass e /\ e_comps e' = e_comps e /\ e_z e' = e_z e /\ e_status e' = e_status e /\ e_visc e' = e_visc e)
      new new'.
Proof.
  intros w300 std env old new NE w.
  assert (P : (0 < length new)%nat) by (destruct new; [contradiction|cbn; lia]).
  assert (V : water_or_default (pick_water w300 None env) = w).
  { unfold w, pick_water. destruct env as [[|]|]; reflexivity. }
  unfold init_non, init_density. rewrite (on_slice_app _ _ old new eq_refl P). rewrite V.
  destruct w as [wt wr]. cbn [bind snd].
  rewrite on_slice_app; [|rewrite !map_length; reflexivity|exact P].
  eexists. split; [reflexivity|]. clear. induction new as [|e r IH]; cbn [map]; constructor; [|exact IH].
  cbn. split; [reflexivity|]. split; [eexists; split; [reflexivity|apply water_min]|]. auto 10.
Qed.
Print Assumptions C126_inert.

Example C126_inert_meets :
  init_non (300, 1023) 990 (Some (Some (280, 980))) 1 [el 7 0 2; el 4 0 2] =
    Ok [el 7 0 2; set_density (Some 980) (set_fate 1 (el 4 0 2))].
Proof. reflexivity. Qed.

(** Called for no elements at all, both rewrite every element there is. *)
Theorem C126_none_refuted : exists w300 std e,
  init_non w300 std None 0 [e] <> Ok [e].
Proof. exists (300, 1023), 990, (el 7 0 2). discriminate. Qed.
Print Assumptions C126_none_refuted.

(** ** C127: density during a run *)

(** After the update at the end of a step: the elements are the same but for
    density and oil density; no element with mass is denser than the water; the
    density is the water content's average of oil and water, cut off at that of the water; oil whose
    components are still in the proportions of the fresh oil has the density of the
    oil at the temperature of the water. *)
Theorem C127_recalc_partial : forall o w l rho,
  let wt := fst (water_or_default w) in let wr := snd (water_or_default w) in
  all_float l -> o_weatherable o = true -> density_at_temp o wt = Ok rho -> 0 < dot (o_cdens o) (o_frac o) ->
  exists l', recalc_density o w l = Ok l' /\
    Forall2 (fun e e' =>
      e_mass e' = e_mass e /\ e_comps e' = e_comps e /\ e_fate e' = e_fate e /\ e_status e' = e_status e /\
      (~ e_mass e == 0 ->
        exists d r, e_density e' = Some d /\ e_oil_density e' = Some r /\
          d == Qmin (e_fw e * wr + (1 - e_fw e) * r) wr /\ d <= wr /\
          (0 <= e_fw e -> e_fw e <= 1 -> r <= wr -> r <= d) /\
          r == rho / dot (o_cdens o) (o_frac o) * (dot (o_cdens o) (e_comps e) / e_mass e) /\
          (e_comps e = map (fun f => f * e_mass e) (o_frac o) -> r == rho))) l l'.
Proof.
  intros o w l rho wt wr Fl Wth E Pd. rewrite (recalc_float o w l rho Fl Wth E Pd). fold wr.
  assert (N : ~ dot (o_cdens o) (o_frac o) == 0) by lra.
  eexists. split; [reflexivity|]. set (k := rho / dot (o_cdens o) (o_frac o)). set (r := wr). clearbody wr r. clear Fl.
  induction l as [|e l IH]; cbn [map]; constructor; [|exact IH]. unfold recalc1.
  destruct (Qeq_bool (e_mass e) 0) eqn:C.
  - cbn. split; [reflexivity|]. split; [reflexivity|]. split; [reflexivity|]. split; [reflexivity|].
    intros H. apply Qeq_bool_iff in C. contradiction.
  - apply Qeqb_no in C. cbn. split; [reflexivity|]. split; [reflexivity|]. split; [reflexivity|]. split; [reflexivity|].
    intros _. eexists. eexists. split; [reflexivity|]. split; [reflexivity|].
    set (orho := k * dot (o_cdens o) (map (fun c => c / e_mass e) (e_comps e))).
    assert (EO : orho == k * (dot (o_cdens o) (e_comps e) / e_mass e)) by (unfold orho; rewrite dot_div by exact C; reflexivity).
    split; [apply water_min|]. split.
    { destruct (Qltb r _) eqn:G; [lra|]. now apply Qltb_no in G. }
    split.
    { intros F0 F1 Lr. destruct (Qltb r _) eqn:G; [exact Lr|].
      assert (0 <= e_fw e * (r - orho)) by (apply Qmul_nonneg; lra). lra. }
    split; [exact EO|]. intros Ec. rewrite EO, Ec, dot_scale. unfold k. field. split; assumption.
Qed.
Print Assumptions C127_recalc_partial.

Example C127_recalc_meets :
  exists rho e' r, density_at_temp oil2 280 = Ok rho /\
    recalc_density oil2 (Some (280, 1025)) [set_fate 2 (set_comps (map (fun f => f * 4) (o_frac oil2)) (el 4 0 2))] = Ok [e'] /\
    e_oil_density e' = Some r /\ r == rho.
Proof.
  eexists. eexists. eexists. split; [vm_compute; reflexivity|]. split; [vm_compute; reflexivity|].
  split; [reflexivity|]. vm_compute. reflexivity.
Qed.

(** Losing mass from components lighter than the oil of the element is on average
    does not lower the density of the oil that is left. *)
Theorem C127_heavier : forall cd before after mb ma,
  qsuml before == mb -> qsuml after == ma -> 0 < mb -> 0 < ma ->
  lost_light cd before after (dot cd before / mb) ->
  forall k wr fw e e', 0 <= k ->
  e_mass e = mb -> e_comps e = before -> e_fw e = fw ->
  e_mass e' = ma -> e_comps e' = after -> e_fw e' = fw ->
  exists r r', e_oil_density (recalc1 k wr cd e) = Some r /\ e_oil_density (recalc1 k wr cd e') = Some r' /\ r <= r'.
Proof.
  intros cd before after mb ma Sb Sa Pb Pa LL k wr fw e e' Pk Em Ec Ef Em' Ec' Ef'.
  pose proof (lost_light_dot _ _ _ _ LL) as H.
  unfold recalc1. rewrite Em, Em', Ec, Ec'.
  assert (Nb : ~ mb == 0) by lra. assert (Na : ~ ma == 0) by lra.
  assert (B1 := Nb). assert (B2 := Na). apply Qeqb_no in B1, B2. rewrite B1, B2. cbn.
  eexists. eexists. split; [reflexivity|]. split; [reflexivity|].
  rewrite !dot_div by assumption. rewrite !(Qmult_comm k). apply Qmult_le_compat_r; [|exact Pk].
  apply Qle_shift_div_l; [exact Pa|].
  assert (X : dot cd before / mb * (mb - ma) >= dot cd before - dot cd after).
  { rewrite <- Sb at 2. rewrite <- Sa. exact H. }
  assert (Y : dot cd before / mb * mb == dot cd before) by (field; exact Nb).
  assert (Z0 : dot cd before / mb * (mb - ma) == dot cd before / mb * mb - dot cd before / mb * ma) by ring.
  lra.
Qed.
Print Assumptions C127_heavier.

Example C127_heavier_meets : lost_light [800; 1000] [1; 3] [1 # 2; 3] (dot [800; 1000] [1; 3] / 4).
Proof.
  split; [reflexivity|]. split; [reflexivity|]. intros i d x y H1 H2 H3.
  destruct i as [|[|i]]; cbn in H1, H2, H3.
  - injection H1 as <-. injection H2 as <-. injection H3 as <-. split; [lra|]. intros _. cbn. discriminate.
  - injection H1 as <-. injection H2 as <-. injection H3 as <-. split; lra.
  - destruct i; discriminate.
Qed.

(** An element that has lost its mass has no density (NaN), and with it the average
    density of the whole spill is lost, whatever the other elements are. *)
Theorem C127_empty_refuted : forall o w l rho e,
  all_float l -> o_weatherable o = true -> density_at_temp o (fst (water_or_default w)) = Ok rho ->
  0 < dot (o_cdens o) (o_frac o) -> In e l -> e_mass e == 0 -> 0 < total l ->
  forall b, exists l', recalc_density o w l = Ok l' /\ b_rho (aggregate 0 l' b) = Some None.
Proof.
  intros o w l rho e Fl Wth E Pd I M T b. rewrite (recalc_float o w l rho Fl Wth E Pd).
  eexists. split; [reflexivity|]. set (k := rho / dot (o_cdens o) (o_frac o)). set (r := snd (water_or_default w)).
  set (l' := map (recalc1 k r (o_cdens o)) l).
  assert (Tl : total l' == total l).
  { unfold l'. clear. induction l as [|x l IH]; cbn [map total]; [reflexivity|]. rewrite IH.
    unfold recalc1. destruct (Qeq_bool (e_mass x) 0); reflexivity. }
  unfold aggregate. rewrite Qltb_true by (rewrite Tl; exact T). cbn [b_rho].
  f_equal. apply (wsum_nan e_density (total l') l' (recalc1 k r (o_cdens o) e)).
  - unfold l'. apply in_map. exact I.
  - unfold recalc1. apply Qeq_bool_iff in M. rewrite M. reflexivity.
Qed.
Print Assumptions C127_empty_refuted.

Example C127_empty_meets : forall b, exists l',
  recalc_density oil2 None [set_fate 2 (el 0 0 2); set_fate 2 (set_comps [1; 3] (el 4 0 2))] = Ok l' /\ b_rho (aggregate 0 l' b) = Some None.
Proof.
  intros b. eapply C127_empty_refuted with (e := set_fate 2 (el 0 0 2)).
  - repeat constructor.
  - reflexivity.
  - vm_compute. reflexivity.
  - reflexivity.
  - now left.
  - reflexivity.
  - reflexivity.
Qed.

(** ** C128: the mass balance *)

(** The averages are the means weighted by mass, so they lie between the smallest
    and the largest value; floating and non-weathering masses are parts of the whole. *)
Theorem C128_average : forall n l b dlo dhi vlo vhi fd fv,
  Forall (fun e => 0 <= e_mass e) l -> 0 < total l ->
  (forall e, In e l -> e_density e = Some (fd e) /\ dlo <= fd e <= dhi /\ e_visc e = Some (fv e) /\ vlo <= fv e <= vhi) ->
  exists d v, b_rho (aggregate n l b) = Some (Some d) /\ b_visc (aggregate n l b) = Some (Some v) /\
    dlo <= d <= dhi /\ vlo <= v <= vhi /\
    d * qsuml (map e_mass l) == qsuml (map (fun e => e_mass e * fd e) l) /\
    v * qsuml (map e_mass l) == qsuml (map (fun e => e_mass e * fv e) l) /\
    0 <= b_floating (aggregate n l b) <= qsuml (map e_mass l) /\
    0 <= b_nonweather (aggregate n l b) <= qsuml (map e_mass l).
Proof.
  intros n l b dlo dhi vlo vhi fd fv M T H.
  assert (F1 : Forall (fun e => 0 <= e_mass e /\ exists v, e_density e = Some v /\ dlo <= v <= dhi) l).
  { rewrite Forall_forall in *. intros e I. split; [now apply M|]. exists (fd e). destruct (H e I) as (A & B & _). now split. }
  assert (F2 : Forall (fun e => 0 <= e_mass e /\ exists v, e_visc e = Some v /\ vlo <= v <= vhi) l).
  { rewrite Forall_forall in *. intros e I. split; [now apply M|]. exists (fv e). destruct (H e I) as (_ & _ & A & B). now split. }
  destruct (wsum_bounds e_density (total l) dlo dhi T l F1) as (d & Ed & Ld & Hd).
  destruct (wsum_bounds e_visc (total l) vlo vhi T l F2) as (v & Ev & Lv & Hv).
  assert (NT : ~ total l == 0) by lra.
  destruct (wsum_mean e_density (total l) NT l fd) as (d' & Ed' & Md); [intros e I; apply (H e I)|].
  destruct (wsum_mean e_visc (total l) NT l fv) as (v' & Ev' & Mv); [intros e I; apply (H e I)|].
  rewrite Ed in Ed'. injection Ed' as <-. rewrite Ev in Ev'. injection Ev' as <-.
  assert (One : total l / total l == 1) by (field; lra). rewrite One in *.
  exists d, v. unfold aggregate. rewrite Qltb_true by exact T. cbn [b_rho b_visc b_floating b_nonweather].
  rewrite Ed, Ev. split; [reflexivity|]. split; [reflexivity|]. split; [lra|]. split; [lra|].
  rewrite <- total_sum. split; [exact Md|]. split; [exact Mv|].
  split; apply total_filter; exact M.
Qed.
Print Assumptions C128_average.

(** Floating is the mass of the elements in the water at depth 0, non-weathering
    that of the elements with that fate. *)
Theorem C128_parts : forall n l b,
  b_floating (aggregate n l b) ==
    qsuml (map (fun e => if (e_status e =? 2)%Z && Qeq_bool (e_z e) 0 then e_mass e else 0) l) /\
  b_nonweather (aggregate n l b) ==
    qsuml (map (fun e => if (e_fate e =? 1)%Z then e_mass e else 0) l).
Proof.
  intros n l b. unfold aggregate. destruct (if Qltb 0 (total l) then _ else _) as [br bv].
  cbn [b_floating b_nonweather].
  assert (G : forall p, total (filter p l) == qsuml (map (fun e => if p e then e_mass e else 0) l)).
  { intros p. induction l as [|e r IH]; cbn [filter map qsuml]; [reflexivity|]. rewrite <- IH.
    destruct (p e); cbn [total]; ring. }
  split; apply G.
Qed.
Print Assumptions C128_parts.

Example C128_average_meets :
  let l := [Elem 1 [] 0 2 2 (Some 900) (Some 1) None 0; Elem 3 [] 1 2 1 (Some 1000) (Some 2) None 0] in
  aggregate 0 l (Bal None None 0 0 None) = Bal (Some (Some (15600 # 16))) (Some (Some (28 # 16))) 1 3 None.
Proof. vm_compute. reflexivity. Qed.

(** Over any history, amount_released is what the released elements weighed when
    they were released: later losses, removals and recounts do not change it, and
    nothing is counted twice.  It is missing until something is released. *)
Theorem C128_released : forall evs l b0, b_released b0 = None ->
  (something evs -> exists r, b_released (snd (history evs (l, b0))) = Some r /\ r == released evs) /\
  (~ something evs -> b_released (snd (history evs (l, b0))) = None).
Proof.
  intros evs l b0 E. destruct (history_released evs (l, b0)) as (A & B). cbn [snd] in *. split.
  - intros S0. destruct (b_released (snd (history evs (l, b0)))) as [r|] eqn:H.
    + exists r. split; [reflexivity|]. unfold rel0 in A. rewrite H, E in A. rewrite A. ring.
    + exfalso. destruct (proj1 B eq_refl) as (_ & N). contradiction.
  - intros N. apply B. now split.
Qed.
Print Assumptions C128_released.

Example C128_released_meets : exists r,
  b_released (snd (history [Release [el 4 0 2]; Others [el 3 0 2]; Release [el 2 0 2; el 2 0 2]; Release []; Others []]
    ([], Bal None None 0 0 None))) = Some r /\ r == 8.
Proof. eexists. split; [vm_compute; reflexivity|]. reflexivity. Qed.

(** When no mass is left the averages are not updated: they stay what they were. *)
Theorem C128_stale_refuted : forall n l b, total l == 0 ->
  b_rho (aggregate n l b) = b_rho b /\ b_visc (aggregate n l b) = b_visc b.
Proof.
  intros n l b T. unfold aggregate. rewrite Qltb_false by lra. split; reflexivity.
Qed.
Print Assumptions C128_stale_refuted.

Example C128_stale_meets : b_rho (aggregate 0 [] (Bal (Some (Some 900)) None 5 0 (Some 5))) = Some (Some 900).
Proof. reflexivity. Qed.
