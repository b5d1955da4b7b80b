(** * C22-C24, C78-C80: cleanup options *)
From Verif Require Import Py PyLemmas QLemmas PipModel PipProofs PolyModel PolyProofs CleanModel CleanSpec CleanProofs.
From Coq Require Import Qabs.
Open Scope Q_scope.

(** ** C22: operating time *)

(** Summed over the steps of a run, whatever the elements are at each of them. *)
Theorem C22_skim_partial : forall c dt t ls x, (0 < dt)%Z -> k_on c = true -> (k_a c <= k_b c)%Z ->
  (forall k, (k < length ls)%nat -> ~ within_step (k_a c) (k_b c) dt (t + Z.of_nat k * dt)) ->
  skim_time c dt t ls = Ok x -> x = overlap (k_a c) (k_b c) t (t + Z.of_nat (length ls) * dt).
Proof. intros c dt t ls x Hd Hon Hab Hw H. rewrite (skim_time_op _ _ _ _ _ H), Hon. apply op_time_overlap; auto. Qed.
Print Assumptions C22_skim_partial.
Theorem C22_disperse_partial : forall c rate dt t ls x, (0 < dt)%Z -> d_on c = true -> (d_a c <= d_b c)%Z ->
  (forall k, (k < length ls)%nat -> ~ within_step (d_a c) (d_b c) dt (t + Z.of_nat k * dt)) ->
  chem_time c rate dt t ls = Ok x -> x = overlap (d_a c) (d_b c) t (t + Z.of_nat (length ls) * dt).
Proof. intros c rt dt t ls x Hd Hon Hab Hw H. rewrite (chem_time_op _ _ _ _ _ _ H), Hon. apply op_time_overlap; auto. Qed.
Print Assumptions C22_disperse_partial.

(** If a step contains the window, it operates from the beginning of the step. *)
Theorem C22_skim_short : forall c dt t ls k x, (0 < dt)%Z -> k_on c = true -> (k_a c <= k_b c)%Z -> (k < length ls)%nat ->
  within_step (k_a c) (k_b c) dt (t + Z.of_nat k * dt) ->
  skim_time c dt t ls = Ok x -> x = (k_b c - (t + Z.of_nat k * dt))%Z.
Proof. intros c dt t ls k x Hd Hon Hab Hk Hw H. rewrite (skim_time_op _ _ _ _ _ H), Hon. apply op_time_short; auto. Qed.
Print Assumptions C22_skim_short.
Theorem C22_disperse_short : forall c rate dt t ls k x, (0 < dt)%Z -> d_on c = true -> (d_a c <= d_b c)%Z -> (k < length ls)%nat ->
  within_step (d_a c) (d_b c) dt (t + Z.of_nat k * dt) ->
  chem_time c rate dt t ls = Ok x -> x = (d_b c - (t + Z.of_nat k * dt))%Z.
Proof. intros c rt dt t ls k x Hd Hon Hab Hk Hw H. rewrite (chem_time_op _ _ _ _ _ _ H), Hon. apply op_time_short; auto. Qed.
Print Assumptions C22_disperse_short.
Theorem C22_off : forall c dt t ls x, k_on c = false -> skim_time c dt t ls = Ok x -> x = 0%Z.
Proof. intros c dt t ls x Hon H. rewrite (skim_time_op _ _ _ _ _ H), Hon. apply op_time_off. Qed.
Print Assumptions C22_off.

Definition hour : Z := 3600000000.
Definition oil (m fw : Q) : el := mkEl 2 2 0 m fw [m] false.
Definition skim1 (a b : Z) : skimmer := mkSkim true a b 10 1 (Some 1).

(** A window of half an hour inside a step of an hour: a quarter more. *)
Theorem C22_refuted : exists c dt t ls x, (0 < dt)%Z /\ k_on c = true /\ (k_a c <= k_b c)%Z /\
  skim_time c dt t ls = Ok x /\ x <> overlap (k_a c) (k_b c) t (t + Z.of_nat (length ls) * dt).
Proof.
  exists (skim1 900000000 2700000000), hour, 0%Z, [[oil 5 0]; [oil 5 0]], 2700000000%Z.
  split; [reflexivity|]. split; [reflexivity|]. split; [vm_compute; discriminate|]. split; [vm_compute; reflexivity|vm_compute; discriminate].
Qed.
Print Assumptions C22_refuted.
(** With weathering in substeps it operates for the whole step in each of them. *)
Theorem C22_substeps_refuted : exists rate ts l one two, chem_substeps (Some rate) true true ts 1 l = Ok one /\
  chem_substeps (Some rate) true true ts 2 l = Ok two /\ 0 < snd one /\ snd two == 2 * snd one.
Proof.
  exists (1#360), hour, [set_fate (oil 50 0) 32]. eexists. eexists. split; [vm_compute; reflexivity|]. split; [vm_compute; reflexivity|].
  split; vm_compute; reflexivity.
Qed.
Print Assumptions C22_substeps_refuted.
Example C22_meets : let c := skim1 1800000000 9000000000 in let ls := [[oil 5 0]; [oil 5 0; oil 7 (1#2)]; []; [oil 3 0]] in
  (forall k, (k < length ls)%nat -> ~ within_step (k_a c) (k_b c) hour (0 + Z.of_nat k * hour)) /\
  skim_time c hour 0 ls = Ok 7200000000%Z.
Proof.
  split; [|vm_compute; reflexivity]. intros k Hk [H1 H2]. cbn [length] in Hk.
  change (0 + Z.of_nat k * 3600000000 < 1800000000)%Z in H1. change (9000000000 < 0 + Z.of_nat k * 3600000000 + 3600000000)%Z in H2. lia.
Qed.

(** ** C23: marking *)

(** A first part of the eligible elements, as long as it must be, unless it is all of them. *)
Theorem C23_marking_partial : forall new m mix l, 0 < m -> (forall e, In e l -> eligible e -> e_fw e < 1) ->
  exists l' v k, update_status new m mix l = Ok l' /\ eligibles l v /\ marked new k l l' /\ (k <= length v)%nat /\
    (m <= sum_of (counted mix) (firstn k v) \/ k = length v) /\
    (forall j, (j < k)%nat -> sum_of (counted mix) (firstn j v) < m).
Proof. exact update_status_ok. Qed.
Print Assumptions C23_marking_partial.
Example C23_meets : update_status f_burn 12 true [oil 4 (1#2); mkEl 4 2 1 9 0 [9] false; oil 3 0; oil 5 0; oil 1 0] =
  Ok [set_fate (oil 4 (1#2)) 16; mkEl 4 2 1 9 0 [9] false; set_fate (oil 3 0) 16; set_fate (oil 5 0) 16; oil 1 0].
Proof. vm_compute. reflexivity. Qed.

(** To remove nothing, one element is marked. *)
Theorem C23_zero_refuted : exists new mix l l', update_status new 0 mix l = Ok l' /\ exists v, eligibles l v /\ marked new 1 l l' /\ l <> l' /\
  0 <= sum_of (counted mix) (firstn 0 v).
Proof.
  exists f_burn, true, [oil 5 0], [set_fate (oil 5 0) 16]. split; [vm_compute; reflexivity|].
  exists [oil 5 0]. assert (E : eligible (oil 5 0)) by (split; reflexivity).
  split; [apply el_yes; [exact E|constructor]|]. split; [apply mk_yes; [exact E|constructor]|]. split; [discriminate|]. cbn. lra.
Qed.
Print Assumptions C23_zero_refuted.

(** Burning and dispersion mark no more once something is marked. *)
Theorem C23_burn_once : forall c s dt t l p, count_fate f_burn l <> 0%nat -> burn_prepare c s dt t l = Ok p -> snd p = l.
Proof.
  intros c s dt t l p Hc. unfold burn_prepare. destruct (is_active _ _ _ _ _); [|intros [= <-]; reflexivity].
  destruct (Qle_bool _ _); [intros [= <-]; reflexivity|].
  destruct (Nat.eqb_spec (count_fate f_burn l) 0); [congruence|]. intros [= <-]. reflexivity.
Qed.
Print Assumptions C23_burn_once.
Theorem C23_disperse_once : forall c rate dt t l p, count_fate f_disp l <> 0%nat -> chem_prepare c rate dt t l = Ok p -> snd p = l.
Proof.
  intros c rt dt t l p Hc. unfold chem_prepare. destruct (is_active _ _ _ _ _); [|intros [= <-]; reflexivity].
  destruct (Nat.eqb_spec (count_fate f_disp l) 0); [congruence|]. intros [= <-]. reflexivity.
Qed.
Print Assumptions C23_disperse_once.
Example C23_once_meets : exists p, burn_prepare (mkBurn true 0 100 (1#100) 900 (Some 1)) (mkBst hour 1) 900000000 0
  [set_fate (oil 5 0) 16; oil 7 0] = Ok p /\ fst (fst (fst p)) = true /\ snd p = [set_fate (oil 5 0) 16; oil 7 0].
Proof. eexists. split; [vm_compute; reflexivity|split; reflexivity]. Qed.
(** What is marked for burning or dispersion covers what was asked for. *)
Theorem C23_burn_marks : forall c s dt t l p ef, b_eff c = Some ef -> count_fate f_burn l = 0%nat ->
  0 < ef * (b_rho c * (b_area c * b_thick c)) -> (forall e, In e l -> eligible e -> e_fw e < 1) ->
  burn_prepare c s dt t l = Ok p -> fst (fst (fst p)) = true ->
  exists v k, eligibles l v /\ marked f_burn k l (snd p) /\
    (ef * (b_rho c * (b_area c * b_thick c)) <= sum_of (counted true) (firstn k v) \/ k = length v) /\
    (forall j, (j < k)%nat -> sum_of (counted true) (firstn j v) < ef * (b_rho c * (b_area c * b_thick c))).
Proof.
  intros c s dt t l p ef He Hc Hm Hw H Ha. unfold burn_prepare in H.
  destruct (is_active _ _ _ _ _); [|injection H as <-; discriminate Ha].
  destruct (Qle_bool _ _); [injection H as <-; discriminate Ha|]. rewrite Hc, He in H. cbn [Nat.eqb] in H.
  destruct (update_status_ok f_burn _ true l Hm Hw) as [l' [v [k [E [H1 [H2 [_ [H4 H5]]]]]]]]. rewrite E in H. cbn [bind] in H.
  destruct (burn_init c _) as [s'|]; [|discriminate]. cbn in H. injection H as <-. exists v, k. cbn [snd]. auto.
Qed.
Print Assumptions C23_burn_marks.
Theorem C23_disperse_marks : forall c rate dt t l p ef, d_eff c = Some ef -> count_fate f_disp l = 0%nat ->
  0 < d_spilled c * d_frac c * ef -> (forall e, In e l -> eligible e -> e_fw e < 1) ->
  chem_prepare c rate dt t l = Ok p -> fst (fst (fst p)) = true ->
  exists v k, eligibles l v /\ marked f_disp k l (snd p) /\
    (d_spilled c * d_frac c * ef <= sum_of e_mass (firstn k v) \/ k = length v) /\
    (forall j, (j < k)%nat -> sum_of e_mass (firstn j v) < d_spilled c * d_frac c * ef).
Proof.
  intros c rt dt t l p ef He Hc Hm Hw H Ha. unfold chem_prepare in H.
  destruct (is_active _ _ _ _ _); [|injection H as <-; discriminate Ha]. rewrite Hc, He in H. cbn [Nat.eqb] in H.
  destruct (update_status_ok f_disp _ false l Hm Hw) as [l' [v [k [E [H1 [H2 [_ [H4 H5]]]]]]]]. rewrite E in H. cbn [bind] in H.
  destruct (_ =? 0)%Z; [discriminate|]. injection H as <-. exists v, k. cbn [snd]. auto.
Qed.
Print Assumptions C23_disperse_marks.
Theorem C23_skim_marks : forall c dt t l p ef, k_eff c = Some ef -> count_fate f_skim l = 0%nat ->
  0 < k_amount c * k_unit c * ef -> (forall e, In e l -> eligible e -> e_fw e < 1) ->
  skim_prepare c dt t l = Ok p -> fst (fst p) = true ->
  exists v k, eligibles l v /\ marked 10 k l (snd p) /\
    (k_amount c * k_unit c * ef <= sum_of (counted true) (firstn k v) \/ k = length v) /\
    (forall j, (j < k)%nat -> sum_of (counted true) (firstn j v) < k_amount c * k_unit c * ef).
Proof.
  intros c dt t l p ef He Hc Hm Hw H Ha. unfold skim_prepare in H.
  destruct (is_active _ _ _ _ _); [|injection H as <-; discriminate Ha]. rewrite Hc, He in H. cbn [Nat.eqb] in H.
  destruct (update_status_ok 10 _ true l Hm Hw) as [l' [v [k [E [H1 [H2 [_ [H4 H5]]]]]]]].
  change (Z.lor f_skim f_surf) with 10%Z in H. rewrite E in H. cbn [bind] in H. injection H as <-. exists v, k. cbn [snd]. auto.
Qed.
Print Assumptions C23_skim_marks.
Example C23_marks_meets :
  (exists p, skim_prepare (skim1 0 hour) 900000000 0 [oil 5 0; oil 4 (1#2); oil 6 0] = Ok p /\ fst (fst p) = true /\
     snd p = [set_fate (oil 5 0) 10; set_fate (oil 4 (1#2)) 10; oil 6 0]) /\
  (exists p, chem_prepare (mkChem true 0 hour (1#2) (Some 1) 20) None 900000000 0 [oil 5 0; oil 4 (1#2); oil 6 0; oil 1 0] = Ok p /\
     fst (fst (fst p)) = true /\ snd p = [set_fate (oil 5 0) 32; set_fate (oil 4 (1#2)) 32; set_fate (oil 6 0) 32; oil 1 0]) /\
  (exists p, burn_prepare (mkBurn true 0 1 (1#100) 900 (Some 1)) (mkBst hour 0) 900000000 0 [oil 5 0; oil 4 (1#2); oil 6 0] = Ok p /\
     fst (fst (fst p)) = true /\ snd p = [set_fate (oil 5 0) 16; set_fate (oil 4 (1#2)) 16; oil 6 0]).
Proof.
  split; [eexists; split; [vm_compute; reflexivity|split; reflexivity]|].
  split; eexists; (split; [vm_compute; reflexivity|split; reflexivity]).
Qed.

(** The skimmer marks again at each step: the first element, skimmed by half, does
    not cover the amount any more, so the second is marked too. *)
Theorem C23_skimmer_again_refuted : exists c rate dt t l l1 l2 l3, skim_rate c = Ok rate /\
  skim_prepare c dt t l = Ok (true, dt, l1) /\
  (exists b, skim_weather c rate true true dt l1 = Ok (l2, b)) /\
  skim_prepare c dt (t + dt) l2 = Ok (true, dt, l3) /\
  (exists e e', l1 = [e; e'] /\ e_fate e = 10%Z /\ e_fate e' = 2%Z) /\ l3 <> l2 /\
  (exists e e', l3 = [e; e'] /\ e_fate e = 10%Z /\ e_fate e' = 10%Z).
Proof.
  exists (skim1 0 7200000000). eexists. exists hour, 0%Z, [oil 10 0; oil 10 0]. eexists. eexists. eexists.
  split; [vm_compute; reflexivity|]. split; [vm_compute; reflexivity|]. split; [eexists; vm_compute; reflexivity|].
  split; [vm_compute; reflexivity|]. split; [eexists; eexists; split; [reflexivity|split; reflexivity]|].
  split; [discriminate|]. eexists; eexists; split; [reflexivity|split; reflexivity].
Qed.
Print Assumptions C23_skimmer_again_refuted.

(** ** C24: removing *)

Theorem C24_skim : forall c rate ts l ef, all_sane l -> k_eff c = Some ef -> 0 <= ef -> 0 <= rate -> 0 <= k_unit c -> (0 <= ts)%Z ->
  exists l' b share, skim_weather c rate true true ts l = Ok (l', b) /\
    removes f_skim (rate * share * sec ts * k_unit c * ef) l l' b /\
    0 <= share <= 1 /\ share * available f_skim l == sum_of (fun e => dry f_skim e) l.
Proof.
  intros c rate ts l ef Hs He Hef Hr Hu Ht. destruct (skim_weather_ok c rate ts l ef Hs He Hef Hr Hu Ht) as [l' [b [H1 H2]]].
  exists l', b, (avg_frac_oil (view f_skim l)). split; auto. split; auto. split; [apply avg_bounds; auto|apply avg_share].
Qed.
Print Assumptions C24_skim.
Theorem C24_burn : forall c s ts l ef, all_sane l -> b_eff c = Some ef -> 0 <= ef -> 0 <= bs_rate s -> 0 <= b_rho c -> (0 <= ts)%Z ->
  exists l' b, burn_weather c s true true ts l = Ok (l', b) /\
    removes f_burn (b_rho c * (bs_rate s * ef * sec ts)) l l' b.
Proof. exact burn_weather_ok. Qed.
Print Assumptions C24_burn.
Theorem C24_disperse : forall rate ts l, all_sane l -> 0 <= rate -> (0 <= ts)%Z ->
  exists l' b, chem_weather (Some rate) true true ts l = Ok (l', b) /\ removes f_disp (rate * sec ts) l l' b.
Proof. exact chem_weather_ok. Qed.
Print Assumptions C24_disperse.
(** When it is not active, or there is nothing to weather, nothing changes. *)
Theorem C24_inactive : forall c rate s cr ts l w,
  skim_weather c rate false w ts l = Ok (l, 0) /\ skim_weather c rate true false ts l = Ok (l, 0) /\
  (forall b, burn_weather b s false w ts l = Ok (l, 0) /\ burn_weather b s true false ts l = Ok (l, 0)) /\
  chem_weather cr false w ts l = Ok (l, 0) /\ chem_weather cr true false ts l = Ok (l, 0).
Proof.
  intros c rate s cr ts l w. unfold skim_weather, burn_weather, chem_weather. cbn [negb orb]. rewrite !orb_true_r. auto.
Qed.
Print Assumptions C24_inactive.
Example C24_meets : let l := [mkEl 10 2 0 6 (1#2) [2; 4] false; mkEl 2 2 0 5 0 [5] false; mkEl 10 2 0 2 0 [1; 1] false] in
  all_sane l /\ (exists l' b, skim_weather (skim1 0 hour) (1 # 360) true true 900000000 l = Ok (l', b) /\ b == 25 # 16 /\
    available f_skim l == 8).
Proof.
  split.
  - intros e [<-|[<-|[<-|[]]]]; (split; [repeat (apply Forall_cons; [cbn; lra|]); apply Forall_nil|split; [reflexivity|cbn; lra]]).
  - eexists. eexists. split; [vm_compute; reflexivity|]. split; reflexivity.
Qed.

(** Without an efficiency (one to be found from the wind) nothing can be marked. *)
Theorem C24_none_efficiency_refuted : exists c s dt t l, b_eff c = None /\ burn_prepare c s dt t l = Raise TypeErr.
Proof.
  exists (mkBurn true 0 100 (1#100) 900 None), (mkBst hour 0), 900000000%Z, 0%Z, [oil 5 0]. split; vm_compute; reflexivity.
Qed.
Print Assumptions C24_none_efficiency_refuted.
(** The second of two dispersions finds elements marked by the first: it gets no rate. *)
Theorem C24_two_dispersions_refuted : exists c1 c2 dt t l l1 r1 l2 r2, l <> [] /\
  chem_prepare c1 None dt t l = Ok (true, dt, r1, l1) /\ chem_prepare c2 None dt t l1 = Ok (true, dt, r2, l2) /\
  (exists p, chem_weather r1 true true dt l2 = Ok p /\ chem_weather r2 true true dt (fst p) = Raise TypeErr).
Proof.
  exists (mkChem true 0 hour (1#2) (Some 1) 20), (mkChem true 0 hour (1#4) (Some 1) 20), 900000000%Z, 0%Z, [oil 5 0; oil 15 0].
  eexists. eexists. eexists. eexists. split; [discriminate|]. split; [vm_compute; reflexivity|]. split; [vm_compute; reflexivity|].
  eexists. split; vm_compute; reflexivity.
Qed.
Print Assumptions C24_two_dispersions_refuted.

(** ** C78: efficiencies *)

(** From an accepted number on, an efficiency is a fraction unless None is set;
    a number out of range leaves it as it is. *)
Theorem C78_partial : forall first before v vs, acceptable v -> (forall w, In w vs -> w <> None) ->
  exists q, eff_run first (before ++ v :: vs) = ENum q /\ 0 <= q <= 1.
Proof.
  intros first before v vs Ha Hv. unfold eff_run. rewrite fold_left_app. cbn [fold_left]. apply eff_keep; auto.
  destruct v as [x|]; [|destruct Ha]. cbn in Ha. exists x. unfold set_eff.
  destruct (Qle_bool_spec 0 x), (Qle_bool_spec x 1); try lra. cbn. split; auto.
Qed.
Print Assumptions C78_partial.
Theorem C78_last : forall first before x vs, 0 <= x <= 1 -> (forall w, In w vs -> w <> None /\ ~ acceptable w) ->
  eff_run first (before ++ Some x :: vs) = ENum x.
Proof.
  intros first before x vs Hx Hv. unfold eff_run. rewrite fold_left_app. cbn [fold_left].
  assert (E : forall o, set_eff o (Some x) = ENum x).
  { intros o. unfold set_eff. destruct (Qle_bool_spec 0 x), (Qle_bool_spec x 1); try lra. reflexivity. }
  rewrite E. apply eff_refused; auto. discriminate.
Qed.
Print Assumptions C78_last.
Example C78_meets : eff_run None [Some 3; None; Some (1#2); Some (-1); Some (7#5)] = ENum (1#2).
Proof. reflexivity. Qed.
(** A number out of range given to the constructor, or after None, is not a number. *)
Theorem C78_refuted : (exists v, ~ acceptable (Some v) /\ eff_run (Some v) [] = ENan) /\
  (exists v, eff_run (Some 1) [None; Some v] = ENan).
Proof. split; [exists (3#2); split; [intros [_ H]; vm_compute in H; apply H; reflexivity|reflexivity]|exists (-1); reflexivity]. Qed.
Print Assumptions C78_refuted.

(** ** C79: totals of a run *)

(** Skimming takes no more than its amount times its efficiency. *)
Theorem C79_skim_partial : forall c rate ef dt t ls x, (0 < dt)%Z -> (k_a c <= k_b c)%Z -> k_on c = true -> k_eff c = Some ef ->
  0 <= ef -> 0 <= k_amount c -> 0 <= k_unit c -> skim_rate c = Ok rate ->
  (forall k, (k < length ls)%nat -> ~ within_step (k_a c) (k_b c) dt (t + Z.of_nat k * dt)) ->
  (forall l m, In (l, m) ls -> all_sane m) -> skim_run c rate dt t ls = Ok x ->
  0 <= x /\ x <= k_amount c * k_unit c * ef.
Proof.
  intros c rate ef dt t ls x Hd Hab Hon He Hef Hq Hu Hr Hw Hs H. unfold skim_rate in Hr.
  destruct (Z.eqb_spec (k_b c - k_a c) 0) as [|Hne]; [discriminate|]. injection Hr as <-.
  assert (Hp : 0 < sec (k_b c - k_a c)) by (apply sec_pos; lia).
  assert (HR : 0 <= k_amount c / sec (k_b c - k_a c)) by (apply Qle_shift_div_l; lra).
  destruct (skim_run_le c _ ef dt Hd Hon He Hef HR Hu ls t x Hs H) as [H1 H2]. split; auto.
  eapply Qle_trans; [exact H2|]. rewrite op_time_overlap by auto.
  assert (Hle : sec (overlap (k_a c) (k_b c) t (t + Z.of_nat (length ls) * dt)) <= sec (k_b c - k_a c)) by (apply sec_le; unfold overlap; lia).
  set (o := sec (overlap _ _ _ _)) in *. set (w := sec (k_b c - k_a c)) in *.
  assert (E : k_amount c * k_unit c * ef == k_amount c / w * w * k_unit c * ef) by (field; lra).
  rewrite E. assert (0 <= k_amount c / w * (w - o) * k_unit c * ef) by qpos. lra.
Qed.
Print Assumptions C79_skim_partial.
(** It takes just that if the window is in the run and there is always enough oil without water. *)
Theorem C79_skim_exact : forall c rate ef dt t ls x, (0 < dt)%Z -> (k_a c <= k_b c)%Z -> k_on c = true -> k_eff c = Some ef ->
  0 <= ef -> 0 <= k_amount c -> 0 <= k_unit c -> skim_rate c = Ok rate ->
  (forall k, (k < length ls)%nat -> ~ within_step (k_a c) (k_b c) dt (t + Z.of_nat k * dt)) ->
  (t <= k_a c)%Z -> (k_b c <= t + Z.of_nat (length ls) * dt)%Z ->
  (forall l m, In (l, m) ls -> all_sane m /\ (forall e, In e m -> e_fw e == 0) /\ k_amount c * k_unit c * ef <= available f_skim m) ->
  skim_run c rate dt t ls = Ok x -> x == k_amount c * k_unit c * ef.
Proof.
  intros c rate ef dt t ls x Hd Hab Hon He Hef Hq Hu Hr Hw Ha Hb Hs H. unfold skim_rate in Hr.
  destruct (Z.eqb_spec (k_b c - k_a c) 0) as [|Hne]; [discriminate|]. injection Hr as <-.
  assert (Hp : 0 < sec (k_b c - k_a c)) by (apply sec_pos; lia).
  assert (HR : 0 <= k_amount c / sec (k_b c - k_a c)) by (apply Qle_shift_div_l; lra).
  assert (E : k_amount c / sec (k_b c - k_a c) * sec (k_b c - k_a c) * k_unit c * ef == k_amount c * k_unit c * ef) by (field; lra).
  rewrite (skim_run_eq c (k_amount c / sec (k_b c - k_a c)) ef dt (k_amount c * k_unit c * ef) Hd Hab Hon He Hef HR Hu) with (ls := ls) (t := t); auto.
  - rewrite op_time_overlap by auto.
    replace (overlap (k_a c) (k_b c) t (t + Z.of_nat (length ls) * dt)) with (k_b c - k_a c)%Z by (unfold overlap; lia). exact E.
  - rewrite E. apply Qle_refl.
Qed.
Print Assumptions C79_skim_exact.
Example C79_skim_meets : let c := skim1 1800000000 9000000000 in let m := [mkEl 10 2 0 6 0 [2; 4] false; mkEl 10 2 0 5 0 [5] false] in
  available f_skim m == 11 /\
  exists rate x, skim_rate c = Ok rate /\ skim_run c rate hour 0 [(m, m); (m, m); (m, m)] = Ok x /\ x == 10.
Proof. split; [reflexivity|]. eexists. eexists. split; [vm_compute; reflexivity|]. split; [vm_compute; reflexivity|reflexivity]. Qed.
(** If the window is within a step, it takes more. *)
Theorem C79_skim_refuted : exists c rate dt t ls x, (0 < dt)%Z /\ (k_a c <= k_b c)%Z /\ k_on c = true /\ k_eff c = Some 1 /\
  skim_rate c = Ok rate /\ (forall l m, In (l, m) ls -> all_sane m) /\ skim_run c rate dt t ls = Ok x /\ k_amount c * k_unit c < x.
Proof.
  exists (skim1 900000000 2700000000). eexists. exists hour, 0%Z, [([oil 20 0], [set_fate (oil 20 0) 10])]. eexists.
  split; [reflexivity|]. split; [vm_compute; discriminate|]. split; [reflexivity|]. split; [reflexivity|]. split; [reflexivity|].
  split; [|split; [vm_compute; reflexivity|vm_compute; reflexivity]].
  intros l m [[= <- <-]|[]] e [<-|[]]. split; [repeat constructor; cbn; lra|]. split; [reflexivity|cbn; lra].
Qed.
Print Assumptions C79_skim_refuted.

(** Dispersion: the fraction of the spilled mass times the efficiency. *)
Theorem C79_disperse_partial : forall c ef dt t ls x, (0 < dt)%Z -> (d_a c < d_b c)%Z -> d_on c = true -> d_eff c = Some ef ->
  0 <= ef -> 0 <= d_spilled c -> 0 <= d_frac c ->
  (forall k, (k < length ls)%nat -> ~ within_step (d_a c) (d_b c) dt (t + Z.of_nat k * dt)) ->
  (forall l m, In (l, m) ls -> all_sane m) -> chem_run c None dt t ls = Ok x ->
  0 <= x /\ x <= d_spilled c * d_frac c * ef.
Proof.
  intros c ef dt t ls x Hd Hab Hon He Hef Hq Hf Hw Hs H.
  assert (Hp : 0 < sec (d_b c - d_a c)) by (apply sec_pos; lia).
  assert (Hn : 0 <= d_spilled c * d_frac c * ef) by qpos.
  assert (HR : 0 <= d_spilled c * d_frac c * ef / sec (d_b c - d_a c)) by (apply Qle_shift_div_l; lra).
  destruct (chem_run_le c ef dt _ Hd Hon He eq_refl HR ls None t x (or_introl eq_refl) Hs H) as [H1 H2]. split; auto.
  eapply Qle_trans; [exact H2|]. rewrite op_time_overlap; auto; [|lia].
  assert (Hle : sec (overlap (d_a c) (d_b c) t (t + Z.of_nat (length ls) * dt)) <= sec (d_b c - d_a c)) by (apply sec_le; unfold overlap; lia).
  set (o := sec (overlap _ _ _ _)) in *. set (w := sec (d_b c - d_a c)) in *.
  assert (E : d_spilled c * d_frac c * ef == d_spilled c * d_frac c * ef / w * w) by (field; lra).
  assert (0 <= d_spilled c * d_frac c * ef / w * (w - o)) by qpos. lra.
Qed.
Print Assumptions C79_disperse_partial.
Example C79_disperse_meets : let c := mkChem true 0 hour (1#2) (Some 1) 20 in
  let l := [oil 5 0; oil 15 0] in let m := map (fun e => set_fate e 32) l in
  exists x, chem_run c None 2700000000 0 [(l, m); (m, m); (m, m)] = Ok x /\ x == 10.
Proof. eexists. split; [vm_compute; reflexivity|reflexivity]. Qed.

(** Burning, once something is marked: the rate of the burn for the time it burns. *)
Theorem C79_burn_partial : forall c s ef dt t ls x, (0 < dt)%Z -> b_on c = true -> b_eff c = Some ef -> 0 <= ef -> 0 <= bs_rate s -> 0 <= b_rho c ->
  2 # 1000 < b_thick c -> (b_start c <= bs_end s)%Z ->
  (forall k, (k < length ls)%nat -> ~ within_step (b_start c) (bs_end s) dt (t + Z.of_nat k * dt)) ->
  (forall l m, In (l, m) ls -> count_fate f_burn l <> 0%nat /\ all_sane m) -> burn_run c s dt t ls = Ok x ->
  0 <= x /\ x <= b_rho c * (bs_rate s * ef * sec (overlap (b_start c) (bs_end s) t (t + Z.of_nat (length ls) * dt))).
Proof.
  intros c s ef dt t ls x Hd Hon He Hef HR Hrho Hth Hab Hw Hs H.
  destruct (burn_run_le c s ef dt Hd Hon He Hef HR Hrho Hth ls t x Hs H) as [H1 H2]. split; auto.
  rewrite op_time_overlap in H2 by auto. exact H2.
Qed.
Print Assumptions C79_burn_partial.
(** The time is set so that the oil thicker than 2 mm burns (to the half microsecond). *)
Theorem C79_burn_volume : forall c f s, 0 < f -> burn_init c f = Ok s ->
  Qabs (bs_rate s * sec (bs_end s - b_start c) - f * b_area c * (b_thick c - (2 # 1000))) <= Qabs (bs_rate s) * (5 # 10000000).
Proof. exact burn_volume. Qed.
Print Assumptions C79_burn_volume.
Example C79_burn_meets : let c := mkBurn true 0 10 (1#100) 900 (Some 1) in exists s, burn_init c 1 = Ok s /\ (b_start c < bs_end s)%Z /\
  let l := [set_fate (oil 500 0) 16] in exists x, burn_run c s 60000000 0 [(l, l); (l, l); (l, l)] = Ok x /\ 71 < x /\ x < 72.
Proof.
  eexists. split; [vm_compute; reflexivity|]. split; [reflexivity|].
  eexists. split; [vm_compute; reflexivity|]. split; vm_compute; reflexivity.
Qed.

(** ** C80: fates *)

(** The fate follows the substance, the status and the depth; nothing else changes. *)
Theorem C80_fate : forall e, fate_of e (e_fate (update_fate e)) /\ update_fate e = set_fate e (e_fate (update_fate e)).
Proof. exact update_fate_ok. Qed.
Print Assumptions C80_fate.
(** The rule leaves no choice. *)
Theorem C80_deterministic : forall e x y, fate_of e x -> fate_of e y -> x = y.
Proof. exact fate_of_det. Qed.
Print Assumptions C80_deterministic.
Theorem C80_idempotent : forall e, update_fate (update_fate e) = update_fate e.
Proof.
  intros e. destruct (update_fate_ok e) as [H1 H2]. destruct (update_fate_ok (update_fate e)) as [H3 H4].
  rewrite H4. rewrite H2 in H3 at 1.
  assert (E : e_fate (update_fate (update_fate e)) = e_fate (update_fate e)).
  { revert H3. generalize (e_fate (update_fate (update_fate e))). intros z H3. destruct H1, H3; cbn in *; try congruence;
      unfold s_on_land, s_in_water, cleaned in *; cbn in *; try congruence; try lia; try tauto; try lra. }
  rewrite E. destruct (update_fate e). reflexivity.
Qed.
Print Assumptions C80_idempotent.
Example C80_meets : map (fun e => e_fate (update_fate e))
  [mkEl 1 2 0 5 0 [5] false; mkEl 2 2 3 5 0 [5] false; mkEl 10 2 0 5 0 [5] false; mkEl 10 3 0 5 0 [5] false; mkEl 2 2 0 5 0 [5] true; mkEl 4 7 0 5 0 [5] false] =
  [2; 4; 10; 1; 1; 4]%Z.
Proof. reflexivity. Qed.
