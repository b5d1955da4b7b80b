(** * Properties of spills: C193 to C199 *)

From Coq Require Import ZArith List Bool Lia QArith Lqa Qpower.
From Verif Require Import Py SplModel SplSpec SplProofs.
Import ListNotations.
Open Scope Z_scope.

(** A script: a substance of density 800, a release of 10 elements per step with a mass, a spill of 5 cubic metres of
    it, a spill of the helper with the substance and a windage, a spill of nothing given. *)
Definition example : list op :=
  [NewSub 800 None None; NewRel None (Some 10) 77; NewSpill (Some 0%nat) (Some 0%nat) (Some 50) 5 (Volume 1) (1 # 2);
   Helper (Some 0%nat) (Some 20) 3 (Mass 1000) (Some [(2 # 100)%Q; (3 # 100)%Q]) (Some Infinite);
   NewSpill None None (Some 7) 2 (Mass 1) 0].
Definition eworld : world := run start example.

Example example_sensible : Forall sensible example.
Proof. repeat constructor. Qed.
Example eworld_scripted : scripted eworld.
Proof. exists example. split; [exact example_sensible|reflexivity]. Qed.

(** ** C193: the amount of a spill is the amount it was given *)

(** Setting an amount that is not negative works; it is what the spill reports; the mass of the release is that
    amount in kilograms. *)
Theorem C193_given : forall w i a, scripted w -> (i < length (w_spills w))%nat -> (0 <= a)%Q ->
  exists w', step w (SetAmount i a) = (w', None) /\ reads w' i a /\
    exists u d kg, in_units w' i u /\ has_density w' i d /\ weighs w' i kg /\ kilograms u d a kg.
Proof.
  intros w i a W L A. destruct (step_amount w i a (wf_scripted w W) L A) as (w' & B & _ & C). exists w'. auto.
Qed.
Print Assumptions C193_given.

(** A spill made with an amount, by the class or by a helper, reports that amount in the units given. *)
Theorem C193_made : forall w o w' a u, scripted w -> sensible o -> step w o = (w', None) ->
  (exists sub rel num sc, o = NewSpill sub rel num a u sc) \/ (exists sub num rg p, o = Helper sub num a u rg p) ->
  reads w' (length (w_spills w)) a /\ in_units w' (length (w_spills w)) u /\
  length (w_spills w') = S (length (w_spills w)) /\
  exists d kg, has_density w' (length (w_spills w)) d /\ weighs w' (length (w_spills w)) kg /\ kilograms u d a kg.
Proof.
  intros w o w' a u SC SE ST H. pose proof (wf_scripted w SC) as W.
  pose proof (wf_step w o W SE) as W'. rewrite ST in W'. cbn [fst] in W'.
  destruct H as [(sub & rel & num & sc & ->)|(sub & num & rg & p & ->)]; cbn [step sensible] in *.
  - destruct (make_spill w sub rel num a u sc) as [w1 [p|e]] eqn:MK; [|discriminate]. cbn [add_spill] in ST.
    injection ST as <-. apply made in MK; auto.
    destruct MK as (M1 & M2 & M3 & M4 & _ & M5 & M6 & r & s & ER & ES & KG & _).
    assert (E : nth_error (w_spills w1 ++ [p]) (length (w_spills w)) = Some p) by (rewrite <- M1; apply nth_app_new).
    rewrite <- M3 in KG. split; [eapply reads_of_mass; eauto|]. split; [exists p; auto|].
    split; [cbn; rewrite app_length, M1; cbn; lia|].
    exists (s_density s), (l_mass r). split; [exists p, s; auto|]. split; [exists p, r; repeat split; auto; reflexivity|]. congruence.
  - destruct (helper_spill w sub num a u rg p) as [w1 [q|e]] eqn:MK; [|discriminate]. cbn [add_spill] in ST.
    injection ST as <-. apply helper_made in MK; auto.
    destruct MK as (M1 & M3 & M4 & M5 & M6 & r & s & s0 & ER & ES & KG & _).
    assert (E : nth_error (w_spills w1 ++ [q]) (length (w_spills w)) = Some q) by (rewrite <- M1; apply nth_app_new).
    rewrite <- M3 in KG. split; [eapply reads_of_mass; eauto|]. split; [exists q; auto|].
    split; [cbn; rewrite app_length, M1; cbn; lia|].
    exists (s_density s), (l_mass r). split; [exists q, s; auto|]. split; [exists q, r; repeat split; auto; reflexivity|]. congruence.
Qed.
Print Assumptions C193_made.

(** Making it works for an amount that is not negative in units of mass or volume, of a substance and a release that
    exist. *)
Theorem C193_makes : forall w sub rel num a u sc, scripted w -> (0 <= a)%Q -> sized u -> u <> OtherUnit ->
  (forall k, sub = Some k -> (k < length (w_subs w))%nat) -> (forall j, rel = Some j -> (j < length (w_rels w))%nat) ->
  (rel = None -> forall n, num = Some n -> 0 <= n) ->
  exists w', step w (NewSpill sub rel num a u sc) = (w', None).
Proof.
  intros w sub rel num a u sc SC A SZ NO SK RK NK. cbn [step].
  destruct (make_ok w sub rel num a u sc (wf_scripted w SC)) as (w' & p & ->).
  - destruct u; cbn in *; auto.
  - exact A.
  - destruct sub; auto.
  - destruct rel; auto. destruct num; auto.
  - eexists; reflexivity.
Qed.
Print Assumptions C193_makes.

(** It stays what it was, whatever else is done, as long as its release is its own and no operation concerns it. *)
Theorem C193_kept_partial : forall w i j a ops, scripted w -> own_release w i -> release_of w i j -> reads w i a ->
  Forall (fun o => ~ concerns_amount i j o) ops -> reads (run w ops) i a.
Proof. intros w i j a ops W. apply kept. now apply wf_scripted. Qed.
Print Assumptions C193_kept_partial.

(** Two spills of one release share its mass: setting the amount of one changes what the other reports. *)
Theorem C193_shared_refuted : ~ (forall w i i' a b, scripted w -> (i' < length (w_spills w))%nat -> i <> i' -> (0 <= b)%Q ->
  reads w i a -> reads (fst (step w (SetAmount i' b))) i a).
Proof.
  intros H.
  pose (ops := [NewRel (Some 10) None 0; NewSpill None (Some 0%nat) None 5 (Mass 1) 0; NewSpill None (Some 0%nat) None 5 (Mass 1) 0]).
  assert (W : scripted (run start ops)) by (exists ops; split; [repeat constructor|reflexivity]).
  assert (R : reads (run start ops) 0 5) by (eexists; split; [reflexivity|reflexivity]).
  destruct (H (run start ops) 0%nat 1%nat 5%Q 9%Q W) as (x & A & B); auto; try (cbn; lia); try discriminate.
  vm_compute in A. injection A as <-. discriminate.
Qed.
Print Assumptions C193_shared_refuted.

(** A negative amount is refused and nothing changes. *)
Theorem C193_negative : forall w i a, scripted w -> (i < length (w_spills w))%nat -> (a < 0)%Q ->
  step w (SetAmount i a) = (w, Some ValueErr).
Proof. intros w i a W. apply step_negative. now apply wf_scripted. Qed.
Print Assumptions C193_negative.

Example C193_meets : (0 < length (w_spills eworld))%nat /\ own_release eworld 0 /\ release_of eworld 0 0 /\ reads eworld 0 5 /\
  weighs eworld 0 4000 /\ reads eworld 1 3 /\ weighs eworld 1 3000 /\
  Forall (fun o => ~ concerns_amount 0 0 o) [SetAmount 1 4; SetUnits 1 (Volume 1); SetNum 0 (Some 3); SetScale 0 1].
Proof.
  split; [cbn; lia|]. split.
  { intros p E i' p' N E'. destruct i' as [|[|[|i']]]; [lia| | |destruct i'; discriminate];
      cbn in E, E'; injection E as <-; injection E' as <-; discriminate. }
  split; [eexists; split; reflexivity|]. split; [eexists; split; reflexivity|].
  split; [eexists _, _; repeat split; reflexivity|]. split; [eexists; split; reflexivity|].
  split; [eexists _, _; repeat split; reflexivity|]. repeat constructor; cbn; auto.
Qed.

(** ** C194: changing the units keeps the mass *)

Theorem C194_kept : forall w i u, scripted w -> (i < length (w_spills w))%nat -> sized u -> u <> OtherUnit ->
  exists w', step w (SetUnits i u) = (w', None) /\ in_units w' i u /\
    (forall kg, weighs w i kg <-> weighs w' i kg) /\
    (forall d kg, has_density w i d -> weighs w i kg -> exists a, reads w' i a /\ kilograms u d a kg).
Proof.
  intros w i u SC L SZ NO. pose proof (wf_scripted w SC) as W.
  destruct (nth_error (w_spills w) i) as [p|] eqn:E; [|apply nth_error_None in E; lia].
  assert (CU : check_units u = Ok u) by (destruct u; cbn in *; auto; now elim NO).
  pose proof (wf_step w (SetUnits i u) W SZ) as W'.
  cbn [step] in *. rewrite E, CU in *. cbn [fst] in W'.
  set (p' := mkSpill (p_release p) (p_sub p) u (p_scale p)) in *.
  assert (E' : nth_error (w_spills (put_spill w i p')) i = Some p') by (cbn; eapply upd_same; eauto).
  eexists. split; [reflexivity|]. split; [exists p'; auto|]. split.
  - intros kg. split; intros (q & r & A & B & C).
    + assert (q = p) by congruence. subst q. exists p', r. auto.
    + assert (q = p') by congruence. subst q. exists p, r. auto.
  - intros d kg (q & s & A & B & <-) (q' & r & A' & B' & C').
    assert (q = p) by congruence. assert (q' = p) by congruence. subst q q'.
    destruct (amount_kg _ i p' W' E' r s B' B) as (a & R1 & R2). exists a. split.
    + exists a. split; [exact R1|reflexivity].
    + eapply kg_eq; eauto.
Qed.
Print Assumptions C194_kept.

(** To other units and back: the same amount. *)
Theorem C194_back : forall w i u u0 a, scripted w -> in_units w i u0 -> sized u -> u <> OtherUnit -> reads w i a ->
  reads (run w [SetUnits i u; SetUnits i u0]) i a.
Proof.
  intros w i u u0 a SC (p & E & <-) SZ NO R. pose proof (wf_scripted w SC) as W.
  assert (CU : check_units u = Ok u) by (destruct u; cbn in *; auto; now elim NO).
  assert (CU0 : check_units (p_units p) = Ok (p_units p)).
  { pose proof (proj2 (proj2 (wf_spill w W _ _ E))) as G. destruct (p_units p); cbn in *; auto. tauto. }
  cbn [run step]. rewrite E, CU. cbn [fst].
  set (p' := mkSpill (p_release p) (p_sub p) u (p_scale p)).
  assert (E' : nth_error (w_spills (put_spill w i p')) i = Some p') by (cbn; eapply upd_same; eauto).
  rewrite E', CU0. cbn [fst].
  assert (E2 : nth_error (w_spills (put_spill (put_spill w i p') i (mkSpill (p_release p') (p_sub p') (p_units p) (p_scale p')))) i
               = Some (mkSpill (p_release p) (p_sub p) (p_units p) (p_scale p))) by (cbn; eapply upd_same; cbn in E'; eauto).
  destruct R as (x & A & B). exists x. split; auto. unfold amount in *. rewrite E2. rewrite E in A. exact A.
Qed.
Print Assumptions C194_back.

(** Units that are neither a mass nor a volume are refused and nothing changes. *)
Theorem C194_refused : forall w i, (i < length (w_spills w))%nat -> step w (SetUnits i OtherUnit) = (w, Some ValueErr).
Proof.
  intros w i L. destruct (nth_error (w_spills w) i) as [p|] eqn:E; [|apply nth_error_None in E; lia].
  cbn [step]. now rewrite E.
Qed.
Print Assumptions C194_refused.

Example C194_meets : has_density eworld 0 800 /\ weighs eworld 0 4000 /\ in_units eworld 0 (Volume 1) /\
  reads (run eworld [SetUnits 0 (Mass 1000)]) 0 4.
Proof.
  split; [eexists _, _; repeat split; reflexivity|]. split; [eexists _, _; repeat split; reflexivity|].
  split; [eexists; split; reflexivity|]. eexists; split; reflexivity.
Qed.

(** ** C195: giving a spill another substance *)

(** The mass is kept: an amount in units of mass is the same, an amount in units of volume is divided by the
    density of the new substance. *)
Theorem C195_mass_partial : forall w i k w', scripted w -> step w (SetSub i k) = (w', None) ->
  (forall kg, weighs w i kg <-> weighs w' i kg) /\ (forall u, in_units w i u <-> in_units w' i u) /\
  (forall m a, in_units w i (Mass m) -> reads w i a -> reads w' i a) /\
  (forall v a d d', in_units w i (Volume v) -> has_density w i d -> has_density w' i d' -> reads w i a -> reads w' i (a * d / d')%Q).
Proof.
  intros w i sub w' SC ST. pose proof (wf_scripted w SC) as W.
  pose proof (wf_step w (SetSub i sub) W Logic.I) as W'. rewrite ST in W'. cbn [fst] in W'.
  cbn [step] in ST. destruct (nth_error (w_spills w) i) as [p|] eqn:E; [|discriminate].
  assert (P1 : w_rels (fst (pick_sub w sub)) = w_rels w /\ w_spills (fst (pick_sub w sub)) = w_spills w)
    by (destruct sub; split; reflexivity).
  destruct (pick_sub w sub) as [w1 k]. cbn [fst] in P1. destruct P1 as [P1 P2].
  destruct (Nat.ltb k (length (w_subs w1))); [|discriminate]. injection ST as <-.
  set (p' := mkSpill (p_release p) k (p_units p) (p_scale p)) in *.
  assert (E' : nth_error (w_spills (put_spill w1 i p')) i = Some p').
  { cbn. rewrite P2. eapply upd_same; eauto. }
  destruct (wf_get w i p W E) as (r & s & ER & ES & GR & GS & GU).
  destruct (wf_get _ i p' W' E') as (r' & s' & ER' & ES' & _ & GS' & _).
  assert (r' = r) by (cbn in ER'; rewrite P1 in ER'; congruence). subst r'.
  split; [|split; [|split]].
  - intros kg. split; intros (q & x & A & B & C).
    + assert (q = p) by congruence. subst q. exists p', x. split; auto. split; auto. cbn. rewrite P1. exact B.
    + assert (q = p') by congruence. subst q. exists p, x. split; auto. split; auto. cbn in B. rewrite P1 in B. exact B.
  - intros u. split; intros (q & A & B).
    + assert (q = p) by congruence. subst q. exists p'. auto.
    + assert (q = p') by congruence. subst q. exists p. auto.
  - intros m a (q & A & B) R. assert (q = p) by congruence. subst q.
    pose proof (mass_of_reads w i p r s a W E ER ES R) as KG. rewrite B in KG.
    eapply reads_of_mass; eauto. cbn [p' p_units]. rewrite B. exact KG.
  - intros v a d d' (q & A & B) (q1 & s1 & A1 & B1 & <-) (q2 & s2 & A2 & B2 & <-) R.
    assert (q = p) by congruence. assert (q1 = p) by congruence. assert (q2 = p') by congruence. subst q q1 q2.
    assert (s1 = s) by congruence. assert (s2 = s') by congruence. subst s1 s2.
    pose proof (mass_of_reads w i p r s a W E ER ES R) as KG. rewrite B in KG.
    eapply reads_of_mass; eauto. cbn [p' p_units]. rewrite B. unfold good_sub in GS'. cbn in KG |- *. rewrite KG. field. lra.
Qed.
Print Assumptions C195_mass_partial.

(** So a volume is not kept: 5 cubic metres of a substance become 4 when the spill is given a denser one. *)
Theorem C195_volume_refuted : ~ (forall w i k w' a, scripted w -> step w (SetSub i k) = (w', None) -> reads w i a -> reads w' i a).
Proof.
  intros H. destruct (H eworld 0%nat None (fst (step eworld (SetSub 0 None))) 5%Q eworld_scripted) as (x & A & B).
  - reflexivity.
  - eexists; split; reflexivity.
  - vm_compute in A. injection A as <-. discriminate.
Qed.
Print Assumptions C195_volume_refuted.

Example C195_meets : exists w', step eworld (SetSub 0 None) = (w', None) /\ in_units eworld 0 (Volume 1) /\
  has_density eworld 0 800 /\ has_density w' 0 1000 /\ reads eworld 0 5 /\ reads w' 0 4.
Proof.
  eexists. split; [reflexivity|]. split; [eexists; split; reflexivity|].
  split; [eexists _, _; repeat split; reflexivity|]. split; [eexists _, _; repeat split; reflexivity|].
  split; eexists; split; reflexivity.
Qed.

(** ** C196: a spill made from a release *)

(** It has the number of elements, or the rate, of the release, whatever number is given beside it. *)
Theorem C196_number : forall w sub j num a u sc w' r, scripted w -> sized u ->
  step w (NewSpill sub (Some j) num a u sc) = (w', None) ->
  nth_error (w_rels w) j = Some r -> one_of (l_num r) (l_per r) ->
  release_of w' (length (w_spills w)) j /\ counts w' (length (w_spills w)) (l_num r) (l_per r).
Proof.
  intros w sub j num a u sc w' r SC SZ ST ER ON. pose proof (wf_scripted w SC) as W. cbn [step] in ST.
  destruct (make_spill w sub (Some j) num a u sc) as [w1 [p|e]] eqn:MK; [|discriminate]. cbn [add_spill] in ST.
  injection ST as <-. apply made in MK; auto.
  destruct MK as (M1 & _ & _ & _ & _ & _ & M6 & r1 & s & ER1 & _ & _ & r0 & r2 & A & B & C & D).
  assert (r0 = r) by congruence. subst r0. destruct (set_num_own _ _ B ON) as [X Y].
  assert (E : nth_error (w_spills w1 ++ [p]) (length (w_spills w)) = Some p) by (rewrite <- M1; apply nth_app_new).
  split; [exists p; auto|]. exists p, r1. cbn. repeat split; auto; congruence.
Qed.
Print Assumptions C196_number.

(** Without a release the spill has the number given; none given is one element per time step. *)
Theorem C196_number_given : forall w sub num a u sc w', scripted w -> sized u ->
  step w (NewSpill sub None num a u sc) = (w', None) ->
  counts w' (length (w_spills w)) num (match num with Some _ => None | None => Some 1 end).
Proof.
  intros w sub num a u sc w' SC SZ ST. pose proof (wf_scripted w SC) as W. cbn [step] in ST.
  destruct (make_spill w sub None num a u sc) as [w1 [p|e]] eqn:MK; [|discriminate]. cbn [add_spill] in ST.
  injection ST as <-. apply made in MK; auto.
  destruct MK as (M1 & _ & _ & _ & _ & _ & M6 & r1 & s & ER1 & _ & _ & r0 & r2 & A & B & C & D).
  assert (E : nth_error (w_spills w1 ++ [p]) (length (w_spills w)) = Some p) by (rewrite <- M1; apply nth_app_new).
  exists p, r1. cbn. split; [exact E|]. split; [exact ER1|].
  destruct num as [n|]; cbn in A, B.
  - destruct (n <? 0); [discriminate|]. injection B as <-. cbn in C, D. auto.
  - injection A as <-. cbn in B. injection B as <-. cbn in C, D. auto.
Qed.
Print Assumptions C196_number_given.

(** Its mass is the amount given, not the mass the release had: a release that was given a mass loses it to the
    default amount of 0. *)
Theorem C196_mass_refuted : ~ (forall w sub j num u sc w' r, scripted w -> sized u ->
  step w (NewSpill sub (Some j) num 0 u sc) = (w', None) -> nth_error (w_rels w) j = Some r ->
  weighs w' (length (w_spills w)) (l_mass r)).
Proof.
  intros H. pose (w := run start [NewRel (Some 10) None 77]).
  assert (W : scripted w) by (exists [NewRel (Some 10) None 77]; split; [repeat constructor|reflexivity]).
  destruct (H w None 0%nat (Some 1000) (Mass 1) 0%Q (fst (step w (NewSpill None (Some 0%nat) (Some 1000) 0 (Mass 1) 0)))
              (mkRel (Some 10) None 77) W) as (p & r & A & B & C); try reflexivity.
  vm_compute in A. injection A as <-. vm_compute in B. injection B as <-. discriminate.
Qed.
Print Assumptions C196_mass_refuted.

(** The mass is always that of the amount given. *)
Theorem C196_mass_partial : forall w sub rel num a u sc w', scripted w -> sized u ->
  step w (NewSpill sub rel num a u sc) = (w', None) ->
  exists d kg, has_density w' (length (w_spills w)) d /\ weighs w' (length (w_spills w)) kg /\ kilograms u d a kg.
Proof.
  intros w sub rel num a u sc w' SC SZ ST.
  destruct (C193_made w (NewSpill sub rel num a u sc) w' a u SC SZ ST) as (_ & _ & _ & H); auto.
  left. eauto.
Qed.
Print Assumptions C196_mass_partial.

Example C196_meets : exists w' r, step (run start [NewRel None (Some 10) 77]) (NewSpill None (Some 0%nat) (Some 50) 5 (Mass 1) 0) = (w', None) /\
  nth_error (w_rels (run start [NewRel None (Some 10) 77])) 0 = Some r /\ one_of (l_num r) (l_per r) /\ counts w' 0 None (Some 10) /\ weighs w' 0 5.
Proof.
  eexists _, _. split; [reflexivity|]. split; [reflexivity|]. split; [right; now exists 10|].
  split; eexists _, _; repeat split; reflexivity.
Qed.

(** ** C197: the uncertainty of the amount *)

(** Shifting the amount multiplies the mass and the amount by 1 + 2/3 of the scale, or 1 - 2/3 of it: between a third and five thirds
    of what it was. *)
Theorem C197_shifted : forall w i p kg a up, scripted w -> nth_error (w_spills w) i = Some p ->
  (0 < p_scale p)%Q -> (p_scale p <= 1)%Q -> weighs w i kg -> reads w i a ->
  exists w' f, shift_amount w i (Some up) = (w', Ok true) /\ step w (Shift i (Some up)) = (w', None) /\
    (f == if up then 1 + (2 # 3) * p_scale p else 1 - (2 # 3) * p_scale p)%Q /\ (1 # 3 <= f)%Q /\ (f <= 5 # 3)%Q /\
    weighs w' i (kg * f)%Q /\ reads w' i (a * f)%Q.
Proof.
  intros w i p kg a up SC E S0 S1 (p' & r & E' & ER & M) R. pose proof (wf_scripted w SC) as W.
  assert (p' = p) by congruence. subst p'.
  destruct (shift_ok w i p r up W E ER S0 S1) as (m & Hm & SH).
  exists (put_rel w (p_release p) (mkRel (l_num r) (l_per r) m)), (factor up (p_scale p)).
  split; [exact SH|]. split; [cbn [step]; now rewrite SH|].
  split; [unfold factor; destruct up; reflexivity|]. split; [unfold factor; destruct up; lra|]. split; [unfold factor; destruct up; lra|].
  assert (ER' : nth_error (w_rels (put_rel w (p_release p) (mkRel (l_num r) (l_per r) m))) (p_release p) = Some (mkRel (l_num r) (l_per r) m))
    by (now apply put_rel_same with (x := r)).
  split.
  - exists p, (mkRel (l_num r) (l_per r) m). split; [exact E|]. split; [exact ER'|]. cbn [l_mass]. rewrite Hm, M. reflexivity.
  - pose proof (wf_step w (Shift i (Some up)) W Logic.I) as W'. cbn [step] in W'. rewrite SH in W'. cbn [fst] in W'.
    destruct (wf_get w i p W E) as (r0 & s & ER0 & ES & _). assert (r0 = r) by congruence. subst r0.
    pose proof (mass_of_reads w i p r s a W E ER ES R) as KG.
    eapply reads_of_mass with (p := p) (s := s); eauto. cbn [l_mass]. eapply kg_eq; [apply kg_scale; exact KG|].
    rewrite Hm. reflexivity.
Qed.
Print Assumptions C197_shifted.

(** Shifts add up: n of them are a power. *)
Theorem C197_times : forall w i p kg n, scripted w -> nth_error (w_spills w) i = Some p ->
  (0 < p_scale p)%Q -> (p_scale p <= 1)%Q -> weighs w i kg ->
  weighs (run w (shifts n i (Some true))) i (kg * (1 + (2 # 3) * p_scale p) ^ Z.of_nat n)%Q /\
  weighs (run w (shifts n i (Some false))) i (kg * (1 - (2 # 3) * p_scale p) ^ Z.of_nat n)%Q.
Proof.
  intros w i p kg n SC E S0 S1 H. pose proof (wf_scripted w SC) as W.
  split; [exact (shifts_weigh n w i p kg true W E S0 S1 H)|exact (shifts_weigh n w i p kg false W E S0 S1 H)].
Qed.
Print Assumptions C197_times.

(** A shift down does not undo a shift up. *)
Theorem C197_back_refuted : ~ (forall w i kg, scripted w -> weighs w i kg ->
  weighs (run w [Shift i (Some true); Shift i (Some false)]) i kg).
Proof.
  intros H. destruct (H eworld 0%nat 4000%Q eworld_scripted) as (p & r & A & B & C).
  - eexists _, _; repeat split; reflexivity.
  - vm_compute in A. injection A as <-. vm_compute in B. injection B as <-. discriminate.
Qed.
Print Assumptions C197_back_refuted.

(** With a scale of 0 or less, of more than 1, or another direction, nothing is done and the answer is False. *)
Theorem C197_off : forall w i p dir, nth_error (w_spills w) i = Some p ->
  ((p_scale p <= 0)%Q \/ (1 < p_scale p)%Q \/ dir = None) ->
  shift_amount w i dir = (w, Ok false) /\ step w (Shift i dir) = (w, None).
Proof.
  intros w i p dir E H. pose proof (shift_off w i p dir E H) as X. split; auto. cbn [step]. now rewrite X.
Qed.
Print Assumptions C197_off.

Example C197_meets : exists p, nth_error (w_spills eworld) 0 = Some p /\ (0 < p_scale p)%Q /\ (p_scale p <= 1)%Q /\ weighs eworld 0 4000 /\
  weighs (run eworld [Shift 0 (Some false)]) 0 (8000 # 3).
Proof.
  eexists. split; [reflexivity|]. split; [reflexivity|]. split; [cbn; discriminate|].
  split; eexists _, _; repeat split; reflexivity.
Qed.

(** ** C198: a release has either a number of elements or a rate *)

(** Of every release of every script that never sets a rate to None, exactly one is set. *)
Theorem C198_one_partial : forall ops, (forall j, ~ In (SetPer j None) ops) ->
  forall j r, nth_error (w_rels (run start ops)) j = Some r -> one_of (l_num r) (l_per r).
Proof.
  intros ops N. apply ones_run; auto. intros j r E. destruct j; discriminate.
Qed.
Print Assumptions C198_one_partial.

(** Setting the rate to None raises a TypeError, and leaves a release that has neither. *)
Theorem C198_one_refuted : ~ (forall ops j r, nth_error (w_rels (run start ops)) j = Some r -> one_of (l_num r) (l_per r)).
Proof.
  intros H. specialize (H [NewRel None (Some 10) 0; SetPer 0 None] 0%nat (mkRel None None 0) eq_refl).
  destruct H as [(n & A & _)|(n & _ & A)]; discriminate.
Qed.
Print Assumptions C198_one_refuted.

(** What the setters do: a number replaces the rate, a rate replaces the number, a negative number is refused; None
    for the number keeps the rate, or makes it 1. *)
Theorem C198_set : forall w j r, nth_error (w_rels w) j = Some r ->
  (forall n, 0 <= n -> exists w' r', step w (SetNum j (Some n)) = (w', None) /\ nth_error (w_rels w') j = Some r' /\
     l_num r' = Some n /\ l_per r' = None /\ l_mass r' = l_mass r) /\
  (forall n, n < 0 -> step w (SetNum j (Some n)) = (w, Some ValueErr)) /\
  (exists w' r', step w (SetNum j None) = (w', None) /\ nth_error (w_rels w') j = Some r' /\ l_num r' = None /\
     (forall n, l_per r = Some n -> l_per r' = Some n) /\ (l_per r = None -> l_per r' = Some 1) /\ l_mass r' = l_mass r) /\
  (forall n, exists w' r', step w (SetPer j (Some n)) = (w', None) /\ nth_error (w_rels w') j = Some r' /\
     l_num r' = None /\ l_per r' = Some n /\ l_mass r' = l_mass r).
Proof.
  intros w j r E. split; [|split; [|split]].
  - intros n N. cbn [step]. rewrite E. cbn [set_num]. destruct (Z.ltb_spec n 0); [lia|].
    eexists _, _. split; [reflexivity|]. split; [now apply put_rel_same with (x := r)|]. auto.
  - intros n N. cbn [step]. rewrite E. cbn [set_num]. destruct (Z.ltb_spec n 0); [|lia]. reflexivity.
  - cbn [step]. rewrite E. cbn [set_num].
    eexists _, _. split; [reflexivity|]. split; [now apply put_rel_same with (x := r)|]. cbn.
    destruct (l_per r); repeat split; auto; discriminate.
  - intros n. cbn [step]. rewrite E. cbn [set_per].
    eexists _, _. split; [reflexivity|]. split; [now apply put_rel_same with (x := r)|]. auto.
Qed.
Print Assumptions C198_set.

(** A negative rate is accepted. *)
Theorem C198_negative_refuted : ~ (forall ops j r n, nth_error (w_rels (run start ops)) j = Some r -> l_per r = Some n -> 0 <= n).
Proof.
  intros H. specialize (H [NewRel None (Some 10) 0; SetPer 0 (Some (-5))] 0%nat (mkRel None (Some (-5)) 0) (-5) eq_refl eq_refl). lia.
Qed.
Print Assumptions C198_negative_refuted.

Example C198_meets : (forall j, ~ In (SetPer j None) example) /\ exists r, nth_error (w_rels eworld) 0 = Some r /\ l_per r = Some 10.
Proof.
  split.
  - intros j I1. cbn in I1. repeat destruct I1 as [I1|I1]; try discriminate; auto.
  - eexists. split; reflexivity.
Qed.

(** ** C199: the windages of a spill *)

(** A spill of a helper has the windages given to the helper; where none is given, those of its substance; and a
    spill without a substance has a new one, with the default windages. *)
Theorem C199_asked : forall w sub num a u rg per w', scripted w -> sized u ->
  step w (Helper sub num a u rg per) = (w', None) ->
  exists r n, has_windage w' (length (w_spills w)) r n /\
    (forall l, rg = Some l -> r = l) /\
    (forall q, per = Some (Seconds q) -> n = q) /\ (per = Some Infinite -> n = -1) /\
    (forall k s, sub = Some k -> nth_error (w_subs w) k = Some s -> substance_of w' (length (w_spills w)) k /\
       (rg = None -> r = s_range s) /\ (per = None -> n = s_persist s)) /\
    (sub = None -> (rg = None -> r = [(1 # 100)%Q; (4 # 100)%Q]) /\ (per = None -> n = 900) /\
       forall i k, (i < length (w_spills w))%nat -> substance_of w' i k -> ~ substance_of w' (length (w_spills w)) k).
Proof.
  intros w sub num a u rg per w' SC SZ ST. pose proof (wf_scripted w SC) as W. cbn [step] in ST.
  destruct (helper_spill w sub num a u rg per) as [w1 [p|e]] eqn:MK; [|discriminate]. cbn [add_spill] in ST.
  injection ST as <-. apply helper_made in MK; auto.
  destruct MK as (M1 & M2 & M3 & _ & _ & r & s & s0 & ER & ES & _ & ES0 & _ & RG & PE & _).
  assert (E : nth_error (w_spills w1 ++ [p]) (length (w_spills w)) = Some p) by (rewrite <- M1; apply nth_app_new).
  exists (s_range s), (s_persist s). split; [exists p, s; auto|].
  split; [intros l ->; exact RG|]. split; [intros q ->; exact PE|]. split; [intros ->; exact PE|]. split.
  - intros k s1 -> F. cbn [pick_sub snd fst] in *. rewrite M3 in ES0. assert (s0 = s1) by congruence. subst s1.
    split; [exists p; auto|]. split; intros ->; auto.
  - intros ->. cbn [pick_sub snd fst] in *. rewrite M3 in ES0. cbn in ES0. rewrite nth_app_new in ES0. injection ES0 as <-.
    split; [intros ->; exact RG|]. split; [intros ->; exact PE|].
    intros i k L (q & A & B) (q' & A' & B'). cbn in A, A'. rewrite E in A'. injection A' as <-.
    rewrite M1 in A. rewrite nth_error_app1 in A by auto.
    destruct (wf_spill w W _ _ A) as (_ & X & _). lia.
Qed.
Print Assumptions C199_asked.

(** The windages of a spill stay as long as nobody sets those of its substance: no setter, no helper that is given
    the same substance with a windage. *)
Theorem C199_kept_partial : forall w i k r n ops, scripted w -> substance_of w i k -> has_windage w i r n ->
  Forall sensible ops -> Forall (fun o => ~ concerns_windage i k o) ops -> has_windage (run w ops) i r n.
Proof.
  intros w i k r n ops SC (p & E & <-) (p' & s & E' & ES & R1 & R2) F F'. pose proof (wf_scripted w SC) as W.
  assert (p' = p) by congruence. subst p'.
  assert (H : V w i (p_sub p) r n) by (split; [exists p; auto|exists s; auto]).
  destruct (V_run _ _ _ _ ops w H W F F') as ((q & A & B) & (s' & C & D1 & D2)).
  exists q, s'. split; [exact A|]. split; [rewrite B; exact C|]. auto.
Qed.
Print Assumptions C199_kept_partial.

(** Two helpers given one substance and two windages: the first spill has the windage of the second. *)
Theorem C199_shared_refuted : ~ (forall w o i r n, scripted w -> sensible o ->
  (exists sub num a u rg per, o = Helper sub num a u rg per) -> has_windage w i r n -> has_windage (fst (step w o)) i r n).
Proof.
  intros H.
  destruct (H eworld (Helper (Some 0%nat) (Some 20) 3 (Mass 1000) (Some [0%Q; 0%Q]) None) 1%nat [(2 # 100)%Q; (3 # 100)%Q] (-1)
              eworld_scripted) as (p & s & A & B & C & D).
  - reflexivity.
  - eauto 10.
  - eexists _, _; repeat split; reflexivity.
  - vm_compute in A. injection A as <-. vm_compute in B. injection B as <-. discriminate.
Qed.
Print Assumptions C199_shared_refuted.

(** A negative windage, a range that is not two numbers and a persistence of 0 are refused. *)
Theorem C199_refused : forall w k s, nth_error (w_subs w) k = Some s ->
  (forall l, bad_range l <-> step w (SetRange k (Some l)) = (w, Some ValueErr)) /\
  (forall p, p = Seconds 0 <-> step w (SetPersist k (Some p)) = (w, Some ValueErr)) /\
  (forall sub num a u l per, bad_range l -> exists e, snd (step w (Helper sub num a u (Some l) per)) = Some e).
Proof.
  intros w k s E.
  assert (B : forall l, bad_range l -> check_range (Some l) = Raise ValueErr).
  { intros l H. unfold check_range. destruct (_ || _) eqn:X; auto. exfalso.
    apply orb_false_iff in X as [X Y]. destruct H as [H|(x & I1 & I2)].
    - apply negb_false_iff in Y. apply Nat.eqb_eq in Y. auto.
    - assert (Z1 : existsb (fun x0 : Q => negb (Qle_bool 0 x0)) l = true).
      { apply existsb_exists. exists x. split; auto. destruct (Qle_bool 0 x) eqn:Q; auto. apply Qle_bool_iff in Q. lra. }
      congruence. }
  split; [|split].
  - intros l. cbn [step]. unfold set_range. rewrite E. split.
    + intros H. now rewrite (B l H).
    + unfold check_range. destruct (_ || _) eqn:X; [|discriminate]. intros _.
      apply orb_true_iff in X as [X|X].
      * right. apply existsb_exists in X as (x & I1 & I2). exists x. split; auto.
        destruct (Qle_bool 0 x) eqn:Q; [discriminate|]. apply Qnot_le_lt. intros H. apply Qle_bool_iff in H. congruence.
      * left. intros L. rewrite L in X. discriminate.
  - intros p. cbn [step]. unfold set_persist. rewrite E. split.
    + intros ->. reflexivity.
    + unfold check_persist. destruct p as [n|]; cbn; [|discriminate]. destruct (Z.eqb_spec n 0); [now subst|discriminate].
  - intros sub num a u l per H. cbn [step]. unfold helper_spill.
    destruct (new_release num None 0) as [r|e]; [|eexists; reflexivity]. rewrite setup_eq.
    destruct (make_spill _ _ _ _ _ _ _) as [w1 [p|e]]; [|eexists; reflexivity]. cbn [opt_range].
    unfold set_range. destruct (nth_error (w_subs w1) (p_sub p)); [|eexists; reflexivity].
    rewrite (B l H). eexists; reflexivity.
Qed.
Print Assumptions C199_refused.

(** A helper works for an amount that is not negative in units of mass or volume, a substance that exists, a number
    of elements that is not negative and windages that are not refused. *)
Theorem C199_makes : forall w sub num a u rg per, scripted w -> (0 <= a)%Q -> sized u -> u <> OtherUnit ->
  (forall k, sub = Some k -> (k < length (w_subs w))%nat) -> (forall n, num = Some n -> 0 <= n) ->
  (forall l, rg = Some l -> ~ bad_range l) -> per <> Some (Seconds 0) ->
  exists w', step w (Helper sub num a u rg per) = (w', None).
Proof.
  intros w sub num a u rg per SC A SZ NO SK NK RK PK. cbn [step].
  destruct (helper_ok w sub num a u rg per (wf_scripted w SC)) as (w' & p & ->); auto.
  - destruct u; cbn in *; auto.
  - destruct sub; auto.
  - destruct num; auto.
  - eexists; reflexivity.
Qed.
Print Assumptions C199_makes.

(** A substance made with windages, or given them, has them; without them, or with None, it has the defaults: one to
    four percent, 900 seconds. *)
Theorem C199_substance : forall w w' k s rg per d,
  (nth_error (w_subs w) k = Some s -> step w (SetRange k rg) = (w', None) ->
     nth_error (w_subs w') k = Some (mkSub (s_density s) (match rg with Some l => l | None => [(1 # 100)%Q; (4 # 100)%Q] end) (s_persist s))) /\
  (nth_error (w_subs w) k = Some s -> step w (SetPersist k per) = (w', None) ->
     nth_error (w_subs w') k = Some (mkSub (s_density s) (s_range s)
       (match per with Some (Seconds n) => n | Some Infinite => -1 | None => 900 end))) /\
  (step w (NewSub d rg per) = (w', None) ->
     nth_error (w_subs w') (length (w_subs w)) = Some (mkSub d (match rg with Some l => l | None => [(1 # 100)%Q; (4 # 100)%Q] end)
       (match per with Some (Seconds n) => n | Some Infinite => -1 | None => 900 end))).
Proof.
  intros w w' k s rg per d.
  assert (R : forall l, check_range rg = Ok l -> l = match rg with Some l => l | None => [(1 # 100)%Q; (4 # 100)%Q] end).
  { intros l. unfold check_range. destruct (_ || _); [discriminate|]. intros H. injection H as <-. destruct rg; reflexivity. }
  assert (P : forall n, check_persist per = Ok n -> n = match per with Some (Seconds n) => n | Some Infinite => -1 | None => 900 end).
  { intros n. unfold check_persist. destruct (_ =? 0); [discriminate|]. intros H. injection H as <-. destruct per as [[]|]; reflexivity. }
  split; [|split].
  - intros E. cbn [step]. unfold set_range. rewrite E. destruct (check_range rg) as [l|] eqn:C; [|discriminate].
    intros H. injection H as <-. cbn [put_sub w_subs]. rewrite <- (R l eq_refl). eapply upd_same. exact E.
  - intros E. cbn [step]. unfold set_persist. rewrite E. destruct (check_persist per) as [l|] eqn:C; [|discriminate].
    intros H. injection H as <-. cbn [put_sub w_subs]. rewrite <- (P l eq_refl). eapply upd_same. exact E.
  - cbn [step]. unfold new_substance. destruct (check_range rg) as [l|] eqn:C; [|discriminate]. cbn [bind].
    destruct (check_persist per) as [n|] eqn:C2; [|discriminate]. cbn. intros H. injection H as <-. cbn [w_subs].
    rewrite <- (R l eq_refl), <- (P n eq_refl). apply nth_app_new.
Qed.
Print Assumptions C199_substance.

Example C199_meets : substance_of eworld 1 0 /\ has_windage eworld 1 [(2 # 100)%Q; (3 # 100)%Q] (-1) /\
  has_windage eworld 2 [(1 # 100)%Q; (4 # 100)%Q] 900 /\
  Forall (fun o => ~ concerns_windage 1 0 o) [Helper None None 1 (Mass 1) (Some [0%Q; 0%Q]) None; Helper (Some 0%nat) None 1 (Mass 1) None None].
Proof.
  split; [eexists; split; reflexivity|]. split; [eexists _, _; repeat split; reflexivity|].
  split; [eexists _, _; repeat split; reflexivity|]. repeat constructor; cbn; tauto.
Qed.
