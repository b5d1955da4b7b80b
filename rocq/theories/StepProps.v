(** * Properties C06 - C10, C64 - C66: the time stepping *)
From Verif Require Import Py PyLemmas QLemmas TimeModel StepModel StepSpec StepProofs.
Open Scope Z_scope.

(** C06. From a rewound model, when no component fails, call number k of step()
    gives step k at time start + k * time_step, while k is below the number of
    steps; every later call raises StopIteration and leaves the model where it
    is.  (Step 0 is always made, also when the number of steps is not
    positive.) *)
Theorem C06_steps_in_order :
  forall F cf m, clean F cf m (eff_ts cf m) -> at_start m ->
  (m_ts m <> None -> m_nts m <> None) ->
  forall calls, exists log m',
    drive F cf calls m =
      (m', log, map (expected (m_start m) (eff_ts cf m) (Z.max 1 (eff_nts cf m))) (zseq 0 calls)) /\
    m_cur m' = Z.min (Z.of_nat calls) (Z.max 1 (eff_nts cf m)) - 1.
Proof. exact drive_run. Qed.
Print Assumptions C06_steps_in_order.

(** full_run() from any state, with rewind, or from the start without: it ends,
    returns all the steps in order, moves once per step after the first, writes
    the output of every step once, and stops at the last step. *)
Theorem C06_full_run :
  forall F cf m0 rew, let m := rewound m0 in
  clean F cf m (eff_ts cf m) -> (m_ts m <> None -> m_nts m <> None) ->
  (rew = false -> at_start m0) ->
  let ts := eff_ts cf m in let n := Z.max 1 (eff_nts cf m) in
  exists fuel, forall fuel', (fuel <= fuel')%nat -> exists m' log,
    full_run F fuel' cf rew m0 =
      ((m', log), Some (Ok (map (fun k => (k, m_start m + k * ts)) (zseq 0 (Z.to_nat n))))) /\
    m_cur m' = n - 1 /\ m_time m' = m_start m + (n - 1) * ts /\
    moves log = map (fun j => (m_start m + j * ts, ts)) (zseq 0 (Z.to_nat (n - 1))) /\
    map fst (outputs log) = map (fun j => (j, m_start m + j * ts)) (zseq 0 (Z.to_nat n)).
Proof. exact full_run_steps. Qed.
Print Assumptions C06_full_run.

Definition hour : Z := 3600 * sec_us.
Definition demo : model := built (5 * hour) (24 * hour) hour false false 2.
Definition demo_cf : config := mkConfig 2 true true 1 true.

Example C06_meets :
  clean no_fault demo_cf demo (eff_ts demo_cf demo) /\ at_start demo /\ eff_nts demo_cf demo = 25 /\
  nth 24 (snd (drive no_fault demo_cf 30 demo)) (Raise KeyErr) = Ok (24, 29 * hour) /\
  nth 25 (snd (drive no_fault demo_cf 30 demo)) (Raise KeyErr) = Raise StopIter.
Proof.
  split; [split; [reflexivity|split; [reflexivity|right; right; cbn; lia]]|].
  split; [split; reflexivity|]. vm_compute. auto.
Qed.

(** C07. The number of steps is [1 + duration // time_step] after any history
    of setters, collection changes and (failing) steps ... *)
Theorem C07_count_kept :
  forall os m, time_ok m -> counted m -> Forall no_zero_step os ->
  Forall keeps_direction os -> counted (run_ops m os).
Proof. exact ops_counted. Qed.
Print Assumptions C07_count_kept.

(** ... and as long as the user gives time steps and durations with the sign of
    the direction of the run (which may be changed at any moment), the last step
    is at the largest multiple of the step within the duration. *)
Theorem C07_steps_cover_duration :
  forall os start dur ts back unc sub,
  let m := built start dur ts back unc sub in
  signs_ok m -> respecting m os ->
  let m' := run_ops m os in
  exists ts' n', m_ts m' = Some ts' /\ m_nts m' = Some n' /\ covers (m_dur m') ts' n'.
Proof. exact history_covers. Qed.
Print Assumptions C07_steps_cover_duration.

(** A model constructed with a time step is one of those. *)
Theorem C07_constructed :
  forall start dur ts unc sub m, ts <> 0 -> 1 <= sub ->
  exists log, construct no_fault start dur (Some ts) false unc sub m =
    ((built start dur ts false unc sub, log), Ok tt).
Proof. exact (fun start dur ts unc sub m H1 H2 => ex_intro _ _ (construct_fwd start dur ts unc sub m H1 H2)). Qed.
Print Assumptions C07_constructed.

(** The signs matter: setting a positive duration on a backward model leaves it
    with a number of steps below one. *)
Theorem C07_wrong_sign_refuted :
  exists m d n, signs_ok m /\ time_ok m /\ counted m /\ 0 < d /\
    m_nts (after_op m (ODuration d)) = Some n /\ n < 1.
Proof.
  exists (built 0 (- (24 * hour)) (- hour) true false 1), (12 * hour), (-11).
  split; [exists (- hour); vm_compute; repeat split; (reflexivity || discriminate)|].
  split; [left; split; reflexivity|]. split; [apply built_ok; unfold hour, sec_us; lia|].
  split; [unfold hour, sec_us; lia|]. split; [vm_compute; reflexivity|lia].
Qed.
Print Assumptions C07_wrong_sign_refuted.

Example C07_meets :
  let os := [OStep no_fault demo_cf; OTimeStep (7 * 60 * sec_us); OBackwards true;
             ODuration (- (10 * hour)); OStep no_fault demo_cf; OBackwards false; OAdd Movers] in
  signs_ok demo /\ respecting demo os /\ m_nts (run_ops demo os) = Some 86 /\ m_ts (run_ops demo os) = Some (420 * sec_us) /\
  m_dur (run_ops demo os) = 10 * hour.
Proof.
  split; [exists hour; vm_compute; repeat split; (reflexivity || discriminate)|]. split; [|vm_compute; auto].
  repeat split; vm_compute; auto; discriminate.
Qed.

(** C08. Switching the direction of a model whose signs agree with it gives the
    mirrored run: the same number of steps, each at the mirrored time; the
    mirror works in both directions. *)
Theorem C08_mirrored_partial :
  forall F cf m b, time_ok m -> counted m -> signs_ok m -> b <> m_back m ->
  clean F cf m (eff_ts cf m) -> clean F cf m (- eff_ts cf m) ->
  let m' := after_op m (OBackwards b) in
  m_nts m' = m_nts m /\ m_dur m' = - m_dur m /\ m_start m' = m_start m /\ at_start m' /\
  forall c, snd (drive F cf c m') = map (mirror (m_start m)) (snd (drive F cf c (rewound m))).
Proof. exact mirrored_run. Qed.
Print Assumptions C08_mirrored_partial.

(** Constructing with run_backwards=True and positive magnitudes gives the
    model that switching gives. *)
Theorem C08_constructed_partial :
  forall start dur ts unc sub m, 0 < ts -> 0 <= dur -> 1 <= sub ->
  exists log, construct no_fault start dur (Some ts) true unc sub m =
    ((after_op (built start dur ts false unc sub) (OBackwards true), log), Ok tt).
Proof. exact constructed_as_switched. Qed.
Print Assumptions C08_constructed_partial.

(** Missing: the other signs.  The number of steps is then stale: a run of one
    day backwards with hourly steps, given as time_step=-3600, stops after its
    first step; and a model without a time step gets a positive one. *)
Theorem C08_mirror_refuted :
  (exists m, construct no_fault 0 (24 * hour) (Some (- hour)) true false 1 blank = (m, Ok tt) /\
     m_dur (fst m) = - (24 * hour) /\ m_ts (fst m) = Some (- hour) /\ m_nts (fst m) = Some (-23) /\
     snd (drive no_fault demo_cf 3 (fst m)) = [Ok (0, 0); Raise StopIter; Raise StopIter]) /\
  (exists m, construct no_fault 0 (24 * hour) None true false 1 blank = (m, Ok tt) /\
     m_dur (fst m) = - (24 * hour) /\
     snd (drive no_fault demo_cf 3 (fst m)) = [Ok (0, 0); Raise StopIter; Raise StopIter]).
Proof. split; eexists; (split; [vm_compute; reflexivity|]); vm_compute; auto. Qed.
Print Assumptions C08_mirror_refuted.

Example C08_meets :
  time_ok demo /\ counted demo /\ signs_ok demo /\ true <> m_back demo /\
  clean no_fault demo_cf demo (eff_ts demo_cf demo) /\ clean no_fault demo_cf demo (- eff_ts demo_cf demo) /\
  nth 24 (snd (drive no_fault demo_cf 30 (after_op demo (OBackwards true)))) (Raise KeyErr) = Ok (24, - (19 * hour)).
Proof.
  split; [left; split; reflexivity|]. split; [apply built_ok; unfold hour, sec_us; lia|].
  split; [exists hour; vm_compute; repeat split; (reflexivity || discriminate)|]. split; [discriminate|].
  split; [split; [reflexivity|split; [reflexivity|right; right; cbn; lia]]|].
  split; [split; [reflexivity|split; [reflexivity|right; left; cbn; lia]]|].
  vm_compute. auto.
Qed.

(** C09. With at most one sub-step per second, the sub-steps of a model step are
    non-empty, contiguous, begin at the model time and end at the model time
    plus the whole seconds of the time step ... *)
Theorem C09_substeps_tile :
  forall ts n now, 1 <= n <= Z.quot ts sec_us ->
  exists l, split_substeps ts n now = Ok l /\ tiles now l (now + Z.quot ts sec_us * sec_us).
Proof. exact split_tiles. Qed.
Print Assumptions C09_substeps_tile.

(** A step in the middle of a run, when nothing fails: the elements of its first
    half are released before they are moved; every weatherer gets all the
    sub-steps, which cover the step, after the move; then the time advances, the
    elements of the second half are released and the output is written.
    Backward runs are not weathered. *)
Theorem C09_step_order :
  forall F cf m ts n, clean F cf m ts -> m_ts m = Some ts -> m_nts m = Some n ->
  0 <= m_cur m < n - 1 -> time_ok m ->
  exists ss m', step F cf m =
    ((m', [ERelease (m_time m) (m_time m + half_td ts); ESetupStep (m_time m) ts; EMove (m_time m) ts]
          ++ weathering (c_weatherers cf) ss
          ++ [EStepDone; ERelease (m_time m + ts - half_td ts) (m_time m + ts);
              EOutput (m_cur m + 1) (m_time m + ts) (m_cur m + 1 =? n - 1)]),
     Ok (m_cur m + 1, m_time m + ts)) /\
    (0 <= ts -> c_weatherers cf <> O -> tiles (m_time m) ss (m_time m + Z.quot ts sec_us * sec_us)) /\
    (ts < 0 -> ss = []).
Proof. exact step_exact. Qed.
Print Assumptions C09_step_order.

Example C09_step_order_meets :
  let m := fst (fst (drive no_fault demo_cf 4 demo)) in
  clean no_fault demo_cf m hour /\ m_ts m = Some hour /\ m_nts m = Some 25 /\ m_cur m = 3 /\ time_ok m /\
  c_weatherers demo_cf = 2%nat.
Proof.
  split; [split; [reflexivity|split; [reflexivity|right; right; vm_compute; split; discriminate]]|].
  split; [reflexivity|]. split; [reflexivity|]. split; [reflexivity|]. split; [|reflexivity].
  right. split; [vm_compute; discriminate|]. exists hour. vm_compute. auto.
Qed.

(** ... and if the remainder is shorter than a sub-step there is at most one
    more than requested; exactly those requested if the division is exact. *)
Theorem C09_substep_count :
  forall ts n now l, 1 <= n <= Z.quot ts sec_us ->
  Z.quot ts sec_us mod n < Z.quot ts sec_us / n ->
  split_substeps ts n now = Ok l ->
  n <= Z.of_nat (length l) <= n + 1 /\ (Z.quot ts sec_us mod n = 0 -> Z.of_nat (length l) = n).
Proof. exact split_count. Qed.
Print Assumptions C09_substep_count.

(** Without the bounds: six sub-steps of ten seconds become ten; fractions of a
    second of the time step are not weathered; more sub-steps than seconds is a
    ValueError in the middle of the run. *)
Theorem C09_limits_refuted :
  (exists l, split_substeps (10 * sec_us) 6 0 = Ok l /\ length l = 10%nat) /\
  split_substeps (1500 * 1000) 1 0 = Ok [(0, 1)] /\
  split_substeps (10 * sec_us) 11 0 = Raise ValueErr.
Proof. split; [eexists; split; vm_compute; reflexivity|]. vm_compute. auto. Qed.
Print Assumptions C09_limits_refuted.

Example C09_meets :
  1 <= 7 <= Z.quot (900 * sec_us) sec_us /\
  Z.quot (900 * sec_us) sec_us mod 7 < Z.quot (900 * sec_us) sec_us / 7 /\
  (exists l, split_substeps (900 * sec_us) 7 0 = Ok l /\ length l = 8%nat).
Proof. split; [vm_compute; split; discriminate|]. split; [vm_compute; reflexivity|]. eexists; split; vm_compute; reflexivity. Qed.

(** C10. After an operation that invalidates old results, at any moment, the
    model is at its start, and the next step that succeeds is step 0. *)
Theorem C10_change_rewinds_partial :
  forall m o, invalidates m o -> at_start (after_op m o).
Proof. exact invalidates_start. Qed.
Print Assumptions C10_change_rewinds_partial.

Theorem C10_next_step_is_zero_partial :
  forall m o F cf m1 log k t, invalidates m o -> step F cf (after_op m o) = ((m1, log), Ok (k, t)) ->
  k = 0 /\ t = m_start (after_op m o).
Proof. exact next_is_zero. Qed.
Print Assumptions C10_next_step_is_zero_partial.

(** Not rewound: adding an outputter, changing the spills, removing a weatherer,
    and shortening the duration of a backward run. *)
Theorem C10_change_rewinds_refuted :
  exists m, m_cur m = 3 /\ time_ok m /\ counted m /\ signs_ok m /\
    (forall o, In o [OAdd Outputters; OReplace Outputters; OSpills; ORemove Weatherers;
                     ODuration (- (2 * hour))] -> m_cur (after_op m o) = 3) /\
    m_dur m = - (24 * hour) /\
    m_nts (after_op m (ODuration (- (2 * hour)))) = Some 3.
Proof.
  exists (fst (fst (drive no_fault demo_cf 4 (built 0 (- (24 * hour)) (- hour) true false 1)))).
  split; [vm_compute; reflexivity|].
  split; [right; vm_compute; split; [discriminate|eexists; split; reflexivity]|].
  split; [intros ts E; vm_compute in E; inversion E; subst; split; [lia|vm_compute; reflexivity]|].
  split; [exists (- hour); vm_compute; split; [reflexivity|split; [reflexivity|discriminate]]|].
  split; [|vm_compute; auto].
  intros o H. repeat (destruct H as [<-|H]; [vm_compute; reflexivity|]). contradiction.
Qed.
Print Assumptions C10_change_rewinds_refuted.

Example C10_meets :
  let m := fst (fst (drive no_fault demo_cf 4 demo)) in
  m_cur m = 3 /\ invalidates m (OTimeStep (2 * hour)) /\ invalidates m (ODuration hour) /\
  invalidates m (OUncertain true) /\ invalidates m (OBackwards true) /\ invalidates m (OAdd Weatherers) /\
  m_cur (after_op m (ODuration hour)) = -1.
Proof. vm_compute. repeat split; discriminate. Qed.

(** C64. The release windows of a whole run: one at the start, of no length, and
    then windows that lead from the start to the time of the last step without
    gap or overlap (for time steps of a whole number of 2 microseconds). *)
Theorem C64_release_windows_tile :
  forall F cf m0 rew, let m := rewound m0 in
  clean F cf m (eff_ts cf m) -> (m_ts m <> None -> m_nts m <> None) ->
  (rew = false -> at_start m0) ->
  let ts := eff_ts cf m in Z.even ts = true ->
  exists fuel, forall fuel', (fuel <= fuel')%nat -> exists m' log r w,
    full_run F fuel' cf rew m0 = ((m', log), Some (Ok r)) /\
    releases log = (m_start m, m_start m) :: w /\
    length w = (2 * Z.to_nat (Z.max 1 (eff_nts cf m) - 1))%nat /\
    chain (m_start m) w (m_time m').
Proof. exact release_windows. Qed.
Print Assumptions C64_release_windows_tile.

(** For an odd number of microseconds the halves are rounded and do not meet. *)
Theorem C64_odd_step_refuted :
  exists w m' log r, full_run no_fault 5 demo_cf true (built 0 3000003 3000003 false false 1) = ((m', log), Some (Ok r)) /\
    releases log = (0, 0) :: w /\ ~ chain 0 w (m_time m').
Proof.
  do 4 eexists. split; [vm_compute; reflexivity|]. split; [vm_compute; reflexivity|].
  vm_compute. intros [_ [H _]]. discriminate.
Qed.
Print Assumptions C64_odd_step_refuted.

Example C64_meets : Z.even (eff_ts demo_cf demo) = true /\
  exists m' log r, full_run no_fault 30 demo_cf true demo = ((m', log), Some (Ok r)) /\ length (releases log) = 49%nat.
Proof. split; [reflexivity|]. do 3 eexists. split; vm_compute; reflexivity. Qed.

(** C65. At every moment of every history of changes and steps, with any
    component failing at any call, the model time is the start time plus the
    step number times the time step (or the model is at its start) ... *)
Theorem C65_time_matches_step :
  forall os m, time_ok m -> Forall no_zero_step os -> time_ok (run_ops m os).
Proof. exact ops_time_ok. Qed.
Print Assumptions C65_time_matches_step.

(** ... except after a time step of 0, which raises but stays in place. *)
Theorem C65_zero_step_refuted :
  exists m, time_ok m /\ snd (do_op (OTimeStep 0) m) = Raise ZeroDivErr /\ ~ time_ok (after_op m (OTimeStep 0)).
Proof.
  exists (fst (fst (drive no_fault demo_cf 4 demo))).
  split; [right; split; [vm_compute; discriminate|exists hour; vm_compute; auto]|].
  split; [vm_compute; reflexivity|].
  intros [[H _]|(_ & ts & E & T)]; [vm_compute in H; discriminate|].
  vm_compute in E. inversion E; subst. vm_compute in T. discriminate.
Qed.
Print Assumptions C65_zero_step_refuted.

Example C65_meets :
  let F := fun e => match e with EMove _ _ => Some ValueErr | _ => None end in
  let os := [OStep no_fault demo_cf; OStep no_fault demo_cf; OStep F demo_cf; OTimeStep 600; OStep no_fault demo_cf; OStep F demo_cf] in
  time_ok demo /\ Forall no_zero_step os /\ m_cur (run_ops demo os) = 0 /\ snd (do_op (OStep F demo_cf) (run_ops demo os)) = Raise ValueErr.
Proof.
  split; [left; split; reflexivity|]. split; [repeat constructor; discriminate|]. vm_compute. auto.
Qed.

(** C66. Whatever fails inside step(), the step number stays or goes up by one
    and the model time goes with it; a step that reports success did advance by
    one and reports the new number and time; after the first step a failure is
    always followed by post_model_run. *)
Theorem C66_failing_step_never_skips :
  forall F cf m m' log r, time_ok m -> (m_ts m <> None -> m_nts m <> None) ->
  step F cf m = ((m', log), r) ->
  time_ok m' /\ m_start m' = m_start m /\ m_dur m' = m_dur m /\
  (m_cur m' = m_cur m \/ m_cur m' = m_cur m + 1) /\
  (forall o, r = Ok o -> m_cur m' = m_cur m + 1 /\ o = (m_cur m', m_time m')) /\
  (m_cur m <> -1 -> is_ok r = false -> In EPost log).
Proof. exact step_never_skips. Qed.
Print Assumptions C66_failing_step_never_skips.

(** An error of a component reaches the caller. *)
Theorem C66_errors_are_reported :
  forall F cf m m' log r e x, step F cf m = ((m', log), r) -> In e log -> F e = Some x -> is_ok r = false.
Proof. exact step_reports. Qed.
Print Assumptions C66_errors_are_reported.

(** A full run that ends well had no error, if no component raises
    StopIteration. *)
Theorem C66_full_run_reports :
  forall F cf, (forall e, F e <> Some StopIter) -> forall fuel rew m m' log r,
  full_run F fuel cf rew m = ((m', log), Some (Ok r)) -> forall e, In e log -> F e = None.
Proof. exact full_run_reports. Qed.
Print Assumptions C66_full_run_reports.

(** A StopIteration of a component ends the run as if it were complete. *)
Theorem C66_full_run_reports_refuted :
  exists F m' log r, full_run F 40 demo_cf true demo = ((m', log), Some (Ok r)) /\
    (exists e, In e log /\ F e <> None) /\ (length r < 25)%nat.
Proof.
  exists (fun e => match e with EOutput 2 _ _ => Some StopIter | _ => None end).
  eexists _, _, _. split; [vm_compute; reflexivity|].
  match goal with |- (exists e, In e ?l /\ _) /\ _ =>
    match l with context [EOutput 2 ?a ?b] => split; [exists (EOutput 2 a b)|] end end.
  - split; [cbn; tauto|discriminate].
  - cbn. lia.
Qed.
Print Assumptions C66_full_run_reports_refuted.

Example C66_full_run_meets : let F := fun e => match e with EOutput 30 _ _ => Some OSErr | _ => None end in
  (forall e, F e <> Some StopIter) /\
  exists m' log r, full_run F 40 demo_cf true demo = ((m', log), Some (Ok r)) /\ length r = 25%nat.
Proof.
  split; [intros []; try discriminate; cbn; repeat (match goal with |- context [match ?x with _ => _ end] => destruct x end; try discriminate)|].
  eexists _, _, _. split; [vm_compute; reflexivity|]. reflexivity.
Qed.

Example C66_meets :
  let F := fun e => match e with EOutput 2 _ _ => Some OSErr | _ => None end in
  let m := fst (fst (drive no_fault demo_cf 2 demo)) in
  let '((m', log), r) := step F demo_cf m in
  m_cur m = 1 /\ m_cur m' = 2 /\ r = Raise OSErr /\ In EPost log.
Proof. vm_compute. intuition. Qed.
