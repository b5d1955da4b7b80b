(** * C40, C41, C73: which steps are written *)
From Coq Require Import Sorted.
From Verif Require Import Py TimeModel OutModel OutSpec OutProofs.
Open Scope Z_scope.

(** C40: a forward run writes exactly the scheduled steps, each once and in order,
    from whatever state the outputter was in before.  Missing from the full
    statement: output at every step without step 0, see below. *)
Theorem C40_schedule_partial : forall c s0 mstart ts b n,
  0 < ts -> (forall T, c_ts c = Some T -> 0 < T) -> anchored c mstart ts b ->
  (c_ts c = None -> c_single c = false -> b = 0 -> c_zero c = true) ->
  exists l, live_run c s0 mstart ts n = Ok l /\ StronglySorted Z.lt l /\
    forall k, In k l <-> scheduled c ts (Z.of_nat n) b k.
Proof. exact live_run_ok. Qed.
Print Assumptions C40_schedule_partial.

(** There is always a step to count from. *)
Theorem C40_anchor : forall c mstart ts, 0 < ts -> exists b, anchored c mstart ts b.
Proof. exact anchor_exists. Qed.
Print Assumptions C40_anchor.

(** Intervals of a second or more are accepted and are positive in seconds. *)
Theorem C40_interval : forall c v c', sec_us <= v -> set_output_timestep c (Some v) = Ok c' ->
  exists T, c_ts c' = Some T /\ 0 < T /\ T * sec_us <= v < (T + 1) * sec_us.
Proof.
  intros c v c' Hv. unfold set_output_timestep. destruct (Z.leb_spec v 0); [discriminate|].
  intros [= <-]. exists (v / sec_us). split; [reflexivity|].
  pose proof (Z.div_mod v sec_us ltac:(unfold sec_us; lia)).
  pose proof (Z.mod_pos_bound v sec_us ltac:(unfold sec_us; lia)).
  assert (1 <= v / sec_us) by (apply Z.div_le_lower_bound; unfold sec_us in *; lia).
  repeat split; lia.
Qed.
Print Assumptions C40_interval.

Definition any_state : ost := mkOst None None false false true.

Example C40_meets :
  (let c := mkCfg true (Some 3600) true false false None in
   anchored c 0 2400 0 /\ live_run c any_state 0 2400 8 = Ok [0; 2; 3; 5; 6]) /\
  (let c := mkCfg true (Some 3600) false true false (Some (7000 * sec_us)) in
   anchored c 0 2400 3 /\ live_run c any_state 0 2400 9 = Ok [3; 5; 6; 8]) /\
  (let c := mkCfg true None false true true (Some (7000 * sec_us)) in
   anchored c 0 2400 3 /\ live_run c any_state 0 2400 9 = Ok [3; 8]).
Proof.
  split; [|split].
  - split; [reflexivity|vm_compute; reflexivity].
  - split; [|vm_compute; reflexivity]. unfold anchored, sec_us; cbn. split; [lia|]. split; lia.
  - split; [|vm_compute; reflexivity]. unfold anchored, sec_us; cbn. split; [lia|]. split; lia.
Qed.

(** With output at every step, turning off step 0 turns off all steps but the last. *)
Theorem C40_every_step_refuted :
  exists c, c_on c = true /\ c_ts c = None /\ c_single c = false /\ c_start c = None /\
  live_run c any_state 0 900 6 = Ok [5] /\ scheduled c 900 6 0 3.
Proof.
  exists (mkCfg true None false true false None). repeat split; try (vm_compute; reflexivity); try lia.
  right. right. split; [lia|]. right. cbn. auto with zarith.
Qed.
Print Assumptions C40_every_step_refuted.

(** An interval under a second is accepted and fails during the run. *)
Theorem C40_subsecond_refuted :
  exists c c', set_output_timestep c (Some 500000) = Ok c' /\ live_run c' any_state 0 900 3 = Raise ZeroDivErr.
Proof.
  exists (mkCfg true None true true false None). eexists. split; [reflexivity|]. vm_compute. reflexivity.
Qed.
Print Assumptions C40_subsecond_refuted.

(** C41: a backward run writes the same steps if one of the time step and the
    interval is a multiple of the other and there is no start time. *)
Theorem C41_backward_partial : forall c s1 s2 m1 m2 ts n,
  0 < ts -> (forall T, c_ts c = Some T -> 0 < T /\ ((ts | T) \/ (T | ts))) -> c_start c = None ->
  live_run c s2 m2 (- ts) n = live_run c s1 m1 ts n.
Proof. exact backward_ok. Qed.
Print Assumptions C41_backward_partial.

Example C41_meets : live_run (mkCfg true (Some 3600) true false false None) any_state 0 (- 900) 10 = Ok [0; 4; 8].
Proof. vm_compute. reflexivity. Qed.

Theorem C41_backward_refuted :
  let c := mkCfg true (Some 3600) true false false None in
  live_run c any_state 0 2400 8 = Ok [0; 2; 3; 5; 6] /\
  live_run c any_state 0 (- 2400) 8 = Ok [0; 2; 5].
Proof. vm_compute. auto. Qed.
Print Assumptions C41_backward_refuted.

(** With a start time a backward run stops writing when it gets there. *)
Theorem C41_start_refuted :
  let c := mkCfg true None true false false (Some 0) in
  (* forward from -3 h, to write from 0 on, and backward from 3 h *)
  live_run c any_state (- 3 * 3600 * sec_us) 3600 7 = Ok [0; 3; 4; 5; 6] /\
  live_run c any_state (3 * 3600 * sec_us) (- 3600) 7 = Ok [0; 1; 2; 3].
Proof. vm_compute. auto. Qed.
Print Assumptions C41_start_refuted.

(** C73: writing from the cache after the run selects the steps that the run
    itself would have written. *)
Theorem C73_post_run_partial : forall c s1 s2 mstart ts n,
  0 < ts < 86400 -> c_last c = true -> (forall T, c_ts c = Some T -> 0 < T) ->
  post_run c s2 mstart (fun k => mstart + k * ts * sec_us) n = live_run c s1 mstart ts n.
Proof. exact post_run_ok. Qed.
Print Assumptions C73_post_run_partial.

Example C73_meets : post_run (mkCfg true (Some 3600) true true false None) any_state 7
  (fun k => 7 + k * 2400 * sec_us) 8 = Ok [0; 2; 3; 5; 6; 7].
Proof. vm_compute. reflexivity. Qed.

(** The last step is written if the one before was. *)
Theorem C73_last_step_refuted :
  let c := mkCfg true (Some 3600) true false false None in
  live_run c any_state 0 2400 8 = Ok [0; 2; 3; 5; 6] /\
  post_run c any_state 0 (fun k => 0 + k * 2400 * sec_us) 8 = Ok [0; 2; 3; 5; 6; 7].
Proof. vm_compute. auto. Qed.
Print Assumptions C73_last_step_refuted.

(** Time steps of a day count as nothing. *)
Theorem C73_day_refuted :
  let c := mkCfg true (Some 86400) true true false None in
  live_run c any_state 0 86400 4 = Ok [0; 1; 2; 3] /\
  post_run c any_state 0 (fun k => 0 + k * 86400 * sec_us) 4 = Ok [0; 3].
Proof. vm_compute. auto. Qed.
Print Assumptions C73_day_refuted.

(** Backward runs: the difference is taken to be nearly a day forward. *)
Theorem C73_backward_refuted :
  let c := mkCfg true (Some 3600) true true false None in
  live_run c any_state 0 (- 1800) 6 = Ok [0; 2; 4; 5] /\
  post_run c any_state 0 (fun k => 0 + k * (- 1800) * sec_us) 6 = Ok [0; 1; 2; 3; 4; 5].
Proof. vm_compute. auto. Qed.
Print Assumptions C73_backward_refuted.
