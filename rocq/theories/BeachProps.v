(** * C54, C25 (in part): manual beaching *)
From Verif Require Import Py PyLemmas QLemmas PipModel PolyModel CleanModel CleanSpec CleanProofs BeachModel BeachSpec BeachProofs.
Open Scope Q_scope.

(** For a table of whole seconds, set on an option whose range begins at a whole
    second: over any run none of whose steps has the start inside it, just what
    the table says for that time is asked for. *)
Theorem C54_partial : forall b start table dt t n, be_on b = true ->
  (be_a b = Some start \/ be_a b = None /\ start = 0%Z /\ (0 <= t)%Z) -> (start mod 1000000 = 0)%Z ->
  table <> [] -> ascending start table -> whole_secs table -> (0 < dt)%Z ->
  (forall k, (k < n)%nat -> ~ ((t + Z.of_nat k * dt < start)%Z /\ (start < t + Z.of_nat k * dt + dt)%Z)) ->
  exists b' x, set_timeseries b table = Ok b' /\ beach_run b' dt t n = Ok x /\
    x == be_unit b * beached start table t (t + Z.of_nat n * dt).
Proof.
  intros b start table dt t n Hon Hb Hs Hne Ha Hw Hd Hk.
  assert (He : (start < ends start table)%Z).
  { destruct table as [|[t1 v] r]; [congruence|]. rewrite ends_cons. destruct Ha as [Ha1 Ha2]. pose proof (asc_ends _ _ Ha2). lia. }
  destruct (set_timeseries_ok b start table) as [b' [E1 [E2 [E3 [E4 E5]]]]]; auto; [tauto|].
  destruct (beach_run_ok b' start table dt Hd) with (n := n) (t := t) as [x [F1 F2]]; auto.
  - congruence.
  - rewrite E3. tauto.
  - rewrite E3. intros K. destruct Hb as [Hb|[_ [-> Hb]]]; [congruence|exact Hb].
  - exists b', x. rewrite <- E5. auto.
Qed.
Print Assumptions C54_partial.
(** A run that holds the table asks for all of its amounts. *)
Theorem C54_whole : forall b start table dt t n, be_on b = true -> be_a b = Some start -> (start mod 1000000 = 0)%Z ->
  table <> [] -> ascending start table -> whole_secs table -> (0 < dt)%Z ->
  (forall k, (k < n)%nat -> ~ ((t + Z.of_nat k * dt < start)%Z /\ (start < t + Z.of_nat k * dt + dt)%Z)) ->
  (t <= start)%Z -> (ends start table <= t + Z.of_nat n * dt)%Z ->
  exists b' x, set_timeseries b table = Ok b' /\ beach_run b' dt t n = Ok x /\ x == be_unit b * amounts table.
Proof.
  intros b start table dt t n Hon Hb Hs Hne Ha Hw Hd Hk H1 H2.
  destruct (C54_partial b start table dt t n) as [b' [x [E1 [E2 E3]]]]; auto.
  exists b', x. split; auto. split; auto. rewrite E3, beached_all by auto. reflexivity.
Qed.
Print Assumptions C54_whole.
Definition minute : Z := 60000000.
Definition beach0 (a : option Z) : beach := mkBeach true a 0 [] [] 1.
Example C54_meets : let table := [((20 * minute)%Z, 6); ((25 * minute)%Z, 1); ((50 * minute)%Z, 50)] in
  ascending (10 * minute) table /\ whole_secs table /\ exists b' x, set_timeseries (beach0 (Some (10 * minute)%Z)) table = Ok b' /\
  beach_run b' (5 * minute) 0 6 = Ok x /\ x == 17.
Proof.
  split; [cbn; repeat split; vm_compute; reflexivity|]. split; [cbn; repeat split; vm_compute; reflexivity|].
  eexists. eexists. split; [vm_compute; reflexivity|]. split; [vm_compute; reflexivity|vm_compute; reflexivity].
Qed.
(** If a step begins before the start and ends after it, there is an error. *)
Theorem C54_refuted : exists b table dt t n b', be_on b = true /\ ascending 600000000 table /\ whole_secs table /\ be_a b = Some 600000000%Z /\
  set_timeseries b table = Ok b' /\ beach_run b' dt t n = Raise IndexErr.
Proof.
  exists (beach0 (Some (10 * minute)%Z)), [((30 * minute)%Z, 6)], (15 * minute)%Z, 0%Z, 2%nat. eexists.
  split; [reflexivity|]. split; [cbn; repeat split; vm_compute; reflexivity|]. split; [cbn; repeat split; vm_compute; reflexivity|].
  split; [reflexivity|]. split; [vm_compute; reflexivity|vm_compute; reflexivity].
Qed.
Print Assumptions C54_refuted.
(** A range that begins at -inf spreads the first amount over the time since 1970. *)
Theorem C54_since_1970_refuted : exists table dt t b' x, set_timeseries (beach0 None) table = Ok b' /\ amounts table == 1000 /\
  (ends 0 table = t + dt)%Z /\ dt = 3600000000%Z /\ beach_run b' dt t 1 = Ok x /\ x < 1.
Proof.
  exists [(1600000000000000%Z, 1000)], 3600000000%Z, 1599996400000000%Z. eexists. eexists.
  split; [vm_compute; reflexivity|]. split; [reflexivity|]. split; [reflexivity|]. split; [reflexivity|].
  split; [vm_compute; reflexivity|vm_compute; reflexivity].
Qed.
Print Assumptions C54_since_1970_refuted.

(** What is asked for is taken from the elements at the surface, as far as it is there, and booked. *)
Theorem C25_beaching : forall b dt t l rm, all_sane l -> beach_active b dt t = true ->
  remove_mass b (beach_time b dt t) t = Ok (Some rm) -> 0 <= rm ->
  exists l' x, beach_weather b dt t l = Ok (l', x) /\ removes f_surf rm l l' x.
Proof. exact beach_weather_ok. Qed.
Print Assumptions C25_beaching.
Theorem C25_beaching_inactive : forall b dt t l, beach_active b dt t = false -> beach_weather b dt t l = Ok (l, 0).
Proof. intros b dt t l H. unfold beach_weather. rewrite H. reflexivity. Qed.
Print Assumptions C25_beaching_inactive.
Example C25_beaching_meets : exists b' rm, set_timeseries (beach0 (Some (10 * minute)%Z)) [((20 * minute)%Z, 6); ((25 * minute)%Z, 1)] = Ok b' /\
  beach_active b' (5 * minute) (15 * minute) = true /\ remove_mass b' (beach_time b' (5 * minute) (15 * minute)) (15 * minute) = Ok (Some rm) /\ rm == 3 /\
  exists l' x, beach_weather b' (5 * minute) (15 * minute) [mkEl 2 2 0 2 0 [1; 1] false; mkEl 2 2 0 4 0 [4] false] = Ok (l', x) /\ x == 3.
Proof.
  eexists. eexists. split; [vm_compute; reflexivity|]. split; [reflexivity|]. split; [vm_compute; reflexivity|]. split; [vm_compute; reflexivity|].
  eexists. eexists. split; [vm_compute; reflexivity|vm_compute; reflexivity].
Qed.
