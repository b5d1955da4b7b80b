(** * Properties of releases and spills: C13-C15, C67-C71 *)
From Verif Require Import Py QLemmas TimeModel ReleaseModel ReleaseSpec ReleaseProofs.
Open Scope Z_scope.

(** Two releases to show that the hypotheses below can be met: 25 elements on a
    line over two and a half hours, and 10 elements per step over an hour. *)
Definition ex_time : Z := 1000000 * sec_us.
Definition ex_step : Z := 900 * sec_us.
Definition ex_line : release :=
  mkRel true ex_time (Some (ex_time + 9000 * sec_us)) (Some 25) None 100 [0; 0; 0]%Q (Some [1; 2; 0]%Q) 0 None.
Definition ex_per : release :=
  mkRel false ex_time (Some (ex_time + 3600 * sec_us)) None (Some 10) 100 [0; 0; 0]%Q None 0 None.

(** ** C13 *)

(** After prepare_for_model_run the number of elements that should exist is
    defined at every time, lies between zero and the number asked for, is zero
    before the release time, at least one after it, everything from the end
    time on, never decreases, and grows linearly (rounded down) from step to
    step. *)
Theorem C13_release_count : forall r ts r', wf r -> prepare r ts = Ok r' ->
  exists k n, steps_for (duration r) ts k /\ intended r ts n /\ k <= n /\
    exists c, (forall t, after_time r' t = Ok (c t)) /\
      (forall t, 0 <= c t <= n) /\
      (forall t, t < r_time r -> c t = 0) /\
      (forall t, r_time r < t -> 1 <= c t) /\
      (forall t, end_time r <= t -> c t = n) /\
      (forall t t', t <= t' -> c t <= c t') /\
      (0 < duration r -> forall j, 0 <= j -> j * ts < duration r -> c (r_time r + j * ts) = n * j / k).
Proof. exact count_thm. Qed.
Print Assumptions C13_release_count.

Example C13_meets : wf ex_line /\ exists r', prepare ex_line ex_step = Ok r' /\
  after_time r' (ex_time + 7 * ex_step) = Ok 17 /\ after_time r' (ex_time + 7 * ex_step + 1) = Ok 18.
Proof. split; [vm_compute; repeat split; discriminate|]. eexists. split; [vm_compute; reflexivity|]. split; vm_compute; reflexivity. Qed.

(** It can be prepared whenever there is at least one element for every step
    and a continuous release has a time step of a second or more. *)
Theorem C13_can_be_prepared : forall r ts k n, wf r -> ts <> 0 -> (r_time r < end_time r -> sec_us <= ts) ->
  steps_for (duration r) ts k -> intended r ts n -> k <= n -> exists r', prepare r ts = Ok r'.
Proof. exact prepare_ok. Qed.
Print Assumptions C13_can_be_prepared.

(** The constructors only give releases of this kind. *)
Theorem C13_constructed : forall line rt num per e mass sp ep r, new_release line rt num per e mass sp ep = Ok r ->
  (match ep with Some p => length p = length sp | None => True end) -> wf r /\ (0 <= r_mass r)%Q.
Proof. exact new_wf. Qed.
Print Assumptions C13_constructed.

(** ** C14, C15, C67 *)

(** However the calls to release_elements divide the time, and whether or not
    the spill was switched off in between: the number released is the number
    for the latest time the spill was asked for while on. *)
Theorem C14_total_released : forall r ts r', wf r -> r_line r = true -> prepare r ts = Ok r' ->
  forall on calls, exists s l, release_calls (mkSpill on r' 0) calls = Ok (s, l) /\
    Z.of_nat (length l) = s_count s /\
    match latest calls with
    | None => s_count s = 0
    | Some t => after_time r' t = Ok (s_count s)
    end.
Proof.
  intros r ts r' W L E on calls. destruct (calls_thm r ts r' W L E) as (n & _ & _ & H).
  destruct (H on calls) as (s & l & A & B & _ & C & _). exists s, l. split; auto. split; auto.
  destruct (latest calls); tauto.
Qed.
Print Assumptions C14_total_released.

(** Two divisions of the same time release equally many elements. *)
Theorem C14_partition_free : forall r ts r', wf r -> r_line r = true -> prepare r ts = Ok r' ->
  forall on on' calls calls' s s' l l', latest calls = latest calls' ->
    release_calls (mkSpill on r' 0) calls = Ok (s, l) -> release_calls (mkSpill on' r' 0) calls' = Ok (s', l') ->
    length l = length l'.
Proof.
  intros r ts r' W L E on on' calls calls' s s' l l' HL E1 E2.
  destruct (calls_thm r ts r' W L E) as (n & _ & _ & H).
  destruct (H on calls) as (a & b & A1 & A2 & _ & A3 & _). destruct (H on' calls') as (c & d & B1 & B2 & _ & B3 & _).
  rewrite E1 in A1. rewrite E2 in B1. inversion A1; inversion B1; subst. rewrite HL in A3.
  destruct (latest calls') as [t|]; [|lia]. destruct A3 as [A3 _], B3 as [B3 _]. rewrite A3 in B3. inversion B3. lia.
Qed.
Print Assumptions C14_partition_free.

Example C14_meets : exists r' s l s' l', prepare ex_line ex_step = Ok r' /\
  release_calls (mkSpill true r' 0) [(true, ex_time, ex_time + ex_step); (false, ex_time + ex_step, ex_time + 3 * ex_step);
                                     (true, ex_time + 3 * ex_step, ex_time + 4 * ex_step)] = Ok (s, l) /\
  release_calls (mkSpill true r' 0) [(true, ex_time, ex_time + 4 * ex_step)] = Ok (s', l') /\
  length l = 10%nat /\ length l' = 10%nat.
Proof. do 5 eexists. split; [vm_compute; reflexivity|]. split; [vm_compute; reflexivity|]. split; [vm_compute; reflexivity|]. split; reflexivity. Qed.

(** Every element gets the same share of the mass, all of the mass when the
    release is finished. *)
Theorem C15_mass_shared : forall r ts r', wf r -> r_line r = true -> prepare r ts = Ok r' ->
  exists n, intended r ts n /\ 1 <= n /\
  forall on calls s l, release_calls (mkSpill on r' 0) calls = Ok (s, l) ->
    Forall (fun e => e_mass e = (r_mass r / inject_Z n)%Q /\ e_init e = e_mass e) l /\
    (masses l == r_mass r * (inject_Z (Z.of_nat (length l)) / inject_Z n))%Q /\
    (forall t, latest calls = Some t -> end_time r <= t -> (masses l == r_mass r)%Q).
Proof.
  intros r ts r' W L E. destruct (calls_thm r ts r' W L E) as (n & Hi & Hn & H). exists n. split; auto. split; auto.
  intros on calls s l E1. destruct (H on calls) as (a & b & A1 & A2 & A3 & A4 & A5 & A6).
  rewrite E1 in A1. inversion A1; subst; clear A1. split.
  - eapply Forall_impl; [|exact A5]. cbn. intros e (X & Y & _). rewrite X, Y. auto.
  - rewrite A2. split; auto. intros t Ht He. rewrite Ht in A4. destruct A4 as [_ A4]. rewrite A6, (A4 He).
    field. pose proof (inj_pos n ltac:(lia)). intros K. lra.
Qed.
Print Assumptions C15_mass_shared.

Example C15_meets : exists r' s l, prepare ex_line ex_step = Ok r' /\
  release_calls (mkSpill true r' 0) [(true, ex_time, ex_time + 4 * ex_step); (true, ex_time + 4 * ex_step, ex_time + 20 * ex_step)] = Ok (s, l) /\
  length l = 25%nat /\ (masses l == 100)%Q.
Proof. do 3 eexists. split; [vm_compute; reflexivity|]. split; [vm_compute; reflexivity|]. split; [reflexivity|vm_compute; reflexivity]. Qed.

(** Every element of a point or line release starts on the segment from the
    start to the end position, with the same fraction in every coordinate. *)
Theorem C67_on_the_line : forall r ts r', wf r -> r_line r = true -> prepare r ts = Ok r' ->
  forall on calls s l, release_calls (mkSpill on r' 0) calls = Ok (s, l) ->
    Forall (fun e => on_segment (r_start_pos r) (end_pos r) (e_pos e)) l.
Proof.
  intros r ts r' W L E on calls s l E1. destruct (calls_thm r ts r' W L E) as (n & _ & _ & H).
  destruct (H on calls) as (a & b & A1 & _ & _ & _ & A5 & _). rewrite E1 in A1. inversion A1; subst.
  eapply Forall_impl; [|exact A5]. cbn. tauto.
Qed.
Print Assumptions C67_on_the_line.

(** In particular a point release puts every element on its start position. *)
Theorem C67_at_the_point : forall r ts r', wf r -> r_line r = true -> r_end_pos r = None -> prepare r ts = Ok r' ->
  forall on calls s l, release_calls (mkSpill on r' 0) calls = Ok (s, l) ->
    Forall (fun e => Forall2 Qeq (r_start_pos r) (e_pos e)) l.
Proof.
  intros r ts r' W L Ep E on calls s l E1. pose proof (C67_on_the_line r ts r' W L E on calls s l E1) as H.
  eapply Forall_impl; [|exact H]. cbn. intros e (f & _ & HF). unfold end_pos in HF. rewrite Ep in HF.
  revert HF. clear. generalize (e_pos e). induction (r_start_pos r) as [|a q IH]; intros x HF; inversion HF as [|? ? ? ? HH]; subst; constructor.
  - cbn in *. rewrite HH. ring.
  - apply IH. auto.
Qed.
Print Assumptions C67_at_the_point.

(** ** C68 *)

(** With given positions every element starts on one of them, each is used as
    often as it can be used evenly, and only the remainder is drawn at
    random. *)
Theorem C68_custom_positions : forall mass pos rand n l, 0 <= n -> init_custom mass pos rand n = Ok l ->
  Z.of_nat (length l) = n /\
  (forall e, In e l -> In (e_pos e) pos /\ e_mass e = mass /\ e_init e = mass) /\
  (forall dec p, let k := Z.of_nat (length pos) in
     let uses := Z.of_nat (count_occ dec (map e_pos l) p) in let given := Z.of_nat (count_occ dec pos p) in
     n / k * given <= uses <= n / k * given + n mod k).
Proof. exact custom_thm. Qed.
Print Assumptions C68_custom_positions.

Example C68_meets : exists l, init_custom 2 [[1; 1]; [2; 2]; [3; 3]]%Q [2; 0]%nat 11 = Ok l /\ length l = 11%nat.
Proof. eexists. split; [vm_compute; reflexivity|]. vm_compute; reflexivity. Qed.

(** ** C69 *)

(** After rewind a release is what it was when it was new, whatever the run had
    done to it; for the base class. *)
Theorem C69_rewind_is_new_partial : forall ops r, r_line r = false ->
  rewind_release (fold_left do_rop ops r) = rewind_release r.
Proof. exact rewind_base. Qed.
Print Assumptions C69_rewind_is_new_partial.

(** For every class the next run releases the same numbers of elements with the
    same masses at the same positions. *)
Theorem C69_same_release_partial : forall ops r ts t0 t1,
  let a := rewind_release (fold_left do_rop ops r) in let b := rewind_release r in
  (forall ra, prepare a ts = Ok ra -> exists rb, prepare b ts = Ok rb /\
     after_time ra t1 = after_time rb t1 /\ forall n, init_pointline ra n t0 t1 = init_pointline rb n t0 t1) /\
  (forall e, prepare a ts = Raise e -> prepare b ts = Raise e).
Proof. exact rewind_counts. Qed.
Print Assumptions C69_same_release_partial.

(** After a rewind a whole spill releases the same elements, call for call, as
    one that has never released any. *)
Theorem C69_same_elements_partial : forall ops on k r ts calls sa sb,
  spill_prepare (spill_rewind (mkSpill on (fold_left do_rop ops r) k)) ts = Ok sa ->
  spill_prepare (mkSpill true (rewind_release r) 0) ts = Ok sb ->
  match release_calls sa calls, release_calls sb calls with
  | Ok (_, a), Ok (_, b) => a = b
  | Raise e, Raise e' => e = e'
  | _, _ => False
  end.
Proof. exact rewind_spill. Qed.
Print Assumptions C69_same_elements_partial.

Example C69_same_elements_meets : exists sa sb l,
  spill_prepare (spill_rewind (mkSpill true (fold_left do_rop [RPrepare ex_step; RBulk [1; 1]%Q (ex_time + ex_step)] ex_line) 7)) ex_step = Ok sa /\
  spill_prepare (mkSpill true (rewind_release ex_line) 0) ex_step = Ok sb /\
  (do (s, l) <- release_calls sa [(true, ex_time, ex_time + ex_step)]; Ok l) = Ok l /\ (0 < length l)%nat.
Proof.
  eexists _, _, _. split; [vm_compute; reflexivity|]. split; [vm_compute; reflexivity|].
  split; [vm_compute; reflexivity|]. cbn. lia.
Qed.

(** But PointLineRelease.rewind keeps the volume released so far, so the second
    run of a continuous release starts with another bulk_init_volume. *)
Theorem C69_rewind_is_new_refuted : exists r vols t1,
  let again := rewind_release (fst (bulk_volume r vols t1)) in
  rewind_release r = r /\ ~ (snd (bulk_volume again vols t1) == snd (bulk_volume r vols t1))%Q.
Proof.
  exists ex_line, [1; 1]%Q, (ex_time + ex_step). split; [reflexivity|]. vm_compute. discriminate.
Qed.
Print Assumptions C69_rewind_is_new_refuted.

(** The bulk_init_volume that the new elements of a continuous release get is
    the volume released up to then, of which what comes later than twelve hours
    after the start is not counted; on top of what a rewind has left over. *)
Theorem C69_bulk_volume_partial : forall calls r vols t1, 0 < duration r ->
  (snd (bulk_volume (fold_left (fun r c => fst (bulk_volume r (fst c) (snd c))) calls r) vols t1)
   == r_prev r + early_volume r (calls ++ [(vols, t1)]))%Q.
Proof. exact bulk_exact. Qed.
Print Assumptions C69_bulk_volume_partial.

Example C69_bulk_volume_meets : 0 < duration ex_line /\
  (early_volume ex_line [([1; 1]%Q, ex_time); ([2]%Q, (ex_time + 12 * 3600 * 1000000)%Z); ([5]%Q, (ex_time + 12 * 3600 * 1000001)%Z)] == 4)%Q.
Proof. split; vm_compute; reflexivity. Qed.

(** ** C70 *)

(** A release with num_per_timestep releases that many in every whole time step
    of its duration. *)
Theorem C70_per_timestep_partial : forall r ts r' p, wf r -> r_per r = Some p -> 0 < duration r -> prepare r ts = Ok r' ->
  forall j, 0 <= j -> (j + 1) * ts <= duration r ->
  exists a b, after_time r' (r_time r + j * ts) = Ok a /\ after_time r' (r_time r + (j + 1) * ts) = Ok b /\ b - a = p.
Proof. exact per_step_thm. Qed.
Print Assumptions C70_per_timestep_partial.

Example C70_meets : wf ex_per /\ exists r', prepare ex_per ex_step = Ok r' /\ after_time r' (ex_time + 3 * ex_step) = Ok 30.
Proof. split; [vm_compute; repeat split; discriminate|]. eexists. split; [vm_compute; reflexivity|]. vm_compute; reflexivity. Qed.

(** PointLineRelease does not pass num_per_timestep on: whatever is asked for,
    it is a release of num_elements, 1000 by default. *)
Theorem C70_per_timestep_refuted : forall rt p mass sp ep r,
  new_pointline rt None (Some p) None mass sp ep = Ok r -> r_per r = None /\ r_num r = Some 1000.
Proof. intros rt p mass sp ep r H. unfold new_pointline, new_release, set_num in H.
  change (1000 <? 0) with false in H. cbn [bind check_end] in H. inversion H; subst. split; reflexivity. Qed.
Print Assumptions C70_per_timestep_refuted.

(** ** C71 *)

(** In a backward run a spill should appear when the run reaches its release
    time.  An instantaneous release whose release time is earlier than the
    start of the run is released completely at the start... *)
Theorem C71_backward_release_refuted : exists r ts r' start,
  wf r /\ ts < 0 /\ prepare r ts = Ok r' /\ r_time r < start + ts /\
  exists s l, release_calls (mkSpill true r' 0) [(true, start, start)] = Ok (s, l) /\ l <> [].
Proof.
  exists (mkRel true ex_time None (Some 4) None 100 [0; 0; 0]%Q None 0 None), (- ex_step).
  eexists. exists (ex_time + 100 * ex_step).
  split; [vm_compute; repeat split; discriminate|]. split; [reflexivity|]. split; [vm_compute; reflexivity|].
  split; [reflexivity|]. do 2 eexists. split; [vm_compute; reflexivity|]. discriminate.
Qed.
Print Assumptions C71_backward_release_refuted.

(** ...one whose release time lies in the future of the times asked for is not
    released at all, so only a release at the start of the run is right. *)
Theorem C71_backward_release_partial : forall r ts r', wf r -> r_line r = true -> ts < 0 -> prepare r ts = Ok r' ->
  duration r = 0 /\
  forall on calls s l, release_calls (mkSpill on r' 0) calls = Ok (s, l) ->
    (forall t, latest calls = Some t -> t < r_time r -> l = []) /\
    (forall t, latest calls = Some t -> r_time r <= t -> exists n, intended r ts n /\ Z.of_nat (length l) = n).
Proof.
  intros r ts r' W L Ht E.
  assert (duration r = 0) as D.
  { destruct (prepare_spec r ts r' W E) as (_ & _ & _ & _ & _ & _ & _ & _ & F & _).
    destruct W as (W & _). unfold duration, sec_us in *. destruct (Z.eq_dec (end_time r - r_time r) 0); [auto|].
    specialize (F ltac:(lia)). lia. }
  split; auto. intros on calls s l E1.
  destruct (count_thm r ts r' W E) as (_ & _ & _ & _ & _ & c & X & _ & Y2 & _).
  destruct (calls_thm r ts r' W L E) as (n & Hi & _ & H).
  destruct (H on calls) as (a & b & A1 & A2 & A3 & A4 & _). rewrite E1 in A1. inversion A1; subst.
  split; intros t Hl Hlt; rewrite Hl in A4; destruct A4 as [A4 A5].
  - rewrite X, (Y2 t Hlt) in A4. inversion A4 as [K]. destruct b; [reflexivity|]. cbn [length] in A2. lia.
  - exists n. split; auto. rewrite A2. apply A5. unfold duration in D. lia.
Qed.
Print Assumptions C71_backward_release_partial.
