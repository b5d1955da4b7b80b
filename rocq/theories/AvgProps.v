(** * Properties of running averages and of output in memory *)

From Coq Require Import ZArith List Bool Lia String.
From Verif Require Import Py PyLemmas StrModel StrLemmas AvgModel AvgSpec AvgProofs.
Import ListNotations.
Open Scope list_scope.
Open Scope Z_scope.

(** ** C224: what an average is of. *)
(** At the start of a run, after any history, it is of the values the wind has now, over the hours set now. *)
Theorem C224_run {W S} (e : ext W S) l t r r' : do_ops e (l ++ [Run t]) r = Ok r' ->
  exists w, r_wind r' = Some w /\ average e w (r_hours r') t = Ok (r_series r').
Proof.
  rewrite do_ops_app. destruct (do_ops e l r) as [x | k]; [| discriminate]. cbn [bind do_ops do_op]. unfold prepare_run, create_average.
  destruct (r_wind x) as [w |] eqn:Wx; [| discriminate]. destruct (average e w (r_hours x) t) eqn:A; [| discriminate]. cbn [bind]. intros H. injection H as <-. exists w. split; [reflexivity | exact A].
Qed.
Print Assumptions C224_run.

(** What the user set is what the next run uses. *)
Theorem C224_set {W S} (e : ext W S) l t r r' :
  (forall h, do_ops e (l ++ [SetHours h; Run t]) r = Ok r' -> r_hours r' = h /\ exists w, r_wind r' = Some w /\ average e w h t = Ok (r_series r')) /\
  (forall w, do_ops e (l ++ [SetWind w; Run t]) r = Ok r' -> r_wind r' = Some w /\ average e w (r_hours r') t = Ok (r_series r')).
Proof.
  split; intros v; rewrite do_ops_app; (destruct (do_ops e l r) as [x | k]; [| discriminate]); cbn [bind do_ops do_op]; unfold prepare_run, create_average; cbn [r_wind r_hours r_series].
  - destruct (r_wind x) as [w |]; [| discriminate]. destruct (average e w v t) eqn:A; [| discriminate]. cbn [bind]. intros H. injection H as <-. split; [reflexivity |]. exists w. split; [reflexivity | exact A].
  - destruct (average e v (r_hours x) t) eqn:A; [| discriminate]. cbn [bind]. intros H. injection H as <-. split; [reflexivity | exact A].
Qed.
Print Assumptions C224_set.
Example C224_set_meets : do_ops (Ext (fun w h t => Ok (w, h, t)) (fun _ _ => true)) ([Step 1] ++ [SetHours 6; Run 2]) (Ra 3 (Some 9) (9, 3, 0)) = Ok (Ra 6 (Some 9) (9, 6, 2)) /\
  do_ops (Ext (fun w h t => Ok (w, h, t)) (fun _ _ => true)) ([Step 1] ++ [SetWind 8; Run 2]) (Ra 3 (Some 9) (9, 3, 0)) = Ok (Ra 3 (Some 8) (8, 3, 2)).
Proof. split; reflexivity. Qed.

(** At every step it covers the time, or has just been made for this time. *)
Theorem C224_step {W S} (e : ext W S) l t r r' : do_ops e (l ++ [Step t]) r = Ok r' ->
  inside e (r_series r') t = true \/ exists w, r_wind r' = Some w /\ average e w (r_hours r') t = Ok (r_series r').
Proof.
  rewrite do_ops_app. destruct (do_ops e l r) as [x | k]; [| discriminate]. cbn [bind do_ops do_op]. unfold prepare_step, create_average.
  destruct (inside e (r_series x) t) eqn:I; [cbn [bind]; intros H; injection H as <-; left; exact I |].
  destruct (r_wind x) as [w |] eqn:Wx; [| discriminate]. destruct (average e w (r_hours x) t) eqn:A; [| discriminate]. cbn [bind]. intros H. injection H as <-. right. exists w. split; [reflexivity | exact A].
Qed.
Print Assumptions C224_step.

(** While the user changes nothing, all through a run, it is of this wind over these hours from a time of the run on. *)
Theorem C224_steady_partial {W S} (e : ext W S) l t0 r r' : calls l -> do_ops e (Run t0 :: l) r = Ok r' ->
  exists w t, r_wind r' = r_wind r /\ r_hours r' = r_hours r /\ r_wind r = Some w /\ (t = t0 \/ exists o, In o l /\ at_time o t) /\
    average e w (r_hours r) t = Ok (r_series r').
Proof.
  intros C H. assert (CC : calls (Run t0 :: l)) by (constructor; [exists t0; left; reflexivity | exact C]). destruct (kept e _ CC r r' H) as (KW & KH).
  cbn [do_ops] in H. destruct (do_op e (Run t0) r) as [x | k] eqn:D; [| discriminate H]. cbn [bind] in H.
  assert (X := C224_run e [] t0 r x). cbn [app do_ops] in X. rewrite D in X. destruct (X eq_refl) as (w & Wx & A).
  assert (C1 : calls [@Run W t0]) by (constructor; [exists t0; left; reflexivity | constructor]). assert (D1 : do_ops e [Run t0] r = Ok x) by (cbn [do_ops]; rewrite D; reflexivity).
  destruct (kept e _ C1 r x D1) as (XW & XH). rewrite <- XW, <- XH, Wx. destruct (source e l x r' H) as [Q | (a & o & b & r1 & w1 & t & -> & T & E1 & W1 & A1)].
  - exists w, t0. rewrite Q. split; [congruence |]. split; [congruence |]. split; [reflexivity |]. split; [left; reflexivity | exact A].
  - assert (Ca : calls a) by (apply Forall_app in C; exact (proj1 C)). destruct (kept e _ Ca x r1 E1) as (YW & YH). exists w, t. split; [congruence |]. split; [congruence |]. split; [reflexivity |].
    split; [right; exists o; split; [apply in_or_app; right; left; reflexivity | exact T] |]. rewrite <- YH. replace w with w1 by congruence. exact A1.
Qed.
Print Assumptions C224_steady_partial.

(** A step does not see what the user changed as long as the old average covers its time. *)
Definition toy : ext Z (Z * Z * Z) := Ext (fun w h t => Ok (w, h, t)) (fun s t => (snd s <=? t) && (t <? snd s + 10)).
Theorem C224_hours_refuted : ~ (forall W S (e : ext W S) r r' h t w, r_wind r = Some w -> do_ops e [SetHours h; Step t] r = Ok r' -> exists t1, average e w h t1 = Ok (r_series r')).
Proof.
  intros H. destruct (H Z _ toy (Ra 3 (Some 1) (1, 3, 0)) (Ra 6 (Some 1) (1, 3, 0)) 6 5 1 eq_refl eq_refl) as (t1 & E). discriminate E.
Qed.
Print Assumptions C224_hours_refuted.
Theorem C224_wind_refuted : ~ (forall W S (e : ext W S) r r' t w, do_ops e [SetWind w; Step t] r = Ok r' -> exists t1, average e w (r_hours r) t1 = Ok (r_series r')).
Proof.
  intros H. destruct (H Z _ toy (Ra 3 (Some 1) (1, 3, 0)) (Ra 3 (Some 2) (1, 3, 0)) 5 2 eq_refl) as (t1 & E). discriminate E.
Qed.
Print Assumptions C224_wind_refuted.

(** A new one is of its wind, or of the values that are given; without either a run is refused. *)
Theorem C224_new {W S} (e : ext W S) zero h w ts :
  (forall r, new_average e zero (Some w) ts h = Ok r -> r_wind r = Some w /\ r_hours r = h /\ average e w h 0 = Ok (r_series r)) /\
  (forall r, new_average e zero None (Some w) h = Ok r -> r_wind r = Some w /\ r_hours r = h /\ average e w h 0 = Ok (r_series r)) /\
  (forall r t, new_average e zero None None h = Ok r -> r_series r = zero /\ do_op e (Run t) r = Raise RuntimeErr).
Proof.
  unfold new_average. split; [| split].
  - intros r. destruct (average e w h 0) eqn:A; [| discriminate]. cbn [bind]. intros H. injection H as <-. repeat split.
  - intros r. destruct (average e w h 0) eqn:A; [| discriminate]. cbn [bind]. intros H. injection H as <-. repeat split.
  - intros r t H. injection H as <-. split; reflexivity.
Qed.
Print Assumptions C224_new.
Example C224_meets : new_average toy (0, 0, 0) (Some 7) None 3 = Ok (Ra 3 (Some 7) (7, 3, 0)) /\
  do_ops toy ([SetHours 4] ++ [Run 20]) (Ra 3 (Some 7) (7, 3, 0)) = Ok (Ra 4 (Some 7) (7, 4, 20)) /\
  do_ops toy [Run 20; Step 25; Step 35; Step 36] (Ra 4 (Some 7) (7, 3, 0)) = Ok (Ra 4 (Some 7) (7, 4, 35)) /\ @calls Z [Step 25; Step 35; Step 36].
Proof. repeat split; try reflexivity. repeat (constructor; [eexists; right; reflexivity |]). constructor. Qed.

(** ** C225: output in memory. *)
(** After any run without uncertainty the buffer has what the steps that were written hold, in this order, and nothing of an earlier run. *)
Theorem C225_run_partial l old : Forall full (written l) -> Forall (fun b => b_unc b = false) (written l) -> Forall (fun x => snd x <> []) l ->
  exists es, Forall2 keeps (written l) es /\ mem_steps l (mem_prepare old) = (es, None).
Proof. intros F U NE. destruct (steps_full l F U NE []) as (es & K & E). exists es. split; [exact K | exact E]. Qed.
Print Assumptions C225_run_partial.

(** The time that is told is that of the step. *)
Theorem C225_told bs b buf : Forall full (bs ++ [b]) -> Forall (fun b => b_unc b = false) (bs ++ [b]) -> snd (mem_write true true (bs ++ [b]) buf) = Ok (Some (b_time b)).
Proof. intros F U. destruct (store_full _ F U buf None) as (es & _ & E). unfold mem_write. cbn [negb orb snd]. rewrite E, rev_app_distr. reflexivity. Qed.
Print Assumptions C225_told.
Theorem C225_off on write bs buf : on = false \/ write = false -> mem_write on write bs buf = (buf, Ok None).
Proof. intros [-> | ->]; [reflexivity | destruct on; reflexivity]. Qed.
Print Assumptions C225_off.

(** A container with uncertainty is refused. *)
Theorem C225_uncertain_partial bs u r buf : Forall full bs -> Forall (fun b => b_unc b = false) bs -> b_unc u = true ->
  exists es, Forall2 keeps bs es /\ mem_write true true (bs ++ u :: r) buf = (buf ++ es, Raise RuntimeErr).
Proof. intros F U Q. destruct (store_uncertain bs u r F U Q buf None) as (es & K & E). exists es. split; [exact K |]. unfold mem_write. cbn [negb orb]. rewrite E. reflexivity. Qed.
Print Assumptions C225_uncertain_partial.

Definition four (n : Z) : list (str * Z) := [(lit "age"%string, n); (lit "mass"%string, n + 1); (lit "positions"%string, n + 2); (lit "status_codes"%string, n + 3); (lit "spill_num"%string, 0)].
Lemma four_full u t n : full (Box u t (four n)).
Proof. intros k [-> | [-> | [-> | ->]]]; discriminate. Qed.
Example C225_meets : Forall full (written [(true, true, [Box false 1 (four 5)]); (true, false, [Box false 2 (four 6)]); (true, true, [Box false 3 (four 7)])]) /\
  fst (mem_steps [(true, true, [Box false 1 (four 5)]); (true, false, [Box false 2 (four 6)]); (true, true, [Box false 3 (four 7)])] []) =
  [Entry 1 [(lit "mass"%string, 6); (lit "positions"%string, 7); (lit "age"%string, 5); (lit "status_codes"%string, 8)];
   Entry 3 [(lit "mass"%string, 8); (lit "positions"%string, 9); (lit "age"%string, 7); (lit "status_codes"%string, 10)]].
Proof. split; [repeat constructor; apply four_full | reflexivity]. Qed.

(** What is refused should not be kept: the container before the uncertain one is, and so is the start of one that lacks an array. *)
Theorem C225_refused_refuted : ~ (forall bs buf b1 k, mem_write true true bs buf = (b1, Raise k) -> b1 = buf).
Proof. intros H. specialize (H [Box false 1 (four 5); Box true 1 (four 5)] [] _ _ eq_refl). discriminate H. Qed.
Print Assumptions C225_refused_refuted.
Theorem C225_lacks_refuted : ~ (forall bs buf b1 k e, mem_write true true bs buf = (b1, Raise k) -> In e b1 -> In e buf \/ exists b, In b bs /\ keeps b e).
Proof.
  intros H. destruct (H [Box false 1 [(lit "mass"%string, 1); (lit "age"%string, 3)]] [] _ _ _ eq_refl (or_introl eq_refl)) as [[] | (b & [<- | []] & (_ & K & _))].
  specialize (K (lit "age"%string) (or_intror (or_intror (or_introl eq_refl)))). vm_compute in K. discriminate K.
Qed.
Print Assumptions C225_lacks_refuted.
