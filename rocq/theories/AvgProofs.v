(** * Proofs about running averages and output in memory *)

From Coq Require Import ZArith List Bool Lia String.
From Verif Require Import Py PyLemmas StrModel StrLemmas AvgModel AvgSpec.
Import ListNotations.
Open Scope list_scope.
Open Scope Z_scope.

Lemma do_ops_app {W S} (e : ext W S) a b : forall r, do_ops e (a ++ b) r = do x <- do_ops e a r; do_ops e b x.
Proof. induction a as [| o a IH]; intros r; cbn [app do_ops bind]; [reflexivity |]. destruct (do_op e o r); cbn [bind]; [apply IH | reflexivity]. Qed.

(** What is in use was there, or is made of the state at an earlier call. *)
Lemma source {W S} (e : ext W S) l : forall r r', do_ops e l r = Ok r' ->
  r_series r' = r_series r \/
  exists a o b r1 w t, l = a ++ o :: b /\ at_time o t /\ do_ops e a r = Ok r1 /\ r_wind r1 = Some w /\ average e w (r_hours r1) t = Ok (r_series r').
Proof.
  induction l as [| o l IH] using rev_ind; intros r r' H; [injection H as ->; left; reflexivity |].
  rewrite do_ops_app in H. destruct (do_ops e l r) as [x | k] eqn:E; [| discriminate H]. cbn [bind do_ops] in H.
  destruct (do_op e o x) as [y | k] eqn:D; [| discriminate H]. cbn [bind] in H. injection H as <-.
  assert (K : r_series y = r_series x \/ exists w t, at_time o t /\ r_wind x = Some w /\ average e w (r_hours x) t = Ok (r_series y)).
  { destruct o as [h | w | t | t]; cbn [do_op] in D.
    - injection D as <-. left. reflexivity.
    - injection D as <-. left. reflexivity.
    - unfold prepare_run, create_average in D. destruct (r_wind x) as [w |] eqn:Wx; [| discriminate D]. destruct (average e w (r_hours x) t) eqn:A; [| discriminate D]. cbn [bind] in D. injection D as <-.
      right. exists w, t. split; [left; reflexivity |]. split; [reflexivity | exact A].
    - unfold prepare_step, create_average in D. destruct (inside e (r_series x) t); [injection D as <-; left; reflexivity |]. destruct (r_wind x) as [w |] eqn:Wx; [| discriminate D].
      destruct (average e w (r_hours x) t) eqn:A; [| discriminate D]. cbn [bind] in D. injection D as <-. right. exists w, t. split; [right; reflexivity |]. split; [reflexivity | exact A]. }
  destruct K as [K | (w & t & T & Wx & A)].
  - rewrite K. destruct (IH r x E) as [Q | (a & o' & b & r1 & w & t & -> & T & E1 & Wx & A)]; [left; exact Q |]. right. exists a, o', (b ++ [o]), r1, w, t.
    split; [rewrite <- app_assoc; reflexivity |]. repeat split; assumption.
  - right. exists l, o, [], x, w, t. repeat split; assumption.
Qed.

Lemma kept {W S} (e : ext W S) l : calls l -> forall r r', do_ops e l r = Ok r' -> r_wind r' = r_wind r /\ r_hours r' = r_hours r.
Proof.
  induction 1 as [| o l (t & T) F IH]; intros r r' H; cbn [do_ops] in H; [injection H as ->; split; reflexivity |].
  destruct (do_op e o r) as [x | k] eqn:D; [| discriminate H]. cbn [bind] in H. destruct (IH x r' H) as (-> & ->). destruct T as [-> | ->]; cbn [do_op] in D.
  - unfold prepare_run, create_average in D. destruct (r_wind r) eqn:Wx; [| discriminate D]. destruct (average _ _ _ _); [| discriminate D]. injection D as <-. split; reflexivity.
  - unfold prepare_step, create_average in D. destruct (inside _ _ _); [injection D as <-; split; reflexivity |]. destruct (r_wind r) eqn:Wx; [| discriminate D]. destruct (average _ _ _ _); [| discriminate D]. injection D as <-. split; reflexivity.
Qed.

Lemma fill_full b : full b -> exists d, fill arrays_to_output (b_arrays b) [] = (d, None) /\ keeps b (Entry (b_time b) d).
Proof.
  intros F. unfold arrays_to_output. cbn [fill].
  destruct (sget (lit "mass"%string) (b_arrays b)) as [v1 |] eqn:E1; [| destruct (F (lit "mass"%string)); [left; reflexivity | exact E1]].
  destruct (sget (lit "positions"%string) (b_arrays b)) as [v2 |] eqn:E2; [| destruct (F (lit "positions"%string)); [right; left; reflexivity | exact E2]].
  destruct (sget (lit "age"%string) (b_arrays b)) as [v3 |] eqn:E3; [| destruct (F (lit "age"%string)); [right; right; left; reflexivity | exact E3]].
  destruct (sget (lit "status_codes"%string) (b_arrays b)) as [v4 |] eqn:E4; [| destruct (F (lit "status_codes"%string)); [right; right; right; reflexivity | exact E4]].
  eexists. split; [reflexivity |]. split; [reflexivity |]. cbn [e_data]. split.
  - intros n [-> | [-> | [-> | ->]]]; rewrite ?E1, ?E2, ?E3, ?E4; reflexivity.
  - intros n N. rewrite !sget_sset. destruct (seqb n (lit "status_codes"%string)) eqn:Q4; [apply seqb_iff in Q4; destruct N; right; right; right; exact Q4 |].
    destruct (seqb n (lit "age"%string)) eqn:Q3; [apply seqb_iff in Q3; destruct N; right; right; left; exact Q3 |].
    destruct (seqb n (lit "positions"%string)) eqn:Q2; [apply seqb_iff in Q2; destruct N; right; left; exact Q2 |].
    destruct (seqb n (lit "mass"%string)) eqn:Q1; [apply seqb_iff in Q1; destruct N; left; exact Q1 | reflexivity].
Qed.

Lemma store_full bs : Forall full bs -> Forall (fun b => b_unc b = false) bs -> forall buf told, exists es, Forall2 keeps bs es /\
  store bs buf told = (buf ++ es, match rev bs with b :: _ => Ok (b_time b) | [] => match told with Some t => Ok t | None => Raise RuntimeErr end end).
Proof.
  induction bs as [| b bs IH]; intros F U buf told.
  - exists []. split; [constructor |]. cbn [store rev]. rewrite app_nil_r. reflexivity.
  - destruct (fill_full b (Forall_inv F)) as (d & E & K). destruct (IH (Forall_inv_tail F) (Forall_inv_tail U) (buf ++ [Entry (b_time b) d]) (Some (b_time b))) as (es & F2 & S1).
    exists (Entry (b_time b) d :: es). split; [constructor; assumption |]. cbn [store]. rewrite (Forall_inv U), E. cbn [fst snd]. rewrite S1, <- app_assoc. cbn [app rev]. destruct (rev bs); reflexivity.
Qed.

Lemma store_uncertain bs u r : Forall full bs -> Forall (fun b => b_unc b = false) bs -> b_unc u = true -> forall buf told,
  exists es, Forall2 keeps bs es /\ store (bs ++ u :: r) buf told = (buf ++ es, Raise RuntimeErr).
Proof.
  induction bs as [| b bs IH]; intros F U Q buf told.
  - exists []. split; [constructor |]. cbn [app store]. rewrite Q, app_nil_r. reflexivity.
  - destruct (fill_full b (Forall_inv F)) as (d & E & K). destruct (IH (Forall_inv_tail F) (Forall_inv_tail U) Q (buf ++ [Entry (b_time b) d]) (Some (b_time b))) as (es & F2 & S1).
    exists (Entry (b_time b) d :: es). split; [constructor; assumption |]. cbn [app store]. rewrite (Forall_inv U), E. cbn [fst snd]. rewrite S1, <- app_assoc. reflexivity.
Qed.

Lemma steps_full l : Forall full (written l) -> Forall (fun b => b_unc b = false) (written l) -> Forall (fun x => snd x <> []) l ->
  forall buf, exists es, Forall2 keeps (written l) es /\ mem_steps l buf = (buf ++ es, None).
Proof.
  induction l as [| [[on wr] bs] l IH]; intros F U NE buf.
  - exists []. split; [constructor |]. cbn [mem_steps]. rewrite app_nil_r. reflexivity.
  - assert (NB := Forall_inv NE). cbn [snd] in NB. assert (NE' := Forall_inv_tail NE). destruct on, wr; cbn [written] in F, U |- *; cbn [mem_steps mem_write negb orb].
    2-4: exact (IH F U NE' buf).
    apply Forall_app in F, U. destruct F as (F1 & F2), U as (U1 & U2). destruct (store_full bs F1 U1 buf None) as (e1 & K1 & S1). unfold mem_write. cbn [negb orb]. rewrite S1. cbn [fst snd].
    destruct (rev bs) as [| x t] eqn:R; [apply (f_equal (@rev box)) in R; rewrite rev_involutive in R; contradiction |]. cbn [bind].
    destruct (IH F2 U2 NE' (buf ++ e1)) as (e2 & K2 & S2). rewrite S2. exists (e1 ++ e2). split; [apply Forall2_app; assumption | rewrite app_assoc; reflexivity].
Qed.
