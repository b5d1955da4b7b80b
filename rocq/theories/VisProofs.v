(** * Proofs about viscosities and vapour pressures *)
From Coq Require Import ZArith QArith Reals Qreals List Bool Lia Lra Psatz.
From Verif Require Import Py PyLemmas VisModel VisSpec.
Import ListNotations.
Open Scope R_scope.

(** ** The points of the fit *)

Lemma fresh_pairs : forall ks ts ws, length ts = length ks -> length ws = length ks ->
  length (fresh_of ks ws) = length (filter (fun w => Qeq_bool w 0) ws) /\
  length (fresh_of ts ws) = length (filter (fun w => Qeq_bool w 0) ws) /\
  forall t k, In (t, k) (combine (fresh_of ts ws) (fresh_of ks ws)) <->
    exists i w, nth_error ks i = Some k /\ nth_error ts i = Some t /\ nth_error ws i = Some w /\ (w == 0)%Q.
Proof.
  induction ks as [|k0 ks IH]; intros [|t0 ts] [|w0 ws] L1 L2; try discriminate.
  - cbn. split; [reflexivity|]. split; [reflexivity|]. intros t k. split; [intros []|].
    intros (i & w & H & _). destruct i; discriminate.
  - cbn in L1, L2. destruct (IH ts ws) as (A & B & C); [lia|lia|]. cbn [fresh_of filter].
    destruct (Qeq_bool w0 0) eqn:W; cbn [length].
    + split; [lia|]. split; [lia|]. intros t k. cbn [combine In]. rewrite C. split.
      * intros [E|(i & w & H)].
        -- injection E as -> ->. exists 0%nat, w0. apply Qeq_bool_iff in W. cbn. auto.
        -- exists (S i), w. exact H.
      * intros (i & w & H1 & H2 & H3 & H4). destruct i as [|i].
        -- cbn in H1, H2. left. congruence.
        -- right. exists i, w. auto.
    + split; [exact A|]. split; [exact B|]. intros t k. rewrite C. split.
      * intros (i & w & H). exists (S i), w. exact H.
      * intros (i & w & H1 & H2 & H3 & H4). destruct i as [|i].
        -- cbn in H3. injection H3 as <-. apply Qeq_bool_iff in H4. congruence.
        -- exists i, w. auto.
Qed.

Lemma combine_maps (f g : R -> R) : forall a b,
  combine (map f a) (map g b) = map (fun p => (f (fst p), g (snd p))) (combine a b).
Proof.
  induction a as [|x a IH]; intros [|y b]; cbn; try reflexivity. now rewrite IH.
Qed.

(** The points (T, v) of an oil. *)
Definition points (o : voil) : list (R * R) :=
  combine (fresh_of (v_temps o) (v_weath o)) (fresh_of (v_kvis o) (v_weath o)).
Definition xy (p : R * R) : R * R := (1 / fst p, ln (snd p)).

Lemma points_in o : vwell_formed o -> forall t k, In (t, k) (points o) <-> vmeasured o k t.
Proof. intros (L1 & L2). destruct (fresh_pairs _ _ _ L1 L2) as (_ & _ & C). exact C. Qed.
Lemma points_length o : vwell_formed o -> length (points o) = nfresh o.
Proof.
  intros (L1 & L2). destruct (fresh_pairs _ _ _ L1 L2) as (A & B & _).
  unfold points. rewrite combine_length. unfold nfresh. lia.
Qed.

Lemma determine_eq lsq o : vwell_formed o ->
  determine lsq o = match points o with
                    | [(t, k)] => Ok (k * exp (- 2100 / t), 2100)
                    | l => Ok (exp (fst (lsq (map xy l))), snd (lsq (map xy l)))
                    end.
Proof.
  intros (L1 & L2). destruct (fresh_pairs _ _ _ L1 L2) as (A & B & _).
  unfold determine, points. set (ks := fresh_of (v_kvis o) (v_weath o)) in *.
  set (ts := fresh_of (v_temps o) (v_weath o)) in *. clearbody ks ts.
  assert (E : length ts = length ks) by lia.
  destruct ks as [|k [|k2 ks]], ts as [|t [|t2 ts]]; try discriminate; cbn [combine].
  - cbn. now destruct (lsq []).
  - reflexivity.
  - replace (length (k :: k2 :: ks) =? length (t :: t2 :: ts))%nat with true by (symmetry; apply Nat.eqb_eq; cbn in *; lia).
    rewrite combine_maps. cbn [combine]. fold xy. change (fun p : R * R => (1 / fst p, ln (snd p))) with xy.
    destruct (lsq _) as [b s]. reflexivity.
Qed.

(** ** Least squares *)

Fixpoint suml (f : R * R -> R) (l : list (R * R)) : R :=
  match l with [] => 0 | p :: r => f p + suml f r end.

Lemma cost_nonneg : forall l b s, 0 <= cost l b s.
Proof.
  induction l as [|[x y] r IH]; intros b s; cbn [cost]; [lra|].
  specialize (IH b s). pose proof (pow2_ge_0 (y - b - s * x)). lra.
Qed.
Lemma cost_zero : forall l b s, cost l b s = 0 -> forall x y, In (x, y) l -> y = b + s * x.
Proof.
  induction l as [|[x0 y0] r IH]; intros b s E x y I; [contradiction|]. cbn [cost] in E.
  pose proof (cost_nonneg r b s). pose proof (pow2_ge_0 (y0 - b - s * x0)).
  destruct I as [I|I].
  - injection I as -> ->. assert (Z0 : (y - b - s * x) ^ 2 = 0) by lra.
    assert (y - b - s * x = 0); [|lra]. replace ((y - b - s * x) ^ 2) with (Rsqr (y - b - s * x)) in Z0 by (unfold Rsqr; ring).
    now apply Rsqr_0_uniq.
  - apply (IH b s); auto. lra.
Qed.
Lemma cost_all_zero : forall l b s, (forall x y, In (x, y) l -> y = b + s * x) -> cost l b s = 0.
Proof.
  induction l as [|[x y] r IH]; intros b s H; cbn [cost]; [reflexivity|].
  rewrite IH by (intros; apply H; now right). rewrite (H x y (or_introl eq_refl)). ring.
Qed.

Lemma cost_move : forall l b s e db ds,
  cost l (b + e * db) (s + e * ds) =
  cost l b s - 2 * e * (db * suml (fun p => snd p - b - s * fst p) l
                        + ds * suml (fun p => fst p * (snd p - b - s * fst p)) l)
  + e ^ 2 * suml (fun p => (db + ds * fst p) ^ 2) l.
Proof.
  induction l as [|[x y] r IH]; intros b s e db ds; cbn [cost suml]; [ring|].
  rewrite IH. cbn [fst snd]. ring.
Qed.

Lemma quad_zero g q : 0 <= q -> (forall e, 0 <= - (2 * e * g) + e ^ 2 * q) -> g = 0.
Proof.
  intros Q0 H. specialize (H (g / (q + 1))).
  assert (E : - (2 * (g / (q + 1)) * g) + (g / (q + 1)) ^ 2 * q = - (g ^ 2 * (q + 2) / (q + 1) ^ 2)) by (field; lra).
  rewrite E in H.
  assert (P : 0 < (q + 1) ^ 2) by (apply pow_lt; lra).
  assert (0 <= g ^ 2) by apply pow2_ge_0.
  destruct (Req_dec g 0) as [->|N]; [reflexivity|]. exfalso.
  assert (0 < g ^ 2). { assert (0 < Rsqr g) by (now apply Rsqr_pos_lt). unfold Rsqr in *. nra. }
  assert (0 < g ^ 2 * (q + 2) / (q + 1) ^ 2).
  { apply Rdiv_lt_0_compat; [|exact P]. apply Rmult_lt_0_compat; lra. }
  lra.
Qed.

Lemma suml_sq_nonneg db ds : forall l, 0 <= suml (fun p => (db + ds * fst p) ^ 2) l.
Proof.
  induction l as [|p r IH]; cbn [suml]; [lra|]. pose proof (pow2_ge_0 (db + ds * fst p)). lra.
Qed.

Lemma normal_equations lsq l : least_squares lsq ->
  let b := fst (lsq l) in let s := snd (lsq l) in
  suml (fun p => snd p - b - s * fst p) l = 0 /\ suml (fun p => fst p * (snd p - b - s * fst p)) l = 0.
Proof.
  intros LS b s. destruct (LS l) as (M & _). fold b s in M.
  assert (G : forall db ds, db * suml (fun p => snd p - b - s * fst p) l
                        + ds * suml (fun p => fst p * (snd p - b - s * fst p)) l = 0).
  { intros db ds. apply (quad_zero _ (suml (fun p => (db + ds * fst p) ^ 2) l)); [apply suml_sq_nonneg|].
    intros e. specialize (M (b + e * db) (s + e * ds)). rewrite cost_move in M. lra. }
  split; [specialize (G 1 0)|specialize (G 0 1)]; lra.
Qed.

Definition n_ (l : list (R * R)) := suml (fun _ => 1) l.
Definition sx (l : list (R * R)) := suml fst l.
Definition sy (l : list (R * R)) := suml snd l.
Definition sxx (l : list (R * R)) := suml (fun p => fst p * fst p) l.
Definition sxy (l : list (R * R)) := suml (fun p => fst p * snd p) l.

Lemma normal_sums b s : forall l,
  suml (fun p => snd p - b - s * fst p) l = sy l - b * n_ l - s * sx l /\
  suml (fun p => fst p * (snd p - b - s * fst p)) l = sxy l - b * sx l - s * sxx l.
Proof.
  unfold sy, n_, sx, sxy, sxx. induction l as [|p r (A & B)]; cbn [suml]; [split; ring|].
  rewrite A, B. split; ring.
Qed.

Lemma inner_sum (p : R * R) : forall l,
  suml (fun q => (fst p - fst q) * (snd p - snd q)) l
  = n_ l * (fst p * snd p) - fst p * sy l - snd p * sx l + sxy l.
Proof.
  unfold sy, n_, sx, sxy. induction l as [|q r IH]; cbn [suml]; [ring|]. rewrite IH. ring.
Qed.
Lemma double_sum m : forall l,
  suml (fun p => suml (fun q => (fst p - fst q) * (snd p - snd q)) m) l
  = n_ m * sxy l - sx l * sy m - sy l * sx m + n_ l * sxy m.
Proof.
  unfold sx at 1, sy at 2, sxy at 1, n_ at 2. induction l as [|p r IH]; cbn [suml]; [ring|].
  rewrite inner_sum, IH. ring.
Qed.
Lemma inner_sum_x (p : R * R) : forall l,
  suml (fun q => (fst p - fst q) ^ 2) l = n_ l * (fst p * fst p) - 2 * (fst p * sx l) + sxx l.
Proof.
  unfold n_, sx, sxx. induction l as [|q r IH]; cbn [suml]; [ring|]. rewrite IH. ring.
Qed.
Lemma double_sum_x m : forall l,
  suml (fun p => suml (fun q => (fst p - fst q) ^ 2) m) l
  = n_ m * sxx l - 2 * (sx l * sx m) + n_ l * sxx m.
Proof.
  unfold sx at 1, sxx at 1, n_ at 2. induction l as [|p r IH]; cbn [suml]; [ring|].
  rewrite inner_sum_x, IH. ring.
Qed.

Lemma suml_nonneg f : forall l, (forall p, In p l -> 0 <= f p) -> 0 <= suml f l.
Proof.
  induction l as [|p r IH]; intros H; cbn [suml]; [lra|].
  specialize (IH (fun q I => H q (or_intror I))). specialize (H p (or_introl eq_refl)). lra.
Qed.
Lemma suml_pos f : forall l, (forall p, In p l -> 0 <= f p) -> (exists p, In p l /\ 0 < f p) -> 0 < suml f l.
Proof.
  induction l as [|p r IH]; intros H (q & I & P); [contradiction|]. cbn [suml]. destruct I as [->|I].
  - pose proof (suml_nonneg f r (fun q I => H q (or_intror I))). lra.
  - specialize (IH (fun q I => H q (or_intror I)) (ex_intro _ q (conj I P))).
    specialize (H p (or_introl eq_refl)). lra.
Qed.

(** Points that rise together, not all at one x: the slope is not negative. *)
Lemma slope_nonneg lsq l : least_squares lsq ->
  (forall p q, In p l -> In q l -> 0 <= (fst p - fst q) * (snd p - snd q)) ->
  (exists p q, In p l /\ In q l /\ fst p <> fst q) ->
  0 <= snd (lsq l).
Proof.
  intros LS Mono (p0 & q0 & Ip & Iq & Ne).
  destruct (normal_equations lsq l LS) as (N1 & N2). set (b := fst (lsq l)) in *. set (s := snd (lsq l)) in *.
  destruct (normal_sums b s l) as (A & B). rewrite A in N1. rewrite B in N2.
  assert (C : 0 <= suml (fun p => suml (fun q => (fst p - fst q) * (snd p - snd q)) l) l).
  { apply suml_nonneg. intros p I. apply suml_nonneg. intros q J. now apply Mono. }
  assert (V : 0 < suml (fun p => suml (fun q => (fst p - fst q) ^ 2) l) l).
  { apply suml_pos.
    - intros p I. apply suml_nonneg. intros q J. apply pow2_ge_0.
    - exists p0. split; [exact Ip|]. apply suml_pos; [intros; apply pow2_ge_0|]. exists q0. split; [exact Iq|].
      assert (0 < Rsqr (fst p0 - fst q0)) by (apply Rsqr_pos_lt; lra). unfold Rsqr in *. nra. }
  rewrite double_sum in C. rewrite double_sum_x in V.
  assert (K : n_ l * sxy l - sx l * sy l = s * (n_ l * sxx l - sx l * sx l)).
  { assert (sy l = b * n_ l + s * sx l) by lra. assert (sxy l = b * sx l + s * sxx l) by lra. rewrite H, H0. ring. }
  assert (V' : 0 < n_ l * sxx l - sx l * sx l) by lra.
  assert (C' : 0 <= s * (n_ l * sxx l - sx l * sx l)) by lra.
  destruct (Rle_lt_dec 0 s) as [G|G]; [exact G|]. exfalso.
  assert (0 < (- s) * (n_ l * sxx l - sx l * sx l)) by (apply Rmult_lt_0_compat; lra). lra.
Qed.

Lemma curve_falls A k T1 T2 : 0 < A -> 0 <= k -> 0 < T1 -> T1 <= T2 -> A * exp (k / T2) <= A * exp (k / T1).
Proof.
  intros PA K P L. apply Rmult_le_compat_l; [lra|].
  assert (H : k / T2 <= k / T1).
  { unfold Rdiv. apply Rmult_le_compat_l; [exact K|]. apply Rinv_le_contravar; assumption. }
  destruct H as [H|H]; [left; now apply exp_increasing|right; now rewrite H].
Qed.

Lemma ln_le_ x y : 0 < x -> x <= y -> ln x <= ln y.
Proof. intros P [L| ->]; [left; now apply ln_increasing|right; reflexivity]. Qed.

(** ** Viscosity during a run *)

Lemma kv1_range v0 : 1 <= kv1 v0 <= 10.
Proof. unfold kv1. destruct (Rlt_dec _ _); [lra|]. destruct (Rlt_dec _ _); lra. Qed.

Lemma oil_visc_mono v0 f1 f2 : 0 < v0 -> f1 <= f2 -> v0 * exp (kv1 v0 * f1) <= v0 * exp (kv1 v0 * f2).
Proof.
  intros P L. apply Rmult_le_compat_l; [lra|]. pose proof (kv1_range v0).
  assert (H0 : kv1 v0 * f1 <= kv1 v0 * f2) by (apply Rmult_le_compat_l; lra).
  destruct H0 as [H0|H0]; [left; now apply exp_increasing|right; now rewrite H0].
Qed.

Definition wfac (fw : R) : R := 1 + fw / visc_f_ref / (1187 / 1000 - fw / visc_f_ref).
Lemma wfac_mono f1 f2 : 0 <= f1 -> f1 <= f2 -> f2 <= 99 / 100 ->
  0 < 1187 / 1000 - f2 / visc_f_ref /\ 0 < 1187 / 1000 - f1 / visc_f_ref /\ 1 <= wfac f1 /\ wfac f1 <= wfac f2.
Proof.
  intros P L U. unfold wfac, visc_f_ref.
  assert (E1 : f1 / (84 / 100) = f1 * (100 / 84)) by (field).
  assert (E2 : f2 / (84 / 100) = f2 * (100 / 84)) by (field).
  rewrite E1, E2. set (a := f1 * (100 / 84)). set (b := f2 * (100 / 84)).
  assert (Ha : 0 <= a) by (unfold a; lra). assert (Hab : a <= b) by (unfold a, b; lra).
  assert (Hb : b < 1187 / 1000) by (unfold b; lra). clearbody a b.
  split; [lra|]. split; [lra|]. split.
  - assert (0 <= a / (1187 / 1000 - a)); [|lra]. apply Rmult_le_pos; [exact Ha|].
    left. apply Rinv_0_lt_compat. lra.
  - apply Rplus_le_compat_l. unfold Rdiv. apply Rmult_le_compat; [exact Ha| |exact Hab|].
    + left. apply Rinv_0_lt_compat. lra.
    + apply Rinv_le_contravar; lra.
Qed.

Lemma rpower_mono x y e : 0 < x -> x <= y -> 0 <= e -> Rpower x e <= Rpower y e.
Proof.
  intros P L E. unfold Rpower. pose proof (ln_le_ x y P L).
  assert (H0 : e * ln x <= e * ln y) by (apply Rmult_le_compat_l; lra).
  destruct H0 as [H0|H0]; [left; now apply exp_increasing|right; now rewrite H0].
Qed.
Lemma rpower_ge1 x e : 1 <= x -> 0 <= e -> 1 <= Rpower x e.
Proof.
  intros P E. replace 1 with (Rpower 1 e) at 1; [apply rpower_mono; lra|].
  unfold Rpower. rewrite ln_1, Rmult_0_r. apply exp_0.
Qed.

(** ** Vapour pressure *)

Lemma vapor_coeff bp : 1 <= bp ->
  0 < (875 / 100 + 1987 / 1000 * ln bp) * (bp - (19 / 100 * bp - 18)) ^ 2 / (97 / 100 * (1987 / 1000) * bp).
Proof.
  intros P. assert (0 <= ln bp). { rewrite <- ln_1. apply ln_le_; lra. }
  apply Rdiv_lt_0_compat; [|lra]. apply Rmult_lt_0_compat; [lra|]. apply pow_lt. lra.
Qed.

Lemma pressure_eq bps T T' : (T == T')%Q -> pressure bps T = pressure bps T'.
Proof. intros E. unfold pressure. now rewrite (Qeq_eqR T T' E). Qed.

Definition valid (s : vstate) : Prop :=
  forall o T v, lfind (o, T) (s_cache s) = Some v -> v = pressure (s_bp s o) T.

Lemma key_eqb_spec o T o' T' : key_eqb (o, T) (o', T') = true <-> o = o' /\ (T == T')%Q.
Proof.
  unfold key_eqb. cbn. rewrite andb_true_iff, Z.eqb_eq, Qeq_bool_iff. tauto.
Qed.

Definition valid_c (bp : Z -> list R) (c : lru) : Prop :=
  Forall (fun e => snd e = pressure (bp (fst (fst e))) (snd (fst e))) c.

Lemma valid_find bp c o T v : valid_c bp c -> lfind (o, T) c = Some v -> v = pressure (bp o) T.
Proof.
  induction c as [|[[o' T'] v'] r IH]; intros V E; [discriminate|]. cbn [lfind] in E.
  destruct (key_eqb (o, T) (o', T')) eqn:K.
  - apply key_eqb_spec in K. destruct K as (<- & K). injection E as <-.
    pose proof (Forall_inv V) as H. cbn in H. rewrite H. symmetry. now apply pressure_eq.
  - apply IH; [apply (Forall_inv_tail V)|exact E].
Qed.
Lemma valid_remove bp k c : valid_c bp c -> valid_c bp (lremove k c).
Proof.
  induction c as [|[k' v'] r IH]; intros V; cbn [lremove]; [constructor|].
  destruct (key_eqb k k'); [apply (Forall_inv_tail V)|].
  constructor; [apply (Forall_inv V)|]. apply IH, (Forall_inv_tail V).
Qed.
Lemma valid_firstn bp n c : valid_c bp c -> valid_c bp (firstn n c).
Proof.
  revert n. induction c as [|e r IH]; intros [|n] V; cbn [firstn]; try constructor.
  - apply (Forall_inv V).
  - apply IH, (Forall_inv_tail V).
Qed.

Lemma vop_pressure s o T : valid_c (s_bp s) (s_cache s) ->
  snd (vop1 s (Pressure o T)) = Some (pressure (s_bp s o) T) /\
  s_bp (fst (vop1 s (Pressure o T))) = s_bp s /\
  valid_c (s_bp s) (s_cache (fst (vop1 s (Pressure o T)))).
Proof.
  intros V. cbn [vop1]. destruct (lfind (o, T) (s_cache s)) as [v|] eqn:F; cbn [fst snd s_bp s_cache].
  - pose proof (valid_find _ _ _ _ _ V F) as E. subst v. split; [reflexivity|]. split; [reflexivity|].
    constructor; [reflexivity|]. now apply valid_remove.
  - split; [reflexivity|]. split; [reflexivity|].
    change (((o, T), pressure (s_bp s o) T) :: match s_cache s with [] => [] | a :: _ => [a] end)
      with (firstn 2 (((o, T), pressure (s_bp s o) T) :: s_cache s)).
    apply valid_firstn. constructor; [reflexivity|exact V].
Qed.

Lemma lru_small s op : (length (s_cache s) <= 2)%nat -> (length (s_cache (fst (vop1 s op))) <= 2)%nat.
Proof.
  intros L. destruct op as [o T|o bps]; cbn [vop1]; [|exact L].
  destruct (lfind (o, T) (s_cache s)) as [v|] eqn:F; cbn [fst s_cache].
  - cbn [length]. assert (length (lremove (o, T) (s_cache s)) < length (s_cache s))%nat; [|lia].
    clear L. induction (s_cache s) as [|[k' v'] r IH]; [discriminate|]. cbn [lfind lremove] in *.
    destruct (key_eqb (o, T) k'); [cbn; lia|]. specialize (IH F). cbn. lia.
  - rewrite firstn_length. lia.
Qed.
