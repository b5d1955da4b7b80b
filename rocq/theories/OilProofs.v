(** * Proofs about the properties of an oil *)
From Coq Require Import ZArith QArith Qminmax List Bool Lia Lqa Qfield Permutation.
From Verif Require Import Py PyLemmas QLemmas OilModel OilSpec.
Import ListNotations.
Open Scope Q_scope.

Lemma Qltb_iff a b : Qltb a b = true <-> a < b.
Proof.
  unfold Qltb. rewrite Bool.negb_true_iff. split.
  - intros H. apply Qnot_le_lt. rewrite <- Qle_bool_iff. congruence.
  - intros H. destruct (Qle_bool b a) eqn:E; [|reflexivity]. apply Qle_bool_iff in E. lra.
Qed.
Lemma Qltb_no a b : Qltb a b = false <-> b <= a.
Proof. unfold Qltb. rewrite Bool.negb_false_iff. apply Qle_bool_iff. Qed.
Lemma Qleb_no a b : Qle_bool a b = false <-> b < a.
Proof.
  split; intros H.
  - apply Qnot_le_lt. rewrite <- Qle_bool_iff. congruence.
  - destruct (Qle_bool a b) eqn:E; [|reflexivity]. apply Qle_bool_iff in E. lra.
Qed.
Lemma Qeqb_no a b : Qeq_bool a b = false <-> ~ a == b.
Proof. rewrite <- Qeq_bool_iff. destruct (Qeq_bool a b); intuition congruence. Qed.

Ltac qcase :=
  match goal with
  | |- context [Qltb ?a ?b] => let H := fresh "C" in destruct (Qltb a b) eqn:H; [apply Qltb_iff in H | apply Qltb_no in H]
  | |- context [Qle_bool ?a ?b] => let H := fresh "C" in destruct (Qle_bool a b) eqn:H; [apply Qle_bool_iff in H | apply Qleb_no in H]
  | |- context [Qeq_bool ?a ?b] => let H := fresh "C" in destruct (Qeq_bool a b) eqn:H; [apply Qeq_bool_iff in H | apply Qeqb_no in H]
  end.

(** ** The two measurements around a temperature *)

Fixpoint pair_at (a : dens) (r : list dens) (T : Q) : dens * dens :=
  match r with
  | [] => (a, a)
  | b :: r' => if Qltb T (d_t b) then (a, b) else pair_at b r' T
  end.

Definition geqs (l : list dens) (T : Q) := map (fun d => Qle_bool (d_t d) T) l.

Lemma first_false_pair : forall r a T, d_t a <= T ->
  match first_false (geqs (a :: r) T) with
  | None => forallb (fun b => b) (geqs (a :: r) T) = true /\
            nth_error (a :: r) (length r) = Some (fst (pair_at a r T)) /\
            snd (pair_at a r T) = fst (pair_at a r T)
  | Some 0%nat => False
  | Some (S i) => forallb (fun b => b) (geqs (a :: r) T) = false /\
            (S i < length (a :: r))%nat /\
            nth_error (a :: r) i = Some (fst (pair_at a r T)) /\
            nth_error (a :: r) (S i) = Some (snd (pair_at a r T))
  end.
Proof.
  induction r as [|b r IH]; intros a T L; cbn [geqs map first_false].
  - apply Qle_bool_iff in L. rewrite L. cbn. try rewrite L. auto.
  - assert (La := L). apply Qle_bool_iff in La. rewrite La. cbn [forallb].
    cbn [pair_at]. qcase.
    + assert (N : Qle_bool (d_t b) T = false) by (apply Qleb_no; exact C).
      rewrite N. cbn. auto with arith.
    + specialize (IH b T C). cbn [geqs map first_false] in IH.
      assert (Y : Qle_bool (d_t b) T = true) by (apply Qle_bool_iff; exact C).
      rewrite Y in *. cbn [forallb] in IH.
      change (map (fun d => Qle_bool (d_t d) T) r) with (geqs r T) in *.
      destruct (first_false (geqs r T)) as [i|].
      * destruct IH as (F & Li & N1 & N2). cbn [andb] in *. split; [exact F|].
        split; [cbn [length] in *; lia|]. now split.
      * destruct IH as (F & N1 & E). cbn [andb] in *. split; [exact F|]. split; [|exact E].
        cbn [length nth_error]. exact N1.
Qed.

Fixpoint sorted (l : list dens) : Prop :=
  match l with
  | [] => True
  | a :: r => Forall (fun b => d_t a <= d_t b) r /\ sorted r
  end.

Lemma low_all a r T : Forall (fun b => d_t a <= d_t b) r -> T < d_t a ->
  forallb negb (geqs r T) = true.
Proof.
  intros F L. unfold geqs. rewrite forallb_forall. intros x I. apply in_map_iff in I.
  destruct I as (d & <- & I). rewrite Forall_forall in F. specialize (F d I).
  assert (Qle_bool (d_t d) T = false) by (apply Qleb_no; lra). now rewrite H.
Qed.

Lemma bounding_long l T : (2 <= length l)%nat -> forall a r, l = a :: r ->
  sorted l ->
  bounding l T = Ok (if Qltb T (d_t a) then (a, a) else pair_at a r T).
Proof.
  intros Ln a r -> S0. unfold bounding.
  assert (E : (length (a :: r) <=? 1)%nat = false) by (apply Nat.leb_gt; lia). rewrite E. cbv zeta.
  fold (geqs (a :: r) T).
  assert (G : geqs (a :: r) T = Qle_bool (d_t a) T :: geqs r T) by reflexivity.
  destruct (geqs (a :: r) T) as [|g0 gs] eqn:Eg; [discriminate|]. rewrite <- Eg in *.
  qcase.
  - assert (N : Qle_bool (d_t a) T = false) by (apply Qleb_no; exact C).
    rewrite G, N. unfold argmin. cbn [first_false forallb andb negb].
    destruct S0 as [F _]. rewrite (low_all a r T F C). cbn. reflexivity.
  - pose proof (first_false_pair r a T C) as P.
    assert (Y : Qle_bool (d_t a) T = true) by (apply Qle_bool_iff; exact C).
    assert (Lo : forallb negb (geqs (a :: r) T) = false) by (rewrite G, Y; reflexivity).
    rewrite Lo. unfold argmin.
    destruct (first_false (geqs (a :: r) T)) as [[|i]|].
    + contradiction.
    + destruct P as (H & Li & N1 & N2). rewrite H.
      replace (0 <? S i)%nat with true by (symmetry; apply Nat.ltb_lt; lia).
      replace (S i - 1)%nat with i by lia.
      replace (Nat.min (i + 1) (length (a :: r) - 1)) with (S i) by lia.
      rewrite N1, N2. now destruct (pair_at a r T).
    + destruct P as (H & N1 & E2). rewrite H. cbn [length] in *.
      replace (S (length r) - 1)%nat with (length r) by lia.
      replace (Nat.min (length r + 1) (length r)) with (length r) by lia.
      rewrite N1. destruct (pair_at a r T) as [u v]. cbn in *. now subst.
Qed.

Lemma bounding_eq a r T : sorted (a :: r) ->
  bounding (a :: r) T = Ok (if Qltb T (d_t a) then (a, a) else pair_at a r T).
Proof.
  intros S0. destruct r as [|b r].
  - unfold bounding. cbn [length app Nat.leb map forallb].
    cbn [pair_at]. qcase.
    + assert (N : Qle_bool (d_t a) T = false) by (apply Qleb_no; exact C). rewrite N. reflexivity.
    + assert (Y : Qle_bool (d_t a) T = true) by (apply Qle_bool_iff; exact C). rewrite Y. reflexivity.
  - apply (bounding_long (a :: b :: r) T); [cbn; lia|reflexivity|exact S0].
Qed.

(** ** The density along the temperatures *)

Definition k_default (api : Q) : Q := if Qltb 30 api then 9 # 10000 else 8 # 10000.
Definition one_sided (api : Q) (a : dens) (T : Q) : res Q := expand (d_rho a) (d_t a) T (k_default api).
Definition between (a b : dens) (T : Q) : res Q :=
  do k <- vol_expansion a b; expand (d_rho a) (d_t a) T k.

Fixpoint walk (api : Q) (a : dens) (r : list dens) (T : Q) : res Q :=
  match r with
  | [] => if Qltb (d_t a) T then one_sided api a T else expand (d_rho a) (d_t a) T 0
  | b :: r' => if Qltb T (d_t b) then between a b T else walk api b r' T
  end.

Definition dens_list (api : Q) (l : list dens) (T : Q) : res Q :=
  do r <- reference l T;
  do k <- expansion api l T;
  expand (d_rho r) (d_t r) T k.

Lemma vol_same a : vol_expansion a a = Ok 0.
Proof. unfold vol_expansion. now rewrite Qeq_bool_refl. Qed.

Lemma Qltb_false a b : b <= a -> Qltb a b = false.
Proof. apply Qltb_no. Qed.
Lemma Qltb_true a b : a < b -> Qltb a b = true.
Proof. apply Qltb_iff. Qed.

Lemma dens_list_eq api a r T : sorted (a :: r) ->
  dens_list api (a :: r) T = if Qltb T (d_t a) then one_sided api a T else walk api a r T.
Proof.
  intros S0. unfold dens_list, reference, expansion. rewrite (bounding_eq a r T S0).
  destruct (Qltb T (d_t a)) eqn:C.
  - apply Qltb_iff in C. cbn [bind]. rewrite vol_same. cbn [bind].
    rewrite !(Qltb_false (d_t a) T) by lra. rewrite !(Qltb_true T (d_t a) C). cbn. reflexivity.
  - apply Qltb_no in C. cbn [bind]. clear S0. revert a C.
    induction r as [|b r IH]; intros a C; cbn [pair_at walk].
    + rewrite vol_same. cbn [bind]. rewrite !(Qltb_false T (d_t a) C).
      destruct (Qltb (d_t a) T); cbn; reflexivity.
    + destruct (Qltb T (d_t b)) eqn:Cb.
      * apply Qltb_iff in Cb. unfold between.
        rewrite (Qltb_false (d_t b) T) by lra. rewrite (Qltb_false T (d_t a) C).
        rewrite andb_false_r. cbn [andb orb]. destruct (vol_expansion a b); reflexivity.
      * apply Qltb_no in Cb. apply (IH b Cb).
Qed.

(** Facts about the two formulas. *)
Lemma k_default_pos api : 0 < k_default api /\ k_default api <= 9 # 10000.
Proof. unfold k_default. destruct (Qltb 30 api); split; lra. Qed.

Definition okd (a : dens) : Prop := 0 < d_rho a /\ 0 < d_t a /\ d_t a < 1000.

Lemma expand_ok ref reft T k : ~ 1 - k * (reft - T) == 0 ->
  expand ref reft T k = Ok (ref / (1 - k * (reft - T))).
Proof. intros H. unfold expand. apply Qeqb_no in H. now rewrite H. Qed.

Lemma div_le_compat a x y : 0 < a -> 0 < x -> x <= y -> a / y <= a / x.
Proof.
  intros Ha Hx L. apply Qle_shift_div_l; [exact Hx|].
  setoid_replace (a / y * x) with (a * (x / y)) by (field; lra).
  assert (x / y <= 1) by (apply Qle_shift_div_r; lra).
  setoid_replace a with (a * 1) at 2 by ring.
  rewrite !(Qmult_comm a). apply Qmult_le_compat_r; lra.
Qed.

Lemma div_pos a x : 0 < a -> 0 < x -> 0 < a / x.
Proof. intros. apply Qlt_shift_div_l; lra. Qed.

(** Above or below all data. *)
Lemma one_sided_den api a T : okd a -> 0 < T -> 0 < 1 - k_default api * (d_t a - T).
Proof.
  intros (_ & P & L) HT. destruct (k_default_pos api) as [K0 K1].
  assert (d_t a - T <= 1000) by lra.
  destruct (Qlt_le_dec (d_t a - T) 0) as [N|N].
  - assert (0 <= k_default api * (T - d_t a)) by (apply Qmul_nonneg; lra). lra.
  - assert (k_default api * (d_t a - T) <= (9#10000) * 1000).
    { apply Qle_trans with ((9#10000) * (d_t a - T)).
      - apply Qmult_le_compat_r; lra.
      - rewrite !(Qmult_comm (9#10000)). apply Qmult_le_compat_r; lra. }
    lra.
Qed.

Lemma one_sided_ok api a T : okd a -> 0 < T ->
  exists v, one_sided api a T = Ok v /\ v == d_rho a / (1 - k_default api * (d_t a - T)) /\ 0 < v /\
    (d_t a <= T -> v <= d_rho a) /\ (T <= d_t a -> d_rho a <= v).
Proof.
  intros A HT. pose proof (one_sided_den api a T A HT) as D0. destruct A as (R & P & L).
  destruct (k_default_pos api) as [K0 K1].
  exists (d_rho a / (1 - k_default api * (d_t a - T))). split; [apply expand_ok; lra|].
  split; [reflexivity|]. split; [apply div_pos; assumption|]. split; intros C.
  - apply Qle_shift_div_r; [exact D0|].
    assert (0 <= k_default api * (T - d_t a)) by (apply Qmul_nonneg; lra).
    assert (0 <= d_rho a * (k_default api * (T - d_t a))) by (apply Qmul_nonneg; lra).
    lra.
  - apply Qle_shift_div_l; [exact D0|].
    assert (0 <= k_default api * (d_t a - T)) by (apply Qmul_nonneg; lra).
    assert (0 <= d_rho a * (k_default api * (d_t a - T))) by (apply Qmul_nonneg; lra).
    lra.
Qed.

Lemma one_sided_anti api a T1 T2 v1 v2 : okd a -> 0 < T1 -> T1 <= T2 ->
  one_sided api a T1 = Ok v1 -> one_sided api a T2 = Ok v2 -> v2 <= v1.
Proof.
  intros A H1 L E1 E2.
  destruct (one_sided_ok api a T1 A H1) as (u1 & U1 & V1 & _).
  assert (H2 : 0 < T2) by lra.
  destruct (one_sided_ok api a T2 A H2) as (u2 & U2 & V2 & _).
  rewrite E1 in U1. rewrite E2 in U2. injection U1 as <-. injection U2 as <-.
  rewrite V1, V2. apply div_le_compat; [apply A|apply one_sided_den; assumption|].
  destruct (k_default_pos api) as [K0 K1].
  assert (0 <= k_default api * (T2 - T1)) by (apply Qmul_nonneg; lra). lra.
Qed.

(** Between two measurements. *)
Definition kab (a b : dens) : Q := (d_rho a - d_rho b) / (d_rho a * (d_t b - d_t a)).

Lemma kab_nonneg a b : okd a -> okd b -> d_t a < d_t b -> d_rho b <= d_rho a -> 0 <= kab a b.
Proof.
  intros (R & _) _ L E. unfold kab. apply Qle_shift_div_l; [apply Qmul_pos; lra|]. lra.
Qed.

Lemma between_val a b T : okd a -> okd b -> d_t a < d_t b -> d_rho b <= d_rho a ->
  d_t a <= T -> exists v, between a b T = Ok v /\ v == d_rho a / (1 + kab a b * (T - d_t a)) /\ 0 < 1 + kab a b * (T - d_t a).
Proof.
  intros A B L E C. pose proof (kab_nonneg a b A B L E) as K.
  assert (0 <= kab a b * (T - d_t a)) by (apply Qmul_nonneg; lra).
  exists (d_rho a / (1 - kab a b * (d_t a - T))). split.
  - unfold between, vol_expansion.
    assert (N : ~ d_t a == d_t b) by lra. apply Qeqb_no in N. rewrite N.
    assert (N2 : ~ d_rho a == 0) by (destruct A; lra). apply Qeqb_no in N2. rewrite N2.
    cbn [bind]. apply expand_ok. fold (kab a b). lra.
  - split; [|lra]. apply Qdiv_comp; [reflexivity|ring].
Qed.

Lemma between_bounds a b T v : okd a -> okd b -> d_t a < d_t b -> d_rho b <= d_rho a ->
  d_t a <= T -> T <= d_t b -> between a b T = Ok v -> d_rho b <= v /\ v <= d_rho a /\ 0 < v.
Proof.
  intros A B L E C1 C2 H. destruct (between_val a b T A B L E C1) as (u & U & V & P).
  rewrite H in U. injection U as <-. pose proof (kab_nonneg a b A B L E) as K.
  assert (N : 0 <= kab a b * (T - d_t a)) by (apply Qmul_nonneg; lra).
  destruct A as (RA & _). destruct B as (RB & _).
  rewrite V. split; [|split].
  - apply Qle_shift_div_l; [exact P|].
    assert (U : kab a b * (T - d_t a) <= (d_rho a - d_rho b) / d_rho a).
    { setoid_replace ((d_rho a - d_rho b) / d_rho a) with (kab a b * (d_t b - d_t a)) by (unfold kab; field; lra).
      rewrite !(Qmult_comm (kab a b)). apply Qmult_le_compat_r; lra. }
    assert (M : d_rho b * (kab a b * (T - d_t a)) <= d_rho b * ((d_rho a - d_rho b) / d_rho a)).
    { rewrite !(Qmult_comm (d_rho b)). apply Qmult_le_compat_r; lra. }
    assert (M2 : d_rho b * ((d_rho a - d_rho b) / d_rho a) <= d_rho a - d_rho b).
    { setoid_replace (d_rho b * ((d_rho a - d_rho b) / d_rho a)) with ((d_rho b / d_rho a) * (d_rho a - d_rho b)) by (field; lra).
      setoid_replace (d_rho a - d_rho b) with (1 * (d_rho a - d_rho b)) at 2 by ring.
      apply Qmult_le_compat_r; [|lra]. apply Qle_shift_div_r; lra. }
    lra.
  - apply Qle_shift_div_r; [exact P|].
    assert (0 <= d_rho a * (kab a b * (T - d_t a))) by (apply Qmul_nonneg; lra). lra.
  - apply div_pos; lra.
Qed.

Lemma between_anti a b T1 T2 v1 v2 : okd a -> okd b -> d_t a < d_t b -> d_rho b <= d_rho a ->
  d_t a <= T1 -> T1 <= T2 -> between a b T1 = Ok v1 -> between a b T2 = Ok v2 -> v2 <= v1.
Proof.
  intros A B L E C1 C2 H1 H2.
  destruct (between_val a b T1 A B L E C1) as (u & U & V & P).
  assert (C3 : d_t a <= T2) by lra.
  destruct (between_val a b T2 A B L E C3) as (u2 & U2 & V2 & P2).
  rewrite H1 in U. rewrite H2 in U2. injection U as <-. injection U2 as <-.
  rewrite V, V2. apply div_le_compat; [apply A|exact P|].
  pose proof (kab_nonneg a b A B L E) as K.
  assert (0 <= kab a b * (T2 - T1)) by (apply Qmul_nonneg; lra). lra.
Qed.

(** Strictly increasing temperatures, densities that do not rise. *)
Fixpoint chain (a : dens) (r : list dens) : Prop :=
  match r with
  | [] => True
  | b :: r' => d_t a < d_t b /\ d_rho b <= d_rho a /\ chain b r'
  end.

Lemma walk_ok api : forall r a T, okd a -> Forall okd r -> chain a r -> d_t a <= T ->
  exists v, walk api a r T = Ok v /\ 0 < v /\ v <= d_rho a.
Proof.
  induction r as [|b r IH]; intros a T A F Ch C; cbn [walk].
  - destruct (Qltb (d_t a) T) eqn:G.
    + assert (HT : 0 < T) by (destruct A as (_ & P & _); lra).
      destruct (one_sided_ok api a T A HT) as (v & E & _ & P & L & _). exists v.
      split; [exact E|]. split; [exact P|]. now apply L.
    + rewrite expand_ok by lra. exists (d_rho a / (1 - 0 * (d_t a - T))). split; [reflexivity|].
      assert (E : d_rho a / (1 - 0 * (d_t a - T)) == d_rho a) by (field; lra).
      rewrite E. destruct A. split; lra.
  - destruct Ch as (L & E & Ch). pose proof (Forall_inv F) as B. pose proof (Forall_inv_tail F) as F'. cbn beta in B.
    destruct (Qltb T (d_t b)) eqn:G.
    + apply Qltb_iff in G. destruct (between_val a b T A B L E C) as (v & H & _).
      exists v. split; [exact H|].
      destruct (between_bounds a b T v A B L E C) as (_ & U & P); [lra|exact H|]. now split.
    + apply Qltb_no in G. destruct (IH b T B F' Ch G) as (v & H & P & U).
      exists v. split; [exact H|]. split; [exact P|]. lra.
Qed.

Lemma walk_anti api : forall r a T1 T2 v1 v2, okd a -> Forall okd r -> chain a r -> d_t a <= T1 -> T1 <= T2 ->
  walk api a r T1 = Ok v1 -> walk api a r T2 = Ok v2 -> v2 <= v1.
Proof.
  induction r as [|b r IH]; intros a T1 T2 v1 v2 A F Ch C L12 E1 E2.
  - cbn [walk] in *.
    assert (H1 : 0 < T1) by (destruct A as (_ & P & _); lra).
    destruct (Qltb (d_t a) T1) eqn:G1.
    + apply Qltb_iff in G1. rewrite (Qltb_true (d_t a) T2) in E2 by lra.
      apply (one_sided_anti api a T1 T2); assumption.
    + apply Qltb_no in G1. rewrite expand_ok in E1 by lra. injection E1 as <-.
      assert (X : d_rho a / (1 - 0 * (d_t a - T1)) == d_rho a) by (field; lra). rewrite X.
      destruct (walk_ok api [] a T2 A (Forall_nil _) Logic.I) as (v & H & _ & U); [lra|].
      cbn [walk] in H. rewrite E2 in H. injection H as <-. exact U.
  - destruct Ch as (L & E & Ch). pose proof (Forall_inv F) as B. pose proof (Forall_inv_tail F) as F'. cbn beta in B.
    cbn [walk] in *. destruct (Qltb T1 (d_t b)) eqn:G1.
    + apply Qltb_iff in G1. destruct (Qltb T2 (d_t b)) eqn:G2.
      * apply (between_anti a b T1 T2); assumption.
      * apply Qltb_no in G2. destruct (walk_ok api r b T2 B F' Ch G2) as (v & H & _ & U).
        rewrite E2 in H. injection H as <-.
        destruct (between_bounds a b T1 v1 A B L E C) as (Lo & _); [lra|exact E1|]. lra.
    + apply Qltb_no in G1. rewrite (Qltb_false T2 (d_t b)) in E2 by lra.
      apply (IH b T1 T2); assumption.
Qed.

(** At a measurement. *)
Fixpoint strict (l : list dens) : Prop :=
  match l with
  | [] => True
  | a :: r => Forall (fun b => d_t a < d_t b) r /\ strict r
  end.

Lemma strict_sorted : forall l, strict l -> sorted l.
Proof.
  induction l as [|a r IH]; cbn; [auto|]. intros (F & S0). split; [|auto].
  eapply Forall_impl; [|exact F]. cbn. intros. lra.
Qed.

Lemma walk_at api : forall r a d, Forall okd (a :: r) -> strict (a :: r) -> In d (a :: r) ->
  exists v, walk api a r (d_t d) = Ok v /\ v == d_rho d.
Proof.
  induction r as [|b r IH]; intros a d F (Fa & S0) I.
  - destruct I as [<-|[]]. cbn [walk]. rewrite Qltb_false by lra. rewrite expand_ok by lra.
    eexists. split; [reflexivity|]. field; lra.
  - cbn [walk]. destruct I as [<-|I].
    + rewrite Qltb_true by (apply (Forall_inv Fa)). unfold between, vol_expansion.
      assert (L : d_t a < d_t b) by (apply (Forall_inv Fa)).
      assert (N : ~ d_t a == d_t b) by lra. apply Qeqb_no in N. rewrite N.
      assert (R : 0 < d_rho a) by (apply (Forall_inv F)).
      assert (N2 : ~ d_rho a == 0) by lra. apply Qeqb_no in N2. rewrite N2. cbn [bind].
      fold (kab a b). assert (Z0 : 1 - kab a b * (d_t a - d_t a) == 1) by ring.
      rewrite expand_ok by (rewrite Z0; lra). eexists. split; [reflexivity|]. rewrite Z0. field.
    + assert (L : d_t b <= d_t d).
      { destruct I as [<-|I]; [lra|]. destruct S0 as (Fb & _). rewrite Forall_forall in Fb.
        specialize (Fb d I). lra. }
      rewrite Qltb_false by exact L. apply (IH b d (Forall_inv_tail F) S0 I).
Qed.

(** ** The measurements of an oil *)

Lemma fresh_ok : forall ds ts ws, length ts = length ds -> length ws = length ds ->
  exists l, fresh ds ts ws = Ok l /\
    (forall d, In d l <-> exists i w, nth_error ds i = Some (d_rho d) /\ nth_error ts i = Some (d_t d) /\
                          nth_error ws i = Some w /\ w == 0).
Proof.
  induction ds as [|x ds IH]; intros [|t ts] [|w ws] L1 L2; try discriminate.
  - exists []. split; [reflexivity|]. intros d. split; [intros []|].
    intros (i & w & H & _). destruct i; discriminate.
  - cbn in L1, L2. destruct (IH ts ws) as (l & E & M); [lia|lia|].
    cbn [fresh tl]. destruct (Qeq_bool w 0) eqn:W.
    + rewrite E. cbn [bind]. exists (D x t :: l). split; [reflexivity|]. intros d. split.
      * intros [<-|I].
        -- exists 0%nat, w. cbn. apply Qeq_bool_iff in W. auto.
        -- apply M in I. destruct I as (i & v & H). exists (S i), v. exact H.
      * intros (i & v & H1 & H2 & H3 & H4). destruct i as [|i].
        -- cbn in H1, H2. left. destruct d. cbn in *. congruence.
        -- right. apply M. exists i, v. auto.
    + exists l. split; [exact E|]. intros d. split.
      * intros I. apply M in I. destruct I as (i & v & H). exists (S i), v. exact H.
      * intros (i & v & H1 & H2 & H3 & H4). destruct i as [|i].
        -- cbn in H3. injection H3 as <-. apply Qeq_bool_iff in H4. congruence.
        -- apply M. exists i, v. auto.
Qed.

(** Keys that differ pairwise. *)
Fixpoint apart (l : list dens) : Prop :=
  match l with
  | [] => True
  | a :: r => Forall (fun b => ~ d_t a == d_t b) r /\ apart r
  end.

Definition apart_lists (ts ws : list Q) : Prop :=
  forall i j ti tj wi wj, i <> j ->
    nth_error ts i = Some ti -> nth_error ws i = Some wi -> wi == 0 ->
    nth_error ts j = Some tj -> nth_error ws j = Some wj -> wj == 0 -> ~ ti == tj.

Lemma fresh_apart : forall ds ts ws l, length ts = length ds -> length ws = length ds ->
  apart_lists ts ws -> fresh ds ts ws = Ok l -> apart l.
Proof.
  induction ds as [|x ds IH]; intros [|t ts] [|w ws] l L1 L2 A E; try discriminate.
  - cbn in E. injection E as <-. exact Logic.I.
  - cbn in L1, L2. assert (A' : apart_lists ts ws).
    { intros i j ti tj wi wj N. specialize (A (S i) (S j) ti tj wi wj). cbn in A. apply A. congruence. }
    cbn [fresh tl] in E. destruct (Qeq_bool w 0) eqn:W.
    + destruct (fresh ds ts ws) as [l'|] eqn:E'; [|discriminate]. cbn [bind] in E. injection E as <-.
      cbn [apart]. split; [|apply (IH ts ws l'); auto; lia].
      rewrite Forall_forall. intros d I.
      destruct (fresh_ok ds ts ws) as (l2 & E2 & M); [lia|lia|]. rewrite E' in E2. injection E2 as <-.
      apply M in I. destruct I as (i & v & H1 & H2 & H3 & H4).
      apply (A 0%nat (S i) t (d_t d) w v); cbn; auto. now apply Qeq_bool_iff.
    + apply (IH ts ws l); auto; lia.
Qed.

Lemma tinsert_in x : forall l d, In d (tinsert x l) <-> d = x \/ In d l.
Proof.
  induction l as [|y r IH]; intros d; cbn [tinsert].
  - cbn. intuition.
  - destruct (Qle_bool (d_t x) (d_t y)); cbn; [intuition|]. rewrite IH. cbn. intuition.
Qed.
Lemma tsort_in : forall l d, In d (tsort l) <-> In d l.
Proof.
  induction l as [|x r IH]; intros d; cbn [tsort]; [tauto|]. rewrite tinsert_in, IH. cbn. intuition.
Qed.
Lemma tinsert_strict x : forall l, strict l -> Forall (fun y => ~ d_t x == d_t y) l -> strict (tinsert x l).
Proof.
  induction l as [|y r IH]; intros S0 F; cbn [tinsert]; [cbn; auto|].
  destruct S0 as (Fy & S1). pose proof (Forall_inv F) as N. cbn beta in N. qcase.
  - cbn. split; [|split; assumption]. constructor; [lra|].
    eapply Forall_impl; [|exact Fy]. cbn. intros. lra.
  - cbn [strict]. split; [|apply IH; [exact S1|apply (Forall_inv_tail F)]].
    rewrite Forall_forall. intros d I. apply tinsert_in in I. destruct I as [->|I]; [exact C|].
    rewrite Forall_forall in Fy. now apply Fy.
Qed.
Lemma tsort_strict : forall l, apart l -> strict (tsort l).
Proof.
  induction l as [|x r IH]; intros A; cbn [tsort]; [exact Logic.I|]. destruct A as (F & A).
  apply tinsert_strict; [now apply IH|]. rewrite Forall_forall in *. intros d I. apply F.
  now apply tsort_in.
Qed.
Lemma strict_unique : forall l1 l2, strict l1 -> strict l2 -> (forall d, In d l1 <-> In d l2) -> l1 = l2.
Proof.
  induction l1 as [|a r1 IH]; intros [|b r2] S1 S2 M; auto.
  - exfalso. apply (M b). now left.
  - exfalso. apply (M a). now left.
  - destruct S1 as (F1 & S1), S2 as (F2 & S2). rewrite Forall_forall in F1, F2.
    assert (E : a = b).
    { assert (A : In a (b :: r2)) by (apply M; now left).
      assert (B : In b (a :: r1)) by (apply M; now left).
      destruct A as [A|A]; [now symmetry|]. destruct B as [B|B]; [exact B|].
      specialize (F1 _ B). specialize (F2 _ A). lra. }
    subst b. f_equal. apply IH; auto. intros d. split; intros I.
    + assert (X : In d (a :: r2)) by (apply M; now right). destruct X as [<-|X]; [|exact X].
      specialize (F1 _ I). lra.
    + assert (X : In d (a :: r1)) by (apply M; now right). destruct X as [<-|X]; [|exact X].
      specialize (F2 _ I). lra.
Qed.

Lemma qmin_le x : forall l, qmin x l <= x.
Proof. intros [|y r]; cbn [qmin]; [lra|]. apply Q.le_min_l. Qed.
Lemma qmin_in : forall l x y, In y l -> qmin x l <= y.
Proof.
  induction l as [|z r IH]; intros x y []; cbn [qmin].
  - subst z. eapply Qle_trans; [apply Q.le_min_r|apply qmin_le].
  - eapply Qle_trans; [apply Q.le_min_r|]. now apply IH.
Qed.
Lemma qmin_gt : forall l x b, b < x -> Forall (fun y => b < y) l -> b < qmin x l.
Proof.
  induction l as [|z r IH]; intros x b L F; cbn [qmin]; [exact L|].
  apply Q.min_glb_lt; [exact L|]. apply IH; [apply (Forall_inv F)|apply (Forall_inv_tail F)].
Qed.

Lemma dat_eq o l0 : fresh (o_dens o) (o_temps o) (o_weath o) = Ok l0 -> forall T,
  density_at_temp o T =
  dens_list (o_api o) (tsort l0)
    (if Qltb T (qmin (o_pour o) (map d_t (tsort l0))) then qmin (o_pour o) (map d_t (tsort l0)) else T).
Proof. intros E T. unfold density_at_temp. rewrite E. reflexivity. Qed.

(** Everything about the list of one oil. *)
Lemma oil_list o : well_formed o -> one_per_temperature o -> exists l,
  (forall T, density_at_temp o T =
    dens_list (o_api o) l (if Qltb T (qmin (o_pour o) (map d_t l)) then qmin (o_pour o) (map d_t l) else T)) /\
  strict l /\ (forall d, In d l <-> measured o (d_rho d) (d_t d)).
Proof.
  intros (L1 & L2) A. destruct (fresh_ok _ _ _ L1 L2) as (l0 & E & M).
  exists (tsort l0). split; [exact (dat_eq o l0 E)|]. split.
  - apply tsort_strict. exact (fresh_apart _ _ _ l0 L1 L2 A E).
  - intros d. rewrite tsort_in. apply M.
Qed.

Lemma strict_chain : forall l o, (forall d, In d l -> measured o (d_rho d) (d_t d)) -> expands o ->
  strict l -> match l with [] => True | a :: r => chain a r end.
Proof.
  induction l as [|a r IH]; intros o M X S0; [exact Logic.I|].
  destruct r as [|b r]; [exact Logic.I|]. destruct S0 as (F & S0).
  cbn [chain]. pose proof (Forall_inv F) as L. cbn beta in L. split; [exact L|]. split.
  - apply (X _ _ _ _ (M a (or_introl eq_refl)) (M b (or_intror (or_introl eq_refl))) L).
  - apply (IH o); auto. intros d I. apply M. now right.
Qed.

Lemma oil_value o : well_formed o -> one_per_temperature o -> physical o -> expands o ->
  (exists r T, measured o r T) ->
  exists api a r m, 0 < m /\ okd a /\ Forall okd r /\ chain a r /\ sorted (a :: r) /\
    forall T, density_at_temp o T = dens_list api (a :: r) (if Qltb T m then m else T).
Proof.
  intros W O P X (r0 & T0 & M0). destruct (oil_list o W O) as (l & E & S0 & M).
  assert (K : Forall okd l).
  { rewrite Forall_forall. intros d I. apply M in I. destruct P as (_ & P). exact (P _ _ I). }
  assert (I0 : In (D r0 T0) l) by (apply M; exact M0).
  pose proof (strict_chain l o (fun d I => proj1 (M d) I) X S0) as Ch.
  destruct l as [|a r]; [contradiction|].
  exists (o_api o), a, r, (qmin (o_pour o) (map d_t (a :: r))).
  split.
  { apply qmin_gt; [apply P|]. rewrite Forall_forall. intros y I. apply in_map_iff in I.
    destruct I as (d & <- & I). rewrite Forall_forall in K. apply (K d I). }
  split; [apply (Forall_inv K)|]. split; [apply (Forall_inv_tail K)|]. split; [exact Ch|].
  split; [now apply strict_sorted|exact E].
Qed.

Lemma dens_list_ok api a r T : 0 < T -> okd a -> Forall okd r -> chain a r -> sorted (a :: r) ->
  exists v, dens_list api (a :: r) T = Ok v /\ 0 < v.
Proof.
  intros HT A F Ch S0. rewrite (dens_list_eq api a r T S0). destruct (Qltb T (d_t a)) eqn:C.
  - destruct (one_sided_ok api a T A HT) as (v & E & _ & P & _). now exists v.
  - apply Qltb_no in C. destruct (walk_ok api r a T A F Ch C) as (v & E & P & _). now exists v.
Qed.
Lemma dens_list_anti api a r T1 T2 v1 v2 : 0 < T1 -> T1 <= T2 -> okd a -> Forall okd r -> chain a r -> sorted (a :: r) ->
  dens_list api (a :: r) T1 = Ok v1 -> dens_list api (a :: r) T2 = Ok v2 -> v2 <= v1.
Proof.
  intros HT L A F Ch S0 E1 E2. rewrite (dens_list_eq api a r _ S0) in E1. rewrite (dens_list_eq api a r _ S0) in E2.
  destruct (Qltb T1 (d_t a)) eqn:C1.
  - apply Qltb_iff in C1. destruct (Qltb T2 (d_t a)) eqn:C2.
    + apply (one_sided_anti api a T1 T2); assumption.
    + apply Qltb_no in C2. destruct (walk_ok api r a T2 A F Ch C2) as (v & E & _ & U).
      rewrite E2 in E. injection E as <-.
      destruct (one_sided_ok api a T1 A HT) as (w & Ew & _ & _ & _ & G). rewrite E1 in Ew. injection Ew as <-.
      specialize (G ltac:(lra)). lra.
  - apply Qltb_no in C1. rewrite (Qltb_false T2 (d_t a)) in E2 by lra.
    apply (walk_anti api r a T1 T2); assumption.
Qed.

(** ** New elements *)

Lemma on_slice_app f n old new : length new = n -> (0 < n)%nat ->
  on_slice f n (old ++ new) = old ++ map f new.
Proof.
  intros L P. unfold on_slice, slice_from.
  replace (n =? 0)%nat with false by (symmetry; apply Nat.eqb_neq; lia).
  rewrite app_length, L. replace (length old + n - n)%nat with (length old) by lia.
  rewrite firstn_app, Nat.sub_diag, firstn_all, firstn_O, app_nil_r.
  rewrite skipn_app, Nat.sub_diag, skipn_all, skipn_O. reflexivity.
Qed.

Lemma qsuml_scale m : forall l, qsuml (map (fun f => f * m) l) == qsuml l * m.
Proof. induction l as [|x r IH]; cbn; [ring|]. rewrite IH. ring. Qed.

Lemma water_min d wr : (if Qltb wr d then wr else d) == Qmin d wr.
Proof.
  destruct (Qltb wr d) eqn:C.
  - apply Qltb_iff in C. symmetry. apply Q.min_r. lra.
  - apply Qltb_no in C. symmetry. apply Q.min_l. lra.
Qed.

Lemma new_oil_map o kv vt d wr new :
  Forall2 (new_oil_element o kv vt d wr) new
    (map (set_density (Some (if Qltb wr d then wr else d)))
      (map (fun e => set_comps (map (fun f => f * e_mass e) (o_frac o)) e)
        (map (fun e => set_fate (if Qeq_bool (e_z e) 0 && (e_status e =? in_water)%Z
                                 then surface_weather else subsurf_weather) e)
          (map (set_visc (Some (kv vt))) new)))).
Proof.
  induction new as [|e r IH]; cbn [map]; constructor; [|exact IH].
  unfold new_oil_element. cbn [e_mass e_z e_status e_fw e_comps e_fate e_visc e_density set_density set_comps set_fate set_visc].
  split; [reflexivity|]. split; [reflexivity|]. split; [reflexivity|]. split; [reflexivity|].
  split; [apply map_length|]. split; [apply qsuml_scale|].
  split.
  { intros i f H. exists (f * e_mass e). split; [|reflexivity]. rewrite nth_error_map, H. reflexivity. }
  split.
  { destruct (Qeq_bool (e_z e) 0) eqn:C; cbn [andb].
    - apply Qeq_bool_iff in C. destruct (Z.eqb_spec (e_status e) in_water).
      + split; auto.
      + split; [discriminate|]. intros (_ & H). contradiction.
    - apply Qeqb_no in C. split; [discriminate|]. intros (H & _). contradiction. }
  split. { destruct (Qeq_bool (e_z e) 0 && (e_status e =? in_water)%Z); auto. }
  split; [reflexivity|]. eexists. split; [reflexivity|]. apply water_min.
Qed.

(** ** Density during a run *)

Lemma dot_scale a m : forall cd, dot cd (map (fun f => f * m) a) == dot cd a * m.
Proof.
  induction a as [|x r IH]; intros [|c cd]; cbn; try ring. rewrite IH. ring.
Qed.
Lemma dot_div a m : forall cd, ~ m == 0 -> dot cd (map (fun f => f / m) a) == dot cd a / m.
Proof.
  intros cd H. revert cd. induction a as [|x r IH]; intros [|c cd]; cbn [dot map]; try (field; exact H).
  rewrite IH. field. exact H.
Qed.

Lemma lost_light_dot : forall cd b a mean, lost_light cd b a mean ->
  mean * (qsuml b - qsuml a) >= dot cd b - dot cd a.
Proof.
  induction cd as [|d cd IH]; intros [|x b] [|y a] mean (L1 & L2 & H); try discriminate.
  - cbn. lra.
  - assert (T : lost_light cd b a mean).
    { split; [cbn in L1; lia|]. split; [cbn in L2; lia|]. intros i d' x' y' H1 H2 H3. apply (H (S i) d' x' y' H1 H2 H3). }
    specialize (IH b a mean T). destruct (H 0%nat d x y eq_refl eq_refl eq_refl) as (Le & Lt).
    cbn [qsuml dot]. assert (X : mean * (x - y) >= d * (x - y)).
    { destruct (Qlt_le_dec y x) as [C|C].
      - specialize (Lt C). apply Qmult_le_compat_r; lra.
      - assert (E : x - y == 0) by lra. rewrite E. lra. }
    lra.
Qed.

Lemma float_all l : all_float l -> filter (fun e => (e_fate e =? surface_weather)%Z) l = l.
Proof.
  induction l as [|e r IH]; intros F; cbn [filter]; [reflexivity|].
  pose proof (Forall_inv F) as H. cbn beta in H. rewrite H, Z.eqb_refl, IH by (apply (Forall_inv_tail F)). reflexivity.
Qed.
Lemma recalc_float o w l rho : all_float l -> o_weatherable o = true ->
  density_at_temp o (fst (water_or_default w)) = Ok rho -> 0 < dot (o_cdens o) (o_frac o) ->
  recalc_density o w l = Ok (map (recalc1 (rho / dot (o_cdens o) (o_frac o)) (snd (water_or_default w)) (o_cdens o)) l).
Proof.
  intros F Wth E Pd. unfold recalc_density. rewrite Wth, (float_all l F).
  destruct l as [|e0 l0] eqn:El; [reflexivity|]. rewrite <- El.
  destruct (water_or_default w) as [t r]. cbn [fst snd] in *. unfold k_rho. rewrite E. cbn [bind].
  assert (N : ~ dot (o_cdens o) (o_frac o) == 0) by lra. apply Qeqb_no in N. rewrite N. cbn [bind].
  rewrite Nat.eqb_refl. reflexivity.
Qed.

(** ** The mass balance *)

Lemma total_sum : forall l, total l == qsuml (map e_mass l).
Proof. induction l as [|e r IH]; cbn; [reflexivity|]. rewrite IH. reflexivity. Qed.

Lemma total_app a b : total (a ++ b) == total a + total b.
Proof. induction a as [|e r IH]; cbn; [ring|]. rewrite IH. ring. Qed.

Lemma total_nonneg : forall l, Forall (fun e => 0 <= e_mass e) l -> 0 <= total l.
Proof.
  induction l as [|e r IH]; intros F; cbn; [lra|].
  pose proof (Forall_inv F) as P. cbn beta in P. specialize (IH (Forall_inv_tail F)). lra.
Qed.
Lemma total_filter p : forall l, Forall (fun e => 0 <= e_mass e) l -> 0 <= total (filter p l) <= total l.
Proof.
  induction l as [|e r IH]; intros F; cbn [filter total]; [lra|].
  pose proof (Forall_inv F) as P. cbn beta in P. specialize (IH (Forall_inv_tail F)).
  destruct (p e); cbn [total]; lra.
Qed.

Lemma wsum_bounds x t lo hi : 0 < t -> forall l,
  Forall (fun e => 0 <= e_mass e /\ exists v, x e = Some v /\ lo <= v <= hi) l ->
  exists s, wsum x t l = Some s /\ lo * (total l / t) <= s /\ s <= hi * (total l / t).
Proof.
  intros P. induction l as [|e r IH]; intros F; cbn [wsum total].
  - exists 0. split; [reflexivity|]. assert (E : 0 / t == 0) by (field; lra). rewrite E. lra.
  - destruct (Forall_inv F) as (M & v & -> & Lo & Hi). destruct (IH (Forall_inv_tail F)) as (s & -> & A & B).
    eexists. split; [reflexivity|].
    assert (E : (e_mass e + total r) / t == e_mass e / t + total r / t) by (field; lra). rewrite E.
    assert (W : 0 <= e_mass e / t) by (apply Qle_shift_div_l; lra).
    assert (lo * (e_mass e / t) <= e_mass e / t * v).
    { rewrite (Qmult_comm lo). rewrite !(Qmult_comm (e_mass e / t)). apply Qmult_le_compat_r; lra. }
    assert (e_mass e / t * v <= hi * (e_mass e / t)).
    { rewrite (Qmult_comm hi). rewrite !(Qmult_comm (e_mass e / t)). apply Qmult_le_compat_r; lra. }
    lra.
Qed.

Lemma wsum_mean x t : ~ t == 0 -> forall l f, (forall e, In e l -> x e = Some (f e)) ->
  exists s, wsum x t l = Some s /\ s * t == qsuml (map (fun e => e_mass e * f e) l).
Proof.
  intros N. induction l as [|e r IH]; intros f H; cbn [wsum map qsuml].
  - exists 0. split; [reflexivity|ring].
  - rewrite (H e (or_introl eq_refl)). destruct (IH f) as (s & -> & E); [intros; apply H; now right|].
    eexists. split; [reflexivity|]. rewrite <- E. field. exact N.
Qed.

Lemma wsum_nan x t : forall l e, In e l -> x e = None -> wsum x t l = None.
Proof.
  induction l as [|y r IH]; intros e I N; [contradiction|]. cbn [wsum]. destruct I as [->|I].
  - now rewrite N.
  - rewrite (IH e I N). now destruct (x y).
Qed.

Lemma released_new n l new b : length new = n -> (0 < n)%nat ->
  exists r, b_released (aggregate n (l ++ new) b) = Some r /\
    r == match b_released b with Some r0 => r0 | None => 0 end + qsuml (map e_mass new).
Proof.
  intros L P. unfold aggregate.
  destruct (if Qltb 0 (total (l ++ new)) then _ else _) as [br bv]. cbn [b_released].
  replace (0 <? n)%nat with true by (symmetry; apply Nat.ltb_lt; exact P).
  unfold slice_from. replace (n =? 0)%nat with false by (symmetry; apply Nat.eqb_neq; lia).
  rewrite app_length, L. replace (length l + n - n)%nat with (length l) by lia.
  rewrite skipn_app, Nat.sub_diag, skipn_all, skipn_O. cbn [app].
  destruct (b_released b) as [r0|]; eexists; (split; [reflexivity|]); rewrite total_sum; ring.
Qed.
Lemma released_zero l b : b_released (aggregate 0 l b) = b_released b.
Proof.
  unfold aggregate. destruct (if Qltb 0 (total l) then _ else _) as [br bv]. reflexivity.
Qed.

Definition rel0 (b : balance) : Q := match b_released b with Some r => r | None => 0 end.

Lemma history_released : forall evs s,
  rel0 (snd (history evs s)) == rel0 (snd s) + released evs /\
  (b_released (snd (history evs s)) = None <-> b_released (snd s) = None /\ ~ something evs).
Proof.
  induction evs as [|ev evs IH]; intros [l b]; cbn [history fold_left].
  - cbn [released snd]. split; [ring|]. split; [|tauto]. intros H. split; [exact H|].
    intros (new & [] & _).
  - change (fold_left event1 evs (event1 (l, b) ev)) with (history evs (event1 (l, b) ev)).
    destruct (IH (event1 (l, b) ev)) as (A & B). destruct ev as [new|l']; cbn [event1 fst snd] in *.
    + destruct new as [|e r].
      * cbn [length] in *. unfold rel0 in A at 2. rewrite released_zero in A, B. cbn [released map qsuml].
        split; [rewrite A; unfold rel0; cbn [snd]; ring|]. rewrite B. split.
        -- intros (H & N). split; [exact H|]. intros (nw & [E|I] & NE).
           ++ injection E as <-. contradiction.
           ++ apply N. now exists nw.
        -- intros (H & N). split; [exact H|]. intros (nw & I & NE). apply N. exists nw. split; [now right|exact NE].
      * destruct (released_new (length (e :: r)) l (e :: r) b eq_refl) as (v & Ev & V); [cbn; lia|].
        unfold rel0 in A at 2. rewrite Ev in A, B. cbn [released]. split.
        -- rewrite A, V. unfold rel0. ring.
        -- rewrite B. split; [intros (H & _); discriminate|]. intros (_ & N). exfalso. apply N.
           exists (e :: r). split; [now left|discriminate].
    + unfold rel0 in A at 2. rewrite released_zero in A, B. cbn [released].
      split; [rewrite A; unfold rel0; ring|]. rewrite B. split.
      * intros (H & N). split; [exact H|]. intros (nw & [E|I] & NE); [discriminate|]. apply N. now exists nw.
      * intros (H & N). split; [exact H|]. intros (nw & I & NE). apply N. exists nw. split; [now right|exact NE].
Qed.

Lemma strict_key l d e : strict l -> In d l -> In e l -> d_t d == d_t e -> d = e.
Proof.
  induction l as [|a r IH]; intros S0 I J E; [contradiction|]. destruct S0 as (F & S0). rewrite Forall_forall in F.
  destruct I as [<-|I], J as [<-|J]; auto.
  - specialize (F _ J). lra.
  - specialize (F _ I). lra.
Qed.

Lemma walk_segment api a b T : d_t a < d_t b -> d_t a <= T -> T < d_t b -> forall r c,
  strict (c :: r) -> In a (c :: r) -> In b (c :: r) ->
  (forall d, In d (c :: r) -> ~ (d_t a < d_t d /\ d_t d < d_t b)) ->
  walk api c r T = between a b T.
Proof.
  intros L T1 T2. induction r as [|b' r IH]; intros c S0 Ia Ib N.
  - destruct Ia as [<-|[]], Ib as [<-|[]]. lra.
  - cbn [walk]. pose proof S0 as S00. destruct S0 as (Fc & S1). rewrite Forall_forall in Fc.
    assert (Lb : d_t c < d_t b') by (apply Fc; now left).
    destruct (Qltb T (d_t b')) eqn:C.
    + apply Qltb_iff in C.
      assert (Ea : a = c).
      { destruct Ia as [Ia|Ia]; [now symmetry|]. exfalso.
        destruct Ia as [<-|Ia]; [lra|]. destruct S1 as (Fb & _). rewrite Forall_forall in Fb.
        specialize (Fb _ Ia). lra. }
      subst c. f_equal.
      assert (Ib' : In b (b' :: r)). { destruct Ib as [<-|Ib]; [lra|exact Ib]. }
      destruct Ib' as [<-|Ib']; [reflexivity|]. exfalso.
      destruct S1 as (Fb & _). rewrite Forall_forall in Fb. specialize (Fb _ Ib').
      apply (N b'); [right; now left|]. split; lra.
    + apply Qltb_no in C. apply IH; auto.
      * destruct Ia as [<-|Ia]; [|exact Ia]. exfalso.
        apply (N b'); [right; now left|]. split; lra.
      * destruct Ib as [<-|Ib]; [|exact Ib]. exfalso.
        destruct Ia as [<-|Ia]; [lra|]. specialize (Fc _ Ia). lra.
      * intros d I. apply N. now right.
Qed.
