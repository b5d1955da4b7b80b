(** * Proofs about cleanup options *)
From Verif Require Import Py PyLemmas QLemmas PipModel PipProofs PolyModel PolyProofs CleanModel CleanSpec.
Open Scope Q_scope.

Ltac qpos := repeat match goal with |- 0 <= _ * _ => apply Qmul_nonneg end; first [assumption|lra].

(** ** Operating time *)

Fixpoint op_time (on : bool) (a b dt t : Z) (n : nat) : Z :=
  match n with
  | O => 0%Z
  | S n' => ((if is_active on a b dt t then step_time a b dt t else 0) + op_time on a b dt (t + dt) n')%Z
  end.

Lemma overlap_cut a b s m e : (a <= b)%Z -> (s <= m)%Z -> (m <= e)%Z ->
  (overlap a b s m + overlap a b m e)%Z = overlap a b s e.
Proof. unfold overlap. lia. Qed.
Lemma step_overlap a b dt t : (0 < dt)%Z -> (a <= b)%Z -> ~ within_step a b dt t ->
  (if is_active true a b dt t then step_time a b dt t else 0)%Z = overlap a b t (t + dt).
Proof.
  unfold is_active, step_time, overlap, within_step. intros.
  destruct (Z.ltb_spec a (t + dt)), (Z.ltb_spec t b), (Z.ltb_spec t a), (Z.ltb_spec b (t + dt)); cbn [andb]; lia.
Qed.
Lemma op_time_overlap a b dt : (0 < dt)%Z -> (a <= b)%Z -> forall n t,
  (forall k, (k < n)%nat -> ~ within_step a b dt (t + Z.of_nat k * dt)) ->
  op_time true a b dt t n = overlap a b t (t + Z.of_nat n * dt).
Proof.
  intros Hd Hab. induction n as [|n IH]; intros t H.
  - cbn [op_time]. unfold overlap. lia.
  - cbn [op_time]. rewrite step_overlap; auto.
    + rewrite IH.
      * assert (0 <= Z.of_nat n * dt)%Z by (apply Z.mul_nonneg_nonneg; lia).
        rewrite overlap_cut by lia. f_equal. lia.
      * intros k Hk. replace (t + dt + Z.of_nat k * dt)%Z with (t + Z.of_nat (S k) * dt)%Z by lia. apply H. lia.
    + specialize (H 0%nat). replace (t + Z.of_nat 0 * dt)%Z with t in H by lia. apply H. lia.
Qed.
Lemma op_time_late a b dt t n : (0 < dt)%Z -> (b <= t)%Z -> op_time true a b dt t n = 0%Z.
Proof.
  intros Hd. revert t. induction n as [|n IH]; intros t H; [reflexivity|]. cbn [op_time].
  rewrite IH by lia. unfold is_active. destruct (Z.ltb_spec t b); [lia|]. rewrite andb_false_r. reflexivity.
Qed.
Lemma op_time_short a b dt : (0 < dt)%Z -> (a <= b)%Z -> forall n t k, (k < n)%nat ->
  within_step a b dt (t + Z.of_nat k * dt) -> op_time true a b dt t n = (b - (t + Z.of_nat k * dt))%Z.
Proof.
  intros Hd Hab. induction n as [|n IH]; intros t k Hk H; [lia|]. cbn [op_time].
  destruct k as [|k].
  - replace (t + Z.of_nat 0 * dt)%Z with t in * by lia. destruct H as [H1 H2].
    rewrite op_time_late by lia. unfold is_active, step_time.
    destruct (Z.ltb_spec a (t + dt)), (Z.ltb_spec t b), (Z.ltb_spec t a), (Z.ltb_spec b (t + dt)); cbn [andb]; lia.
  - rewrite (IH (t + dt)%Z k); [|lia|replace (t + dt + Z.of_nat k * dt)%Z with (t + Z.of_nat (S k) * dt)%Z by lia; auto].
    destruct H as [H1 H2]. unfold is_active.
    assert (0 <= Z.of_nat k * dt)%Z by (apply Z.mul_nonneg_nonneg; lia).
    assert (Z.of_nat (S k) * dt = Z.of_nat k * dt + dt)%Z by lia.
    destruct (Z.ltb_spec a (t + dt)); [lia|]. cbn [andb]. lia.
Qed.
Lemma op_time_off a b dt t n : op_time false a b dt t n = 0%Z.
Proof. revert t. induction n as [|n IH]; intros t; [reflexivity|]. cbn. apply IH. Qed.

(** ** Preparing a step *)

Lemma skim_prepare_time c dt t l p : skim_prepare c dt t l = Ok p ->
  fst (fst p) = is_active (k_on c) (k_a c) (k_b c) dt t /\
  snd (fst p) = (if is_active (k_on c) (k_a c) (k_b c) dt t then step_time (k_a c) (k_b c) dt t else 0%Z).
Proof.
  unfold skim_prepare. destruct (is_active _ _ _ _ _); intros H.
  - match type of H with (do _ <- ?e; _) = _ => destruct e end; [|discriminate]. cbn in H. injection H as <-. auto.
  - injection H as <-. auto.
Qed.
Lemma skim_time_op c dt : forall ls t x, skim_time c dt t ls = Ok x ->
  x = op_time (k_on c) (k_a c) (k_b c) dt t (length ls).
Proof.
  induction ls as [|l r IH]; intros t x H; cbn [skim_time] in H; [injection H as <-; reflexivity|].
  destruct (skim_prepare c dt t l) as [p|] eqn:E; [|discriminate]. cbn [bind] in H.
  destruct (skim_time c dt (t + dt) r) as [y|] eqn:Ey; [|discriminate]. cbn in H. injection H as <-.
  destruct (skim_prepare_time _ _ _ _ _ E) as [_ ->]. cbn [op_time length]. f_equal. apply IH, Ey.
Qed.
Lemma chem_prepare_time c rt dt t l p : chem_prepare c rt dt t l = Ok p ->
  fst (fst (fst p)) = is_active (d_on c) (d_a c) (d_b c) dt t /\
  snd (fst (fst p)) = (if is_active (d_on c) (d_a c) (d_b c) dt t then step_time (d_a c) (d_b c) dt t else 0%Z).
Proof.
  unfold chem_prepare. destruct (is_active _ _ _ _ _); intros H.
  - destruct (Nat.eqb _ _); [|injection H as <-; auto]. destruct (d_eff c); [|discriminate].
    match type of H with (do _ <- ?e; _) = _ => destruct e end; [|discriminate]. cbn [bind] in H.
    destruct (_ =? 0)%Z; [discriminate|]. injection H as <-. auto.
  - injection H as <-. auto.
Qed.
Lemma chem_time_op c dt : forall ls rt t x, chem_time c rt dt t ls = Ok x ->
  x = op_time (d_on c) (d_a c) (d_b c) dt t (length ls).
Proof.
  induction ls as [|l r IH]; intros rt t x H; cbn [chem_time] in H; [injection H as <-; reflexivity|].
  destruct (chem_prepare c rt dt t l) as [p|] eqn:E; [|discriminate]. cbn [bind] in H.
  destruct (chem_time c _ dt (t + dt) r) as [y|] eqn:Ey; [|discriminate]. cbn in H. injection H as <-.
  destruct (chem_prepare_time _ _ _ _ _ _ E) as [_ ->]. cbn [op_time length]. f_equal. eapply IH, Ey.
Qed.

(** ** Marking *)

Lemma in_view_iff flag e : in_view flag e = true <-> Z.land (e_fate e) flag = flag /\ 0 < e_mass e.
Proof. unfold in_view, has_flag. rewrite andb_true_iff, Z.eqb_eq, Qltb_iff. tauto. Qed.
Lemma in_view_false flag e : in_view flag e = false <-> ~ (Z.land (e_fate e) flag = flag /\ 0 < e_mass e).
Proof. rewrite <- in_view_iff. destruct (in_view flag e); split; congruence. Qed.

Lemma view_eligibles l : eligibles l (view f_surf l).
Proof.
  induction l as [|e r IH]; [constructor|]. unfold view in *. cbn [filter].
  destruct (in_view f_surf e) eqn:E; [apply el_yes|apply el_no]; auto; [apply in_view_iff in E|apply in_view_false in E]; exact E.
Qed.
Lemma eligibles_det l v : eligibles l v -> v = view f_surf l.
Proof.
  induction 1 as [|e l v He _ IH|e l v He _ IH]; unfold view in *; cbn [filter]; auto.
  - apply in_view_iff in He. rewrite He. congruence.
  - apply in_view_false in He. rewrite He. exact IH.
Qed.
Lemma mark_marked new : forall l k, marked new (Nat.min k (length (view f_surf l))) l (mark f_surf new k l).
Proof.
  induction l as [|e r IH]; intros k; cbn [mark].
  - destruct k; cbn; constructor.
  - destruct k as [|k]; [cbn; constructor|]. unfold view. cbn [filter].
    destruct (in_view f_surf e) eqn:E.
    + cbn [length Nat.min]. apply mk_yes; [apply in_view_iff in E; exact E|apply IH].
    + apply mk_no; [apply in_view_false in E; exact E|apply (IH (S k))].
Qed.

Lemma osum_some l qs : l = map Some qs -> osum l = Some (fold_left Qplus qs 0).
Proof.
  intros ->. unfold osum. assert (G : forall a, fold_left oplus (map Some qs) (Some a) = Some (fold_left Qplus qs a)).
  { induction qs as [|q r IH]; intros a; [reflexivity|]. cbn. apply IH. }
  apply G.
Qed.
(** The sums of prefixes. *)
Lemma first_true_prefix m : forall qs acc i, acc < m -> m <= acc + qsum qs ->
  exists j, first_true i (map (fun c => oge c m) (cumsum (Some acc) (map Some qs))) = Ok (i + j)%nat /\
    (j < length qs)%nat /\ m <= acc + qsum (firstn (S j) qs) /\ (forall x, (x <= j)%nat -> (0 < x)%nat -> acc + qsum (firstn x qs) < m).
Proof.
  induction qs as [|q r IH]; intros acc i H1 H2.
  - unfold qsum in H2. cbn in H2. lra.
  - cbn [map cumsum oplus]. cbn [first_true oge]. destruct (Qle_bool_spec m (acc + q)) as [H|H].
    + exists 0%nat. split; [f_equal; lia|]. split; [cbn; lia|]. split.
      * cbn [firstn]. rewrite qsum_cons. unfold qsum. cbn. lra.
      * intros x Hx1 Hx2. lia.
    + destruct (IH (acc + q) (S i)) as [j [E [L [G1 G2]]]]; [lra| |].
      { rewrite qsum_cons in H2. lra. }
      exists (S j). split; [rewrite E; f_equal; lia|]. split; [cbn; lia|]. split.
      * cbn [firstn] in *. rewrite !qsum_cons in *. lra.
      * intros x Hx1 Hx2. destruct x as [|x]; [lia|]. cbn [firstn]. rewrite qsum_cons. destruct x as [|x].
        -- cbn [firstn]. unfold qsum. cbn. lra.
        -- specialize (G2 (S x)). lra || (assert (acc + q + qsum (firstn (S x) r) < m) by (apply G2; lia); lra).
Qed.
Lemma sum_of_qsum f l : sum_of f l == qsum (map f l).
Proof. induction l as [|e r IH]; [reflexivity|]. cbn [map]. rewrite qsum_cons, <- IH. reflexivity. Qed.
Lemma cur_counted mix e : e_fw e < 1 -> cur_mass mix e = Some (counted mix e).
Proof.
  intros H. unfold cur_mass, counted. destruct mix; auto.
  destruct (Qeq_bool_spec (1 - e_fw e) 0); [lra|reflexivity].
Qed.
Lemma counted_pos mix e : 0 < e_mass e -> e_fw e < 1 -> 0 < counted mix e.
Proof.
  intros H1 H2. unfold counted. destruct mix; auto. apply Qlt_shift_div_l; lra.
Qed.
Lemma qsum_pos l : (forall x, In x l -> 0 <= x) -> 0 <= qsum l.
Proof.
  induction l as [|x r IH]; intros H; [unfold qsum; cbn; lra|]. rewrite qsum_cons.
  specialize (H x (or_introl eq_refl)) as Hx. assert (0 <= qsum r) by (apply IH; intros; apply H; right; auto). lra.
Qed.
Lemma prefix_lt l j : (forall x, In x l -> 0 < x) -> (j < length l)%nat -> qsum (firstn j l) < qsum l.
Proof.
  revert j. induction l as [|x r IH]; intros j H Hj; [cbn in Hj; lia|].
  assert (0 < x) by (apply H; left; auto). rewrite (qsum_cons x r).
  assert (0 <= qsum r) by (apply qsum_pos; intros y Hy; apply Qlt_le_weak, H; right; auto).
  destruct j as [|j]; cbn [firstn].
  - unfold qsum at 1. cbn [fold_left]. lra.
  - rewrite qsum_cons. assert (qsum (firstn j r) < qsum r) by (apply IH; [intros; apply H; right; auto|cbn in Hj; lia]). lra.
Qed.
Lemma n_marked_ok mix m data : 0 < m -> (forall e, In e data -> 0 < e_mass e /\ e_fw e < 1) ->
  exists k, n_marked mix m data = Ok k /\ (k <= length data)%nat /\
    (m <= sum_of (counted mix) (firstn k data) \/ k = length data) /\
    (forall j, (j < k)%nat -> sum_of (counted mix) (firstn j data) < m).
Proof.
  intros Hm Hd. unfold n_marked.
  assert (Ec : map (cur_mass mix) data = map Some (map (counted mix) data)).
  { rewrite map_map. apply map_ext_in. intros e He. apply cur_counted, Hd, He. }
  rewrite Ec, (osum_some _ _ eq_refl). fold (qsum (map (counted mix) data)).
  assert (Hp : forall x, In x (map (counted mix) data) -> 0 < x).
  { intros x Hx. apply in_map_iff in Hx as [e [<- He]]. apply counted_pos; apply Hd, He. }
  destruct (Qle_bool_spec (qsum (map (counted mix) data)) m) as [H|H].
  - exists (length data). split; auto. split; auto. split; auto. intros j Hj. rewrite sum_of_qsum, <- firstn_map.
    eapply Qlt_le_trans; [apply prefix_lt; [exact Hp|rewrite map_length; exact Hj]|exact H].
  - destruct (first_true_prefix m (map (counted mix) data) 0 0 Hm) as [j [E [L [G1 G2]]]]; [lra|].
    rewrite E. cbn [bind Nat.add]. exists (S j). split; auto. rewrite map_length in L. split; [lia|]. split.
    + left. rewrite sum_of_qsum, <- firstn_map. lra.
    + intros x Hx. rewrite sum_of_qsum, <- firstn_map. destruct x as [|x].
      * cbn [firstn]. unfold qsum. cbn. exact Hm.
      * assert (0 + qsum (firstn (S x) (map (counted mix) data)) < m) by (apply G2; lia). lra.
Qed.
Lemma update_status_ok new m mix l : 0 < m -> (forall e, In e l -> eligible e -> e_fw e < 1) ->
  exists l' v k, update_status new m mix l = Ok l' /\ eligibles l v /\ marked new k l l' /\ (k <= length v)%nat /\
    (m <= sum_of (counted mix) (firstn k v) \/ k = length v) /\
    (forall j, (j < k)%nat -> sum_of (counted mix) (firstn j v) < m).
Proof.
  intros Hm Hf. destruct (n_marked_ok mix m (view f_surf l) Hm) as [k [E [L [G1 G2]]]].
  { intros e He. unfold view in He. apply filter_In in He as [H1 H2]. apply in_view_iff in H2. split; [apply H2|].
    apply Hf; auto. }
  exists (mark f_surf new k l), (view f_surf l), k. unfold update_status. rewrite E. cbn [bind].
  split; auto. split; [apply view_eligibles|]. split; [|auto].
  pose proof (mark_marked new l k) as M. rewrite Nat.min_l in M by exact L. exact M.
Qed.

(** ** Removing *)

Lemma total_sum l : total l = sum_of e_mass l.
Proof. reflexivity. Qed.
Lemma sum_of_cons f e l : sum_of f (e :: l) == f e + sum_of f l.
Proof. reflexivity. Qed.
Lemma view_available flag l : total (view flag l) == available flag l.
Proof.
  unfold available, view. induction l as [|e r IH]; [reflexivity|]. cbn [filter]. rewrite sum_of_cons, <- IH.
  change ((Z.land (e_fate e) flag =? flag)%Z && Qltb 0 (e_mass e)) with (in_view flag e).
  destruct (in_view flag e); [reflexivity|ring].
Qed.
Lemma available_pos flag l : view flag l <> [] -> 0 < total (view flag l).
Proof.
  assert (G : forall v, (forall e, In e v -> 0 < e_mass e) -> 0 <= total v /\ (v <> [] -> 0 < total v)).
  { induction v as [|e r IH]; intros H; [split; [cbn; lra|congruence]|].
    destruct IH as [I1 _]; [intros; apply H; right; auto|]. specialize (H e (or_introl eq_refl)).
    cbn [total fold_right]. fold (total r). split; intros; lra. }
  intros H. apply G; auto. intros e He. unfold view in He. apply filter_In in He as [_ He]. apply in_view_iff in He. apply He.
Qed.
Lemma sumq_scale k l : sumq (map (Qmult k) l) == k * sumq l.
Proof. induction l as [|x r IH]; [cbn; ring|]. cbn [map sumq fold_right]. fold (sumq (map (Qmult k) r)) (sumq r). rewrite IH. ring. Qed.
Lemma lose_lost flag frac e : lost flag frac e (if in_view flag e then lose frac e else e).
Proof.
  unfold lost. destruct (in_view flag e) eqn:E.
  - apply in_view_iff in E. cbn [lose e_fate e_status e_z e_fw e_nonw e_comps e_mass].
    split; auto. split; auto. split; auto. split; auto. split; auto. split; [|tauto]. intros _. split; [|reflexivity].
    induction (e_comps e); cbn; constructor; auto. reflexivity.
  - apply in_view_false in E. split; auto. split; auto. split; auto. split; auto. split; auto. split; [tauto|auto].
Qed.
Lemma lose_sane frac e : frac <= 1 -> sane e -> sane (lose frac e).
Proof.
  intros Hf [H1 [H2 H3]]. split; [|split; [reflexivity|exact H3]]. cbn. apply Forall_map.
  eapply Forall_impl; [|exact H1]. intros x Hx. cbn in *. apply Qmul_nonneg; lra.
Qed.
Lemma remove_mass flag frac l : all_sane l ->
  sum_of e_mass (remove_frac flag frac l) == sum_of e_mass l - frac * total (view flag l).
Proof.
  induction l as [|e r IH]; intros Hs; [cbn; ring|].
  assert (Hr : all_sane r) by (intros x Hx; apply Hs; right; auto). specialize (IH Hr).
  destruct (Hs e (or_introl eq_refl)) as [_ [Hm _]].
  unfold remove_frac in *. cbn [map sum_of fold_right]. fold (sum_of e_mass (map (fun e => if in_view flag e then lose frac e else e) r)) (sum_of e_mass r).
  rewrite IH. unfold view. cbn [filter]. destruct (in_view flag e).
  - cbn [total fold_right lose e_mass]. fold (total (filter (in_view flag) r)). rewrite sumq_scale, Hm. ring.
  - ring.
Qed.
Lemma remove_ok flag frac d l booked : all_sane l -> 0 <= frac <= 1 -> booked == frac * total (view flag l) ->
  (d <= total (view flag l) -> booked == d) -> (total (view flag l) <= d -> booked == total (view flag l)) ->
  removes flag d l (remove_frac flag frac l) booked.
Proof.
  intros Hs Hf Hb H1 H2. unfold removes. rewrite <- view_available.
  split; auto. split; auto. split; [rewrite remove_mass by auto; rewrite Hb; ring|].
  assert (Ht : 0 <= total (view flag l)).
  { destruct (view flag l) as [|e r] eqn:E; [cbn; lra|]. rewrite <- E. apply Qlt_le_weak, available_pos. rewrite E. discriminate. }
  split; [rewrite Hb; apply Qmul_nonneg; lra|]. split.
  - intros e He. unfold remove_frac in He. apply in_map_iff in He as [x [<- Hx]].
    destruct (in_view flag x); [apply lose_sane; [lra|]|]; apply Hs, Hx.
  - exists frac. split; auto. unfold remove_frac. clear. induction l as [|e r IH]; cbn; constructor; auto. apply lose_lost.
Qed.
Lemma remove_nothing flag l : all_sane l -> view flag l = [] -> forall d, 0 <= d -> removes flag d l l 0.
Proof.
  intros Hs E d Hd. unfold removes. rewrite <- view_available, E. cbn [total fold_right].
  split; [intros; lra|]. split; [reflexivity|]. split; [ring|]. split; [lra|]. split; auto.
  exists 0. split; [lra|].
  assert (G : forall e, In e l -> ~ (Z.land (e_fate e) flag = flag /\ 0 < e_mass e)).
  { intros e He K. apply in_view_iff in K. assert (In e (view flag l)) by (apply filter_In; auto). rewrite E in H. destruct H. }
  clear -G. induction l as [|e r IH]; constructor.
  - specialize (G e (or_introl eq_refl)). unfold lost. tauto.
  - apply IH. intros x Hx. apply G. right; auto.
Qed.

Lemma frac_min rm tot : 0 <= rm -> 0 < tot ->
  let frac := if Qltb 1 (rm / tot) then 1 else rm / tot in
  0 <= frac <= 1 /\ (rm <= tot -> frac * tot == rm) /\ (tot <= rm -> frac * tot == tot).
Proof.
  intros Hr Ht frac. assert (E : rm / tot * tot == rm) by (field; lra).
  assert (Hq : 0 <= rm / tot) by (apply Qle_shift_div_l; lra).
  unfold frac. destruct (Qltb_spec 1 (rm / tot)) as [H|H].
  - split; [lra|]. split; intros K; [|ring].
    exfalso. assert (tot < rm); [|lra]. rewrite <- E. apply (Qmult_lt_compat_r 1 (rm / tot) tot) in H; auto. lra.
  - split; [lra|]. split; intros K; [exact E|].
    assert (rm <= tot). { rewrite <- E. apply (Qmult_le_compat_r (rm / tot) 1 tot) in H; lra. }
    lra.
Qed.
Lemma sec_nonneg z : (0 <= z)%Z -> 0 <= sec z.
Proof.
  intros H. unfold sec. apply Qle_shift_div_l; [reflexivity|]. rewrite Qmult_0_l. change 0 with (inject_Z 0). rewrite <- Zle_Qle. exact H.
Qed.
Lemma sec_add a b : sec (a + b) == sec a + sec b.
Proof. unfold sec. rewrite inject_Z_plus. field. Qed.
Lemma sec_le a b : (a <= b)%Z -> sec a <= sec b.
Proof. intros H. assert (0 <= sec (b - a)) by (apply sec_nonneg; lia). assert (E : sec (b - a + a) == sec (b - a) + sec a) by apply sec_add. replace (b - a + a)%Z with b in E by lia. lra. Qed.
Lemma sec_pos z : (0 < z)%Z -> 0 < sec z.
Proof.
  intros H. unfold sec. apply Qlt_shift_div_l; [reflexivity|]. rewrite Qmult_0_l. change 0 with (inject_Z 0). rewrite <- Zlt_Qlt. exact H.
Qed.
Lemma step_time_nonneg on a b dt t : (0 < dt)%Z -> is_active on a b dt t = true -> (0 <= step_time a b dt t)%Z.
Proof.
  unfold is_active, step_time. rewrite !andb_true_iff, !Z.ltb_lt. intros Hd [[_ H1] H2].
  destruct (Z.ltb_spec t a), (Z.ltb_spec b (t + dt)); lia.
Qed.

(** The average is a fraction. *)
Lemma avg_bounds l flag : all_sane l -> 0 <= avg_frac_oil (view flag l) <= 1.
Proof.
  intros Hs. unfold avg_frac_oil. destruct (Qltb_spec 0 (total (view flag l))) as [H|H]; [|lra].
  set (s := fold_right _ 0 (view flag l)).
  assert (G : 0 <= s <= total (view flag l)).
  { unfold s. assert (K : forall v, (forall e, In e v -> sane e /\ 0 < e_mass e) ->
      0 <= fold_right (fun e s => e_mass e * e_fw e + s) 0 v <= total v).
    { induction v as [|e r IH]; intros Hv; [cbn; lra|].
      destruct IH as [I1 I2]; [intros; apply Hv; right; auto|].
      destruct (Hv e (or_introl eq_refl)) as [[_ [_ Hf]] Hm]. cbn [fold_right total]. fold (total r).
      assert (0 <= e_mass e * e_fw e) by (apply Qmul_nonneg; lra).
      assert (0 <= e_mass e * (1 - e_fw e)) by (apply Qmul_nonneg; lra). lra. }
    apply K. intros e He. unfold view in He. apply filter_In in He as [H1 H2]. apply in_view_iff in H2. split; [apply Hs, H1|apply H2]. }
  assert (0 <= s / total (view flag l)) by (apply Qle_shift_div_l; lra).
  assert (s / total (view flag l) <= 1) by (apply Qle_shift_div_r; lra). lra.
Qed.

Lemma skim_weather_ok c rate ts l ef : all_sane l -> k_eff c = Some ef -> 0 <= ef -> 0 <= rate -> 0 <= k_unit c -> (0 <= ts)%Z ->
  exists l' b, skim_weather c rate true true ts l = Ok (l', b) /\
    removes f_skim (rate * avg_frac_oil (view f_skim l) * sec ts * k_unit c * ef) l l' b.
Proof.
  intros Hs He Hef Hr Hu Ht. unfold skim_weather. cbn [negb orb].
  pose proof (avg_bounds l f_skim Hs) as Ha. pose proof (sec_nonneg ts Ht) as Hsec.
  assert (Hrm : 0 <= rate * avg_frac_oil (view f_skim l) * sec ts * k_unit c * ef) by qpos.
  destruct l as [|e0 r0]; [exists [], 0; split; [reflexivity|apply remove_nothing; auto]|].
  cbn [length Nat.eqb orb]. set (l := e0 :: r0) in *.
  destruct (view f_skim l) as [|e r] eqn:Ev.
  - exists l, 0. split; auto. apply remove_nothing; auto.
  - rewrite He. rewrite <- Ev in *. eexists. eexists. split; [reflexivity|].
    assert (Hp : 0 < total (view f_skim l)) by (apply available_pos; rewrite Ev; discriminate).
    destruct (frac_min _ _ Hrm Hp) as [F1 [F2 F3]].
    apply remove_ok; auto. reflexivity.
Qed.
Lemma chem_weather_ok rate ts l : all_sane l -> 0 <= rate -> (0 <= ts)%Z ->
  exists l' b, chem_weather (Some rate) true true ts l = Ok (l', b) /\ removes f_disp (rate * sec ts) l l' b.
Proof.
  intros Hs Hr Ht. unfold chem_weather. cbn [negb orb]. pose proof (sec_nonneg ts Ht) as Hsec.
  assert (Hrm : 0 <= rate * sec ts) by qpos.
  destruct l as [|e0 r0]; [exists [], 0; split; [reflexivity|apply remove_nothing; auto]|].
  cbn [length Nat.eqb orb]. set (l := e0 :: r0) in *.
  destruct (view f_disp l) as [|e r] eqn:Ev.
  - exists l, 0. split; auto. apply remove_nothing; auto.
  - rewrite <- Ev in *. eexists. eexists. split; [reflexivity|].
    assert (Hp : 0 < total (view f_disp l)) by (apply available_pos; rewrite Ev; discriminate).
    destruct (frac_min _ _ Hrm Hp) as [F1 [F2 F3]].
    apply remove_ok; auto. reflexivity.
Qed.
Lemma burn_weather_ok c s ts l ef : all_sane l -> b_eff c = Some ef -> 0 <= ef -> 0 <= bs_rate s -> 0 <= b_rho c -> (0 <= ts)%Z ->
  exists l' b, burn_weather c s true true ts l = Ok (l', b) /\
    removes f_burn (b_rho c * (bs_rate s * ef * sec ts)) l l' b.
Proof.
  intros Hs He Hef Hr Hu Ht. unfold burn_weather. cbn [negb orb]. pose proof (sec_nonneg ts Ht) as Hsec.
  assert (Hrm : 0 <= b_rho c * (bs_rate s * ef * sec ts)) by qpos.
  destruct l as [|e0 r0]; [exists [], 0; split; [reflexivity|apply remove_nothing; auto]|].
  cbn [length Nat.eqb orb]. set (l := e0 :: r0) in *.
  destruct (view f_burn l) as [|e r] eqn:Ev.
  - exists l, 0. split; auto. apply remove_nothing; auto.
  - rewrite He. rewrite <- Ev in *. eexists. eexists. split; [reflexivity|].
    assert (Hp : 0 < total (view f_burn l)) by (apply available_pos; rewrite Ev; discriminate).
    set (rm := b_rho c * (bs_rate s * ef * sec ts)) in *. set (tot := total (view f_burn l)) in *.
    destruct (Qltb_spec tot rm) as [H|H].
    + apply remove_ok; auto; fold tot.
      * assert (E : tot / tot == 1) by (field; lra). rewrite E. lra.
      * field. lra.
      * intros. lra.
      * intros. reflexivity.
    + apply remove_ok; auto; fold tot.
      * split; [apply Qle_shift_div_l; lra|apply Qle_shift_div_r; lra].
      * field. lra.
      * reflexivity.
      * intros. lra.
Qed.

(** ** Runs *)

Lemma removes_le flag d l l' b : 0 <= d -> removes flag d l l' b -> b <= d.
Proof.
  intros Hd [H1 [H2 _]]. destruct (Qlt_le_dec (available flag l) d) as [H|H].
  - rewrite H2 by lra. lra.
  - rewrite H1 by lra. lra.
Qed.
Lemma skim_run_le c rate ef dt : (0 < dt)%Z -> k_on c = true -> k_eff c = Some ef -> 0 <= ef -> 0 <= rate -> 0 <= k_unit c ->
  forall ls t x, (forall l m, In (l, m) ls -> all_sane m) -> skim_run c rate dt t ls = Ok x ->
  0 <= x /\ x <= rate * sec (op_time true (k_a c) (k_b c) dt t (length ls)) * k_unit c * ef.
Proof.
  intros Hd Hon He Hef Hr Hu. induction ls as [|[l m] r IH]; intros t x Hs H; cbn [skim_run] in H.
  - injection H as <-. cbn [op_time length]. assert (E : sec 0 == 0) by reflexivity. rewrite E. split; [lra|].
    assert (E2 : rate * 0 * k_unit c * ef == 0) by ring. rewrite E2. lra.
  - destruct (skim_prepare c dt t l) as [p|] eqn:Ep; [|discriminate]. cbn [bind] in H.
    destruct (skim_prepare_time _ _ _ _ _ Ep) as [P1 P2]. rewrite Hon in P1, P2.
    destruct (skim_weather c rate (fst (fst p)) true (snd (fst p)) m) as [w|] eqn:Ew; [|discriminate]. cbn [bind] in H.
    destruct (skim_run c rate dt (t + dt) r) as [y|] eqn:Ey; [|discriminate]. cbn in H. injection H as <-.
    destruct (IH (t + dt)%Z y) as [I1 I2]; [intros; eapply Hs; right; eauto|exact Ey|].
    assert (Hm : all_sane m) by (eapply Hs; left; reflexivity).
    cbn [op_time length]. rewrite sec_add.
    assert (G : 0 <= snd w /\ snd w <= rate * sec (snd (fst p)) * k_unit c * ef).
    { rewrite P1 in Ew. rewrite P2 in *. destruct (is_active true (k_a c) (k_b c) dt t) eqn:Ea.
      - pose proof (step_time_nonneg _ _ _ _ _ Hd Ea) as Hst.
        destruct (skim_weather_ok c rate _ m ef Hm He Hef Hr Hu Hst) as [l' [b [E1 E2]]].
        rewrite E1 in Ew. injection Ew as <-. cbn [snd].
        pose proof (avg_bounds m f_skim Hm) as Hav. pose proof (sec_nonneg _ Hst) as Hsec.
        assert (Hd1 : 0 <= rate * avg_frac_oil (view f_skim m) * sec (step_time (k_a c) (k_b c) dt t) * k_unit c * ef) by qpos.
        pose proof (removes_le _ _ _ _ _ Hd1 E2) as Hle. destruct E2 as [_ [_ [_ [Hb _]]]]. split; auto.
        eapply Qle_trans; [exact Hle|].
        assert (Hz : 0 <= rate * (1 - avg_frac_oil (view f_skim m)) * sec (step_time (k_a c) (k_b c) dt t) * k_unit c * ef) by qpos.
        lra.
      - cbn in Ew. injection Ew as <-. cbn [snd]. assert (E : sec 0 == 0) by reflexivity. rewrite E. split; [lra|].
        assert (E2 : rate * 0 * k_unit c * ef == 0) by ring. rewrite E2. lra. }
    rewrite P2 in G. destruct G as [G1 G2]. split; [lra|].
    assert (E3 : rate * (sec (if is_active true (k_a c) (k_b c) dt t then step_time (k_a c) (k_b c) dt t else 0) +
       sec (op_time true (k_a c) (k_b c) dt (t + dt) (length r))) * k_unit c * ef ==
       rate * sec (if is_active true (k_a c) (k_b c) dt t then step_time (k_a c) (k_b c) dt t else 0) * k_unit c * ef +
       rate * sec (op_time true (k_a c) (k_b c) dt (t + dt) (length r)) * k_unit c * ef) by ring.
    rewrite E3. lra.
Qed.
Lemma step_time_le a b dt t : (a <= b)%Z -> is_active true a b dt t = true -> ~ within_step a b dt t ->
  (step_time a b dt t <= b - a)%Z.
Proof.
  unfold is_active, step_time, within_step. rewrite !andb_true_iff, !Z.ltb_lt. intros Hab [[_ H1] H2] Hn.
  destruct (Z.ltb_spec t a), (Z.ltb_spec b (t + dt)); lia.
Qed.
Lemma avg_share l flag : avg_frac_oil (view flag l) * available flag l == sum_of (fun e => dry flag e) l.
Proof.
  rewrite <- view_available. unfold avg_frac_oil.
  assert (E : sum_of (fun e => dry flag e) l == total (view flag l) - fold_right (fun e s => e_mass e * e_fw e + s) 0 (view flag l)).
  { induction l as [|e r IH]; [reflexivity|]. rewrite sum_of_cons, IH. unfold view, dry. cbn [filter].
    change ((Z.land (e_fate e) flag =? flag)%Z && Qltb 0 (e_mass e)) with (in_view flag e).
    destruct (in_view flag e); [|ring]. cbn [total fold_right]. fold (total (filter (in_view flag) r)). ring. }
  rewrite E. destruct (view flag l) as [|e0 r0] eqn:Ev; [cbn; ring|].
  assert (Hp : 0 < total (view flag l)) by (apply available_pos; rewrite Ev; discriminate). rewrite Ev in Hp.
  destruct (Qltb_spec 0 (total (e0 :: r0))); [|lra]. field. lra.
Qed.
Lemma avg_dry l flag : (forall e, In e l -> e_fw e == 0) -> avg_frac_oil (view flag l) == 1.
Proof.
  intros H. unfold avg_frac_oil.
  assert (E : fold_right (fun e s => e_mass e * e_fw e + s) 0 (view flag l) == 0).
  { assert (G : forall e, In e (view flag l) -> e_fw e == 0) by (intros e He; apply H; apply filter_In in He; apply He).
    induction (view flag l) as [|e r IH]; [reflexivity|]. cbn [fold_right]. rewrite IH, (G e (or_introl eq_refl)); [ring|].
    intros; apply G; right; auto. }
  destruct (Qltb_spec 0 (total (view flag l))); [|ring]. rewrite E. field. lra.
Qed.
Lemma skim_run_eq c rate ef dt D : (0 < dt)%Z -> (k_a c <= k_b c)%Z -> k_on c = true -> k_eff c = Some ef ->
  0 <= ef -> 0 <= rate -> 0 <= k_unit c -> rate * sec (k_b c - k_a c) * k_unit c * ef <= D ->
  forall ls t x, (forall k, (k < length ls)%nat -> ~ within_step (k_a c) (k_b c) dt (t + Z.of_nat k * dt)) ->
  (forall l m, In (l, m) ls -> all_sane m /\ (forall e, In e m -> e_fw e == 0) /\ D <= available f_skim m) ->
  skim_run c rate dt t ls = Ok x ->
  x == rate * sec (op_time true (k_a c) (k_b c) dt t (length ls)) * k_unit c * ef.
Proof.
  intros Hd Hab Hon He Hef Hr Hu HD. induction ls as [|[l m] r IH]; intros t x Hw Hs H; cbn [skim_run] in H.
  - injection H as <-. cbn [op_time length]. assert (E : sec 0 == 0) by reflexivity. rewrite E. ring.
  - destruct (skim_prepare c dt t l) as [p|] eqn:Ep; [|discriminate]. cbn [bind] in H.
    destruct (skim_prepare_time _ _ _ _ _ Ep) as [P1 P2]. rewrite Hon in P1, P2.
    destruct (skim_weather c rate (fst (fst p)) true (snd (fst p)) m) as [w|] eqn:Ew; [|discriminate]. cbn [bind] in H.
    destruct (skim_run c rate dt (t + dt) r) as [y|] eqn:Ey; [|discriminate]. cbn in H. injection H as <-.
    assert (Hy := IH (t + dt)%Z y).
    destruct (Hs l m (or_introl eq_refl)) as [Hm [Hdry Hav]].
    cbn [op_time length]. rewrite sec_add, Hy; [| |intros; eapply Hs; right; eauto|exact Ey].
    + assert (G : snd w == rate * sec (snd (fst p)) * k_unit c * ef).
      { rewrite P1 in Ew. rewrite P2 in *. destruct (is_active true (k_a c) (k_b c) dt t) eqn:Ea.
        - pose proof (step_time_nonneg _ _ _ _ _ Hd Ea) as Hst.
          destruct (skim_weather_ok c rate _ m ef Hm He Hef Hr Hu Hst) as [l' [b [E1 E2]]].
          rewrite E1 in Ew. injection Ew as <-. cbn [snd].
          assert (Hn : ~ within_step (k_a c) (k_b c) dt t).
          { specialize (Hw 0%nat). replace (t + Z.of_nat 0 * dt)%Z with t in Hw by lia. apply Hw. cbn. lia. }
          pose proof (step_time_le _ _ _ _ Hab Ea Hn) as Hle. apply sec_le in Hle.
          pose proof (avg_dry m f_skim Hdry) as Ha.
          assert (E3 : rate * avg_frac_oil (view f_skim m) * sec (step_time (k_a c) (k_b c) dt t) * k_unit c * ef ==
                       rate * sec (step_time (k_a c) (k_b c) dt t) * k_unit c * ef) by (rewrite Ha; ring).
          destruct E2 as [E2 _]. rewrite E2; [exact E3|]. rewrite E3. eapply Qle_trans; [|exact Hav].
          eapply Qle_trans; [|exact HD].
          assert (0 <= rate * (sec (k_b c - k_a c) - sec (step_time (k_a c) (k_b c) dt t)) * k_unit c * ef) by qpos. lra.
        - cbn in Ew. injection Ew as <-. cbn [snd]. assert (E : sec 0 == 0) by reflexivity. rewrite E. ring. }
      rewrite G, P2. ring.
    + intros k Hk. replace (t + dt + Z.of_nat k * dt)%Z with (t + Z.of_nat (S k) * dt)%Z by lia. apply Hw. cbn. lia.
Qed.

Lemma chem_rate c rt dt t l p : chem_prepare c rt dt t l = Ok p -> fst (fst (fst p)) = true ->
  snd (fst p) = rt \/ (exists ef, d_eff c = Some ef /\ snd (fst p) = Some (d_spilled c * d_frac c * ef / sec (d_b c - d_a c))).
Proof.
  unfold chem_prepare. destruct (is_active _ _ _ _ _); intros H Ha.
  - destruct (Nat.eqb _ _); [|injection H as <-; auto]. destruct (d_eff c) as [ef|]; [|discriminate].
    match type of H with (do _ <- ?e; _) = _ => destruct e end; [|discriminate]. cbn [bind] in H.
    destruct (_ =? 0)%Z; [discriminate|]. injection H as <-. right. eauto.
  - injection H as <-. auto.
Qed.
Lemma chem_rate_off c rt dt t l p : chem_prepare c rt dt t l = Ok p -> fst (fst (fst p)) = false -> snd (fst p) = rt.
Proof.
  unfold chem_prepare. destruct (is_active _ _ _ _ _); intros H Ha.
  - destruct (Nat.eqb _ _); [|injection H as <-; discriminate Ha]. destruct (d_eff c) as [ef|]; [|discriminate].
    match type of H with (do _ <- ?e; _) = _ => destruct e end; [|discriminate]. cbn [bind] in H.
    destruct (_ =? 0)%Z; [discriminate|]. injection H as <-. discriminate Ha.
  - injection H as <-. auto.
Qed.
Lemma chem_run_le c ef dt R : (0 < dt)%Z -> d_on c = true -> d_eff c = Some ef ->
  R = d_spilled c * d_frac c * ef / sec (d_b c - d_a c) -> 0 <= R ->
  forall ls rt t x, (rt = None \/ rt = Some R) -> (forall l m, In (l, m) ls -> all_sane m) -> chem_run c rt dt t ls = Ok x ->
  0 <= x /\ x <= R * sec (op_time true (d_a c) (d_b c) dt t (length ls)).
Proof.
  intros Hd Hon He ER HR. induction ls as [|[l m] r IH]; intros rt t x Hrt Hs H; cbn [chem_run] in H.
  - injection H as <-. cbn [op_time length]. assert (E : sec 0 == 0) by reflexivity. rewrite E.
    assert (E2 : R * 0 == 0) by ring. rewrite E2. lra.
  - destruct (chem_prepare c rt dt t l) as [p|] eqn:Ep; [|discriminate]. cbn [bind] in H.
    destruct (chem_prepare_time _ _ _ _ _ _ Ep) as [P1 P2]. rewrite Hon in P1, P2.
    destruct (chem_weather (snd (fst p)) _ true (snd (fst (fst p))) m) as [w|] eqn:Ew; [|discriminate]. cbn [bind] in H.
    destruct (chem_run c (snd (fst p)) dt (t + dt) r) as [y|] eqn:Ey; [|discriminate]. cbn in H. injection H as <-.
    assert (Hrt' : snd (fst p) = None \/ snd (fst p) = Some R).
    { destruct (fst (fst (fst p))) eqn:Ea.
      - destruct (chem_rate _ _ _ _ _ _ Ep Ea) as [->|[ef' [E1 E2]]]; auto. right. rewrite E2, ER. congruence.
      - rewrite (chem_rate_off _ _ _ _ _ _ Ep Ea). exact Hrt. }
    destruct (IH _ (t + dt)%Z y Hrt') as [I1 I2]; [intros; eapply Hs; right; eauto|exact Ey|].
    assert (Hm : all_sane m) by (eapply Hs; left; reflexivity).
    cbn [op_time length]. rewrite sec_add.
    assert (G : 0 <= snd w /\ snd w <= R * sec (snd (fst (fst p)))).
    { rewrite P1 in Ew. rewrite P2 in *. destruct (is_active true (d_a c) (d_b c) dt t) eqn:Ea.
      - pose proof (step_time_nonneg _ _ _ _ _ Hd Ea) as Hst. pose proof (sec_nonneg _ Hst) as Hsec.
        destruct Hrt' as [E0|E0]; rewrite E0 in Ew.
        + unfold chem_weather in Ew. cbn [negb orb] in Ew. destruct (_ || _); [injection Ew as <-|].
          * cbn [snd]. split; [lra|]. qpos.
          * destruct (view f_disp m); [|discriminate]. injection Ew as <-. cbn [snd]. split; [lra|]. qpos.
        + destruct (chem_weather_ok R _ m Hm HR Hst) as [l' [b [E1 E2]]].
          rewrite E1 in Ew. injection Ew as <-. cbn [snd].
          assert (Hd1 : 0 <= R * sec (step_time (d_a c) (d_b c) dt t)) by qpos.
          pose proof (removes_le _ _ _ _ _ Hd1 E2) as Hle. destruct E2 as [_ [_ [_ [Hb _]]]]. split; auto.
      - cbn in Ew. injection Ew as <-. cbn [snd]. assert (E : sec 0 == 0) by reflexivity. rewrite E.
        assert (E2 : R * 0 == 0) by ring. rewrite E2. lra. }
    rewrite P2 in G. destruct G as [G1 G2]. split; [lra|]. rewrite Qmult_plus_distr_r. lra.
Qed.

Lemma burn_prepare_marked c s dt t l p : count_fate f_burn l <> 0%nat -> min_thick < b_thick c -> burn_prepare c s dt t l = Ok p ->
  fst (fst (fst p)) = is_active (b_on c) (b_start c) (bs_end s) dt t /\
  snd (fst (fst p)) = (if is_active (b_on c) (b_start c) (bs_end s) dt t then step_time (b_start c) (bs_end s) dt t else 0%Z) /\
  snd (fst p) = s /\ snd p = l.
Proof.
  intros Hc Ht. unfold burn_prepare. destruct (is_active _ _ _ _ _); intros H.
  - destruct (Qle_bool_spec (b_thick c) min_thick); [lra|].
    destruct (Nat.eqb_spec (count_fate f_burn l) 0); [congruence|]. injection H as <-. auto.
  - injection H as <-. auto.
Qed.
Lemma burn_run_le c s ef dt : (0 < dt)%Z -> b_on c = true -> b_eff c = Some ef -> 0 <= ef -> 0 <= bs_rate s -> 0 <= b_rho c ->
  min_thick < b_thick c ->
  forall ls t x, (forall l m, In (l, m) ls -> count_fate f_burn l <> 0%nat /\ all_sane m) -> burn_run c s dt t ls = Ok x ->
  0 <= x /\ x <= b_rho c * (bs_rate s * ef * sec (op_time true (b_start c) (bs_end s) dt t (length ls))).
Proof.
  intros Hd Hon He Hef HR Hrho Hth. induction ls as [|[l m] r IH]; intros t x Hs H; cbn [burn_run] in H.
  - injection H as <-. cbn [op_time length]. assert (E : sec 0 == 0) by reflexivity. rewrite E.
    assert (E2 : b_rho c * (bs_rate s * ef * 0) == 0) by ring. rewrite E2. lra.
  - destruct (burn_prepare c s dt t l) as [p|] eqn:Ep; [|discriminate]. cbn [bind] in H.
    destruct (Hs l m (or_introl eq_refl)) as [Hc Hm].
    destruct (burn_prepare_marked _ _ _ _ _ _ Hc Hth Ep) as [P1 [P2 [P3 P4]]]. rewrite Hon in P1, P2. rewrite P3 in *.
    destruct (burn_weather c s _ true _ m) as [w|] eqn:Ew; [|discriminate]. cbn [bind] in H.
    destruct (burn_run c s dt (t + dt) r) as [y|] eqn:Ey; [|discriminate]. cbn in H. injection H as <-.
    destruct (IH (t + dt)%Z y) as [I1 I2]; [intros; eapply Hs; right; eauto|exact Ey|].
    cbn [op_time length]. rewrite sec_add.
    assert (G : 0 <= snd w /\ snd w <= b_rho c * (bs_rate s * ef * sec (snd (fst (fst p))))).
    { rewrite P1 in Ew. rewrite P2 in *. destruct (is_active true (b_start c) (bs_end s) dt t) eqn:Ea.
      - pose proof (step_time_nonneg _ _ _ _ _ Hd Ea) as Hst. pose proof (sec_nonneg _ Hst) as Hsec.
        destruct (burn_weather_ok c s _ m ef Hm He Hef HR Hrho Hst) as [l' [b [E1 E2]]].
        rewrite E1 in Ew. injection Ew as <-. cbn [snd].
        assert (Hd1 : 0 <= b_rho c * (bs_rate s * ef * sec (step_time (b_start c) (bs_end s) dt t))) by qpos.
        pose proof (removes_le _ _ _ _ _ Hd1 E2) as Hle. destruct E2 as [_ [_ [_ [Hb _]]]]. split; auto.
      - cbn in Ew. injection Ew as <-. cbn [snd]. assert (E : sec 0 == 0) by reflexivity. rewrite E.
        assert (E2 : b_rho c * (bs_rate s * ef * 0) == 0) by ring. rewrite E2. lra. }
    rewrite P2 in G. destruct G as [G1 G2]. split; [lra|].
    assert (E3 : forall u v, b_rho c * (bs_rate s * ef * (u + v)) == b_rho c * (bs_rate s * ef * u) + b_rho c * (bs_rate s * ef * v)) by (intros; ring).
    rewrite E3. lra.
Qed.

(** ** The rounding of the burn's duration *)

Lemma np_round_near q : Qabs (inject_Z (np_round q) - q) <= 1#2.
Proof.
  unfold np_round. pose proof (Qfloor_bounds q) as [F1 F2]. set (f := Qfloor q) in *.
  assert (P : inject_Z (f + 1) == inject_Z f + 1) by (rewrite inject_Z_plus; reflexivity).
  apply Qabs_Qle_condition.
  destruct (Qltb_spec (q - inject_Z f) (1#2)); [lra|].
  destruct (Qltb_spec (1#2) (q - inject_Z f)); [rewrite P; lra|]. destruct (Z.even f); [lra|rewrite P; lra].
Qed.
Lemma burn_volume c f s : 0 < f -> burn_init c f = Ok s ->
  Qabs (bs_rate s * sec (bs_end s - b_start c) - f * b_area c * (b_thick c - min_thick)) <= Qabs (bs_rate s) * (5 # 10000000).
Proof.
  intros Hf. unfold burn_init. destruct (Qeq_bool_spec f 0); [lra|]. intros HS. injection HS as <-. cbn [bs_rate bs_end].
  replace (b_start c + np_round (burn_duration c f * inject_Z 1000000) - b_start c)%Z with (np_round (burn_duration c f * inject_Z 1000000)) by lia.
  pose proof (np_round_near (burn_duration c f * inject_Z 1000000)) as Hn.
  set (n := np_round (burn_duration c f * inject_Z 1000000)) in *. set (R := burn_constant * (f * f) * b_area c).
  assert (E : f * b_area c * (b_thick c - min_thick) == R * burn_duration c f).
  { unfold R, burn_duration, burn_constant. field. lra. }
  rewrite E. assert (E2 : R * sec n - R * burn_duration c f == R * (sec n - burn_duration c f)) by ring.
  rewrite E2, Qabs_Qmult. rewrite (Qmult_comm (Qabs R)), (Qmult_comm (Qabs R)). apply Qmult_le_compat_r; [|apply Qabs_nonneg].
  apply Qabs_Qle_condition in Hn. apply Qabs_Qle_condition. unfold sec.
  assert (E3 : inject_Z n / inject_Z 1000000 - burn_duration c f == (inject_Z n - burn_duration c f * inject_Z 1000000) * (1 # 1000000)).
  { change (inject_Z 1000000) with (1000000#1). field. }
  rewrite E3. lra.
Qed.

Lemma cleaned_dec e : (has_flag (e_fate e) f_skim || has_flag (e_fate e) f_burn || has_flag (e_fate e) f_disp = true)%bool <-> cleaned e.
Proof. unfold cleaned, has_flag. rewrite !orb_true_iff, !Z.eqb_eq. tauto. Qed.
Lemma update_fate_ok e : fate_of e (e_fate (update_fate e)) /\ update_fate e = set_fate e (e_fate (update_fate e)).
Proof.
  unfold update_fate. destruct (e_nonw e) eqn:N.
  - split; [cbn; apply ft_tracer; auto|].
    destruct (e_status e =? s_on_land)%Z; cbn; repeat (match goal with |- context [if ?b then _ else _] => destruct b end); reflexivity.
  - destruct (Z.eqb_spec (e_status e) s_on_land) as [L|L].
    + rewrite L. cbn. split; [apply ft_land; auto|reflexivity].
    + destruct (Z.eqb_spec (e_status e) s_in_water) as [W|W]; cbn [andb].
      * pose proof (cleaned_dec e) as C.
        destruct (has_flag (e_fate e) f_skim), (has_flag (e_fate e) f_burn), (has_flag (e_fate e) f_disp); cbn [orb negb andb] in *;
          try (split; [apply ft_cleaned; auto; apply C; reflexivity|destruct e; reflexivity]).
        assert (NC : ~ cleaned e) by (intros K; apply C in K; discriminate).
        destruct (Qeq_bool_spec (e_z e) 0) as [Z0|Z0], (Qltb_spec 0 (e_z e)) as [Z1|Z1]; try lra.
        -- split; [apply ft_surface; auto|reflexivity].
        -- split; [apply ft_below; auto|reflexivity].
        -- split; [apply ft_above; auto; destruct (Qlt_le_dec (e_z e) 0); auto; exfalso; apply Z0; lra|destruct e; reflexivity].
      * split; [apply ft_other; auto|destruct e; reflexivity].
Qed.
Lemma fate_of_det e x y : fate_of e x -> fate_of e y -> x = y.
Proof. intros H1 H2. destruct H1, H2; unfold s_on_land, s_in_water in *; try congruence; try tauto; try lra; try lia. Qed.

Lemma eff_step_ok o v : (exists q, o = ENum q /\ 0 <= q <= 1) -> v <> None ->
  exists q, set_eff o v = ENum q /\ 0 <= q <= 1.
Proof.
  intros [q [-> Hq]] Hv. destruct v as [x|]; [|congruence]. unfold set_eff.
  destruct (Qle_bool_spec 0 x), (Qle_bool_spec x 1); cbn [andb]; eauto.
Qed.
Lemma eff_keep vs o : (exists q, o = ENum q /\ 0 <= q <= 1) -> (forall v, In v vs -> v <> None) ->
  exists q, fold_left set_eff vs o = ENum q /\ 0 <= q <= 1.
Proof.
  revert o. induction vs as [|v r IH]; intros o Ho Hv; [exact Ho|]. cbn [fold_left]. apply IH.
  - apply eff_step_ok; auto. apply Hv. left; auto.
  - intros; apply Hv; right; auto.
Qed.
Lemma eff_refused vs o : (forall v, In v vs -> v <> None /\ ~ acceptable v) -> o <> ENone -> fold_left set_eff vs o = o.
Proof.
  induction vs as [|v r IH]; intros Hv Ho; [reflexivity|]. cbn [fold_left].
  assert (E : set_eff o v = o).
  { destruct (Hv v (or_introl eq_refl)) as [H1 H2]. destruct v as [x|]; [|congruence]. unfold set_eff. cbn in H2.
    destruct (Qle_bool_spec 0 x), (Qle_bool_spec x 1); cbn [andb]; try (destruct o; congruence). exfalso. apply H2. lra. }
  rewrite E. apply IH; auto. intros; apply Hv; right; auto.
Qed.
