(** * Properties C165 to C168: plumes and splots *)
From Coq Require Import QArith Qround Lia Lqa Bool Permutation.
From Verif Require Import Py PyLemmas ReleaseModel PlmModel PlmSpec PlmProofs.
Open Scope Z_scope.

(** ** C165: the loop over a generator *)

(** Told the number of elements, a generator whose time step divides the duration
    gives every point its share, less than one element short, so less elements than
    there are points are missing in all.  The time step has to divide the duration:
    see [C165_rest_refuted]. *)
Theorem C165_count_partial : forall rel e dt place data n g0 g,
  new_gen rel (Some e) dt (new_plume place data) = Ok g0 -> set_count g0 n = Ok g ->
  flowing data -> rel < e -> 0 < dt -> (dt | e - rel) -> 0 < n < 2 ^ 31 ->
  exists items, run g = Some items /\
    map fst items = map (fun k => rel + dt * Z.of_nat k) (seq 0 (Z.to_nat ((e - rel) / dt))) /\
    proper_rounds place data items /\
    (forall i d, nth_error data i = Some d -> point_total i items = share n (snd d) (flux_sum data)) /\
    total_of items (length data) <= n < total_of items (length data) + Z.of_nat (length data).
Proof.
  intros rel e dt place data n g0 g A B F L D (k & K) N. assert (NZ : n <> 0) by lia.
  rewrite (counted_eq _ _ _ _ _ _ _ _ A B NZ). clear A B NZ.
  assert (KP : 0 < k) by nia. assert (Q1 : Z.quot (e - rel) dt = k) by (rewrite K; apply Z.quot_mul; lia).
  assert (Q2 : (e - rel) / dt = k) by (rewrite K; apply Z.div_mul; lia).
  set (c := counted place data rel e dt n). set (m := cmass data rel e n).
  assert (S : sane c m) by (apply counted_sane; [exact F|exact L|lia]).
  assert (EF : elems_from c (g_rel c + g_dt c * Z.of_nat (Z.to_nat k)) = Some (outs c m (g_rel c + g_dt c * Z.of_nat (Z.to_nat k)))).
  { apply counted_elems; [exact F|exact L|exact N]. }
  assert (PT : forall i d, nth_error data i = Some d -> point_total i (rounds c (Z.to_nat k)) = share n (snd d) (flux_sum data)).
  { intros i d I. rewrite (rounds_total c m _ _ i (snd d) S) with (2 := EF); [|simpl; lia|].
    - unfold c, m. rewrite counted_out by (try lia; assumption). unfold share. apply Qfloor_comp.
      rewrite part_end; [ring|exact L|]. cbn [counted g_rel g_dt]. nia.
    - unfold c. cbn [counted g_plume]. rewrite plume_flux. apply map_nth_error. exact I. }
  exists (rounds c (Z.to_nat k)). split; [unfold run, c; cbn [counted g_steps]; rewrite Q1; reflexivity|].
  split; [unfold rounds; rewrite map_map, Q2; reflexivity|].
  split; [apply (rounds_proper c m _ _ place data S) with (3 := EF); [simpl; lia|reflexivity]|].
  split; [exact PT|].
  assert (NE : data <> []) by (intros ->; destruct F as (_ & F); inversion F).
  destruct F as (FP & F).
  destruct (total_of_bounds (rounds c (Z.to_nat k)) (inject_Z n) data (flux_sum data) (flux_sum data) F ltac:(apply Qeq_refl) PT F NE) as (X & Y).
  assert (E : (inject_Z n * flux_sum data / flux_sum data == inject_Z n)%Q) by (field; intros H; rewrite H in F; inversion F).
  rewrite E in X, Y. rewrite <- Zle_Qle in X. rewrite <- Zlt_Qlt in Y. split; assumption.
Qed.
Print Assumptions C165_count_partial.

Definition ex_place : point := (28 # 1, -78 # 1, 0)%Q.
Definition ex_data : list (Q * Q) := [(0, 5); (20 # 1, 15); (40 # 1, 0); (60 # 1, 13)]%Q.
Definition hour : Z := 3600 * 1000000.
Lemma ex_flowing : flowing ex_data.
Proof. split; [repeat constructor; vm_compute; discriminate|vm_compute; reflexivity]. Qed.
Example C165_count_meets : exists g0 g items,
  new_gen 0 (Some (3 * hour)) hour (new_plume ex_place ex_data) = Ok g0 /\ set_count g0 200 = Ok g /\ run g = Some items /\
  map (fun i => point_total i items) [0; 1; 2; 3]%nat = [30; 90; 0; 78] /\ total_of items 4 = 198.
Proof. eexists _, _, _. split; [reflexivity|]. split; [reflexivity|]. split; [reflexivity|]. vm_compute. auto. Qed.

(** The rest of the duration after the last whole time step is left out, with its
    elements: of three elements over an hour and a half one is missing at the only
    point, and of any number over less than a time step, all. *)
Theorem C165_rest_refuted :
  (exists rel e dt place data g0 g items, flowing data /\ rel < e /\ 0 < dt /\
     new_gen rel (Some e) dt (new_plume place data) = Ok g0 /\ set_count g0 3 = Ok g /\ run g = Some items /\
     length data = 1%nat /\ total_of items 1 = 2) /\
  (forall rel e dt place data n g0 g, rel < e < rel + dt ->
     new_gen rel (Some e) dt (new_plume place data) = Ok g0 -> set_count g0 n = Ok g -> run g = Some []).
Proof.
  split.
  - exists 0, (3 * hour), (2 * hour), ex_place, [(0, 5)%Q]. eexists _, _, _.
    split; [split; [repeat constructor; vm_compute; discriminate|vm_compute; reflexivity]|]. split; [vm_compute; reflexivity|]. split; [vm_compute; reflexivity|].
    split; [reflexivity|]. split; [reflexivity|]. split; [reflexivity|]. split; [reflexivity|vm_compute; reflexivity].
  - intros rel e dt place data n g0 g L A B. unfold new_gen in A. destruct (dt =? 0); [discriminate|]. inversion A; subst; clear A.
    unfold set_count in B. cbn [g_end g_plume g_rel g_dt g_steps time_steps] in B. inversion B; subst. unfold run. cbn [g_steps].
    rewrite Z.quot_small by lia. reflexivity.
Qed.
Print Assumptions C165_rest_refuted.

(** ** C166: a plume in a run *)

(** A run of any steps that begins before the release: the elements that have been
    released are those of the share of every point of the plume of the part of the release
    that is over, at their places, whatever the steps; all of them at the end. *)
Theorem C166_steps : forall rel e place data n g s ds,
  plume_release rel place data (Some e) (Some n) None = Ok g -> flowing data -> rel < e -> 0 < n < 2 ^ 31 ->
  s <= rel -> Forall (fun d => 0 <= d) ds ->
  exists ls, mapO (fun x => elem_coords g (fst x) (snd x)) (begins s ds) = Some ls /\
    Permutation (concat ls) (out_at place data n rel e (s + zsum ds)).
Proof.
  intros rel e place data n g s ds R F L N SR D. unfold plume_release in R. cbn [bind] in R.
  destruct (new_gen rel (Some e) (3600 * 1000000) (new_plume place data)) as [g0|x] eqn:E; [|discriminate]. cbn [bind] in R.
  destruct (n =? 0) eqn:Z0; [apply Z.eqb_eq in Z0; lia|].
  rewrite (counted_eq _ _ _ _ _ _ _ _ E R ltac:(lia)). clear R E g0 Z0.
  set (c := counted place data rel e (3600 * 1000000) n). set (m := cmass data rel e n).
  assert (S : sane c m) by (apply counted_sane; [exact F|exact L|lia]).
  assert (T : forall t, elems_from c t = Some (outs c m t)) by (intros t; apply counted_elems; assumption).
  destruct (steps_perm c m ds s S D T) as (ls & A & B). exists ls. split; [exact A|].
  rewrite coords_zero in B.
  - simpl in B. rewrite B. unfold out_at, outs. change (g_plume c) with (new_plume place data). rewrite plume_coords, plume_flux, map_map.
    assert (X : forall l t, coords_of (combine (map (fun d => (fst (fst place), snd (fst place), fst d)) l) (map (fun d => Qfloor (quota (counted place data rel e (3600 * 1000000) n) m t (snd d))) l)) =
      concat (map (fun d => repeat (fst (fst place), snd (fst place), fst d) (Z.to_nat (Qfloor (inject_Z n * snd d / flux_sum data * part_over rel e t)))) l)).
    { intros l t. unfold coords_of. induction l as [|d l IH]; [reflexivity|]. cbn [map combine concat fst snd]. rewrite IH. unfold m. rewrite counted_out by (try lia; assumption). reflexivity. }
    unfold c. rewrite X. apply Permutation_refl.
  - apply Forall_forall. intros x I. unfold outs in I. apply in_map_iff in I. destruct I as (f & <- & I).
    unfold c, m. change 0 with (Qfloor 0). apply Qfloor_comp. rewrite counted_quota by (try lia; assumption). rewrite part_begin by assumption. ring.
Qed.
Print Assumptions C166_steps.

(** At the end every point has had its share. *)
Theorem C166_all : forall place data n rel e t, rel < e -> e <= t ->
  out_at place data n rel e t =
  concat (map (fun d => repeat (fst (fst place), snd (fst place), fst d) (Z.to_nat (share n (snd d) (flux_sum data)))) data).
Proof.
  intros place data n rel e t L T. unfold out_at, share. f_equal. apply map_ext. intros d. f_equal. f_equal.
  apply Qfloor_comp. rewrite part_end by assumption. ring.
Qed.
Print Assumptions C166_all.

Example C166_steps_meets : exists g ls,
  plume_release 0 ex_place ex_data (Some (3 * hour)) (Some 200) None = Ok g /\
  mapO (fun x => elem_coords g (fst x) (snd x)) (begins (- hour) [hour; hour; 0; hour; 2 * hour]) = Some ls /\
  map (@length _) ls = [0; 66; 0; 66; 66]%nat.
Proof. eexists _, _. split; [reflexivity|]. split; [reflexivity|]. vm_compute. reflexivity. Qed.

(** The new elements are the last of the array and get their places, if there are
    new elements; the others keep theirs. *)
Theorem C166_place_partial : forall g c cur step num old new,
  num_to_release g cur step = Some num -> (0 < num)%nat -> length new = num ->
  exists cs, elem_coords g cur step = Some cs /\ set_positions g (Some c) num cur step (old ++ new) = Some (Ok (c + Z.of_nat num, old ++ cs)).
Proof.
  intros g c cur step num old new H P L. unfold num_to_release in H. unfold set_positions.
  destruct (elem_coords g cur step) as [cs|]; [|discriminate]. injection H as H. assert (LC : length cs = length new) by congruence. exists cs. split; [reflexivity|].
  rewrite H, Nat.eqb_refl. cbn [negb]. destruct cs as [|c0 cs]; [simpl in H; lia|].
  assert (X : (Nat.ltb (length (old ++ new)) num) = false) by (apply Nat.ltb_ge; rewrite app_length; lia).
  rewrite X. rewrite app_length, L, Nat.add_sub, firstn_app, Nat.sub_diag, firstn_all. simpl. rewrite app_nil_r. reflexivity.
Qed.
Print Assumptions C166_place_partial.
Example C166_place_meets : exists g,
  plume_release 0 ex_place ex_data (Some (3 * hour)) (Some 7) None = Ok g /\ num_to_release g 0 hour = Some 1%nat /\
  set_positions g (Some 5) 1 0 hour [ex_place; ex_place] = Some (Ok (6, [ex_place; (28 # 1, -78 # 1, 20 # 1)%Q])).
Proof. eexists. split; [reflexivity|]. vm_compute. auto. Qed.

(** With no new elements the slice that is written is the whole array: ValueError as
    soon as there are elements, for every plume (also after its end). *)
Theorem C166_none_refuted : forall g c cur step old, num_to_release g cur step = Some O -> old <> [] ->
  set_positions g (Some c) 0 cur step old = Some (Raise ValueErr).
Proof.
  intros g c cur step old H N. unfold num_to_release in H. unfold set_positions. destruct (elem_coords g cur step) as [cs|]; [|discriminate].
  destruct cs; [|discriminate]. simpl. destruct old; [congruence|reflexivity].
Qed.
Print Assumptions C166_none_refuted.
Example C166_none_meets : exists g,
  plume_release 0 ex_place ex_data (Some (3 * hour)) (Some 7) None = Ok g /\ num_to_release g (4 * hour) hour = Some O.
Proof. eexists. split; [reflexivity|]. vm_compute. reflexivity. Qed.

(** Nobody sets the counter that is added to: as the classes are, placing the new
    elements raises AttributeError. *)
Theorem C166_counter_refuted : forall g cur step num positions,
  num_to_release g cur step = Some num -> set_positions g None num cur step positions = Some (Raise AttrErr).
Proof.
  intros g cur step num positions H. unfold num_to_release in H. unfold set_positions. destruct (elem_coords g cur step) as [cs|]; [|discriminate].
  injection H as H. rewrite H, Nat.eqb_refl. reflexivity.
Qed.
Print Assumptions C166_counter_refuted.

(** And a spill calls neither method: in a run, the first step that reaches the release
    time raises ValueError, whatever the number of elements. *)
Theorem C166_run_refuted : forall rt n mass r ts r' t0 t1, 0 < n ->
  new_release false rt (Some n) None None mass [] None = Ok r -> prepare r ts = Ok r' -> rt <= t1 ->
  base_step (mkSpill true r' 0) t0 t1 = Raise ValueErr.
Proof.
  intros rt n mass r ts r' t0 t1 N R P T. unfold new_release in R. cbn [set_num bind] in R.
  destruct (n <? 0) eqn:E; [apply Z.ltb_lt in E; lia|]. cbn [check_end bind] in R. injection R as <-.
  unfold prepare in P. cbn [r_prep] in P. unfold end_time in P. cbn [r_end r_time] in P. rewrite Z.eqb_refl, andb_false_r in P.
  cbn [ratio r_num r_per] in P. unfold num_steps, duration, end_time in P. cbn [r_end r_time] in P. rewrite Z.sub_diag in P.
  destruct (ts =? 0); [discriminate|]. cbn [bind] in P. unfold ceil_div in P.
  assert (Z0 : - ((- 0) / ts) = 0) by (rewrite Z.opp_0, Zdiv_0_l; reflexivity). rewrite Z0 in P. change (0 =? 0) with true in P. cbv iota in P.
  destruct (negb _); [discriminate|]. cbn [bind] in P. unfold table, duration, end_time in P. cbn [r_end r_time] in P. rewrite Z.sub_diag in P.
  change (0 =? 0) with true in P. change (1 =? 1) with true in P. cbv iota in P. unfold mk_time in P. cbn [ascending] in P.
  assert (A : (rt <? rt + TimeModel.sec_us) = true) by (apply Z.ltb_lt; unfold TimeModel.sec_us; lia). rewrite A in P. cbn [andb bind map] in P.
  unfold mk_series in P. cbn [length Nat.eqb] in P. cbn [bind pos_table r_line] in P.
  destruct (n =? 0) eqn:N0; [apply Z.eqb_eq in N0; lia|]. injection P as <-.
  unfold base_step. cbn [s_on negb s_rel s_count]. unfold after_time. cbn [r_prep r_time p_table].
  destruct (t1 <? rt) eqn:TL; [apply Z.ltb_lt in TL; lia|].
  assert (AT : exists q, at_time ([rt; rt + TimeModel.sec_us], [inject_Z n; inject_Z n]) t1 = Ok q /\ (q == inject_Z n)%Q).
  { unfold at_time. cbn [py_get]. change (py_get [rt; rt + TimeModel.sec_us] (-1)) with (Ok (rt + TimeModel.sec_us)). change (py_get [rt; rt + TimeModel.sec_us] 0) with (Ok rt). cbn [bind].
    destruct (t1 <=? rt) eqn:L1; [exists (inject_Z n); split; reflexivity|]. destruct (rt + TimeModel.sec_us <? t1) eqn:L2; [exists (inject_Z n); split; reflexivity|].
    cbn [index_of]. apply Z.leb_gt in L1. apply Z.ltb_ge in L2. assert (X : (rt <? t1) = true) by (apply Z.ltb_lt; lia). rewrite X.
    assert (Y : (rt + TimeModel.sec_us <? t1) = false) by (apply Z.ltb_ge; lia). rewrite Y.
    change (py_get [rt; rt + TimeModel.sec_us] (Z.of_nat 1 - 1)) with (Ok rt). change (py_get [rt; rt + TimeModel.sec_us] (Z.of_nat 1)) with (Ok (rt + TimeModel.sec_us)).
    change (py_get [inject_Z n; inject_Z n] (Z.max (Z.of_nat 1 - 1) 0)) with (Ok (inject_Z n)). change (py_get [inject_Z n; inject_Z n] (Z.of_nat 1)) with (Ok (inject_Z n)). cbn [bind].
    eexists. split; [reflexivity|]. ring. }
  destruct AT as (q & -> & QE). cbn [bind]. assert (C : Qceil q = n).
  { unfold Qceil. rewrite QE. rewrite <- inject_Z_opp, Qfloor_Z. lia. }
  rewrite C, Z.sub_0_r. assert (L : (n <=? 0) = false) by (apply Z.leb_gt; lia). rewrite L. reflexivity.
Qed.
Print Assumptions C166_run_refuted.
Example C166_run_meets : exists r r', new_release false 0 (Some 200) None None 10 [] None = Ok r /\ prepare r (900 * 1000000) = Ok r'.
Proof. eexists _, _. split; [reflexivity|]. vm_compute. reflexivity. Qed.

(** A plume without an end, for which the generator is made, can not be released
    unless num_per_timestep, which is not used, is given: the default of 1000 elements
    raises OverflowError. *)
Theorem C166_endless_refuted : forall rel place data,
  plume_release rel place data None None None = Raise OverflowErr /\
  (forall k, exists g, plume_release rel place data None None (Some k) = Ok g /\ g_end g = None).
Proof. intros rel place data. split; [reflexivity|]. intros k. eexists. split; reflexivity. Qed.
Print Assumptions C166_endless_refuted.

(** ** C167: the mass of the elements *)

(** At any time the elements of a point weigh no more than what has flowed there, and
    less than one element is missing. *)
Theorem C167_mass : forall g m t ns, g_mass g = Some m -> (0 < m)%Q -> Forall (fun f => (0 <= f)%Q) (pl_flux (g_plume g)) ->
  (forall e, g_end g = Some e -> g_rel g <= e) -> elems_from g t = Some ns ->
  exists ms, elems_to_mass g ns = Some ms /\
    Forall2 (fun f w => (w <= f * seconds g t < w + m)%Q) (pl_flux (g_plume g)) ms.
Proof.
  intros g m t ns M MP P E H. unfold elems_to_mass. rewrite M. eexists. split; [reflexivity|].
  unfold elems_from, mass_to_elems in H. rewrite M in H. destruct (Qeq_bool m 0); [discriminate|]. apply mapO_inv in H.
  assert (SN : (0 <= seconds g t)%Q).
  { unfold seconds. rewrite <- secs_0. apply secs_mono. unfold clamp. destruct (t <? g_rel g) eqn:X; [lia|]. apply Z.ltb_ge in X.
    destruct (g_end g) as [e|]; [|lia]. pose proof (E e eq_refl). destruct (e <? t); lia. }
  revert ns H. induction (pl_flux (g_plume g)) as [|f fs IH]; intros ns H; inversion H; subst; cbn [map]; constructor.
  - inversion P; subst. assert (Q : (0 <= f * seconds g t / m)%Q).
    { apply Qle_shift_div_l; [exact MP|]. rewrite Qmult_0_l. apply Qmult_le_0_compat; assumption. }
    destruct (to_int32_inv _ _ Q H2) as (-> & _). pose proof (Qfloor_le (f * seconds g t / m)) as A. pose proof (Qlt_floor (f * seconds g t / m)) as B.
    assert (EQ : (f * seconds g t == (f * seconds g t / m) * m)%Q) by (field; intros X; rewrite X in MP; inversion MP).
    set (z := Qfloor (f * seconds g t / m)) in *. rewrite inject_Z_plus in B. change (inject_Z 1) with 1%Q in B. set (q := (f * seconds g t / m)%Q) in *. rewrite EQ. clearbody q z. split.
    + apply Qmult_le_compat_r; lra.
    + assert (X : (q * m < (inject_Z z + 1) * m)%Q) by (apply Qmult_lt_r; assumption). lra.
  - inversion P; subst. apply IH; assumption.
Qed.
Print Assumptions C167_mass.

(** Untold, a generator makes as many elements in every time step as there are points,
    to less than that number over any number of rounds, with or without an end. *)
Theorem C167_default : forall rel end_ dt place data g n,
  new_gen rel end_ dt (new_plume place data) = Ok g -> flowing data -> 0 < dt ->
  (forall e, end_ = Some e -> rel + dt * Z.of_nat n <= e) -> Z.of_nat n * Z.of_nat (length data) < 2 ^ 31 ->
  length (iterate g n) = n /\ proper_rounds place data (iterate g n) /\
  total_of (iterate g n) (length data) <= Z.of_nat n * Z.of_nat (length data) < total_of (iterate g n) (length data) + Z.of_nat (length data).
Proof.
  intros rel end_ dt place data g n A F D E B. unfold new_gen in A. destruct (dt =? 0) eqn:Z0; [apply Z.eqb_eq in Z0; lia|]. clear Z0.
  assert (NE : data <> []) by (intros ->; destruct F as (_ & F); inversion F).
  assert (LP : 0 < Z.of_nat (length data)) by (destruct data; [congruence|simpl; lia]).
  assert (ME : qmean (pl_flux (new_plume place data)) = Some (flux_sum data / inject_Z (Z.of_nat (length data)))%Q).
  { rewrite plume_flux. unfold qmean. rewrite qsum_flux, map_length. destruct data; [congruence|reflexivity]. }
  rewrite ME in A. set (m := (flux_sum data / inject_Z (Z.of_nat (length data)) * secs dt)%Q) in *.
  set (c := Gen rel end_ dt (new_plume place data) (Some m) (time_steps rel end_ dt)) in *. inversion A; subst g; clear A.
  destruct F as (FP & F). pose proof (inject_pos _ LP) as LQ. pose proof (secs_pos dt D) as DQ.
  assert (MP : (0 < m)%Q) by (unfold m; apply Qmult_lt_0_compat; [apply Qlt_shift_div_l; [exact LQ|rewrite Qmult_0_l; exact F]|exact DQ]).
  assert (S : sane c m).
  { unfold sane, c. cbn [g_mass g_plume g_end g_rel]. split; [reflexivity|]. split; [exact MP|]. split; [rewrite plume_flux; apply Forall_map; exact FP|].
    split; [destruct end_ as [e|]; [pose proof (E e eq_refl); nia|auto]|rewrite plume_coords, plume_flux, !map_length; reflexivity]. }
  assert (IT : iterate c n = rounds c n).
  { unfold iterate, rounds. destruct (g_steps c) as [s|] eqn:GS; [|reflexivity]. unfold c in GS. cbn [g_steps] in GS. unfold time_steps in GS. destruct end_ as [e|]; [|discriminate].
    inversion GS; subst. pose proof (E e eq_refl) as EE. assert (Z.of_nat n <= Z.quot (e - rel) dt) by (rewrite Z.quot_div_nonneg by nia; apply Z.div_le_lower_bound; lia).
    rewrite Nat.min_l by lia. reflexivity. }
  assert (CL : clamp c (rel + dt * Z.of_nat n) = rel + dt * Z.of_nat n).
  { unfold clamp, c. cbn [g_rel g_end]. destruct (rel + dt * Z.of_nat n <? rel) eqn:X; [apply Z.ltb_lt in X; nia|]. destruct end_ as [e|]; [|reflexivity].
    pose proof (E e eq_refl). destruct (e <? rel + dt * Z.of_nat n) eqn:Y; [apply Z.ltb_lt in Y; lia|reflexivity]. }
  assert (QU : forall f, (quota c m (rel + dt * Z.of_nat n) f == inject_Z (Z.of_nat n * Z.of_nat (length data)) * f / flux_sum data)%Q).
  { intros f. unfold quota, seconds. rewrite CL. cbn [c g_rel]. replace (rel + dt * Z.of_nat n - rel) with (Z.of_nat n * dt) by lia.
    unfold m, secs. rewrite !inject_Z_mult. unfold secs in DQ. revert F LQ. assert (DP : (0 < inject_Z dt)%Q) by (apply inject_pos; exact D). clear - DP. revert DP. change (inject_Z 1000000) with (1000000 # 1)%Q.
    generalize (flux_sum data) (inject_Z (Z.of_nat (length data))) (inject_Z dt) (inject_Z (Z.of_nat n)). intros a b c d P Q R. field. repeat split; intros H; rewrite H in *; try (inversion P; fail); try (inversion Q; fail); try (inversion R; fail). }
  assert (EF : elems_from c (g_rel c + g_dt c * Z.of_nat n) = Some (outs c m (g_rel c + g_dt c * Z.of_nat n))).
  { apply elems_from_ok; [exact S|]. cbn [c g_rel g_dt g_plume]. rewrite plume_flux. apply Forall_map, Forall_forall. intros d I. change (quota c m (rel + dt * Z.of_nat n) (snd d) < inject_Z (2 ^ 31))%Q. rewrite QU.
    assert (BQ : (inject_Z (Z.of_nat n * Z.of_nat (length data)) < inject_Z (2 ^ 31))%Q) by (rewrite <- Zlt_Qlt; exact B). eapply Qle_lt_trans; [|exact BQ].
    apply Qle_shift_div_r; [exact F|]. rewrite !(Qmult_comm (inject_Z (Z.of_nat n * Z.of_nat (length data)))).
    apply Qmult_le_compat_r; [apply flux_le; assumption|]. change 0%Q with (inject_Z 0). rewrite <- Zle_Qle. lia. }
  rewrite IT. split; [unfold rounds; rewrite map_length, seq_length; reflexivity|].
  split; [apply (rounds_proper c m _ _ place data S) with (3 := EF); [simpl; lia|reflexivity]|].
  destruct (total_of_bounds (rounds c n) (inject_Z (Z.of_nat n * Z.of_nat (length data))) data (flux_sum data) (flux_sum data) F ltac:(apply Qeq_refl)) as (X & Y).
  - intros i d I. rewrite (rounds_total c m _ _ i (snd d) S) with (2 := EF); [|simpl; lia|].
    + apply Qfloor_comp. apply QU.
    + cbn [c g_plume]. rewrite plume_flux. apply map_nth_error. exact I.
  - exact F.
  - exact NE.
  - assert (EQ : (inject_Z (Z.of_nat n * Z.of_nat (length data)) * flux_sum data / flux_sum data == inject_Z (Z.of_nat n * Z.of_nat (length data)))%Q) by (field; intros H; rewrite H in F; inversion F).
    rewrite EQ in X, Y. rewrite <- Zle_Qle in X. rewrite <- Zlt_Qlt in Y. split; assumption.
Qed.
Print Assumptions C167_default.

Example C167_default_meets : exists g, new_gen 0 None hour (new_plume ex_place ex_data) = Ok g /\
  total_of (iterate g 5) 4 = 19 /\ map fst (iterate g 3) = [0; hour; 2 * hour] /\
  exists ns, elems_from g (5 * hour) = Some ns /\ ns = [3; 9; 0; 7] /\ exists ms, elems_to_mass g ns = Some ms /\ Forall2 Qeq ms [89100; 267300; 0; 207900]%Q.
Proof. eexists. split; [reflexivity|]. split; [vm_compute; reflexivity|]. split; [vm_compute; reflexivity|]. eexists. split; [reflexivity|]. split; [vm_compute; reflexivity|].
  eexists. split; [reflexivity|]. repeat constructor. Qed.

(** ** C168: splots *)

(** One element at the surface for each whole unit of the third column, line after line. *)
Theorem C168_splot : forall rows, Forall (fun r => (0 <= snd r)%Q) rows ->
  splot rows = Ok (concat (map (fun r => repeat (fst (fst r), snd (fst r), 0%Q) (Z.to_nat (Qfloor (snd r)))) rows)).
Proof.
  intros rows P. unfold splot.
  assert (E : map (fun r : Q * Q * Q => Z.quot (Qnum (snd r)) (Zpos (Qden (snd r)))) rows = map (fun r => Qfloor (snd r)) rows).
  { apply map_ext_in. intros r I. apply quot_floor. rewrite Forall_forall in P. apply P, I. }
  rewrite E. assert (X : existsb (fun k => k <? 0) (map (fun r : Q * Q * Q => Qfloor (snd r)) rows) = false).
  { apply not_true_is_false. intros H. apply existsb_exists in H. destruct H as (k & I & K). apply in_map_iff in I. destruct I as (r & <- & I).
    rewrite Forall_forall in P. pose proof (floor_nonneg _ (P r I)). apply Z.ltb_lt in K. lia. }
  rewrite X. f_equal. f_equal. clear. induction rows as [|r rows IH]; [reflexivity|]. cbn [map combine fst snd]. rewrite IH. reflexivity.
Qed.
Print Assumptions C168_splot.

(** Lines with less than one are no elements; lines with minus one or less raise ValueError. *)
Theorem C168_negative : forall rows r, In r rows -> (snd r <= -1)%Q -> splot rows = Raise ValueErr.
Proof.
  intros rows r I L. unfold splot.
  assert (X : existsb (fun k => k <? 0) (map (fun r : Q * Q * Q => Z.quot (Qnum (snd r)) (Zpos (Qden (snd r)))) rows) = true).
  { apply existsb_exists. exists (Z.quot (Qnum (snd r)) (Zpos (Qden (snd r)))). split; [apply in_map_iff; exists r; split; [reflexivity|exact I]|].
    apply Z.ltb_lt. destruct (snd r) as [n d]. unfold Qle in L. simpl in *. rewrite <- (Z.opp_involutive n). rewrite Z.quot_opp_l by lia.
    assert (1 <= Z.quot (- n) (Zpos d)) by (rewrite Z.quot_div_nonneg by lia; apply Z.div_le_lower_bound; lia). lia. }
  rewrite X. reflexivity.
Qed.
Print Assumptions C168_negative.
Example C168_splot_meets : splot [(1, 2, 3); (4, 5, 1 # 2); (6, 7, 3 # 2)]%Q = Ok [(1, 2, 0); (1, 2, 0); (1, 2, 0); (6, 7, 0)]%Q.
Proof. reflexivity. Qed.
