(** * C114 to C116: response options and densities on views of the container *)
From Coq Require Import QArith Qminmax Lqa.
From Verif Require Import Py PyLemmas QLemmas ScModel ScSpec ScProofs RvwModel RvwSpec RvwProofs.
Open Scope Z_scope.

(** ** C114 *)

(** If every element floats, a response option (burn or skim) takes from the
    elements exactly what it books: the planned amount, or all there is; every
    component of every element loses the same fraction, and nothing else
    changes. *)
Theorem C114_take_partial : forall c names amount c' actual,
  well_formed c -> all_floating c -> roc_take c names amount = (c', Ok actual) ->
  (all_mass c' == all_mass c - actual)%Q /\
  (forall name, name <> n_mass -> name <> n_comps -> column c' name = column c name) /\
  (consistent c -> (0 <= amount)%Q -> (0 < all_mass c)%Q ->
     (actual == Qmin amount (all_mass c))%Q /\
     exists keep, (0 <= keep <= 1)%Q /\
       forall i x, nth_error (match column c n_comps with Some l => l | None => [] end) i = Some x ->
       nth_error (match column c' n_comps with Some l => l | None => [] end) i =
         Some (VQ (map (fun q => q * keep)%Q (comps_of x)))).
Proof.
  intros c names amount c' actual W F E.
  destruct (take_floating _ _ _ _ _ W F E) as [(M & D & ->)|(cs & NE & C & H)].
  - assert (K : forall name, column c' name = column c name) by (intros; unfold column; now rewrite D).
    split; [unfold all_mass, mass_column; rewrite K; unfold Qminus; ring|].
    split; [intros; apply K|]. intros _ _ P. exfalso. unfold all_mass in P. rewrite M in P. discriminate.
  - destruct (remove_simple (mass_column c) cs amount) as [[ms' cs'] a] eqn:RS. destruct H as (-> & L & D).
    assert (CM : column c' n_mass = Some (map (fun m => VQ [m]) ms')) by (unfold column; rewrite D; apply dget_dset_same).
    assert (CC : column c' n_comps = Some (map VQ cs')).
    { unfold column. rewrite D, dget_dset_other by discriminate. apply dget_dset_same. }
    assert (AM : all_mass c' = qsum ms').
    { unfold all_mass, mass_column. rewrite CM, as_number_wrap. reflexivity. }
    unfold remove_simple in RS. change (qsum (mass_column c)) with (all_mass c) in RS.
    set (frac := Qmin_py (amount / all_mass c) 1) in *. injection RS as <- <- <-.
    split; [rewrite AM; ring|]. split.
    { intros name N1 N2. unfold column. rewrite D, !dget_dset_other by assumption. reflexivity. }
    intros (ml & cl & EM & EC & Z) P T.
    assert (cl = map VQ cs) by congruence. subst cl.
    assert (TS : (all_mass c == qsum (map qsum cs))%Q).
    { unfold all_mass, mass_column. rewrite EM. clear -Z. remember (map VQ cs) as cl. revert cs Heqcl.
      induction Z as [|m x ml cl (q & l & -> & -> & Q) Z IH]; intros [|x0 cs] Hc; try discriminate; [reflexivity|].
      injection Hc as -> Hc. cbn [map as_number fold_right qsum].
      change (fold_right Qplus 0%Q (map qsum cs)) with (qsum (map qsum cs)).
      change (fold_right Qplus 0%Q x0) with (qsum x0) in *. rewrite Q, (IH cs Hc). reflexivity. }
    assert (FR : (frac == Qmin amount (all_mass c) / all_mass c)%Q /\ (0 <= frac <= 1)%Q).
    { unfold frac, Qmin_py. destruct (Qle_bool (amount / all_mass c) 1) eqn:B.
      - apply Qle_bool_iff in B.
        assert (Q1 : (amount <= all_mass c)%Q).
        { setoid_replace amount with ((amount / all_mass c) * all_mass c)%Q by (field; lra).
          rewrite <- (Qmult_1_l (all_mass c)) at 3. apply Qmult_le_compat_r; lra. }
        rewrite (Q.min_l _ _ Q1). split; [reflexivity|]. split; [|exact B].
        apply Qle_shift_div_l; lra.
      - assert (B' : (1 < amount / all_mass c)%Q) by (apply Qnot_le_lt; rewrite <- Qle_bool_iff; congruence).
        assert (Q1 : (all_mass c <= amount)%Q).
        { setoid_replace amount with ((amount / all_mass c) * all_mass c)%Q by (field; lra).
          rewrite <- (Qmult_1_l (all_mass c)) at 1. apply Qmult_le_compat_r; lra. }
        rewrite (Q.min_r _ _ Q1). split; [field; lra|lra]. }
    destruct FR as [FR FB]. split.
    + rewrite qsum_rows, <- TS, FR. field. lra.
    + exists (1 - frac)%Q. split; [lra|]. rewrite C, CC. intros i x N.
      rewrite map_map. rewrite nth_error_map in N |- *. destruct (nth_error cs i) as [l|]; [|discriminate].
      injection N as <-. reflexivity.
Qed.
Print Assumptions C114_take_partial.

(** Three elements with components. *)
Definition ex_row (fs : list Z) : sc :=
  mkSC (map (fun n => (n, (Plain, VZ 0))) [n_mass; n_comps; n_fate; n_init; n_density; n_fw; n_oil_density])
    [(n_mass, [VQ [10]; VQ [20]; VQ [30]]); (n_comps, [VQ [4; 6]; VQ [20; 0]; VQ [15; 15]]); (n_fate, map VZ fs);
     (n_init, [VQ [10]; VQ [20]; VQ [30]]); (n_density, [VQ [900]; VQ [900]; VQ [900]]); (n_fw, [VQ [1 # 2]; VQ [0]; VQ [0]]);
     (n_oil_density, [VQ [900]; VQ [900]; VQ [900]])]%Q [].
Lemma ex_row_wf a b d : well_formed (ex_row [a; b; d]).
Proof.
  split; [|split].
  - exists 3%nat. intros name l E. unfold column, ex_row in E. cbn [c_data dget] in E.
    repeat match goal with H : context [?x =? ?y] |- _ => destruct (x =? y); [injection H as <-; reflexivity|] end. discriminate.
  - intros name. unfold column. rewrite <- dget_in_keys. reflexivity.
  - split.
    + cbn. repeat (constructor; [cbn; intuition discriminate|]). constructor.
    + intros f v E. discriminate.
Qed.
Lemma ex_row_floating : all_floating (ex_row [2; 2; 2]).
Proof.
  exists [true; true; true]. split.
  - eexists. split; [vm_compute; reflexivity|]. cbn [Z.eqb]. eexists. split; vm_compute; reflexivity.
  - cbn. intuition congruence.
Qed.
Lemma ex_row_mixed : some_not_floating (ex_row [2; 1; 2]).
Proof.
  exists [true; false; true]. split; [|cbn; auto].
  eexists. split; [vm_compute; reflexivity|]. cbn [Z.eqb]. eexists. split; vm_compute; reflexivity.
Qed.
Example C114_take_meets : well_formed (ex_row [2; 2; 2]) /\ all_floating (ex_row [2; 2; 2]) /\
  consistent (ex_row [2; 2; 2]) /\
  exists c' a, roc_take (ex_row [2; 2; 2]) skim_arrays 15 = (c', Ok a) /\ (a == 15)%Q /\ (all_mass c' == 45)%Q.
Proof.
  split; [apply ex_row_wf|]. split; [apply ex_row_floating|]. split.
  { eexists _, _. split; [reflexivity|]. split; [reflexivity|].
    repeat apply Forall2_cons; try apply Forall2_nil; eexists _, _; (split; [reflexivity|]; split; [reflexivity|reflexivity]). }
  eexists _, _. split; [vm_compute; reflexivity|]. split; vm_compute; reflexivity.
Qed.

(** As soon as one element is on land, submerged, marked or empty, nothing at
    all is taken from the container, whatever is booked: the changes go to
    copies. *)
Theorem C114_take_refuted :
  (forall c names amount c' r,
     well_formed c -> some_not_floating c -> get_view c 2 <> VAlias ->
     roc_take c names amount = (c', r) -> forall name, column c' name = column c name) /\
  (exists c c' a, well_formed c /\ some_not_floating c /\ get_view c 2 <> VAlias /\ consistent c /\
     roc_take c burn_arrays 15 = (c', Ok a) /\ (a == 15)%Q /\ (all_mass c' == all_mass c)%Q).
Proof.
  split.
  - intros c names amount c' r W M NA E name. unfold column. now rewrite (take_mixed _ _ _ _ _ W M NA E).
  - exists (ex_row [2; 1; 2]). eexists _, _. split; [apply ex_row_wf|]. split; [apply ex_row_mixed|].
    split; [discriminate|]. split.
    { eexists _, _. split; [reflexivity|]. split; [reflexivity|].
      repeat apply Forall2_cons; try apply Forall2_nil; eexists _, _; (split; [reflexivity|]; split; [reflexivity|reflexivity]). }
    split; [vm_compute; reflexivity|]. split; vm_compute; reflexivity.
Qed.
Print Assumptions C114_take_refuted.

(** And when it takes all the oil, the next weatherer cuts the arrays that it
    asks for to length 0, and no others: the container is broken. *)
Theorem C114_arrays_refuted : exists c c1 a c2,
  well_formed c /\ all_floating c /\ roc_take c skim_arrays 100 = (c1, Ok a) /\
  get_data c1 [n_mass; n_comps; n_fate] 2 = (c2, None) /\
  column c2 n_mass = Some [] /\ exists l, column c2 n_density = Some l /\ length l = 3%nat.
Proof.
  exists (ex_row [2; 2; 2]). eexists _, _, _. split; [apply ex_row_wf|]. split; [apply ex_row_floating|].
  split; [vm_compute; reflexivity|]. split; [vm_compute; reflexivity|]. split; [vm_compute; reflexivity|].
  eexists. split; vm_compute; reflexivity.
Qed.
Print Assumptions C114_arrays_refuted.

(** ** C115 *)

(** If every element floats, the density after a step is that of the mixture of
    the oil that is left with the water in it, but never above the density of
    the water; nothing else changes but the density of the oil itself. *)
Theorem C115_density_partial : forall c rho0 cds mfs water c',
  well_formed c -> all_floating c -> get_view c 0 = VEmpty -> mass_column c <> [] ->
  recalc_density c true rho0 cds mfs water = (c', None) ->
  (forall name, name <> n_density -> name <> n_oil_density -> column c' name = column c name) /\
  forall i m mc fw lm lc lw,
    column c n_mass = Some lm -> nth_error lm i = Some (VQ [m]) ->
    column c n_comps = Some lc -> nth_error lc i = Some (VQ mc) ->
    column c n_fw = Some lw -> nth_error lw i = Some (VQ [fw]) ->
    exists ld lo r o, column c' n_density = Some ld /\ nth_error ld i = Some (VQ [r]) /\
      column c' n_oil_density = Some lo /\ nth_error lo i = Some (VQ [o]) /\
      (r == Qmin (mix water o fw) water)%Q /\ (r <= water)%Q /\
      (* oil that has lost nothing has the density of the fresh oil *)
      (~ qsum (map (fun p => fst p * snd p) (combine cds mfs)) == 0 -> ~ m == 0 ->
       Forall2 (fun x f => x == f * m) mc mfs -> o == rho0)%Q.
Proof.
  intros c rho0 cds mfs water c' W F V0 NE E.
  destruct (recalc_floating _ _ _ _ _ _ W F V0 NE E) as (ms & cs & ws & CM & CC & CW & L1 & L2 & D).
  cbv zeta in D. split.
  { intros name N1 N2. unfold column. rewrite D, !dget_dset_other by assumption. reflexivity. }
  intros i m mc fw lm lc lw X1 Y1 X2 Y2 X3 Y3. rewrite X1 in CM. rewrite X2 in CC. rewrite X3 in CW.
  injection CM as ->. injection CC as ->. injection CW as ->.
  rewrite nth_error_map in Y1, Y2, Y3.
  destruct (nth_error ms i) as [m0|] eqn:Z1; [|discriminate]. injection Y1 as ->.
  destruct (nth_error cs i) as [c0|] eqn:Z2; [|discriminate]. injection Y2 as ->.
  destruct (nth_error ws i) as [w0|] eqn:Z3; [|discriminate]. injection Y3 as ->.
  pose proof (zip3_map ms cs ws L1 L2 i m mc fw Z1 Z2 Z3) as Z.
  eexists _, _, (new_rho water (oil_rho (k_rho rho0 cds mfs) cds m mc) fw), (oil_rho (k_rho rho0 cds mfs) cds m mc).
  unfold column. rewrite D.
  split. { rewrite dget_dset_other by discriminate. apply dget_dset_same. }
  split. { rewrite map_map, nth_error_map, Z. reflexivity. }
  split. { apply dget_dset_same. }
  split. { rewrite map_map, nth_error_map, Z. reflexivity. }
  assert (R : (new_rho water (oil_rho (k_rho rho0 cds mfs) cds m mc) fw ==
               Qmin (mix water (oil_rho (k_rho rho0 cds mfs) cds m mc) fw) water)%Q).
  { unfold new_rho, mix. cbv zeta. destruct (Qle_bool _ water) eqn:B.
    - apply Qle_bool_iff in B. now rewrite Q.min_l.
    - rewrite Q.min_r; [reflexivity|]. apply Qlt_le_weak, Qnot_le_lt. rewrite <- Qle_bool_iff. congruence. }
  split; [exact R|]. split; [rewrite R; apply Q.le_min_r|].
  intros S0 M0 FF. unfold oil_rho, k_rho.
  assert (SM : (qsum (map (fun '(d, x) => d * (x / m)) (combine cds mc)) ==
                qsum (map (fun p => fst p * snd p) (combine cds mfs)))%Q).
  { clear -M0 FF. revert cds. induction FF as [|x f mc mfs X FF IH]; intros [|d cds]; cbn [combine map qsum fold_right fst snd];
      try reflexivity.
    change (fold_right Qplus 0%Q) with qsum. rewrite IH, X. field. exact M0. }
  assert (SE : qsum (map (fun '(a, b) => a * b)%Q (combine cds mfs)) = qsum (map (fun p => fst p * snd p)%Q (combine cds mfs))).
  { f_equal. apply map_ext. intros [a b]. reflexivity. }
  rewrite SM, SE. field. exact S0.
Qed.
Print Assumptions C115_density_partial.

Example C115_density_meets : exists c',
  recalc_density (ex_row [2; 2; 2]) true 900 [800; 1000]%Q [1 # 2; 1 # 2]%Q 1025 = (c', None) /\
  mass_column (ex_row [2; 2; 2]) <> [] /\
  exists a b d, column c' n_density = Some [VQ [a]; VQ [b]; VQ [d]] /\ (a == 1945 # 2 /\ b == 800 /\ d == 900)%Q.
Proof.
  eexists. split; [vm_compute; reflexivity|]. split; [discriminate|].
  eexists _, _, _. split; [vm_compute; reflexivity|]. split; [|split]; reflexivity.
Qed.

(** As soon as one element is on land, submerged, marked or empty, no density is
    changed any more: the new ones are written to the view of the floating
    elements, and the view of all elements, which is empty, is written back. *)
Theorem C115_density_refuted :
  (forall c wb rho0 cds mfs water c' e,
     well_formed c -> some_not_floating c -> get_view c 2 <> VAlias -> get_view c 0 = VEmpty ->
     recalc_density c wb rho0 cds mfs water = (c', e) -> forall name, column c' name = column c name) /\
  (exists c c', well_formed c /\ some_not_floating c /\ get_view c 2 <> VAlias /\ get_view c 0 = VEmpty /\
     recalc_density c true 900 [800; 1000]%Q [1 # 2; 1 # 2]%Q 1025 = (c', None) /\
     (* the first element floats, with half water in it: 972.5 kg/m3 *)
     column c' n_density = Some [VQ [900]; VQ [900]; VQ [900]]%Q).
Proof.
  split.
  - intros c wb rho0 cds mfs water c' e W M NA V0 E name. unfold column.
    now rewrite (recalc_mixed _ _ _ _ _ _ _ _ W M NA V0 E).
  - exists (ex_row [2; 1; 2]). eexists. split; [apply ex_row_wf|]. split; [apply ex_row_mixed|].
    split; [discriminate|]. split; [reflexivity|]. split; vm_compute; reflexivity.
Qed.
Print Assumptions C115_density_refuted.

(** ** C116 *)

(** The response option that disperses writes into the container: every element
    it picked loses the wanted mass, or all it has, and is marked as dispersed
    when nothing is left; the others stay as they are; and the three accounts
    change by what the elements lost. *)
Theorem C116_disperse : forall rows rows' removed b,
  disperse rows = (rows', removed) ->
  Forall (fun p => (0 < d_mass (fst p))%Q /\ (d_mass (fst p) == qsum (d_comps (fst p)))%Q) rows ->
  length rows' = length rows /\
  (forall i r w, nth_error rows i = Some (r, w) ->
     exists r' x, nth_error rows' i = Some r' /\ nth_error removed i = Some x /\
     match w with
     | None => r' = r /\ x == 0
     | Some a => x == Qmin (Qmax a 0) (d_mass r) /\ d_mass r' == d_mass r - x /\ 0 <= d_mass r' /\
                 d_mass r' == qsum (d_comps r') /\
                 (d_mass r <= a -> d_fate r' = 32%Z)
     end%Q) /\
  (qsum (map d_mass rows') + qsum removed == qsum (map (fun p => d_mass (fst p)) rows))%Q /\
  let b' := disperse_books b removed in
  (b_disp b' - b_disp b == qsum (map (fun p => d_mass (fst p)) rows) - qsum (map d_mass rows') /\
   b_sys b' - b_sys b == b_disp b' - b_disp b /\ b_float b' + b_disp b' == b_float b + b_disp b)%Q.
Proof.
  intros rows rows' removed b E W. unfold disperse in E. injection E as <- <-.
  assert (ROW : forall r w, (0 < d_mass r)%Q -> (d_mass r == qsum (d_comps r))%Q ->
    match w with
    | None => fst (disperse_row r w) = r /\ snd (disperse_row r w) == 0
    | Some a => snd (disperse_row r w) == Qmin (Qmax a 0) (d_mass r) /\
                d_mass (fst (disperse_row r w)) == d_mass r - snd (disperse_row r w) /\ 0 <= d_mass (fst (disperse_row r w)) /\
                d_mass (fst (disperse_row r w)) == qsum (d_comps (fst (disperse_row r w))) /\
                (d_mass r <= a -> d_fate (fst (disperse_row r w)) = 32%Z)
    end%Q /\ (d_mass (fst (disperse_row r w)) + snd (disperse_row r w) == d_mass r)%Q).
  { intros r [a|] P S; cbn [disperse_row]; [|cbn [fst snd]; split; [split; [reflexivity|reflexivity]|ring]].
    cbv zeta. cbn [fst snd d_mass d_comps d_fate].
    set (f := clip01 (a / d_mass r)).
    assert (QS : (qsum (map (fun x => (1 - f) * x) (d_comps r)) == (1 - f) * d_mass r)%Q).
    { rewrite S. clear. induction (d_comps r) as [|x l IH]; cbn [map qsum fold_right]; [ring|].
      change (fold_right Qplus 0%Q) with qsum. rewrite IH. ring. }
    assert (FV : (f * d_mass r == Qmin (Qmax a 0) (d_mass r))%Q).
    { unfold f, clip01. destruct (Qle_bool (a / d_mass r) 0) eqn:A.
      - apply Qle_bool_iff in A.
        assert (a <= 0)%Q.
        { setoid_replace a with ((a / d_mass r) * d_mass r)%Q by (field; lra).
          setoid_replace 0%Q with (0 * d_mass r)%Q by ring. apply Qmult_le_compat_r; lra. }
        rewrite (Q.max_r a 0) by assumption. rewrite Q.min_l by lra. ring.
      - assert (A' : (0 < a / d_mass r)%Q) by (apply Qnot_le_lt; rewrite <- Qle_bool_iff; congruence).
        assert (0 < a)%Q.
        { setoid_replace a with ((a / d_mass r) * d_mass r)%Q by (field; lra). apply Qmult_lt_0_compat; assumption. }
        rewrite (Q.max_l a 0) by lra.
        destruct (Qle_bool 1 (a / d_mass r)) eqn:B.
        + apply Qle_bool_iff in B.
          assert (d_mass r <= a)%Q.
          { setoid_replace a with ((a / d_mass r) * d_mass r)%Q by (field; lra).
            rewrite <- (Qmult_1_l (d_mass r)) at 1. apply Qmult_le_compat_r; lra. }
          rewrite Q.min_r by assumption. ring.
        + assert (B' : (a / d_mass r < 1)%Q) by (apply Qnot_le_lt; rewrite <- Qle_bool_iff; congruence).
          assert (a <= d_mass r)%Q.
          { setoid_replace a with ((a / d_mass r) * d_mass r)%Q at 1 by (field; lra).
            rewrite <- (Qmult_1_l (d_mass r)) at 3. apply Qmult_le_compat_r; lra. }
          rewrite Q.min_l by assumption. field. lra. }
    assert (X : (qsum (d_comps r) - qsum (map (fun x => (1 - f) * x) (d_comps r)) == Qmin (Qmax a 0) (d_mass r))%Q).
    { rewrite QS, <- S, <- FV. ring. }
    split; [|rewrite S; ring].
    split; [exact X|]. split; [rewrite S; ring|].
    split. { rewrite QS. destruct (clip01_range (a / d_mass r)) as [_ H]. fold f in H. apply Qmult_le_0_compat; lra. }
    split; [reflexivity|].
    intros AL. assert (M0 : (qsum (map (fun x => (1 - f) * x) (d_comps r)) == 0)%Q).
    { assert (HM : (Qmin (Qmax a 0) (d_mass r) == d_mass r)%Q).
      { apply Q.min_r. apply Qle_trans with a; [exact AL|apply Q.le_max_l]. }
      rewrite QS. transitivity (d_mass r - f * d_mass r)%Q; [ring|]. rewrite FV, HM. ring. }
    destruct (Qle_bool _ _) eqn:B; [reflexivity|]. exfalso.
    assert (~ (Qabs (qsum (map (fun x => (1 - f) * x) (d_comps r))) <= 1 # 100000000)%Q) as N
      by (rewrite <- Qle_bool_iff; congruence).
    apply N. rewrite M0. discriminate. }
  assert (TOT : (qsum (map d_mass (map (fun '(r, w) => fst (disperse_row r w)) rows)) +
                 qsum (map (fun '(r, w) => snd (disperse_row r w)) rows) == qsum (map (fun p => d_mass (fst p)) rows))%Q).
  { clear b. induction W as [|[r w] l [P S] W IH]; [reflexivity|]. cbn [map qsum fold_right fst snd] in *.
    change (fold_right Qplus 0%Q) with qsum in *. destruct (ROW r w P S) as [_ T]. rewrite <- T, <- IH. ring. }
  split; [apply map_length|]. split; [|split; [exact TOT|]].
  - intros i r w N. rewrite !nth_error_map, N. cbn [option_map].
    exists (fst (disperse_row r w)), (snd (disperse_row r w)). split; [reflexivity|]. split; [reflexivity|].
    rewrite Forall_forall in W. destruct (W _ (nth_error_In _ _ N)) as [P S]. exact (proj1 (ROW r w P S)).
  - cbv zeta. cbn [disperse_books b_disp b_sys b_float]. rewrite <- TOT. split; [ring|]. split; ring.
Qed.
Print Assumptions C116_disperse.

Example C116_meets :
  let rows := [(mkD 10 [4; 6] 2, Some 5); (mkD 20 [20; 0] 2, None); (mkD 5 [5] 2, Some 8)]%Q in
  Forall (fun p => (0 < d_mass (fst p))%Q /\ (d_mass (fst p) == qsum (d_comps (fst p)))%Q) rows /\
  exists a b d, fst (disperse rows) = [a; b; d] /\ (d_mass a == 5)%Q /\ d_fate a = 2 /\ (d_mass d == 0)%Q /\ d_fate d = 32.
Proof.
  split. { repeat apply Forall_cons; try apply Forall_nil; split; reflexivity. }
  eexists _, _, _. split; [reflexivity|]. repeat split; reflexivity.
Qed.
