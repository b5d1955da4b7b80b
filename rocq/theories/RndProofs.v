(** * Lemmas about windages, random walks and rise velocities *)
From Coq Require Import Reals Lra Psatz Machin.
From Verif Require Import Py WxModel WxProofs WindProofs RndModel RndSpec.
Open Scope R_scope.

Lemma Reqb_iff x y : Reqb x y = true <-> x = y.
Proof. unfold Reqb. destruct (Req_EM_T x y); split; congruence. Qed.
Lemma Reqb_no x y : Reqb x y = false <-> x <> y.
Proof. unfold Reqb. destruct (Req_EM_T x y); split; congruence. Qed.
Lemma Rltb_false x y : Rltb x y = false <-> y <= x.
Proof.
  split; intros H.
  - apply Rnot_lt_le. intros K. apply Rltb_iff in K. congruence.
  - apply Rltb_no. exact H.
Qed.

Lemma uniform_between lo hi u : lo <= hi -> 0 <= u <= 1 -> lo <= uniform lo hi u <= hi.
Proof. intros H [A B]. unfold uniform. nra. Qed.

(** ** Windages *)

Lemma updated_iff p : updated p = true <-> (0 < p <= 900)%Z.
Proof. unfold updated. rewrite andb_true_iff, Z.ltb_lt, Z.leb_le. tauto. Qed.
Lemma updated_no p : updated p = false <-> (p <= 0 \/ 900 < p)%Z.
Proof. rewrite <- not_true_iff_false, updated_iff. lia. Qed.

Definition keeps (e e' : wel) : Prop := wlo e' = wlo e /\ whi e' = whi e /\ wpersist e' = wpersist e.
Definition filled (s : bool) (dt : Z) (f : wel -> R) (e e' : wel) : Prop :=
  keeps e e' /\
  (updated (wpersist e) = true -> exists u, 0 <= u <= 1 /\
     windage e' = if s then uniform (scaled_low (wlo e) (whi e) (wpersist e) dt) (scaled_high (wlo e) (whi e) (wpersist e) dt) u
                  else uniform (wlo e) (whi e) u) /\
  (updated (wpersist e) = false -> windage e' = f e).

Lemma fill_filled s dt us f : unit_draws us -> forall sc k,
  Forall2 (filled s dt f) sc (set_windages sc (fill s dt us k (map wlo sc) (map whi sc) (map wpersist sc) (map f sc))).
Proof.
  intros U. induction sc as [|e sc IH]; intros k; [constructor|].
  cbn [map fill]. destruct (updated (wpersist e)) eqn:E; unfold set_windages; cbn [combine map fst snd]; constructor; try apply IH.
  - split; [repeat split|]. split; [|rewrite E; discriminate].
    intros _. exists (us k). split; [apply U|]. destruct s; reflexivity.
  - split; [repeat split|]. split; [rewrite E; discriminate|]. intros _. reflexivity.
Qed.

Lemma set_windages_same : forall sc f, Forall2 (fun e e' => keeps e e' /\ windage e' = f e) sc (set_windages sc (map f sc)).
Proof. induction sc as [|e sc IH]; intros f; [constructor|]. unfold set_windages. cbn. constructor; [repeat split|apply IH]. Qed.

Lemma any_less_sc : forall sc, any_less (map whi sc) (map wlo sc) = false -> Forall (fun e => wlo e <= whi e) sc.
Proof.
  induction sc as [|e sc IH]; intros H; constructor.
  - unfold any_less in H. cbn in H. apply orb_false_iff in H as [H _]. apply Rltb_false in H. exact H.
  - apply IH. unfold any_less in *. cbn in H. apply orb_false_iff in H as [_ H]. exact H.
Qed.
Lemma any_less_true : forall sc, any_less (map whi sc) (map wlo sc) = true <-> exists e, In e sc /\ whi e < wlo e.
Proof.
  induction sc as [|e sc IH]; [split; [discriminate|intros [e [[] _]]]|].
  unfold any_less in *. cbn. rewrite orb_true_iff, Rltb_iff, IH. split.
  - intros [H|[e' [I H]]]; [exists e; auto|exists e'; auto].
  - intros [e' [[<-|I] H]]; [left; exact H|right; exists e'; auto].
Qed.
Lemma all_equal_sc : forall sc, all_equal (map wlo sc) (map whi sc) = true -> Forall (fun e => wlo e = whi e) sc.
Proof.
  induction sc as [|e sc IH]; intros H; constructor.
  - unfold all_equal in H. cbn in H. apply andb_true_iff in H as [H _]. apply Reqb_iff in H. exact H.
  - apply IH. unfold all_equal in *. cbn in H. apply andb_true_iff in H as [_ H]. exact H.
Qed.

(** What a step does to one element. *)
Definition stepped (dt : Z) (e e' : wel) : Prop :=
  keeps e e' /\ wlo e <= whi e /\
  (updated (wpersist e) = true -> exists u width, 0 <= u <= 1 /\ 0 <= width /\
     width * width * Rabs (IZR dt) = (whi e - wlo e) * (whi e - wlo e) * IZR (wpersist e) /\
     windage e' = (wlo e + whi e) / 2 + (u - 1 / 2) * width) /\
  (updated (wpersist e) = false -> windage e' = windage e \/ (wlo e = whi e /\ windage e' = wlo e)).

Lemma Forall2_impl_in {A B} (P Q : A -> B -> Prop) : forall l l', Forall2 P l l' -> (forall a b, In a l -> P a b -> Q a b) -> Forall2 Q l l'.
Proof.
  induction 1 as [|a b l l' H F IH]; intros K; constructor.
  - apply K; [left; reflexivity|exact H].
  - apply IH. intros x y I. apply K. right. exact I.
Qed.

Lemma wstep_stepped sc dt us sc' : unit_draws us -> wstep sc (WStep dt us) = Ok sc' -> Forall2 (stepped dt) sc sc'.
Proof.
  intros U H. unfold wstep in H. destruct sc as [|e0 sc0]; [injection H as <-; constructor|].
  set (sc := e0 :: sc0) in *. clearbody sc. clear e0 sc0.
  unfold random_with_persistance in H. rewrite !map_length, Nat.eqb_refl in H. cbn [negb] in H.
  destruct (any_less (map whi sc) (map wlo sc)) eqn:L; [discriminate|]. apply any_less_sc in L. rewrite Forall_forall in L.
  rewrite andb_false_r in H.
  remember (fun e : wel => if all_equal (map wlo sc) (map whi sc) then wlo e else windage e) as f eqn:Ef.
  assert (F : (if all_equal (map wlo sc) (map whi sc) then map wlo sc else map windage sc) = map f sc).
  { rewrite Ef. destruct (all_equal (map wlo sc) (map whi sc)); reflexivity. }
  assert (G : forall e, In e sc -> f e = windage e \/ (wlo e = whi e /\ f e = wlo e)).
  { intros e I. rewrite Ef. destruct (all_equal (map wlo sc) (map whi sc)) eqn:E; [|left; reflexivity].
    right. apply all_equal_sc in E. rewrite Forall_forall in E. auto. }
  rewrite F in H. clear F Ef.
  destruct (existsb updated (map wpersist sc)) eqn:X.
  - set (s := existsb (fun p : Z => updated p && negb (p =? Z.abs dt)%Z) (map wpersist sc)) in H.
    destruct (s && (dt =? 0)%Z) eqn:Z0; [discriminate|]. rewrite map_length, Nat.eqb_refl in H. cbn [bind] in H. apply Ok_inj1 in H. subst sc'.
    pose proof (fill_filled s dt us f U sc 0) as W. apply (Forall2_impl_in _ _ _ _ W). clear W.
    intros e e' I [K [A B]]. split; [exact K|]. split; [apply L; exact I|]. split.
    + intros Up. destruct (A Up) as [u [Hu Hw]]. pose proof (proj1 (updated_iff _) Up) as P.
      assert (D : dt <> 0%Z).
      { destruct s eqn:Es; [cbn in Z0; apply Z.eqb_neq in Z0; exact Z0|].
        intros ->. assert (T : s = true); [|congruence]. unfold s. apply existsb_exists. exists (wpersist e). split; [apply in_map; exact I|].
        rewrite Up. cbn. apply negb_true_iff, Z.eqb_neq. lia. }
      assert (D' : 0 < Rabs (IZR dt)) by (apply Rabs_pos_lt; apply not_0_IZR; exact D).
      specialize (L e I). assert (P0 : 0 < IZR (wpersist e)) by (apply (IZR_lt 0); lia).
      destruct s eqn:Es.
      * exists u, ((whi e - wlo e) * sqrt (IZR (wpersist e) / Rabs (IZR dt))). split; [exact Hu|]. split; [apply Rmult_le_pos; [lra|apply sqrt_pos]|]. split.
        -- replace ((whi e - wlo e) * sqrt (IZR (wpersist e) / Rabs (IZR dt)) * ((whi e - wlo e) * sqrt (IZR (wpersist e) / Rabs (IZR dt))) * Rabs (IZR dt))
             with ((whi e - wlo e) * (whi e - wlo e) * (sqrt (IZR (wpersist e) / Rabs (IZR dt)) * sqrt (IZR (wpersist e) / Rabs (IZR dt))) * Rabs (IZR dt)) by ring.
           rewrite sqrt_sqrt by (apply Rlt_le, Rdiv_lt_0_compat; lra). field. lra.
        -- rewrite Hw. unfold uniform, scaled_high, scaled_low, half_range. field.
      * exists u, (whi e - wlo e). split; [exact Hu|]. split; [lra|]. split.
        -- assert (E : wpersist e = Z.abs dt).
           { destruct (Z.eq_dec (wpersist e) (Z.abs dt)) as [Q|Q]; [exact Q|]. assert (T : s = true); [|congruence].
             unfold s. apply existsb_exists. exists (wpersist e). split; [apply in_map; exact I|]. rewrite Up. cbn. apply negb_true_iff, Z.eqb_neq. exact Q. }
           rewrite E, abs_IZR. ring.
        -- rewrite Hw. unfold uniform. field.
    + intros Up. rewrite (B Up). apply G. exact I.
  - cbn [bind] in H. apply Ok_inj1 in H. subst sc'. pose proof (set_windages_same sc f) as W. apply (Forall2_impl_in _ _ _ _ W).
    intros e e' I [K B]. split; [exact K|]. split; [apply L; exact I|]. split.
    + intros Up. exfalso. assert (T : existsb updated (map wpersist sc) = true); [|congruence]. apply existsb_exists. exists (wpersist e). split; [apply in_map; exact I|exact Up].
    + intros _. rewrite B. apply G. exact I.
Qed.

Lemma fill_all_within us : unit_draws us -> forall sc k, Forall (fun e => wlo e <= whi e) sc ->
  Forall2 (fun e e' => keeps e e' /\ within e') sc (set_windages sc (fill_all us k (map wlo sc) (map whi sc))).
Proof.
  intros U. induction sc as [|e sc IH]; intros k F; [constructor|]. inversion F as [|? ? F1 F2]; subst.
  cbn. unfold set_windages. cbn. constructor; [|apply IH; exact F2]. split; [repeat split|].
  unfold within. cbn. apply uniform_between; [exact F1|apply U].
Qed.

Lemma wrelease_within sc n lo hi p us sc' : unit_draws us -> wstep sc (WRelease n lo hi p us) = Ok sc' ->
  exists new, sc' = sc ++ new /\ length new = n /\ Forall (fun e => wlo e = lo /\ whi e = hi /\ wpersist e = p /\ within e) new.
Proof.
  intros U H. unfold wstep in H. destruct n as [|n]; [injection H as <-; exists []; rewrite app_nil_r; repeat split; constructor|].
  set (new := repeat (mkWel lo hi p 0) (S n)) in H.
  assert (N : forall e, In e new -> wlo e = lo /\ whi e = hi /\ wpersist e = p).
  { intros e I. apply repeat_spec in I. subst e. repeat split. }
  assert (Ln : length new = S n) by apply repeat_length. clearbody new.
  unfold random_with_persistance in H. rewrite !map_length, Nat.eqb_refl in H. cbn [negb] in H.
  destruct (any_less (map whi new) (map wlo new)) eqn:L; [discriminate|]. apply any_less_sc in L. rewrite andb_false_r in H.
  assert (Lr : Nat.eqb (length (if all_equal (map wlo new) (map whi new) then map wlo new else map windage new)) (length new) = true).
  { destruct (all_equal (map wlo new) (map whi new)); rewrite map_length; apply Nat.eqb_refl. }
  rewrite Lr in H. cbn [bind] in H. apply Ok_inj1 in H. subst sc'.
  pose proof (fill_all_within us U new 0 L) as W. eexists. split; [reflexivity|]. split.
  - rewrite <- Ln. clear -W. induction W; cbn; auto.
  - rewrite Forall_forall. intros e' I. clear -W N I. induction W as [|e e2 l l2 [K Wi] W IH]; [destruct I|].
    destruct I as [<-|I]; [|apply IH; [intros x Ix; apply N; right; exact Ix|exact I]].
    destruct (N e (or_introl eq_refl)) as [A [B C]]. destruct K as [K1 [K2 K3]]. rewrite K1, K2, K3. auto.
Qed.

Lemma long_step_within dt e e' : stepped dt e e' -> within e -> (updated (wpersist e) = true -> (wpersist e <= Z.abs dt)%Z) -> within e'.
Proof.
  intros [K [L [A B]]] W P. destruct K as [K1 [K2 K3]]. unfold within in *. rewrite K1, K2. destruct (updated (wpersist e)) eqn:E.
  - destruct (A eq_refl) as [u [w [U [W0 [Q ->]]]]]. specialize (P eq_refl). apply updated_iff in E.
    apply IZR_le in P. rewrite abs_IZR in P. assert (P0 : 0 < IZR (wpersist e)) by (apply (IZR_lt 0); lia).
    set (a := Rabs (IZR dt)) in *. set (p := IZR (wpersist e)) in *. set (d := whi e - wlo e) in *. assert (0 <= d) by (unfold d; lra).
    assert (Wd : w <= d).
    { apply Rnot_lt_le. intros C. assert (d * d < w * w) by (apply Rmult_le_0_lt_compat; lra). assert (0 <= d * d) by (apply Rmult_le_pos; lra).
      assert (d * d * p <= d * d * a) by (apply Rmult_le_compat_l; lra). assert (d * d * a < w * w * a) by (apply Rmult_lt_compat_r; lra). lra. }
    assert (-(1/2) * w <= (u - 1/2) * w <= (1/2) * w) by (split; apply Rmult_le_compat_r; lra). unfold d in *. lra.
  - destruct (B eq_refl) as [->|[Q ->]]; lra.
Qed.

Lemma Forall2_nth {A B} (P : A -> B -> Prop) : forall l l', Forall2 P l l' -> forall i a, nth_error l i = Some a -> exists b, nth_error l' i = Some b /\ P a b.
Proof.
  induction 1 as [|a b l l' H F IH]; intros i x N; [destruct i; discriminate|]. destruct i as [|i]; [cbn in *; injection N as ->; eauto|]. apply IH. exact N.
Qed.

(** ** Random walk *)

Lemma mpd_pos : 0 < metres_per_degree.
Proof. unfold metres_per_degree. lra. Qed.
Lemma reach_metres d dt : 0 <= d -> reach d dt * metres_per_degree * (reach d dt * metres_per_degree) = reach_sq d dt.
Proof.
  intros D. pose proof mpd_pos as M. unfold reach, reach_sq. set (x := 6 * (d / 10000) * Rabs (IZR dt)).
  assert (0 <= x) by (unfold x; apply Rmult_le_pos; [lra|apply Rabs_pos]).
  replace (sqrt x / metres_per_degree * metres_per_degree) with (sqrt x) by (field; lra). apply sqrt_sqrt. exact H.
Qed.
Lemma ureach_metres u d dt : 0 <= d -> 1 <= u -> ureach u d dt * metres_per_degree * (ureach u d dt * metres_per_degree) = u * reach_sq d dt.
Proof.
  intros D U. pose proof mpd_pos as M. unfold ureach, reach_sq. replace (u * 6 * (d / 10000) * Rabs (IZR dt)) with (u * (6 * (d / 10000) * Rabs (IZR dt))) by ring.
  set (x := 6 * (d / 10000) * Rabs (IZR dt)).
  assert (0 <= x) by (unfold x; apply Rmult_le_pos; [lra|apply Rabs_pos]).
  replace (sqrt (u * x) / metres_per_degree * metres_per_degree) with (sqrt (u * x)) by (field; lra). apply sqrt_sqrt. apply Rmult_le_pos; lra.
Qed.

Lemma pi_low : 314159 / 100000 < PI.
Proof.
  pose proof (proj1 (PI_2_3_7_ineq 2)) as H. unfold sum_f_R0, tg_alt, PI_2_3_7_tg, Ratan_seq in H. cbn in H. lra.
Qed.
Lemma trunc_bound x b : (0 <= b)%Z -> - IZR b <= x <= IZR b -> - IZR b <= IZR (trunc x) <= IZR b.
Proof.
  intros B [H1 H2]. unfold trunc. destruct (Rltb x 0) eqn:E.
  - apply Rltb_iff in E. rewrite opp_IZR. destruct (base_Int_part (- x)) as [P1 P2].
    assert (0 <= IZR (Int_part (- x))).
    { apply (IZR_le 0). apply Z.lt_pred_le. apply lt_IZR. change (IZR (Z.pred 0)) with (-1). lra. }
    pose proof (IZR_le 0 b B). lra.
  - apply Rltb_false in E. destruct (base_Int_part x) as [P1 P2].
    assert (0 <= IZR (Int_part x)). { apply (IZR_le 0). apply Z.lt_pred_le. apply lt_IZR. change (IZR (Z.pred 0)) with (-1). lra. }
    pose proof (IZR_le 0 b B). lra.
Qed.
Lemma lat_ratio_pos lat : -90 <= lat <= 90 -> 0 < lat_ratio lat.
Proof.
  intros H. unfold lat_ratio. destruct (trunc_bound (lat * 1000000) 90000000 ltac:(lia) ltac:(lra)) as [A B].
  pose proof pi_low as P. apply cos_gt_0; lra.
Qed.

(** ** Three dimensions *)

Lemma dochecks_in z0 tot z u : 0 <= u <= 1 -> (0 < tot < bottom -> 0 < z0 + z <= bottom) -> 0 < z0 + dochecks z0 tot z u <= bottom.
Proof.
  intros U H. pose proof (uniform_between eps (bottom - eps) u ltac:(unfold eps, bottom; lra) U) as R. unfold dochecks, bottom, eps in *.
  destruct (Reqb tot 0) eqn:E1; [lra|]. apply Reqb_no in E1.
  destruct (Rltb tot 0) eqn:E2.
  - apply Rltb_iff in E2. destruct (Rltb 5000 (z0 + (- tot - z0))) eqn:E3; [lra|]. apply Rltb_false in E3. lra.
  - apply Rltb_false in E2. destruct (Reqb tot 5000) eqn:E3; [lra|]. apply Reqb_no in E3. destruct (Rltb 5000 tot) eqn:E4.
    + apply Rltb_iff in E4. destruct (Rltb 0 (z0 + (5000 - (tot - 5000) - z0))) eqn:E5; [apply Rltb_iff in E5; lra|lra].
    + apply Rltb_false in E4. apply H. lra.
Qed.

Lemma v_vertical_in m dt z0 u : v_draws u -> 0 < mld m -> 0 <= z0 <= bottom -> (vabove m = 0 -> 0 < z0) ->
  0 < z0 + v_vertical m dt z0 u <= bottom.
Proof.
  intros [_ [_ [_ [Uml [_ Uw]]]]] ML Z0 V. unfold v_vertical.
  assert (Bl : forall ml tot z, (0 < tot < bottom -> 0 < z0 + z <= bottom) ->
    0 < z0 + (if Reqb ml bottom then dochecks z0 tot z (uw u) else if Reqb (vbelow m) 0 then dochecks z0 tot z (uw u)
      else dochecks z0 (z0 + (z + uniform (-1) 1 (ub u) * reach_m (vbelow m) dt)) (z + uniform (-1) 1 (ub u) * reach_m (vbelow m) dt) (uw u)) <= bottom).
  { intros ml tot z H. destruct (Reqb ml bottom); [apply dochecks_in; auto|]. destruct (Reqb (vbelow m) 0); [apply dochecks_in; auto|].
    apply dochecks_in; auto. intros K. lra. }
  destruct (Rltb (mld m) z0) eqn:E1.
  - apply Rltb_iff in E1. apply Bl. lra.
  - apply Rltb_false in E1. destruct (Reqb (vabove m) 0) eqn:E2.
    + apply Reqb_iff in E2. specialize (V E2). lra.
    + set (d := uniform (-1) 1 (um u) * reach_m (vabove m) dt). set (ml := if Rltb bottom (mld m) then bottom else mld m).
      assert (ML' : 0 < ml <= bottom).
      { unfold ml. destruct (Rltb bottom (mld m)) eqn:E; [unfold bottom; lra|]. apply Rltb_false in E. lra. }
      destruct (Rltb ml (z0 + d)) eqn:E3.
      * apply Rltb_iff in E3. apply Bl. intros _. destruct (Rltb 0 (z0 + (ml - (z0 + d - ml) - z0))) eqn:E4.
        -- apply Rltb_iff in E4. lra.
        -- assert (0 < eps <= bottom) by (unfold eps, bottom; lra).
           assert (Um : 0 < uniform eps ml (uml u) <= bottom); [|lra].
           unfold uniform. replace (eps + (ml - eps) * uml u) with (eps * (1 - uml u) + ml * uml u) by ring.
           assert (P1 : 0 <= eps * (1 - uml u)) by (apply Rmult_le_pos; lra). assert (P2 : 0 <= ml * uml u) by (apply Rmult_le_pos; lra).
           assert (P3 : eps * (1 - uml u) <= bottom * (1 - uml u)) by (apply Rmult_le_compat_r; lra).
           assert (P4 : ml * uml u <= bottom * uml u) by (apply Rmult_le_compat_r; lra).
           split; [|lra]. destruct (Req_EM_T (uml u) 0) as [Q|Q]; [rewrite Q in *; lra|]. assert (0 < ml * uml u) by (apply Rmult_lt_0_compat; lra). lra.
      * apply Bl. lra.
Qed.

Lemma v_vertical_mixed m dt z0 u : v_draws u -> vbelow m = 0 -> eps <= mld m < 2500 -> 0 <= z0 <= mld m -> reach_m (vabove m) dt <= mld m ->
  0 <= z0 + v_vertical m dt z0 u <= mld m.
Proof.
  intros [_ [_ [Um [Uml [_ Uw]]]]] VB ML Z0 RM. unfold v_vertical. rewrite VB.
  assert (T0 : Reqb 0 0 = true) by (apply Reqb_iff; reflexivity). rewrite T0.
  rewrite (proj2 (Rltb_false _ _) (proj2 Z0)). rewrite (proj2 (Rltb_false bottom (mld m))) by (unfold bottom; lra).
  rewrite (proj2 (Reqb_no (mld m) bottom)) by (unfold bottom; lra).
  destruct (Reqb (vabove m) 0); [lra|].
  assert (D : - mld m <= uniform (-1) 1 (um u) * reach_m (vabove m) dt <= mld m).
  { pose proof (uniform_between (-1) 1 (um u) ltac:(lra) Um) as U. pose proof (sqrt_pos (6 * (vabove m / 10000) * IZR dt)) as P.
    fold (reach_m (vabove m) dt) in P. set (q := uniform (-1) 1 (um u)) in *. set (r := reach_m (vabove m) dt) in *. nra. }
  set (d := uniform (-1) 1 (um u) * reach_m (vabove m) dt) in *. clearbody d. unfold eps in ML.
  destruct (Rltb (mld m) (z0 + d)) eqn:E3.
  - apply Rltb_iff in E3. unfold dochecks, bottom. rewrite (proj2 (Reqb_no (z0 + d) 0)) by lra. rewrite (proj2 (Rltb_false (z0 + d) 0)) by lra.
    rewrite (proj2 (Reqb_no (z0 + d) 5000)) by lra. rewrite (proj2 (Rltb_false 5000 (z0 + d))) by lra.
    destruct (Rltb 0 (z0 + (mld m - (z0 + d - mld m) - z0))) eqn:E4.
    + apply Rltb_iff in E4. lra.
    + pose proof (uniform_between eps (mld m) (uml u) ltac:(unfold eps; lra) Uml). unfold eps in *. lra.
  - apply Rltb_false in E3. unfold dochecks, bottom. destruct (Reqb (z0 + d) 0) eqn:E4; [unfold eps; lra|]. apply Reqb_no in E4.
    destruct (Rltb (z0 + d) 0) eqn:E5.
    + apply Rltb_iff in E5. rewrite (proj2 (Rltb_false 5000 _)) by lra. lra.
    + apply Rltb_false in E5. rewrite (proj2 (Reqb_no (z0 + d) 5000)) by lra. rewrite (proj2 (Rltb_false 5000 (z0 + d))) by lra. lra.
Qed.

(** ** Rise velocity *)

Lemma nan_sqrt_ok x : 0 <= x -> nan_sqrt x = Some (sqrt x).
Proof. intros H. unfold nan_sqrt. rewrite (proj2 (Rltb_false x 0) H). reflexivity. Qed.

(** The cubic between the two laws. *)
Definition cubic (a1 a2 a3 a4 s : R) : R := (((2 * a1 + a2 - 2 * a3 + a4) * s + (-3 * a1 - 2 * a2 + 3 * a3 - a4)) * s + a2) * s + a1.
Definition slope (a1 a2 a3 a4 s : R) : R := 3 * (2 * a1 + a2 - 2 * a3 + a4) * s * s + 2 * (-3 * a1 - 2 * a2 + 3 * a3 - a4) * s + a2.
Lemma slope_nonneg a1 a2 a3 a4 s : 0 <= a2 -> 0 <= a4 -> a2 + a4 <= 3 * (a3 - a1) -> 0 <= s <= 1 -> 0 <= slope a1 a2 a3 a4 s.
Proof.
  intros H2 H4 H S. unfold slope.
  replace (3 * (2 * a1 + a2 - 2 * a3 + a4) * s * s + 2 * (-3 * a1 - 2 * a2 + 3 * a3 - a4) * s + a2)
    with (a2 * ((1 - s) * (1 - s)) + a4 * (s * s) + 2 * (3 * (a3 - a1) - a2 - a4) * (s * (1 - s))) by ring.
  assert (0 <= a2 * ((1 - s) * (1 - s))) by (apply Rmult_le_pos; [lra|apply Rmult_le_pos; lra]).
  assert (0 <= a4 * (s * s)) by (apply Rmult_le_pos; [lra|apply Rmult_le_pos; lra]).
  assert (0 <= 2 * (3 * (a3 - a1) - a2 - a4) * (s * (1 - s))) by (apply Rmult_le_pos; [lra|apply Rmult_le_pos; lra]). lra.
Qed.
Lemma cubic_mono a1 a2 a3 a4 s t : 0 <= a2 -> 0 <= a4 -> a2 + a4 <= 3 * (a3 - a1) -> 0 <= s -> s <= t -> t <= 1 ->
  cubic a1 a2 a3 a4 s <= cubic a1 a2 a3 a4 t.
Proof.
  intros H2 H4 H S ST T.
  assert (E : cubic a1 a2 a3 a4 t - cubic a1 a2 a3 a4 s
            = (t - s) / 6 * (slope a1 a2 a3 a4 s + 4 * slope a1 a2 a3 a4 ((s + t) / 2) + slope a1 a2 a3 a4 t)).
  { unfold cubic, slope. field. }
  pose proof (slope_nonneg a1 a2 a3 a4 s H2 H4 H ltac:(lra)). pose proof (slope_nonneg a1 a2 a3 a4 t H2 H4 H ltac:(lra)).
  pose proof (slope_nonneg a1 a2 a3 a4 ((s + t) / 2) H2 H4 H ltac:(lra)).
  assert (0 <= (t - s) / 6 * (slope a1 a2 a3 a4 s + 4 * slope a1 a2 a3 a4 ((s + t) / 2) + slope a1 a2 a3 a4 t)) by (apply Rmult_le_pos; lra). lra.
Qed.
