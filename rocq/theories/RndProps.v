(** * Randomness: properties C104 to C110 *)
From Coq Require Import Reals Lra Psatz.
From Verif Require Import Py WxModel WxProofs WindProofs RndModel RndSpec RndProofs.
Open Scope R_scope.

(** ** C104: the windage of an element stays in its range, and keeps its value if it persists. *)

(** Released elements get a windage in the range of their spill. *)
Theorem C104_released : forall sc n lo hi p us sc', unit_draws us -> wstep sc (WRelease n lo hi p us) = Ok sc' ->
  exists new, sc' = sc ++ new /\ length new = n /\
    Forall (fun e => wlo e = lo /\ whi e = hi /\ wpersist e = p /\ within e) new.
Proof. exact wrelease_within. Qed.
Print Assumptions C104_released.

(** After any history of releases and steps, if no step is shorter than a finite persistence. *)
Theorem C104_in_range_partial : forall l sc, Forall op_draws l -> long_steps l -> wrun [] l = Ok sc -> Forall within sc.
Proof.
  intros l sc D L.
  assert (G : forall r s, (forall o, In o r -> In o l) -> Forall within s ->
            Forall (fun e => exists n lo hi us, In (WRelease n lo hi (wpersist e) us) l) s -> wrun s r = Ok sc -> Forall within sc).
  { induction r as [|o r IH]; intros s Sub W F H; [cbn in H; apply Ok_inj1 in H; subst; exact W|].
    cbn [wrun] in H. destruct (wstep s o) as [s'|x] eqn:E; [|discriminate]. cbn [bind] in H.
    pose proof (Sub o (or_introl eq_refl)) as Io. rewrite Forall_forall in D. pose proof (D o Io) as Do.
    apply (IH s'); [intros q I; apply Sub; right; exact I| | |exact H]; destruct o as [n lo hi p us|dt us].
    - destruct (wrelease_within _ _ _ _ _ _ _ Do E) as [new [-> [_ N]]]. apply Forall_app. split; [exact W|].
      eapply Forall_impl; [|exact N]. cbn. intros e Q. apply Q.
    - pose proof (wstep_stepped _ _ _ _ Do E) as S. clear E H IH.
      rewrite Forall_forall in W, F. rewrite Forall_forall. intros e' I.
      assert (X : exists e, In e s /\ stepped dt e e').
      { clear W F. induction S as [|a b l1 l2 P S IH]; [destruct I|]. destruct I as [<-|I]; [exists a; split; [left; reflexivity|exact P]|].
        destruct (IH I) as [e [J K]]. exists e. split; [right; exact J|exact K]. }
      destruct X as [e [J K]]. apply (long_step_within dt e e' K (W e J)). intros U. apply updated_iff in U.
      destruct (F e J) as [n [lo [hi [us' R]]]]. exact (L dt us n lo hi _ us' Io R U).
    - destruct (wrelease_within _ _ _ _ _ _ _ Do E) as [new [-> [_ N]]]. apply Forall_app. split; [exact F|].
      eapply Forall_impl; [|exact N]. cbn. intros e [_ [_ [-> _]]]. exists n, lo, hi, us. exact Io.
    - pose proof (wstep_stepped _ _ _ _ Do E) as S. clear -S F. revert F.
      induction S as [|a b l1 l2 P S IH]; intros F; [constructor|]. inversion F as [|? ? F1 F2]; subst. constructor; [|apply IH; exact F2].
      destruct P as [[_ [_ ->]] _]. exact F1. }
  intros H. apply (G l []); auto; constructor.
Qed.
Print Assumptions C104_in_range_partial.

(** An element with a persistence outside 1..900 s keeps its windage through every later release
    and step, of whatever length. *)
Theorem C104_persistent : forall l sc sc' i e, Forall op_draws l -> wrun sc l = Ok sc' ->
  nth_error sc i = Some e -> infinite e -> within e -> nth_error sc' i = Some e.
Proof.
  induction l as [|o l IH]; intros sc sc' i e D H N I W; [cbn in H; apply Ok_inj1 in H; subst; exact N|].
  cbn [wrun] in H. destruct (wstep sc o) as [s'|x] eqn:E; [|discriminate]. cbn [bind] in H. inversion D as [|? ? D1 D2]; subst.
  apply (IH s' sc' i e D2 H); auto. destruct o as [n lo hi p us|dt us].
  - destruct (wrelease_within _ _ _ _ _ _ _ D1 E) as [new [-> _]]. rewrite nth_error_app1; [exact N|]. apply nth_error_Some. congruence.
  - pose proof (wstep_stepped _ _ _ _ D1 E) as S. destruct (Forall2_nth _ _ _ S i e N) as [e' [N' [[K1 [K2 K3]] [_ [_ B]]]]].
    rewrite N'. f_equal. specialize (B (proj2 (updated_no _) I)). destruct e, e'; cbn in *. unfold within in W. cbn in W. subst.
    f_equal. destruct B as [->|[Q ->]]; lra.
Qed.
Print Assumptions C104_persistent.

(** A step shorter than the persistence widens the range: an element with windage range 1 % to 4 %
    and the default persistence of 900 s can get a negative windage in a step of 100 s. *)
Theorem C104_short_step_refuted : exists l sc e, Forall op_draws l /\ wrun [] l = Ok sc /\ In e sc /\
  wlo e = 1 / 100 /\ whi e = 4 / 100 /\ wpersist e = 900%Z /\ windage e < 0.
Proof.
  exists [WRelease 1 (1/100) (4/100) 900 (fun _ => 0); WStep 100 (fun _ => 0)].
  exists [mkWel (1/100) (4/100) 900 (-2/100)], (mkWel (1/100) (4/100) 900 (-2/100)).
  split; [repeat constructor; cbn; intros; lra|]. split; [|split; [left; reflexivity|cbn [wlo whi wpersist windage]; split; [reflexivity|split; [reflexivity|split; [reflexivity|lra]]]]].
  assert (Q : all_equal [1/100] [4/100] = false). { unfold all_equal. cbn. rewrite (proj2 (Reqb_no (1/100) (4/100))) by lra. reflexivity. }
  assert (A : any_less [4/100] [1/100] = false). { unfold any_less. cbn. rewrite (proj2 (Rltb_false (4/100) (1/100))) by lra. reflexivity. }
  cbn [wrun wstep repeat map wlo whi windage wpersist]. unfold random_with_persistance. rewrite Q, A.
  cbn [length Nat.eqb negb andb bind fill_all set_windages combine map fst snd app wlo whi wpersist windage wstep].
  unfold random_with_persistance, set_windages. cbn [map wlo whi windage wpersist combine fst snd app]. rewrite Q, A.
  cbn [length Nat.eqb negb andb bind existsb orb updated Z.ltb Z.leb Z.compare Pos.compare Pos.compare_cont Z.eqb Pos.eqb Z.abs fill].
  f_equal. f_equal. f_equal. unfold uniform, scaled_low, scaled_high, half_range.
  rewrite Rabs_right by lra. replace (900 / 100) with (3 * 3) by lra. rewrite sqrt_square by lra.
  cbn [map fst snd wlo whi wpersist]. f_equal. f_equal. lra.
Qed.
Print Assumptions C104_short_step_refuted.

(** A range with its ends swapped is accepted where it is set and refused at the first release. *)
Theorem C104_swapped : forall lo hi, 0 <= hi < lo -> set_windage_range lo hi = Ok (lo, hi) /\
  forall sc n p us, wstep sc (WRelease (S n) lo hi p us) = Raise ValueErr.
Proof.
  intros lo hi H. split.
  - unfold set_windage_range. rewrite (proj2 (Rltb_false lo 0)), (proj2 (Rltb_false hi 0)) by lra. reflexivity.
  - intros sc n p us. cbn [wstep]. unfold random_with_persistance. rewrite !map_length, Nat.eqb_refl. cbn [negb].
    assert (A : any_less (map whi (repeat (mkWel lo hi p 0) (S n))) (map wlo (repeat (mkWel lo hi p 0) (S n))) = true).
    { apply any_less_true. exists (mkWel lo hi p 0). split; [left; reflexivity|cbn; lra]. }
    rewrite A. reflexivity.
Qed.
Print Assumptions C104_swapped.

Example C104_meets : exists sc,
  wrun [] [WRelease 2 (1/100) (4/100) 900 (fun _ => 1/3); WStep 900 (fun _ => 1/2); WRelease 1 (1/100) (3/100) (-1) (fun _ => 1)] = Ok sc /\
  length sc = 3%nat /\
  long_steps [WRelease 2 (1/100) (4/100) 900 (fun _ => 1/3); WStep 900 (fun _ => 1/2); WRelease 1 (1/100) (3/100) (-1) (fun _ => 1)].
Proof.
  assert (Q : forall x y, x < y -> Reqb x y = false) by (intros; apply Reqb_no; lra).
  assert (A : forall x y, x < y -> Rltb y x = false) by (intros; apply Rltb_false; lra).
  eexists. split; [|split].
  - cbn [wrun wstep repeat map wlo whi windage wpersist]. unfold random_with_persistance, all_equal, any_less.
    cbn [combine forallb existsb fst snd]. rewrite !(Q (1/100) (4/100)), !(A (1/100) (4/100)) by lra.
    cbn [length Nat.eqb negb andb orb bind fill_all set_windages combine map fst snd app wlo whi wpersist windage wstep].
    unfold random_with_persistance, set_windages, all_equal, any_less. cbn [map wlo whi windage wpersist combine fst snd app forallb existsb].
    rewrite !(Q (1/100) (4/100)), !(A (1/100) (4/100)) by lra.
    cbn [length Nat.eqb negb andb bind existsb orb updated Z.ltb Z.leb Z.compare Pos.compare Pos.compare_cont Z.eqb Pos.eqb Z.abs fill repeat map wlo whi wpersist windage combine fst snd forallb app].
    rewrite !(Q (1/100) (3/100)), !(A (1/100) (3/100)) by lra. cbn [andb orb bind Nat.eqb length negb fill_all combine map app fst snd wlo whi wpersist]. reflexivity.
  - reflexivity.
  - intros dt us n lo hi p us' H1 H2 P. destruct H1 as [H1|[H1|[H1|[]]]]; try discriminate. injection H1 as <- _.
    destruct H2 as [H2|[H2|[H2|[]]]]; try discriminate; injection H2 as <- <- <- <- _; lia.
Qed.

(** ** C105: the randomness of windages does not depend on the time step. *)

(** With a persistence p of 1 to 900 s the new windage is drawn from an interval about the middle of
    the range whose width w satisfies w^2 |dt| = (hi - lo)^2 p: the mean square of the random part
    of the drift over a given time is the same for every time step. *)
Theorem C105_spread_partial : forall sc dt us sc' i e, unit_draws us -> wstep sc (WStep dt us) = Ok sc' ->
  nth_error sc i = Some e -> (0 < wpersist e <= 900)%Z ->
  exists e' u width, nth_error sc' i = Some e' /\ wlo e' = wlo e /\ whi e' = whi e /\ wpersist e' = wpersist e /\
    0 <= u <= 1 /\ 0 <= width /\
    width * width * Rabs (IZR dt) = (whi e - wlo e) * (whi e - wlo e) * IZR (wpersist e) /\
    windage e' = (wlo e + whi e) / 2 + (u - 1 / 2) * width.
Proof.
  intros sc dt us sc' i e U H N P. pose proof (wstep_stepped _ _ _ _ U H) as S.
  destruct (Forall2_nth _ _ _ S i e N) as [e' [N' [[K1 [K2 K3]] [_ [A _]]]]].
  destruct (A (proj2 (updated_iff _) P)) as [u [w [Hu [Hw [Q E]]]]]. exists e', u, w. auto 10.
Qed.
Print Assumptions C105_spread_partial.

(** Persistences above 900 s are accepted and never lead to an update: the windages of a spill with
    persistence 1800 s stay what they were at release, whatever happens later. *)
Theorem C105_long_persistence_refuted : set_windage_persist (Some 1800%Z) = Ok 1800%Z /\
  forall n lo hi us l sc sc' i, unit_draws us -> Forall op_draws l ->
    wstep [] (WRelease n lo hi 1800 us) = Ok sc -> wrun sc l = Ok sc' -> (i < n)%nat ->
    nth_error sc' i = nth_error sc i.
Proof.
  split; [reflexivity|]. intros n lo hi us l sc sc' i U D R H I.
  destruct (wrelease_within _ _ _ _ _ _ _ U R) as [new [E [Ln F]]]. cbn in E. subst new.
  destruct (nth_error sc i) as [e|] eqn:N; [|apply nth_error_None in N; lia].
  pose proof (nth_error_In _ _ N) as J. rewrite Forall_forall in F. destruct (F e J) as [_ [_ [P W]]].
  rewrite (C104_persistent l sc sc' i e D H N); auto. right. lia.
Qed.
Print Assumptions C105_long_persistence_refuted.

(** Refused calls: a range with its ends swapped, or a time step 0 with a finite persistence. *)
Theorem C105_refused : forall sc dt us, sc <> [] ->
  ((exists e, In e sc /\ whi e < wlo e) -> wstep sc (WStep dt us) = Raise ValueErr) /\
  ((forall e, In e sc -> wlo e <= whi e) -> (exists e, In e sc /\ (0 < wpersist e <= 900)%Z) ->
     wstep sc (WStep 0 us) = Raise OverflowErr) /\
  ((forall e, In e sc -> wlo e <= whi e) -> dt <> 0%Z -> exists sc', wstep sc (WStep dt us) = Ok sc').
Proof.
  intros sc dt us NE. destruct sc as [|e0 s0] eqn:Es; [congruence|]. rewrite <- Es in *. clear NE.
  assert (St : forall d, wstep sc (WStep d us) =
    (do ws <- random_with_persistance (map wlo sc) (map whi sc) (map windage sc) (Some (map wpersist sc)) d us; Ok (set_windages sc ws))) by (intros; rewrite Es; reflexivity).
  assert (G : (forall e, In e sc -> wlo e <= whi e) -> any_less (map whi sc) (map wlo sc) = false).
  { intros H. apply not_true_iff_false. rewrite any_less_true. intros [e [I L]]. specialize (H e I). lra. }
  split; [|split].
  - intros H. rewrite St. unfold random_with_persistance. rewrite !map_length, Nat.eqb_refl. cbn [negb]. rewrite (proj2 (any_less_true sc) H). reflexivity.
  - intros H [e [I P]]. rewrite St. unfold random_with_persistance. rewrite !map_length, Nat.eqb_refl. cbn [negb]. rewrite (G H), andb_false_r.
    assert (X : existsb updated (map wpersist sc) = true). { apply existsb_exists. exists (wpersist e). split; [apply in_map; exact I|apply updated_iff; exact P]. }
    rewrite X.
    assert (Y : existsb (fun p : Z => updated p && negb (p =? Z.abs 0)%Z) (map wpersist sc) = true).
    { apply existsb_exists. exists (wpersist e). split; [apply in_map; exact I|]. rewrite (proj2 (updated_iff _) P). cbn. apply negb_true_iff, Z.eqb_neq. lia. }
    rewrite Y. reflexivity.
  - intros H D. rewrite St. unfold random_with_persistance. rewrite !map_length, Nat.eqb_refl. cbn [negb]. rewrite (G H), andb_false_r.
    destruct (existsb updated (map wpersist sc)); [|eexists; reflexivity].
    rewrite (proj2 (Z.eqb_neq dt 0) D), andb_false_r.
    assert (Lr : Nat.eqb (length (if all_equal (map wlo sc) (map whi sc) then map wlo sc else map windage sc)) (length sc) = true).
    { destruct (all_equal (map wlo sc) (map whi sc)); rewrite map_length; apply Nat.eqb_refl. }
    rewrite Lr. eexists. reflexivity.
Qed.
Print Assumptions C105_refused.

Example C105_meets : exists sc', wstep [mkWel (1/100) (4/100) 900 (2/100); mkWel (1/100) (4/100) (-1) (2/100)] (WStep 300 (fun _ => 1)) = Ok sc'.
Proof.
  apply (C105_refused [mkWel (1/100) (4/100) 900 (2/100); mkWel (1/100) (4/100) (-1) (2/100)] 300 (fun _ => 1)); [discriminate| |lia].
  intros e [<-|[<-|[]]]; cbn; lra.
Qed.

(** ** C106: the random walk moves the floating elements, and them alone, within its reach. *)

Lemma r_moves_nth m letype dt l rs ds : r_moves m letype dt l rs = Ok ds -> length ds = length l /\
  forall i e, nth_error l i = Some e -> nth_error ds i =
    Some (if (pstatus e =? in_water)%Z then r_move m letype dt e (fst (rs i)) (snd (rs i)) else no_move).
Proof.
  unfold r_moves. destruct ((letype <? 1)%Z || (2 <? letype)%Z); [discriminate|]. intros H. apply Ok_inj1 in H. subst ds.
  split; [rewrite map_length, combine_length, seq_length; lia|].
  intros i e N.
  assert (G : forall (l : list pel) (k i : nat) (e : pel), nth_error l i = Some e -> nth_error (combine (seq k (length l)) l) i = Some ((k + i)%nat, e)).
  { clear. induction l as [|a l IH]; intros k i e N; [destruct i; discriminate|]. destruct i as [|i]; cbn in *; [injection N as ->; rewrite Nat.add_0_r; reflexivity|].
    rewrite (IH (S k) i e N). f_equal. f_equal. lia. }
  rewrite nth_error_map, (G l 0%nat i e N). reflexivity.
Qed.

(** The factor on the variance of the uncertain copy of a spill. *)
Definition spread_factor (m : rmover) (letype : Z) : R := if (letype =? 2)%Z then ufac m else 1.

Theorem C106_reach : forall m letype dt l rs ds, 0 <= dcoef m -> 1 <= ufac m -> (forall i, walk_draws (first m) (rs i)) ->
  r_moves (r_step m dt) letype dt l rs = Ok ds ->
  length ds = length l /\
  forall i e, nth_error l i = Some e -> exists d, nth_error ds i = Some d /\
    dz d = 0 /\
    (pstatus e <> in_water \/ 0 < pz e -> d = no_move) /\
    (pstatus e = in_water -> pz e <= 0 -> -90 <= plat e <= 90 ->
       north d = snd (rs i) * sqrt (spread_factor m letype * reach_sq (dcoef m) dt) /\
       east (plat e) d = fst (rs i) * sqrt (spread_factor m letype * reach_sq (dcoef m) dt)) /\
    north d * north d <= spread_factor m letype * reach_sq (dcoef m) dt /\
    (-90 <= plat e <= 90 -> east (plat e) d * east (plat e) d <= spread_factor m letype * reach_sq (dcoef m) dt) /\
    (first m = true -> -90 <= plat e <= 90 ->
       north d * north d + east (plat e) d * east (plat e) d <= spread_factor m letype * reach_sq (dcoef m) dt).
Proof.
  intros m letype dt l rs ds D U W H. destruct (r_moves_nth _ _ _ _ _ _ H) as [Ln N]. split; [exact Ln|]. clear Ln H.
  intros i e I. eexists. split; [apply N; exact I|]. clear N I.
  set (F := spread_factor m letype * reach_sq (dcoef m) dt).
  assert (F0 : 0 <= F).
  { unfold F, spread_factor, reach_sq. apply Rmult_le_pos; [destruct (letype =? 2)%Z; lra|]. apply Rmult_le_pos; [lra|apply Rabs_pos]. }
  destruct (pstatus e =? in_water)%Z eqn:St.
  2:{ apply Z.eqb_neq in St. unfold north, east. cbn [dlat dlong dz no_move]. split; [reflexivity|]. split; [reflexivity|]. split; [congruence|]. repeat split; intros; lra. }
  apply Z.eqb_eq in St. unfold r_move. destruct (Rltb 0 (pz e)) eqn:Pz.
  { apply Rltb_iff in Pz. unfold north, east. cbn [dlat dlong dz no_move]. split; [reflexivity|]. split; [reflexivity|]. split; [intros; lra|]. repeat split; intros; lra. }
  apply Rltb_false in Pz. cbn [opt oval ounc r_step dcoef ufac]. destruct (rs i) as [r1 r2] eqn:Er. cbn [fst snd].
  specialize (W i). rewrite Er in W. destruct W as [[W1 W2] W3]. cbn [fst snd] in *.
  set (c := if (letype =? 2)%Z then ureach (ufac m) (dcoef m) dt else reach (dcoef m) dt).
  assert (C : (c * metres_per_degree) * (c * metres_per_degree) = F).
  { unfold c, F, spread_factor. destruct (letype =? 2)%Z; [apply ureach_metres; auto|]. rewrite reach_metres by auto. lra. }
  assert (Cs : c * metres_per_degree = sqrt F).
  { rewrite <- C. rewrite sqrt_square; [reflexivity|]. apply Rmult_le_pos; [|pose proof mpd_pos; lra].
    pose proof (Rinv_0_lt_compat _ mpd_pos) as Iv. unfold c, ureach, reach, Rdiv. destruct (letype =? 2)%Z; apply Rmult_le_pos; try apply sqrt_pos; lra. }
  clearbody c F. unfold north, east. cbn [dlat dlong dz].
  assert (Q2 : r2 * c * 1000000 / 1000000 * metres_per_degree * (r2 * c * 1000000 / 1000000 * metres_per_degree) = r2 * r2 * F).
  { rewrite <- C. field. }
  assert (Q1 : -90 <= plat e <= 90 -> r1 * c / lat_ratio (plat e) * 1000000 / 1000000 * lat_ratio (plat e) * metres_per_degree
               * (r1 * c / lat_ratio (plat e) * 1000000 / 1000000 * lat_ratio (plat e) * metres_per_degree) = r1 * r1 * F).
  { intros L. pose proof (lat_ratio_pos _ L). rewrite <- C. field. lra. }
  assert (S1 : r1 * r1 <= 1) by nra. assert (S2 : r2 * r2 <= 1) by nra.
  split; [reflexivity|]. split; [intros [X|X]; [congruence|lra]|]. split.
  { intros _ _ L. pose proof (lat_ratio_pos _ L). rewrite <- Cs. split; field. lra. }
  split; [rewrite Q2; nra|]. split; [intros L; rewrite (Q1 L); nra|].
  intros Fi L. rewrite Q2, (Q1 L). specialize (W3 Fi). nra.
Qed.
Print Assumptions C106_reach.

(** The walk does not depend on the direction of time, and the uncertain copy of a spill moves, for
    the same draws, farther by the square root of the uncertainty factor. *)
Theorem C106_backwards : forall m letype dt l rs,
  r_moves (r_step m (- dt)) letype (- dt) l rs = r_moves (r_step m dt) letype dt l rs.
Proof.
  intros. unfold r_moves. destruct ((letype <? 1)%Z || (2 <? letype)%Z); [reflexivity|]. f_equal. apply map_ext. intros [i e]. cbn.
  assert (A : Rabs (IZR (- dt)) = Rabs (IZR dt)) by (rewrite opp_IZR; apply Rabs_Ropp).
  unfold r_move, r_step, reach, ureach. cbn [opt oval ounc dcoef ufac]. rewrite A. reflexivity.
Qed.
Print Assumptions C106_backwards.

Theorem C106_uncertain : forall m dt l rs ds us, 0 <= dcoef m -> 1 <= ufac m ->
  r_moves (r_step m dt) 1 dt l rs = Ok ds -> r_moves (r_step m dt) 2 dt l rs = Ok us ->
  us = map (fun d => mkMoved (sqrt (ufac m) * dlong d) (sqrt (ufac m) * dlat d) (sqrt (ufac m) * dz d)) ds.
Proof.
  intros m dt l rs ds us D U H1 H2. unfold r_moves in *. cbn [Z.ltb Z.compare orb Pos.compare Pos.compare_cont] in *. apply Ok_inj1 in H1, H2. subst ds us.
  rewrite map_map. apply map_ext. intros [i e]. cbn [fst snd]. destruct (pstatus e =? in_water)%Z; [|unfold no_move; cbn; f_equal; ring].
  unfold r_move. destruct (Rltb 0 (pz e)); [unfold no_move; cbn; f_equal; ring|]. cbn [opt oval ounc r_step dcoef ufac Z.eqb Pos.eqb dlong dlat dz].
  assert (E : ureach (ufac m) (dcoef m) dt = sqrt (ufac m) * reach (dcoef m) dt).
  { unfold ureach, reach. replace (ufac m * 6 * (dcoef m / 10000) * Rabs (IZR dt)) with (ufac m * (6 * (dcoef m / 10000) * Rabs (IZR dt))) by ring.
    rewrite sqrt_mult; [unfold Rdiv; ring|lra|]. apply Rmult_le_pos; [lra|apply Rabs_pos]. }
  rewrite E. f_equal; unfold Rdiv; ring.
Qed.
Print Assumptions C106_uncertain.

(** Whatever is assigned, and whatever is run in between, the coefficient stays non-negative and the
    uncertainty factor at least 1: other values are refused. *)
Theorem C106_settings : forall d u m l, new_rmover d u = Ok m ->
  (0 <= dcoef (fold_left rapply' l m) /\ 1 <= ufac (fold_left rapply' l m)) /\
  (forall d', d' < 0 -> set_dcoef (fold_left rapply' l m) d' = Raise ValueErr) /\
  (forall u', u' < 1 -> set_ufac (fold_left rapply' l m) u' = Raise ValueErr).
Proof.
  intros d u m l H. split.
  - assert (I : 0 <= dcoef m /\ 1 <= ufac m).
    { unfold new_rmover in H. destruct (Rltb d 0) eqn:E1; [discriminate|]. destruct (Rltb u 1) eqn:E2; [discriminate|].
      apply Ok_inj1 in H. subst m. cbn. apply Rltb_false in E1, E2. auto. }
    clear H. revert m I. induction l as [|o l IH]; intros m I; [exact I|]. cbn [fold_left]. apply IH.
    unfold rapply'. destruct o; cbn; auto.
    + unfold set_dcoef. destruct (Rltb d0 0) eqn:E; [exact I|]. apply Rltb_false in E. cbn. tauto.
    + unfold set_ufac. destruct (Rltb u0 1) eqn:E; [exact I|]. apply Rltb_false in E. cbn. tauto.
  - split; intros x X; [unfold set_dcoef|unfold set_ufac]; rewrite (Rltb_yes _ _ X); reflexivity.
Qed.
Print Assumptions C106_settings.

(** The first step after the start of a run draws from a disc, every later one from a square. *)
Theorem C106_first_step : forall m dt dt', first (r_step (r_run m) dt) = true /\ first (r_step (r_done (r_step (r_run m) dt)) dt') = false.
Proof. intros. split; reflexivity. Qed.
Print Assumptions C106_first_step.

Example C106_meets : exists m ds, new_rmover 100000 2 = Ok m /\
  r_moves (r_step (r_run m) 900) 2 900 [mkPel 45 0 2; mkPel 45 1 2; mkPel 45 0 3] (fun _ => (6/10, -8/10)) = Ok ds /\
  walk_draws true (6/10, -8/10).
Proof.
  eexists. eexists. split; [|split].
  - unfold new_rmover. rewrite (proj2 (Rltb_false 100000 0)), (proj2 (Rltb_false 2 1)) by lra. reflexivity.
  - unfold r_moves. cbn [Z.ltb Z.compare orb Pos.compare Pos.compare_cont]. reflexivity.
  - unfold walk_draws. cbn. repeat split; intros; lra.
Qed.

(** ** C107: the random walk in three dimensions keeps elements in the water column. *)

Lemma v_moves_nth m letype dt l us ds : v_moves m letype dt l us = Ok ds -> (0 <= dt)%Z /\ length ds = length l /\
  forall i e, nth_error l i = Some e -> nth_error ds i = Some (if (pstatus e =? in_water)%Z then v_move m dt e (us i) else no_move).
Proof.
  unfold v_moves. destruct (dt <? 0)%Z eqn:B; [discriminate|]. apply Z.ltb_ge in B.
  destruct ((letype <? 1)%Z || (2 <? letype)%Z); [discriminate|]. intros H. apply Ok_inj1 in H. subst ds.
  split; [exact B|]. split; [rewrite map_length, combine_length, seq_length; lia|].
  intros i e N.
  assert (G : forall (l : list pel) (k i : nat) (e : pel), nth_error l i = Some e -> nth_error (combine (seq k (length l)) l) i = Some ((k + i)%nat, e)).
  { clear. induction l as [|a l IH]; intros k i e N; [destruct i; discriminate|]. destruct i as [|i]; cbn in *; [injection N as ->; rewrite Nat.add_0_r; reflexivity|].
    rewrite (IH (S k) i e N). f_equal. f_equal. lia. }
  rewrite nth_error_map, (G l 0%nat i e N). reflexivity.
Qed.

(** If the surface is not allowed, every element in the water ends a step below the surface and not
    below the bottom - if there is a mixed layer, and diffusion in it or the element is submerged. *)
Theorem C107_submerged_partial : forall m letype dt l us ds i e, v_valid m -> (forall i, v_draws (us i)) ->
  v_moves m letype dt l us = Ok ds -> nth_error l i = Some e -> pstatus e = in_water ->
  0 < mld m -> 0 <= pz e <= bottom -> (surface_ok m = true -> 0 < pz e) -> (vabove m = 0 -> 0 < pz e) ->
  exists d, nth_error ds i = Some d /\ 0 < pz e + dz d <= bottom.
Proof.
  intros m letype dt l us ds i e V U H N St ML Z0 Sf Va. destruct (v_moves_nth _ _ _ _ _ _ H) as [_ [_ G]].
  eexists. split; [apply G; exact N|]. rewrite St, Z.eqb_refl. unfold v_move.
  destruct (Rltb 0 (pz e) || negb (surface_ok m)) eqn:E.
  - cbn [dz]. apply v_vertical_in; auto.
  - apply orb_false_iff in E as [E1 E2]. apply negb_false_iff in E2. apply Rltb_false in E1. specialize (Sf E2). lra.
Qed.
Print Assumptions C107_submerged_partial.

(** Horizontally the reach is that of the coefficient of the layer the element is in; elements that
    are not in the water do not move, and where the surface is allowed floating elements do not move
    at all, not even horizontally. *)
Theorem C107_horizontal : forall m letype dt l us ds i e, v_valid m -> (forall i, v_draws (us i)) ->
  v_moves m letype dt l us = Ok ds -> nth_error l i = Some e -> -90 <= plat e <= 90 ->
  exists d, nth_error ds i = Some d /\
    (pstatus e <> in_water \/ (surface_ok m = true /\ pz e <= 0) -> d = no_move) /\
    let c := if Rltb (mld m) (pz e) then hbelow m else habove m in
    (pstatus e = in_water -> 0 < pz e \/ surface_ok m = false ->
       north d = (2 * un (us i) - 1) * sqrt (reach_sq c dt) /\ east (plat e) d = (2 * ue (us i) - 1) * sqrt (reach_sq c dt)) /\
    north d * north d <= reach_sq c dt /\ east (plat e) d * east (plat e) d <= reach_sq c dt.
Proof.
  intros m letype dt l us ds i e V U H N L. destruct (v_moves_nth _ _ _ _ _ _ H) as [T [_ G]].
  eexists. split; [apply G; exact N|]. clear G N H. cbn zeta. set (c := if Rltb (mld m) (pz e) then hbelow m else habove m).
  assert (C0 : 0 <= c) by (unfold c; destruct V as [? [? [? [? ?]]]]; destruct (Rltb (mld m) (pz e)); assumption).
  assert (F0 : 0 <= reach_sq c dt) by (unfold reach_sq; apply Rmult_le_pos; [lra|apply Rabs_pos]).
  destruct (pstatus e =? in_water)%Z eqn:St.
  2:{ apply Z.eqb_neq in St. unfold north, east. cbn. split; [reflexivity|]. split; [congruence|split; lra]. }
  apply Z.eqb_eq in St. unfold v_move. destruct (Rltb 0 (pz e) || negb (surface_ok m)) eqn:E.
  2:{ unfold north, east. cbn. split; [reflexivity|]. split; [|split; lra]. apply orb_false_iff in E as [E1 E2]. apply Rltb_false in E1.
      intros _ [X|X]; [lra|]. rewrite X in E2. discriminate. }
  split.
  { intros [X|[X Y]]; [congruence|]. rewrite X in E. rewrite (proj2 (Rltb_false 0 (pz e)) Y) in E. discriminate. }
  fold c. pose proof mpd_pos as M. pose proof (lat_ratio_pos _ L) as Lp.
  assert (RT : IZR dt = Rabs (IZR dt)) by (rewrite Rabs_right; [reflexivity|apply Rle_ge; apply (IZR_le 0); exact T]).
  destruct (U i) as [U1 [U2 _]].
  pose proof (uniform_between (-1) 1 (ue (us i)) ltac:(lra) U1) as R1. pose proof (uniform_between (-1) 1 (un (us i)) ltac:(lra) U2) as R2.
  set (r1 := uniform (-1) 1 (ue (us i))) in *. set (r2 := uniform (-1) 1 (un (us i))) in *.
  assert (Q : reach_m c dt * reach_m c dt = reach_sq c dt). { unfold reach_m. rewrite RT. apply sqrt_sqrt. exact F0. }
  unfold north, east. cbn [dlat dlong]. set (k := reach_m c dt) in *.
  replace (r2 * (k / metres_per_degree) * 1000000 / 1000000 * metres_per_degree) with (r2 * k) by (field; lra).
  replace (r1 * (k / metres_per_degree) / lat_ratio (plat e) * 1000000 / 1000000 * lat_ratio (plat e) * metres_per_degree) with (r1 * k) by (field; lra).
  assert (S1 : r1 * r1 <= 1) by nra. assert (S2 : r2 * r2 <= 1) by nra.
  replace (r2 * k * (r2 * k)) with (r2 * r2 * (k * k)) by ring. replace (r1 * k * (r1 * k)) with (r1 * r1 * (k * k)) by ring.
  assert (Ks : k = sqrt (reach_sq c dt)) by (unfold k, reach_m, reach_sq; rewrite <- RT; reflexivity).
  rewrite <- Ks. rewrite Q. split; [intros _ _; split; [replace r2 with (2 * un (us i) - 1) by (unfold r2, uniform; ring)|replace r1 with (2 * ue (us i) - 1) by (unfold r1, uniform; ring)]; reflexivity|]. split; nra.
Qed.
Print Assumptions C107_horizontal.

(** Away from the surface, the base of the mixed layer and the bottom, the depth changes by the draw
    times the reach of the coefficient of the layer; in the mixed layer the two diffusions add. *)
Theorem C107_vertical : forall m letype dt l us ds i e, v_valid m ->
  v_moves m letype dt l us = Ok ds -> nth_error l i = Some e -> pstatus e = in_water -> 0 < pz e ->
  let ra := (2 * um (us i) - 1) * sqrt (reach_sq (vabove m) dt) in
  let rb := (2 * ub (us i) - 1) * sqrt (reach_sq (vbelow m) dt) in
  exists d, nth_error ds i = Some d /\
    (mld m < pz e -> mld m < bottom -> 0 < pz e + rb < bottom -> dz d = rb) /\
    (pz e <= mld m < bottom -> vabove m <> 0 -> pz e + ra <= mld m -> 0 < pz e + ra + rb < bottom -> dz d = ra + rb) /\
    (pz e <= mld m < bottom -> vabove m <> 0 -> mld m < pz e + ra < 2 * mld m -> 0 < 2 * mld m - ra - pz e + rb < bottom -> pz e + ra < bottom ->
       pz e + dz d = 2 * mld m - ra - pz e + rb).
Proof.
  intros m letype dt l us ds i e V H N St Z0 ra rb. destruct (v_moves_nth _ _ _ _ _ _ H) as [T [_ G]].
  eexists. split; [apply G; exact N|]. rewrite St, Z.eqb_refl. unfold v_move. rewrite (Rltb_yes 0 (pz e) Z0). cbn [orb dz]. unfold v_vertical.
  assert (RT : IZR dt = Rabs (IZR dt)) by (rewrite Rabs_right; [reflexivity|apply Rle_ge; apply (IZR_le 0); exact T]).
  assert (Ea : uniform (-1) 1 (um (us i)) * reach_m (vabove m) dt = ra) by (unfold ra, reach_m, reach_sq, uniform; rewrite <- RT; ring).
  assert (Eb : uniform (-1) 1 (ub (us i)) * reach_m (vbelow m) dt = rb) by (unfold rb, reach_m, reach_sq, uniform; rewrite <- RT; ring).
  assert (B0 : vbelow m = 0 -> rb = 0) by (intros Q; unfold rb, reach_sq; rewrite Q; replace (6 * (0 / 10000) * Rabs (IZR dt)) with 0 by field; rewrite sqrt_0; ring).
  assert (Dc : forall tot z, 0 < tot < bottom -> dochecks (pz e) tot z (uw (us i)) = z).
  { intros tot z H1. unfold dochecks. rewrite (proj2 (Reqb_no tot 0)) by lra. rewrite (proj2 (Rltb_false tot 0)) by lra.
    rewrite (proj2 (Reqb_no tot bottom)) by lra. rewrite (proj2 (Rltb_false bottom tot)) by lra. reflexivity. }
  rewrite Ea, Eb. clear Ea Eb. clearbody ra rb. destruct V as [_ [_ [_ [_ ML]]]].
  split; [|split].
  - intros M Mb R. rewrite (Rltb_yes (mld m) (pz e) M). rewrite (proj2 (Reqb_no (mld m) bottom)) by lra.
    destruct (Reqb (vbelow m) 0) eqn:E2.
    + apply Reqb_iff in E2. specialize (B0 E2). subst rb. apply Dc. lra.
    + rewrite Dc by lra. lra.
  - intros [M Mb] A R1 R2. rewrite (proj2 (Rltb_false (mld m) (pz e)) M). rewrite (proj2 (Reqb_no _ _) A).
    rewrite (proj2 (Rltb_false bottom (mld m))) by lra. rewrite (proj2 (Reqb_no (mld m) bottom)) by lra. rewrite (proj2 (Rltb_false (mld m) (pz e + ra)) R1).
    destruct (Reqb (vbelow m) 0) eqn:E2.
    + apply Reqb_iff in E2. specialize (B0 E2). subst rb. rewrite Dc by lra. lra.
    + rewrite Dc by lra. reflexivity.
  - intros [M Mb] A R1 R2 R3. rewrite (proj2 (Rltb_false (mld m) (pz e)) M). rewrite (proj2 (Reqb_no _ _) A).
    rewrite (proj2 (Rltb_false bottom (mld m))) by lra. rewrite (proj2 (Reqb_no (mld m) bottom)) by lra. rewrite (Rltb_yes (mld m) (pz e + ra)) by lra.
    rewrite (Rltb_yes 0 (pz e + (mld m - (pz e + ra - mld m) - pz e))) by lra.
    destruct (Reqb (vbelow m) 0) eqn:E2.
    + apply Reqb_iff in E2. specialize (B0 E2). subst rb. rewrite Dc by lra. lra.
    + rewrite Dc by lra. lra.
Qed.
Print Assumptions C107_vertical.

(** Without diffusion in the mixed layer a floating element stays at the surface although the surface
    is not allowed, whatever the diffusion below; and so it may with a mixed layer of depth 0. *)
Theorem C107_stays_at_surface_refuted :
  (forall m dt e u, v_valid m -> vabove m = 0 -> pz e = 0 -> surface_ok m = false -> dz (v_move m dt e u) = 0) /\
  (exists m dt e u, v_valid m /\ v_draws u /\ 0 < vabove m /\ mld m = 0 /\ surface_ok m = false /\ pz e = 0 /\ (0 < dt)%Z /\
     dz (v_move m dt e u) = 0).
Proof.
  split.
  - intros m dt e u V A Z0 S. unfold v_move. rewrite S, orb_true_r. cbn [dz]. unfold v_vertical. rewrite Z0, A.
    destruct V as [_ [_ [_ [_ ML]]]]. rewrite (proj2 (Rltb_false (mld m) 0) ML). rewrite (proj2 (Reqb_iff 0 0)) by reflexivity. reflexivity.
  - exists (mkV 15 0 100000 126 0 false), 400%Z, (mkPel 45 0 2), (mkD (1/2) (1/2) 1 1 (1/2) (1/2)).
    split; [unfold v_valid; cbn; lra|]. split; [unfold v_draws; cbn; lra|]. cbn [vabove mld surface_ok pz].
    split; [lra|]. split; [reflexivity|]. split; [reflexivity|]. split; [reflexivity|]. split; [lia|].
    unfold v_move. cbn [surface_ok negb]. rewrite orb_true_r. cbn [dz pz]. unfold v_vertical. cbn [mld vabove vbelow um uml ub uw].
    rewrite (proj2 (Rltb_false 0 0)) by lra. rewrite (proj2 (Reqb_no 15 0)) by lra. rewrite (proj2 (Rltb_false bottom 0)) by (unfold bottom; lra).
    replace (reach_m 15 400) with (sqrt ((18 / 10 + 1 / 10) * (19 / 10) - 1 / 100)) by (unfold reach_m; f_equal; lra).
    assert (R0 : 0 < sqrt ((18 / 10 + 1 / 10) * (19 / 10) - 1 / 100) < 2).
    { split; [apply sqrt_lt_R0; lra|]. rewrite <- (sqrt_square 2) by lra. apply sqrt_lt_1; lra. }
    set (r := sqrt ((18 / 10 + 1 / 10) * (19 / 10) - 1 / 100)) in *. clearbody r.
    replace (uniform (-1) 1 1 * r) with r by (unfold uniform; ring). rewrite (Rltb_yes 0 (0 + r)) by lra.
    rewrite (proj2 (Rltb_false 0 (0 + (0 - (0 + r - 0) - 0)))) by lra. rewrite (proj2 (Reqb_no 0 bottom)) by (unfold bottom; lra). rewrite (proj2 (Reqb_iff 0 0)) by reflexivity.
    unfold dochecks, bottom. rewrite (proj2 (Reqb_no (0 + r) 0)) by lra. rewrite (proj2 (Rltb_false (0 + r) 0)) by lra.
    rewrite (proj2 (Reqb_no (0 + r) 5000)) by lra. rewrite (proj2 (Rltb_false 5000 (0 + r))) by lra. unfold uniform. ring.
Qed.
Print Assumptions C107_stays_at_surface_refuted.

Example C107_meets : exists m ds, new_vmover 5 (11/100) 100000 126 10 false = Ok m /\ v_valid m /\
  v_moves m 1 900 [mkPel 45 0 2; mkPel 45 20 2] (fun _ => mkD (1/2) 0 1 (1/2) 0 1) = Ok ds /\ v_draws (mkD (1/2) 0 1 (1/2) 0 1).
Proof.
  eexists. eexists. split; [|split; [|split]].
  - unfold new_vmover. rewrite !(proj2 (Rltb_false _ 0)) by lra. reflexivity.
  - unfold v_valid. cbn. lra.
  - unfold v_moves. cbn [Z.ltb Z.compare orb Pos.compare Pos.compare_cont]. reflexivity.
  - unfold v_draws. cbn. lra.
Qed.

(** ** C108: without diffusion below the mixed layer nothing leaves or enters it. *)

Theorem C108_layer_partial : forall m letype dt l us ds i e, v_valid m -> (forall i, v_draws (us i)) ->
  v_moves m letype dt l us = Ok ds -> nth_error l i = Some e -> pstatus e = in_water -> vbelow m = 0 ->
  (eps <= mld m < 2500 -> 0 <= pz e <= mld m -> reach_m (vabove m) dt <= mld m ->
     exists d, nth_error ds i = Some d /\ 0 <= pz e + dz d <= mld m) /\
  (mld m < pz e < bottom -> exists d, nth_error ds i = Some d /\ dz d = 0).
Proof.
  intros m letype dt l us ds i e V U H N St VB. destruct (v_moves_nth _ _ _ _ _ _ H) as [_ [_ G]].
  assert (M0 : 0 <= mld m) by (destruct V as [? [? [? [? ?]]]]; assumption).
  split.
  - intros ML Z0 RM. eexists. split; [apply G; exact N|]. rewrite St, Z.eqb_refl. unfold v_move. destruct (Rltb 0 (pz e) || negb (surface_ok m)).
    + cbn [dz]. apply v_vertical_mixed; auto.
    + cbn. lra.
  - intros Z0. eexists. split; [apply G; exact N|]. rewrite St, Z.eqb_refl. unfold v_move. rewrite (Rltb_yes 0 (pz e)) by lra. cbn [orb dz].
    unfold v_vertical. rewrite (Rltb_yes (mld m) (pz e)) by lra. rewrite VB. rewrite (proj2 (Reqb_iff 0 0)) by reflexivity. rewrite Rplus_0_r.
    assert (Dc : dochecks (pz e) (pz e) 0 (uw (us i)) = 0); [|destruct (Reqb (mld m) bottom); exact Dc].
    unfold dochecks. rewrite (proj2 (Reqb_no (pz e) 0)) by lra. rewrite (proj2 (Rltb_false (pz e) 0)) by lra.
    rewrite (proj2 (Reqb_no (pz e) bottom)) by lra. rewrite (proj2 (Rltb_false bottom (pz e))) by lra. reflexivity.
Qed.
Print Assumptions C108_layer_partial.

(** When the reach of a step exceeds the depth of the mixed layer, reflection at the surface takes
    elements through its base: mixed layer of 1 m, 6 cm2/s, 900 s, element at 0.1 m. *)
Theorem C108_long_step_refuted : exists m dt e u, v_valid m /\ v_draws u /\ vbelow m = 0 /\ (0 < dt)%Z /\
  0 < pz e < mld m /\ mld m < pz e + dz (v_move m dt e u).
Proof.
  exists (mkV 6 0 100000 126 1 false), 900%Z, (mkPel 45 (1/10) 2), (mkD (1/2) (1/2) 0 (1/2) (1/2) (1/2)).
  split; [unfold v_valid; cbn; lra|]. split; [unfold v_draws; cbn; lra|]. split; [reflexivity|]. split; [lia|]. cbn [pz mld]. split; [lra|].
  unfold v_move. cbn [surface_ok negb]. rewrite orb_true_r. cbn [dz pz]. unfold v_vertical. cbn [mld vabove vbelow um uml ub uw].
  rewrite (proj2 (Rltb_false 1 (1/10))) by lra. rewrite (proj2 (Reqb_no 6 0)) by lra. rewrite (proj2 (Rltb_false bottom 1)) by (unfold bottom; lra).
  replace (reach_m 6 900) with (18 / 10) by (unfold reach_m; replace (6 * (6 / 10000) * 900) with (18/10 * (18/10)) by lra; rewrite sqrt_square; lra).
  replace (uniform (-1) 1 0 * (18 / 10)) with (-18/10) by (unfold uniform; lra). rewrite (proj2 (Rltb_false 1 (1 / 10 + -18 / 10))) by lra.
  rewrite (proj2 (Reqb_no 1 bottom)) by (unfold bottom; lra). rewrite (proj2 (Reqb_iff 0 0)) by reflexivity.
  unfold dochecks. rewrite (proj2 (Reqb_no (1 / 10 + -18 / 10) 0)) by lra. rewrite (Rltb_yes (1 / 10 + -18 / 10) 0) by lra.
  rewrite (proj2 (Rltb_false bottom _)) by (unfold bottom; lra). lra.
Qed.
Print Assumptions C108_long_step_refuted.

Example C108_meets : reach_m 6 900 <= 10 /\ eps <= 10 < 2500.
Proof.
  split; [|unfold eps; lra]. unfold reach_m. replace (6 * (6 / 10000) * 900) with (18/10 * (18/10)) by lra. rewrite sqrt_square; lra.
Qed.

(** ** C109: the rise velocity of a droplet. *)

(** Stokes' law below 0.2 mm, form drag from 1 cm on. *)
Theorem C109_laws : forall rho size visc rhow, 0 < visc -> 0 < rhow -> rho <= rhow ->
  (size < 2 / 10000 -> rise_velocity rho size visc rhow = Some (stokes rho size visc rhow)) /\
  (1 / 100 <= size -> rise_velocity rho size visc rhow = Some (form_drag rho size rhow)).
Proof.
  intros rho size visc rhow V R B. unfold rise_velocity, d1, d2. set (s := (size - 2 / 10000) / (1 / 100 - 2 / 10000)).
  assert (S : s * (1 / 100 - 2 / 10000) + 2 / 10000 = size) by (unfold s; field).
  split; intros H.
  - rewrite (Rltb_yes s 0) by lra. cbn zeta. rewrite S. unfold stokes. f_equal. field. lra.
  - rewrite (proj2 (Rltb_false s 0)) by lra. rewrite (proj2 (Rltb_false s 1)) by lra. cbn zeta. rewrite S.
    assert (P : 0 <= (rhow - rho) / rhow * size). { apply Rmult_le_pos; [apply Rmult_le_pos; [lra|apply Rlt_le, Rinv_0_lt_compat; lra]|lra]. }
    assert (E : 8 * (98 / 10 * (rhow - rho) / rhow) * size / 3 = 8 / 3 * (98 / 10) * (rhow - rho) / rhow * size) by (field; lra).
    rewrite E. rewrite nan_sqrt_ok; [reflexivity|]. replace (8 / 3 * (98 / 10) * (rhow - rho) / rhow * size) with (8 / 3 * (98 / 10) * ((rhow - rho) / rhow * size)) by (unfold Rdiv; ring). lra.
Qed.
Print Assumptions C109_laws.

(** Between the two: the cubic. *)
Lemma rise_between rho size visc rhow : 0 < visc -> 0 < rhow -> rho <= rhow -> d1 <= size < d2 ->
  let a1 := stokes rho d1 visc rhow in let a3 := form_drag rho d2 rhow in
  rise_velocity rho size visc rhow = Some (cubic a1 (a1 * (49 / 2)) a3 (a3 * (49 / 100)) ((size - d1) / (d2 - d1))).
Proof.
  intros V R B H. unfold rise_velocity, d1, d2 in *. cbn zeta. set (s := (size - 2 / 10000) / (1 / 100 - 2 / 10000)).
  assert (S : s * (1 / 100 - 2 / 10000) + 2 / 10000 = size) by (unfold s; field).
  rewrite (proj2 (Rltb_false s 0)) by lra. rewrite (Rltb_yes s 1) by lra.
  assert (P : 0 <= (rhow - rho) / rhow). { apply Rmult_le_pos; [lra|apply Rlt_le, Rinv_0_lt_compat; lra]. }
  assert (E : 8 * (98 / 10 * (rhow - rho) / rhow) * (1 / 100) / 3 = 8 / 3 * (98 / 10) * (rhow - rho) / rhow * (1 / 100)) by (field; lra).
  rewrite E. rewrite nan_sqrt_ok.
  2:{ replace (8 / 3 * (98 / 10) * (rhow - rho) / rhow * (1 / 100)) with (8 / 3 * (98 / 10) * (1 / 100) * ((rhow - rho) / rhow)) by (unfold Rdiv; ring). apply Rmult_le_pos; lra. }
  fold (form_drag rho (1 / 100) rhow). set (a3 := form_drag rho (1 / 100) rhow). f_equal. unfold cubic, stokes. clearbody s. field. lra.
Qed.

Lemma stokes_nonneg rho size visc rhow : 0 < visc -> 0 < rhow -> rho <= rhow -> 0 <= stokes rho size visc rhow.
Proof.
  intros V R B. unfold stokes. pose proof (Rle_0_sqr size) as Q. unfold Rsqr in Q.
  replace (98 / 10 * (rhow - rho) / rhow * (size * size) / (18 * visc)) with (98 / 10 * (rhow - rho) * (size * size) * / (rhow * (18 * visc))) by (field; lra).
  apply Rmult_le_pos; [apply Rmult_le_pos; [apply Rmult_le_pos; lra|exact Q]|]. apply Rlt_le, Rinv_0_lt_compat. apply Rmult_lt_0_compat; lra.
Qed.

(** In water at least half as viscous as at 20 degrees, the end slopes of the cubic are moderate. *)
Lemma slopes_ok rho visc rhow : 5 / 10000000 <= visc -> 0 < rhow -> 0 <= rho <= rhow ->
  stokes rho d1 visc rhow * (49 / 2) + form_drag rho d2 rhow * (49 / 100) <= 3 * (form_drag rho d2 rhow - stokes rho d1 visc rhow).
Proof.
  intros V R B. unfold stokes, form_drag, d1, d2. set (x := (rhow - rho) / rhow).
  assert (X : 0 <= x <= 1).
  { unfold x. split; [apply Rmult_le_pos; [lra|apply Rlt_le, Rinv_0_lt_compat; lra]|]. apply (Rmult_le_reg_r rhow); [lra|]. unfold Rdiv. rewrite Rmult_assoc, Rinv_l by lra. lra. }
  replace (98 / 10 * (rhow - rho) / rhow * (2 / 10000 * (2 / 10000)) / (18 * visc)) with (x * (98 / 10 * (4 / 100000000) / 18) * / visc) by (unfold x; field; lra).
  replace (8 / 3 * (98 / 10) * (rhow - rho) / rhow * (1 / 100)) with (784 / 3000 * x) by (unfold x; field; lra).
  set (q := sqrt (784 / 3000 * x)). assert (Q0 : 0 <= q) by apply sqrt_pos. assert (Q2 : q * q = 784 / 3000 * x) by (unfold q; apply sqrt_sqrt; lra).
  assert (Q1 : q <= 52 / 100). { apply Rnot_lt_le. intros C. assert (52 / 100 * (52 / 100) < q * q) by (apply Rmult_le_0_lt_compat; lra). lra. }
  assert (I : / visc <= 2000000).
  { replace 2000000 with (/ (5 / 10000000)) by field. apply Rinv_le_contravar; lra. }
  assert (S : x * (98 / 10 * (4 / 100000000) / 18) * / visc <= x * (98 / 10 * (4 / 100000000) / 18) * 2000000).
  { apply Rmult_le_compat_l; [apply Rmult_le_pos; lra|exact I]. }
  assert (Qx : x = 3000 / 784 * (q * q)) by lra.
  assert (Qq : q * q <= 52 / 100 * q) by (apply Rmult_le_compat_r; lra). lra.
Qed.

(** A larger droplet does not rise more slowly. *)
Theorem C109_monotone : forall rho visc rhow s t, 5 / 10000000 <= visc -> 0 < rhow -> 0 <= rho <= rhow -> 0 <= s <= t ->
  exists v w, rise_velocity rho s visc rhow = Some v /\ rise_velocity rho t visc rhow = Some w /\ 0 <= v <= w.
Proof.
  intros rho visc rhow s t V R B St. assert (V0 : 0 < visc) by lra.
  set (a1 := stokes rho d1 visc rhow). set (a3 := form_drag rho d2 rhow).
  assert (A1 : 0 <= a1) by (apply stokes_nonneg; lra). assert (A3 : 0 <= a3) by apply sqrt_pos.
  assert (SL : a1 * (49 / 2) + a3 * (49 / 100) <= 3 * (a3 - a1)) by (apply slopes_ok; auto).
  assert (K : a1 <= a3) by lra.
  assert (M1 : forall x y, 0 <= x <= y -> stokes rho x visc rhow <= stokes rho y visc rhow).
  { intros x y H. unfold stokes. apply Rmult_le_compat_r; [apply Rlt_le, Rinv_0_lt_compat; lra|]. apply Rmult_le_compat_l; [|apply Rmult_le_compat; lra].
    apply Rmult_le_pos; [apply Rmult_le_pos; lra|apply Rlt_le, Rinv_0_lt_compat; lra]. }
  assert (M3 : forall x y, 0 <= x <= y -> form_drag rho x rhow <= form_drag rho y rhow).
  { intros x y H. unfold form_drag. apply sqrt_le_1_alt. apply Rmult_le_compat_l; [|lra].
    apply Rmult_le_pos; [apply Rmult_le_pos; lra|apply Rlt_le, Rinv_0_lt_compat; lra]. }
  assert (C0 : forall x, d1 <= x < d2 -> 0 <= (x - d1) / (d2 - d1) <= 1).
  { intros x H. unfold d1, d2 in *. lra. }
  set (cb := cubic a1 (a1 * (49 / 2)) a3 (a3 * (49 / 100))).
  assert (CM : forall x y, 0 <= x -> x <= y -> y <= 1 -> cb x <= cb y). { intros x y. unfold cb. apply cubic_mono; lra. }
  assert (C00 : cb 0 = a1) by (unfold cb, cubic; ring). assert (C01 : cb 1 = a3) by (unfold cb, cubic; ring).
  pose proof (C109_laws rho s visc rhow V0 R ltac:(lra)) as [Ls1 Ls2]. pose proof (C109_laws rho t visc rhow V0 R ltac:(lra)) as [Lt1 Lt2].
  assert (Bs := rise_between rho s visc rhow V0 R ltac:(lra)). assert (Bt := rise_between rho t visc rhow V0 R ltac:(lra)).
  cbn zeta in Bs, Bt. fold a1 a3 in Bs, Bt. fold cb in Bs, Bt.
  destruct (Rlt_le_dec s d1) as [S1|S1]; [|destruct (Rlt_le_dec s d2) as [S2|S2]];
  (destruct (Rlt_le_dec t d1) as [T1|T1]; [|destruct (Rlt_le_dec t d2) as [T2|T2]]); try lra.
  - eexists. eexists. split; [apply Ls1; exact S1|]. split; [apply Lt1; exact T1|]. split; [apply stokes_nonneg; lra|]. apply M1. lra.
  - eexists. eexists. split; [apply Ls1; exact S1|]. split; [apply Bt; lra|]. split; [apply stokes_nonneg; lra|].
    apply Rle_trans with a1; [apply M1; unfold d1 in *; lra|]. rewrite <- C00. pose proof (C0 t ltac:(lra)). apply CM; lra.
  - eexists. eexists. split; [apply Ls1; exact S1|]. split; [apply Lt2; exact T2|]. split; [apply stokes_nonneg; lra|].
    apply Rle_trans with a1; [apply M1; unfold d1 in *; lra|]. apply Rle_trans with a3; [exact K|]. apply M3. unfold d2 in *. lra.
  - eexists. eexists. split; [apply Bs; lra|]. split; [apply Bt; lra|]. pose proof (C0 s ltac:(lra)). pose proof (C0 t ltac:(lra)).
    assert (Q : (s - d1) / (d2 - d1) <= (t - d1) / (d2 - d1)) by (unfold d1, d2; lra).
    split; [apply Rle_trans with a1; [exact A1|rewrite <- C00; apply CM; lra]|apply CM; lra].
  - eexists. eexists. split; [apply Bs; lra|]. split; [apply Lt2; exact T2|]. pose proof (C0 s ltac:(lra)).
    split; [apply Rle_trans with a1; [exact A1|rewrite <- C00; apply CM; lra]|]. apply Rle_trans with a3; [rewrite <- C01; apply CM; lra|]. apply M3. unfold d2 in *. lra.
  - eexists. eexists. split; [apply Ls2; exact S2|]. split; [apply Lt2; exact T2|]. split; [apply sqrt_pos|]. apply M3. unfold d2 in *. lra.
Qed.
Print Assumptions C109_monotone.

(** A droplet denser than water sinks by Stokes' law if it is smaller than 0.2 mm; for a larger one
    the result is not a number. *)
Theorem C109_dense_refuted : forall rho size visc rhow, 0 < visc -> 0 < rhow < rho -> 0 < size ->
  (size < 2 / 10000 -> exists v, rise_velocity rho size visc rhow = Some v /\ v < 0) /\
  (2 / 10000 <= size -> rise_velocity rho size visc rhow = None).
Proof.
  intros rho size visc rhow V R S0. unfold rise_velocity, d1, d2. set (s := (size - 2 / 10000) / (1 / 100 - 2 / 10000)).
  assert (S : s * (1 / 100 - 2 / 10000) + 2 / 10000 = size) by (unfold s; field).
  assert (D : 98 / 10 * (rhow - rho) / rhow < 0).
  { replace (98 / 10 * (rhow - rho) / rhow) with (- (98 / 10 * (rho - rhow) * / rhow)) by (field; lra). apply Ropp_lt_gt_0_contravar.
    apply Rmult_lt_0_compat; [lra|apply Rinv_0_lt_compat; lra]. }
  set (f := 98 / 10 * (rhow - rho) / rhow) in *. clearbody f. split; intros H.
  - rewrite (Rltb_yes s 0) by lra. cbn zeta. rewrite S. eexists. split; [reflexivity|].
    replace (f * size * size / (18 * visc)) with (- (- f * (size * size) * / (18 * visc))) by (field; lra). apply Ropp_lt_gt_0_contravar.
    apply Rmult_lt_0_compat; [apply Rmult_lt_0_compat; [lra|apply Rmult_lt_0_compat; lra]|apply Rinv_0_lt_compat; lra].
  - rewrite (proj2 (Rltb_false s 0)) by lra. destruct (Rltb s 1) eqn:E.
    + cbn zeta. unfold nan_sqrt. rewrite (Rltb_yes (8 * f * (1 / 100) / 3) 0) by lra. reflexivity.
    + cbn zeta. rewrite S. unfold nan_sqrt. rewrite (Rltb_yes (8 * f * size / 3) 0); [reflexivity|]. assert (0 < - f * size) by (apply Rmult_lt_0_compat; lra). lra.
Qed.
Print Assumptions C109_dense_refuted.

(** There is no jump at 0.2 mm or at 1 cm: the velocity is a continuous function of the size. *)
Lemma Rmin_abs x y : Rmin x y = (x + y - Rabs (x - y)) / 2.
Proof. unfold Rmin. destruct (Rle_dec x y); [rewrite Rabs_left1 by lra|rewrite Rabs_right by lra]; lra. Qed.
Lemma Rmax_abs x y : Rmax x y = (x + y + Rabs (x - y)) / 2.
Proof. unfold Rmax. destruct (Rle_dec x y); [rewrite Rabs_left1 by lra|rewrite Rabs_right by lra]; lra. Qed.

Lemma continuity_pt_ext (f g : R -> R) x : (forall y, f y = g y) -> continuity_pt f x -> continuity_pt g x.
Proof.
  intros E C. unfold continuity_pt, continue_in, limit1_in, limit_in in *. intros e He. destruct (C e He) as [a [Ha K]].
  exists a. split; [exact Ha|]. intros y Hy. rewrite <- !E. apply K. exact Hy.
Qed.

Theorem C109_continuous : forall rho visc rhow d, 0 < visc -> 0 < rhow -> rho <= rhow ->
  continuity_pt (fun x => match rise_velocity rho x visc rhow with Some v => v | None => 0 end) d.
Proof.
  intros rho visc rhow d V Rw B. set (a1 := stokes rho d1 visc rhow). set (a3 := form_drag rho d2 rhow).
  set (cb := cubic a1 (a1 * (49 / 2)) a3 (a3 * (49 / 100))).
  assert (C00 : cb 0 = a1) by (unfold cb, cubic; ring). assert (C01 : cb 1 = a3) by (unfold cb, cubic; ring).
  set (lo := fun x : R => (x + d1 - Rabs (x - d1)) / 2). set (hi := fun x : R => (x + d2 + Rabs (x - d2)) / 2).
  set (mid := fun x : R => (x - lo x - (hi x - d2)) / (d2 - d1)).
  assert (Lo : forall x, lo x = Rmin x d1) by (intros; unfold lo; rewrite Rmin_abs; reflexivity).
  assert (Hi : forall x, hi x = Rmax x d2) by (intros; unfold hi; rewrite Rmax_abs; reflexivity).
  assert (P : 0 <= (rhow - rho) / rhow). { apply Rmult_le_pos; [lra|apply Rlt_le, Rinv_0_lt_compat; lra]. }
  set (k := 8 / 3 * (98 / 10) * (rhow - rho) / rhow).
  assert (K : 0 <= k). { unfold k. replace (8 / 3 * (98 / 10) * (rhow - rho) / rhow) with (8 / 3 * (98 / 10) * ((rhow - rho) / rhow)) by (unfold Rdiv; ring). lra. }
  set (c := 98 / 10 * (rhow - rho) / rhow / (18 * visc)).
  apply (continuity_pt_ext (fun x => c * (lo x * lo x) + (cb (mid x) - a1) + (sqrt (k * hi x) - a3))).
  - intros x. unfold mid. destruct (Rlt_le_dec x d1) as [X1|X1]; [|destruct (Rlt_le_dec x d2) as [X2|X2]].
    + rewrite (proj1 (C109_laws rho x visc rhow V Rw B) X1). rewrite Hi, (Lo x). rewrite Rmin_left by lra. rewrite Rmax_right by (unfold d1, d2 in *; lra).
      match goal with |- context [cb ?z] => replace z with 0 by (unfold d1, d2; field) end. rewrite C00. fold (form_drag rho d2 rhow).
      change (sqrt (k * d2)) with (form_drag rho d2 rhow). fold a3. unfold stokes, c. field. lra.
    + rewrite (rise_between rho x visc rhow V Rw B (conj X1 X2)). fold a1 a3. fold cb. rewrite Hi, (Lo x). rewrite Rmin_right by lra. rewrite Rmax_right by lra.
      replace ((x - d1 - (d2 - d2)) / (d2 - d1)) with ((x - d1) / (d2 - d1)) by (unfold d1, d2; field).
      change (sqrt (k * d2)) with (form_drag rho d2 rhow). fold a3. replace (c * (d1 * d1)) with a1 by (unfold a1, stokes, c; field; lra). ring.
    + rewrite (proj2 (C109_laws rho x visc rhow V Rw B) X2). rewrite Hi, (Lo x). rewrite Rmin_right by (unfold d1, d2 in *; lra). rewrite Rmax_left by lra.
      match goal with |- context [cb ?z] => replace z with 1 by (unfold d1, d2; field) end. rewrite C01.
      change (sqrt (k * x)) with (form_drag rho x rhow). replace (c * (d1 * d1)) with a1 by (unfold a1, stokes, c; field; lra). ring.
  - assert (Cid : forall x, continuity_pt (fun y => y) x) by (intros; apply derivable_continuous_pt, derivable_pt_id).
    assert (Cc : forall q x, continuity_pt (fun _ : R => q) x) by (intros; apply continuity_pt_const; intros y z; reflexivity).
    assert (Cabs : forall q x, continuity_pt (fun y => Rabs (y - q)) x).
    { intros q x. apply (continuity_pt_comp (fun y => y - q) Rabs); [apply continuity_pt_minus; auto|apply Rcontinuity_abs]. }
    assert (Clo : continuity_pt lo d).
    { unfold lo, Rdiv. apply (continuity_pt_mult (fun x => x + d1 - Rabs (x - d1)) (fun _ => / 2)); [|apply Cc].
      apply (continuity_pt_minus (fun x => x + d1) (fun x => Rabs (x - d1))); [apply (continuity_pt_plus (fun x => x) (fun _ => d1)); auto|apply Cabs]. }
    assert (Chi : continuity_pt hi d).
    { unfold hi, Rdiv. apply (continuity_pt_mult (fun x => x + d2 + Rabs (x - d2)) (fun _ => / 2)); [|apply Cc].
      apply (continuity_pt_plus (fun x => x + d2) (fun x => Rabs (x - d2))); [apply (continuity_pt_plus (fun x => x) (fun _ => d2)); auto|apply Cabs]. }
    assert (Cmid : continuity_pt mid d).
    { apply (continuity_pt_ext (fun x => (x - lo x - (hi x - d2)) * / (d2 - d1))); [intros; unfold mid, Rdiv; ring|].
      apply (continuity_pt_mult (fun x => x - lo x - (hi x - d2)) (fun _ => / (d2 - d1))); [|apply Cc].
      apply (continuity_pt_minus (fun x => x - lo x) (fun x => hi x - d2)); [apply (continuity_pt_minus (fun x => x) lo); auto|apply (continuity_pt_minus hi (fun _ => d2)); auto]. }
    assert (Ccb : forall x, continuity_pt cb x).
    { intros x. unfold cb, cubic. repeat (apply continuity_pt_plus || apply continuity_pt_mult || apply Cc || apply Cid). }
    apply (continuity_pt_plus (fun x => c * (lo x * lo x) + (cb (mid x) - a1)) (fun x => sqrt (k * hi x) - a3)).
    + apply (continuity_pt_plus (fun x => c * (lo x * lo x)) (fun x => cb (mid x) - a1)).
      * apply (continuity_pt_mult (fun _ => c) (fun x => lo x * lo x)); [apply Cc|apply (continuity_pt_mult lo lo); auto].
      * apply (continuity_pt_minus (fun x => cb (mid x)) (fun _ => a1)); [apply (continuity_pt_comp mid cb); auto|apply Cc].
    + apply (continuity_pt_minus (fun x => sqrt (k * hi x)) (fun _ => a3)); [|apply Cc].
      apply (continuity_pt_comp (fun x => k * hi x) sqrt); [apply (continuity_pt_mult (fun _ => k) hi); auto|].
      apply continuity_pt_sqrt. apply Rmult_le_pos; [exact K|]. rewrite Hi. apply Rle_trans with d2; [unfold d2; lra|apply Rmax_r].
Qed.
Print Assumptions C109_continuous.

Example C109_meets : 5 / 10000000 <= 1 / 1000000 /\ 0 < 1020 /\ 0 <= 900 <= 1020 /\
  rise_velocity 900 (1 / 10000) (1 / 1000000) 1020 = Some (stokes 900 (1 / 10000) (1 / 1000000) 1020).
Proof. repeat split; try lra. apply (C109_laws 900 (1 / 10000) (1 / 1000000) 1020); lra. Qed.

(** ** C110: rising changes the depth alone, by velocity times time - forwards. *)

Theorem C110_rise_partial : forall letype dt l ds, rise_moves letype dt l = Ok ds -> length ds = length l /\
  forall i e v, nth_error l i = Some (e, v) -> exists d, nth_error ds i = Some d /\ dlong d = 0 /\ dlat d = 0 /\
    (pstatus e = in_water -> pz e + dz d = pz e - v * IZR dt) /\ (pstatus e <> in_water -> dz d = 0).
Proof.
  intros letype dt l ds H. unfold rise_moves in H. destruct (dt <? 0)%Z; [discriminate|]. destruct ((letype <? 1)%Z || (2 <? letype)%Z); [discriminate|].
  apply Ok_inj1 in H. subst ds. split; [apply map_length|]. intros i e v N. rewrite nth_error_map, N. cbn [option_map fst snd].
  eexists. split; [reflexivity|]. destruct (pstatus e =? in_water)%Z eqn:E; cbn [dlong dlat dz no_move].
  - apply Z.eqb_eq in E. repeat split; intros; [lra|congruence].
  - apply Z.eqb_neq in E. repeat split; intros; [congruence].
Qed.
Print Assumptions C110_rise_partial.

(** A model that runs backwards cannot use this mover, nor the random walk in three dimensions. *)
Theorem C110_backwards_refuted : forall letype dt, (dt < 0)%Z ->
  (forall l, rise_moves letype dt l = Raise OverflowErr) /\ (forall m l us, v_moves m letype dt l us = Raise OverflowErr).
Proof. intros letype dt D. apply Z.ltb_lt in D. split; intros; [unfold rise_moves|unfold v_moves]; rewrite D; reflexivity. Qed.
Print Assumptions C110_backwards_refuted.

(** Forwards every valid call is answered. *)
Theorem C110_forwards : forall letype dt, (0 <= dt)%Z -> (letype = 1 \/ letype = 2)%Z ->
  (forall l, exists ds, rise_moves letype dt l = Ok ds) /\ (forall m l us, exists ds, v_moves m letype dt l us = Ok ds).
Proof.
  intros letype dt D T. apply Z.ltb_ge in D. assert (E : (letype <? 1)%Z || (2 <? letype)%Z = false) by (destruct T; subst; reflexivity).
  split; intros; [unfold rise_moves|unfold v_moves]; rewrite D, E; eexists; reflexivity.
Qed.
Print Assumptions C110_forwards.
