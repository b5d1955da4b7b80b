(** * C96, C97, C98: time series *)
From Coq Require Import QArith Qabs Qminmax Lqa Qfield.
From Verif Require Import Py PyLemmas QLemmas TsModel TsSpec TsProofs.
Open Scope Z_scope.

(** ** C96: the value of a time series *)
Lemma nth_mid : forall (l1 : list pt) p q l2, nth_error (l1 ++ p :: q :: l2) (length l1) = Some p /\ nth_error (l1 ++ p :: q :: l2) (S (length l1)) = Some q.
Proof.
  intros l1 p q l2. split.
  - rewrite nth_error_app2 by lia. rewrite Nat.sub_diag. reflexivity.
  - rewrite nth_error_app2 by lia. replace (S (length l1) - length l1)%nat with 1%nat by lia. reflexivity.
Qed.

(** Between two consecutive entries, whatever else the series holds and whether or not
    extrapolation is allowed. *)
Theorem C96_interpolates : forall l e l1 p q l2 t, ascending l -> l = l1 ++ p :: q :: l2 -> fst p <= t <= fst q ->
  exists w, get_time_value (mkTs l e) t = Ok w /\ between p q t w /\ check_time_in_range (mkTs l e) t = Ok true.
Proof.
  intros l e l1 p q l2 t A E T. destruct (nth_mid l1 p q l2) as [Hp Hq]. rewrite <- E in Hp, Hq.
  destruct (value_ok l (length l1) p q t (0, 0)%Q A Hp Hq T) as [w [V B]]. exists w. unfold get_time_value. rewrite V.
  split; [reflexivity|]. split; [exact B|]. unfold check_time_in_range. cbn [pts].
  destruct l as [|a l]; [destruct l1; discriminate|]. destruct (length (a :: l) =? 1)%nat; [reflexivity|].
  destruct (nth_ex (a :: l) 0) as [f Hf]; [cbn; lia|]. destruct (nth_ex (a :: l) (length (a :: l) - 1)) as [g Hg]; [cbn; lia|].
  rewrite (rd_ok _ _ _ Hf), (rd_ok _ _ _ Hg). cbn [bind].
  pose proof (asc_le _ A 0 (length l1) f p ltac:(lia) Hf Hp). pose proof (asc_le _ A (S (length l1)) (length (a :: l) - 1) q g ltac:(pose proof (nth_lt _ _ _ Hq); lia) Hq Hg).
  destruct (Z.ltb_spec t (fst f)); [lia|]. destruct (Z.ltb_spec (fst g) t); [lia|]. reflexivity.
Qed.
Print Assumptions C96_interpolates.

(** A series of one entry is constant, also without extrapolation. *)
Theorem C96_single : forall p e t, get_time_value (mkTs [p] e) t = Ok (snd p) /\ check_time_in_range (mkTs [p] e) t = Ok true.
Proof. intros [tp [u v]] e t. destruct e; split; reflexivity. Qed.
Print Assumptions C96_single.

(** At the time of an entry: the entry. *)
Theorem C96_data : forall l e p, ascending l -> In p l -> exists w, get_time_value (mkTs l e) (fst p) = Ok w /\ veq w (snd p).
Proof.
  intros l e p A I. apply in_split in I. destruct I as [l1 [l2 E]]. destruct l2 as [|q l2].
  - destruct (exists_last_or l1) as [-> | [l0 [x ->]]].
    + subst l. exists (snd p). split; [apply C96_single|]. split; reflexivity.
    + rewrite <- app_assoc in E. cbn [app] in E. pose proof (A l0 x p [] E) as L.
      destruct (C96_interpolates l e l0 x p [] (fst p) A E ltac:(lia)) as [w [W [[B1 B2] _]]].
      exists w. split; [exact W|]. split; [apply B1; reflexivity|apply B2; reflexivity].
  - pose proof (A l1 p q l2 E) as L. destruct (C96_interpolates l e l1 p q l2 (fst p) A E ltac:(lia)) as [w [W [[B1 B2] _]]].
    exists w. split; [exact W|]. split; [apply B1; reflexivity|apply B2; reflexivity].
Qed.
Print Assumptions C96_data.

(** Outside the range: the nearest entry's value if extrapolation is allowed, otherwise
    IndexError; the range check says so. *)
Theorem C96_outside : forall l e p q t, ascending l -> (2 <= length l)%nat -> hd_error l = Some p -> hd_error (rev l) = Some q ->
  t < fst p \/ fst q < t ->
  check_time_in_range (mkTs l e) t = Ok false /\
  if e then exists w, get_time_value (mkTs l e) t = Ok w /\ veq w (if t <? fst p then snd p else snd q)
  else get_time_value (mkTs l e) t = Raise IndexErr.
Proof.
  intros l e p q t A L P Q T.
  assert (Hp : nth_error l 0 = Some p) by (destruct l; [discriminate|exact P]).
  assert (Hq : nth_error l (length l - 1) = Some q).
  { destruct (rev l) as [|x r] eqn:R; [discriminate|]. injection Q as <-. apply (f_equal (@rev pt)) in R. rewrite rev_involutive in R. cbn [rev] in R. subst l. apply last_idx. }
  pose proof (asc_le l A 0 (length l - 1) p q ltac:(lia) Hp Hq) as Lpq.
  split.
  - unfold check_time_in_range. cbn [pts]. destruct l as [|a l]; [discriminate|]. destruct (Nat.eqb_spec (length (a :: l)) 1) as [Y|_]; [lia|].
    rewrite (rd_ok _ _ _ Hp), (rd_ok _ _ _ Hq). cbn [bind]. destruct (Z.ltb_spec t (fst p)), (Z.ltb_spec (fst q) t); try reflexivity. lia.
  - destruct e.
    + set (x := if t <? fst p then p else q).
      assert (Ix : In x l). { unfold x. destruct (t <? fst p); eapply nth_error_In; eassumption. }
      destruct (C96_data l true x A Ix) as [w [W V]]. exists w.
      replace (if t <? fst p then snd p else snd q) with (snd x) by (unfold x; destruct (t <? fst p); reflexivity). split; [|exact V].
      rewrite <- W. unfold get_time_value, get_value. cbn [pts extrap]. destruct l as [|a l]; [discriminate|].
      unfold clamp. rewrite (rd_ok _ _ _ Hp), (rd_ok _ _ _ Hq). cbn [bind]. unfold x.
      destruct (Z.ltb_spec t (fst p)); [destruct (Z.ltb_spec (fst p) (fst p)); [lia|]; destruct (Z.ltb_spec (fst q) (fst p)); [lia|]; reflexivity|].
      destruct (Z.ltb_spec (fst q) t); [|lia]. destruct (Z.ltb_spec (fst q) (fst p)); [lia|]. destruct (Z.ltb_spec (fst q) (fst q)); [lia|]. reflexivity.
    + unfold get_time_value, get_value. cbn [pts extrap]. destruct l as [|a l]; [discriminate|].
      rewrite component_out; [reflexivity|exact L|].
      destruct T as [T|T]; [left|right]; intros y Iy; apply In_nth_error in Iy; destruct Iy as [k Hk].
      * pose proof (asc_le _ A 0 k p y ltac:(lia) Hp Hk). lia.
      * pose proof (asc_le _ A k (length (a :: l) - 1) y q ltac:(pose proof (nth_lt _ _ _ Hk); lia) Hk Hq). lia.
Qed.
Print Assumptions C96_outside.

(** Wind.at gives the same value, with ValueError for IndexError, for the series with the flag
    asked for; the series is afterwards as it was. *)
Theorem C96_at : forall s b t, snd (at_time s b t) = s /\
  (forall w, fst (at_time s b t) = Ok w <-> get_time_value (mkTs (pts s) (match b with Some x => x | None => extrap s end)) t = Ok w) /\
  (get_time_value (mkTs (pts s) (match b with Some x => x | None => extrap s end)) t = Raise IndexErr -> fst (at_time s b t) = Raise ValueErr).
Proof.
  intros [l x] b t. unfold at_time. cbn [pts extrap fst snd]. split; [reflexivity|].
  destruct (get_time_value (mkTs l match b with Some x0 => x0 | None => x end) t) as [w|ex]; [split; [intros w'; split; intros H; exact H|discriminate]|].
  split; [destruct ex; split; intros H; discriminate|]. intros H. injection H as ->. reflexivity.
Qed.
Print Assumptions C96_at.

(** Several times: each as if asked for alone. *)
Theorem C96_several : forall s ts ws, get_time_values s ts = Ok ws <-> Forall2 (fun t w => get_time_value s t = Ok w) ts ws.
Proof.
  intros s ts. unfold get_time_values. induction ts as [|t ts IH]; intros ws; cbn [mapM].
  - split; [intros H; injection H as <-; constructor|intros H; inversion H; reflexivity].
  - destruct (get_time_value s t) as [w|x] eqn:W; cbn [bind].
    + destruct (mapM (get_time_value s) ts) as [r|x] eqn:R; cbn [bind]; split; intros H.
      * apply Ok_inj0 in H. subst ws. constructor; [exact W|]. apply IH. reflexivity.
      * inversion H as [|? ? ? ? H1 H2]; subst. rewrite W in H1. apply IH in H2. congruence.
      * discriminate.
      * inversion H as [|? ? ? ? H1 H2]; subst. apply IH in H2. discriminate.
    + split; intros H; [discriminate|]. inversion H; subst. congruence.
Qed.
Print Assumptions C96_several.

Definition day : list pt := [(0, (1, 0)%Q); (3600, (3, 2)%Q); (7200, (3, 4)%Q); (10800, (0, 0)%Q); (14400, (5, 1)%Q); (18000, (5, 1)%Q)].
Lemma asc_of : forall l, diffs_ok (map fst l) = true -> ascending l.
Proof.
  induction l as [|a l IH]; intros H l1 p q l2 E; [destruct l1; discriminate|].
  destruct l as [|b l]; [destruct l1 as [|x [|y l1]]; discriminate|].
  cbn [map diffs_ok] in H. apply andb_prop in H. destruct H as [H1 H2].
  destruct l1 as [|x l1]; cbn [app] in E.
  - injection E; intros; subst. destruct (Z.leb_spec (fst q - fst p) 0); [discriminate|lia].
  - apply (IH H2 l1 p q l2). injection E. intros E' _. exact E'.
Qed.
Example C96_meets : ascending day /\ (exists w, get_time_value (mkTs day false) 5400 = Ok w /\ veq w (3, 3)%Q) /\
  get_time_value (mkTs day false) 18001 = Raise IndexErr /\ (exists w, get_time_value (mkTs day true) 99999 = Ok w /\ veq w (5, 1)%Q) /\
  fst (at_time (mkTs day true) (Some false) (-1)) = Raise ValueErr.
Proof.
  split; [apply asc_of; reflexivity|]. split; [eexists; split; [vm_compute; reflexivity|split; reflexivity]|].
  split; [reflexivity|]. split; [eexists; split; [vm_compute; reflexivity|split; reflexivity]|]. reflexivity.
Qed.

(** ** C97: a series whose times do not ascend is refused *)
Theorem C97_array : forall l allow, (ascending l -> make_series (Array l) allow = Ok (mkTs l allow)) /\ (~ ascending l -> make_series (Array l) allow = Raise ValueErr).
Proof.
  intros l allow. assert (D : ascending l -> diffs_ok (map fst l) = true).
  { induction l as [|a l IH]; intros A; [reflexivity|]. destruct l as [|b l]; [reflexivity|].
    cbn [map diffs_ok]. apply andb_true_intro. split; [pose proof (A [] a b l eq_refl) as L; destruct (Z.leb_spec (fst b - fst a) 0); [lia|reflexivity]|].
    apply IH. exact (asc_cons _ _ A). }
  unfold make_series, check_timeseries. cbn [entries]. split; intros A.
  - rewrite (D A). destruct (length l =? 1)%nat; reflexivity.
  - destruct (Nat.eqb_spec (length l) 1) as [L|L].
    + exfalso. apply A. intros l1 p q l2 E. apply (f_equal (@length pt)) in E. rewrite app_length in E. cbn in E. lia.
    + destruct (diffs_ok (map fst l)) eqn:X; [|reflexivity]. exfalso. exact (A (asc_of l X)).
Qed.
Print Assumptions C97_array.

(** A list is not checked: the series below is accepted and at time 10 it has the value 5, though
    the data say 40. *)
Theorem C97_list_refuted : exists l s p w, make_series (Lst l) false = Ok s /\ ~ ascending l /\ In p l /\
  get_time_value s (fst p) = Ok w /\ ~ veq w (snd p).
Proof.
  exists [(0, (0, 0)%Q); (20, (10, 0)%Q); (10, (40, 0)%Q); (30, (0, 0)%Q)].
  eexists. exists (10, (40, 0)%Q). let w := eval vm_compute in (get_time_value (mkTs [(0, (0, 0)%Q); (20, (10, 0)%Q); (10, (40, 0)%Q); (30, (0, 0)%Q)] false) 10) in match w with Ok ?x => exists x end.
  split; [reflexivity|]. split; [|split; [right; right; left; reflexivity|split; [vm_compute; reflexivity|intros [H _]; vm_compute in H; discriminate]]].
  intros A. specialize (A [(0, (0, 0)%Q)] (20, (10, 0)%Q) (10, (40, 0)%Q) [(30, (0, 0)%Q)] eq_refl). cbn in A. lia.
Qed.
Print Assumptions C97_list_refuted.

Example C97_meets : make_series (Array day) true = Ok (mkTs day true) /\ make_series (Array [(0, (1, 0)%Q); (0, (2, 0)%Q)]) true = Raise ValueErr.
Proof. split; reflexivity. Qed.

(** ** C98: the running average *)
(** The averages are made at equal steps through the window; each is the mean over the hours
    before it, by trapezoids of an hour, of the speed of the series with its first and last values
    held outside its range. *)
Theorem C98_average_partial : forall mag l e f g past mt hold,
  ascending l -> first_time l = Some f -> last_time l = Some g -> 0 < past -> mt <= g ->
  (e = true \/ mt < f) ->
  (forall t, get_time_value (mkTs l true) t = Ok (hold t)) ->
  exists step r, running_average mag (mkTs l e) past mt = Ok r /\
    0 < step <= 3600 /\ (forall l1 p q l2, l = l1 ++ p :: q :: l2 -> step <= fst q - fst p) /\
    (step = 3600 \/ exists l1 p q l2, l = l1 ++ p :: q :: l2 /\ step = fst q - fst p) /\
    (let (start, stop) := window f g mt in Z.of_nat (length r) = (stop - start) / step + 1 /\
     forall k x, nth_error r k = Some x -> fst x = start + Z.of_nat k * step) /\
    (forall x, In x r -> snd (snd x) = 0%Q /\ (fst (snd x) == trapezoid (fun t => mag (hold t)) (fst x) (Z.to_nat past) / inject_Z past)%Q).
Proof.
  intros mag l e f g past mt hold A F G P M C H. destruct (hd_first l f F) as [pf [Hf <-]]. destruct (tl_last l g G) as [pg [Hg <-]].
  assert (N : l <> []) by (intros ->; discriminate).
  assert (H' : forall t old, get_value (mkTs l true) t old = (None, hold t)).
  { intros t old. destruct (held_ok l A N t) as [w W]. specialize (H t). unfold get_time_value in H. rewrite (W (0, 0)%Q) in H. apply Ok_inj0 in H. rewrite W, H. reflexivity. }
  destruct (avg_step_ok l A 3600 ltac:(lia)) as [S1 [S2 [S3 S4]]].
  pose proof (asc_le l A 0 (length l - 1) pf pg ltac:(lia) Hf Hg) as Lfg.
  exists (avg_step l 3600).
  destruct (window (fst pf) (fst pg) mt) as [start stop] eqn:W.
  assert (R : running_average mag (mkTs l e) past mt = avg_values mag (Z.to_nat ((stop - start) / avg_step l 3600 + 1)) (mkTs l e) past mt start (avg_step l 3600) 0 (0, 0)%Q /\ start <= stop <= fst pg).
  { unfold running_average. cbn [pts]. destruct l as [|a l]; [contradiction|]. rewrite (rd_ok _ _ _ Hf), (rd_ok _ _ _ Hg). cbn [bind].
    set (step := avg_step (a :: l) 3600) in *. clearbody step. unfold window in W. change (48 * 3600) with 172800.
    destruct (Z.eqb_spec step 0); [lia|]. destruct (Z.eqb_spec past 0); [lia|]. cbn [orb].
    assert (St : start <= stop <= fst pg /\ (if fst pg - fst pf <=? 172800 then fst pf else if mt =? 0 then fst pf else mt) = start /\
      (if fst pg - fst pf <=? 172800 then fst pg else if mt =? 0 then (if fst pg - fst pf <=? 172800 then fst pf else if mt =? 0 then fst pf else mt) + 172800
       else Z.min ((if fst pg - fst pf <=? 172800 then fst pf else if mt =? 0 then fst pf else mt) + 172800) (fst pg)) = stop).
    { destruct (Z.leb_spec (fst pg - fst pf) 172800); [injection W as <- <-; lia|]. destruct (Z.eqb_spec mt 0); cbn in W; injection W as <- <-; lia. }
    destruct St as [St [E1 E2]]. rewrite E2, E1. split; [|exact St].
    pose proof (Z.div_pos (stop - start) step ltac:(lia) S1) as D. destruct (Z.eqb_spec stop start) as [->|Ns].
    - rewrite Z.sub_diag, Z.div_0_l by lia. reflexivity.
    - rewrite Z.quot_div_nonneg by lia. destruct (Z.leb_spec ((stop - start) / step + 1) 0); [lia|]. reflexivity. }
  destruct R as [R St]. rewrite R.
  pose proof (Z.div_pos (stop - start) (avg_step l 3600) ltac:(lia) S1) as D.
  pose proof (Z.mul_div_le (stop - start) (avg_step l 3600) S1) as D2.
  set (step := avg_step l 3600) in *. clearbody step. set (n := (stop - start) / step) in *. clearbody n.
  destruct (values_ok mag l e mt pf pg A Hf Hg C hold H' past start step (Z.to_nat (n + 1)) 0 (0, 0)%Q P S1 ltac:(lia)) as [r [Er [Lr Fr]]].
  { intros k Hk. nia. }
  exists r. split; [exact Er|]. split; [lia|]. split; [exact S3|]. split; [exact S4|]. split.
  - split; [rewrite Lr; lia|]. intros k x Hx. apply (Fr k x Hx).
  - intros x Ix. apply In_nth_error in Ix. destruct Ix as [k Hk]. apply (Fr k x Hk).
Qed.
Print Assumptions C98_average_partial.

(** So an average lies between the least and the greatest speed. *)
Theorem C98_bounds_partial : forall mag l e f g past mt lo hi r,
  ascending l -> first_time l = Some f -> last_time l = Some g -> 0 < past -> mt <= g -> (e = true \/ mt < f) ->
  (forall t w, get_time_value (mkTs l true) t = Ok w -> lo <= mag w /\ mag w <= hi)%Q ->
  running_average mag (mkTs l e) past mt = Ok r -> forall x, In x r -> (lo <= fst (snd x) /\ fst (snd x) <= hi)%Q.
Proof.
  intros mag l e f g past mt lo hi r A F G P M C B R x Ix.
  assert (N : l <> []) by (intros ->; discriminate).
  set (hold := fun t => snd (get_value (mkTs l true) t (0, 0)%Q)).
  assert (H : forall t, get_time_value (mkTs l true) t = Ok (hold t)).
  { intros t. destruct (held_ok l A N t) as [w W]. unfold hold, get_time_value. rewrite W. reflexivity. }
  destruct (C98_average_partial mag l e f g past mt hold A F G P M C H) as [step [r' [R' [_ [_ [_ [_ V]]]]]]].
  rewrite R in R'. apply Ok_inj0 in R'. subst r'. destruct (V x Ix) as [_ E]. rewrite E.
  destruct (trapezoid_bounds (fun t => mag (hold t)) lo hi (fst x) (fun y => B y (hold y) (H y)) (Z.to_nat past)) as [T1 T2].
  rewrite Z2Nat.id in T1, T2 by lia. pose proof (injZ_pos past P) as IP. clear - T1 T2 IP.
  set (T := trapezoid (fun t => mag (hold t)) (fst x) (Z.to_nat past)) in *. clearbody T. set (n := inject_Z past) in *. clearbody n.
  split; [apply Qle_shift_div_l; [exact IP|rewrite Qmult_comm; exact T1]|apply Qle_shift_div_r; [exact IP|rewrite Qmult_comm; exact T2]].
Qed.
Print Assumptions C98_bounds_partial.

(** When the model time lies in the record and extrapolation is not allowed, the hours before the
    record count as calm: the wind below blows at 6 all the time, and its average over 3 hours
    starts at 1. *)
Theorem C98_calm_refuted : exists l mt r x, ascending l /\ (forall t w, get_time_value (mkTs l true) t = Ok w -> Qabs (fst w) == 6)%Q /\
  running_average (fun v => Qabs (fst v)) (mkTs l false) 3 mt = Ok r /\ In x r /\ (fst (snd x) == 1)%Q.
Proof.
  exists [(0, (6, 0)%Q); (7200, (6, 0)%Q)], 3600.
  let r := eval vm_compute in (running_average (fun v => Qabs (fst v)) (mkTs [(0, (6, 0)%Q); (7200, (6, 0)%Q)] false) 3 3600) in
  match r with Ok (?x :: ?y) => exists (x :: y), x end.
  split; [apply asc_of; reflexivity|]. split.
  - intros t w H. set (l := [(0, (6, 0)%Q); (7200, (6, 0)%Q)]) in *. assert (A : ascending l) by (apply asc_of; reflexivity).
    assert (X : (fst w == 6)%Q).
    { destruct (Z.ltb_spec t 0) as [T|T]; [|destruct (Z.ltb_spec 7200 t) as [T'|T']].
      - destruct (C96_outside l true (0, (6, 0)%Q) (7200, (6, 0)%Q) t A ltac:(cbn; lia) eq_refl eq_refl ltac:(cbn; lia)) as [_ [w' [W [V _]]]].
        rewrite H in W. apply Ok_inj0 in W. subst w'. cbn [fst snd] in V. destruct (t <? 0); exact V.
      - destruct (C96_outside l true (0, (6, 0)%Q) (7200, (6, 0)%Q) t A ltac:(cbn; lia) eq_refl eq_refl ltac:(cbn; lia)) as [_ [w' [W [V _]]]].
        rewrite H in W. apply Ok_inj0 in W. subst w'. cbn [fst snd] in V. destruct (t <? 0); exact V.
      - destruct (C96_interpolates l true [] (0, (6, 0)%Q) (7200, (6, 0)%Q) [] t A eq_refl ltac:(cbn; lia)) as [w' [W [[[B _] _] _]]].
        rewrite H in W. apply Ok_inj0 in W. subst w'. cbn [fst snd] in B. destruct B as [B1 [B2 _]].
        apply Qle_antisym; [exact B2|exact B1]. }
    rewrite X. reflexivity.
  - split; [vm_compute; reflexivity|]. split; [left; reflexivity|]. reflexivity.
Qed.
Print Assumptions C98_calm_refuted.

Example C98_meets : exists r, running_average (fun v => Qabs (fst v)) (mkTs day false) 3 (-5) = Ok r /\ length r = 6%nat /\
  exists x, nth_error r 4 = Some x /\ fst x = 14400 /\ (fst (snd x) == 7 / 3)%Q.
Proof.
  let r := eval vm_compute in (running_average (fun v => Qabs (fst v)) (mkTs day false) 3 (-5)) in match r with Ok ?x => exists x end.
  split; [vm_compute; reflexivity|]. split; [reflexivity|]. eexists. split; [reflexivity|]. split; reflexivity.
Qed.
