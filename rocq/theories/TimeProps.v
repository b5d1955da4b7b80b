(** * Properties C11, C12, C52, C55, C61, C62, C63: times and longitudes *)
From Verif Require Import Py PyLemmas QLemmas TimeModel TimeSpec TimeProofs.
Open Scope Z_scope.

(** C12. The extended time line is a total order ... *)
Theorem C12_total_order :
  (forall a, tle a a) /\
  (forall a b c, tle a b -> tle b c -> tle a c) /\
  (forall a b, tle a b -> tle b a -> a = b) /\
  (forall a b, tle a b \/ tle b a) /\
  (forall us, tlt TMinus (TDate us) /\ tlt (TDate us) TInf) /\ tlt TMinus TInf.
Proof.
  exact (conj tle_refl (conj tle_trans (conj tle_antisym (conj tle_total
    (conj (fun us => conj (proj2 (tlt_cases TMinus (TDate us)) I) (proj2 (tlt_cases (TDate us) TInf) I))
          (proj2 (tlt_cases TMinus TInf) I)))))).
Qed.
Print Assumptions C12_total_order.

(** ... and every comparison operator, with the operands in either order and
    of any kind, answers according to it and never raises. *)
Theorem C12_operators_agree :
  forall a b,
    decides (py_lt a b) (tlt a b) /\ decides (py_le a b) (tle a b) /\
    decides (py_gt a b) (tlt b a) /\ decides (py_ge a b) (tle b a) /\
    decides (py_eq a b) (a = b) /\ decides (py_ne a b) (a <> b).
Proof.
  exact (fun a b => conj (py_lt_dec a b) (conj (py_le_dec a b) (conj (py_gt_dec a b)
    (conj (py_ge_dec a b) (conj (py_eq_dec a b) (py_ne_dec a b)))))).
Qed.
Print Assumptions C12_operators_agree.

(** C61. InfDateTime accepts exactly the dates that exist and lie between
    1970-01-01 and 2038-01-19 (midnight), both included; accepted dates compare
    as their calendar fields do. *)
Theorem C61_infdatetime_accepts :
  forall y mo d h mi s us t,
    infdt_new (YInt y) (Some mo) (Some d) h mi s us false = Ok t <->
    let f := mkFields y mo d h mi s us in
    real_date f /\ ~ earlier f (mkFields 1970 1 1 0 0 0 0) /\
    ~ earlier (mkFields 2038 1 19 0 0 0 0) f /\ t = TDate (fields_us f).
Proof. exact infdt_accepts. Qed.
Print Assumptions C61_infdatetime_accepts.

Theorem C61_infdatetime_compares :
  forall f g, real_date f -> real_date g ->
    (tlt (TDate (fields_us f)) (TDate (fields_us g)) <-> earlier f g).
Proof.
  exact (fun f g Hf Hg => iff_trans (tlt_cases (TDate (fields_us f)) (TDate (fields_us g))) (us_earlier f g Hf Hg)).
Qed.
Print Assumptions C61_infdatetime_compares.

Example C61_meets :
  real_date (mkFields 2012 2 29 23 59 59 0) /\ real_date (mkFields 2012 3 1 0 0 0 0) /\
  earlier (mkFields 2012 2 29 23 59 59 0) (mkFields 2012 3 1 0 0 0 0) /\
  infdt_new (YInt 2038) (Some 1) (Some 19) 0 0 0 0 false = Ok (TDate (2147472000 * sec_us)) /\
  infdt_new (YInt 2038) (Some 1) (Some 19) 0 0 0 1 false = Raise ValueErr /\
  infdt_new (YInt 1969) (Some 12) (Some 31) 23 59 59 999999 false = Raise ValueErr /\
  infdt_new (YInt 2013) (Some 2) (Some 29) 0 0 0 0 false = Raise ValueErr.
Proof.
  split; [unfold real_date; simpl; lia|]. split; [unfold real_date; simpl; lia|].
  split; [right; split; [reflexivity|left; reflexivity]|]. repeat split; vm_compute; reflexivity.
Qed.

(** C11. A process acts in a step exactly when it is on and the midpoint of the
    step lies in its window, infinite ends included. *)
Theorem C11_active_iff_midpoint :
  forall p ts now, exists p',
    prepare_step p ts now = Ok p' /\
    p_on p' = p_on p /\ p_lo p' = p_lo p /\ p_hi p' = p_hi p /\
    (p_active p' = true <-> p_on p = true /\ within (p_lo p) (TDate (now + half_td ts)) (p_hi p)).
Proof. exact prepare_step_spec. Qed.
Print Assumptions C11_active_iff_midpoint.

(** The midpoint is exact for steps of an even number of microseconds (so for
    whole seconds), forwards and backwards, and within half a microsecond
    otherwise. *)
Theorem C11_midpoint :
  forall ts, (Z.even ts = true -> 2 * half_td ts = ts) /\ ts - 1 <= 2 * half_td ts <= ts + 1.
Proof. exact (fun ts => conj (half_td_even ts) (half_td_bound ts)). Qed.
Print Assumptions C11_midpoint.

(** Of two processes whose windows share the endpoint [c], a step with midpoint
    elsewhere in the joint window is taken by exactly one. *)
Lemma split_windows : forall lo c hi ts now p1 p2,
    tle lo c -> tle c hi -> within lo (TDate (now + half_td ts)) hi ->
    TDate (now + half_td ts) <> c ->
    prepare_step (mkProc true lo c false) ts now = Ok p1 ->
    prepare_step (mkProc true c hi false) ts now = Ok p2 ->
    p_active p1 = negb (p_active p2).
Proof.
  intros lo c hi ts now p1 p2 H1 H2 [H3 H4] Hne E1 E2.
  destruct (prepare_step_spec (mkProc true lo c false) ts now) as (q1 & F1 & _ & _ & _ & A1).
  destruct (prepare_step_spec (mkProc true c hi false) ts now) as (q2 & F2 & _ & _ & _ & A2).
  rewrite E1 in F1; rewrite E2 in F2; inversion F1; inversion F2; subst q1 q2. simpl in A1, A2.
  unfold within in *. set (m := TDate (now + half_td ts)) in *.
  destruct (tle_total m c) as [T|T].
  - assert (p_active p1 = true) as -> by (apply A1; auto).
    destruct (p_active p2); [|reflexivity].
    exfalso. destruct (proj1 A2 eq_refl) as (_ & T' & _). apply Hne, tle_antisym; auto.
  - assert (p_active p2 = true) as -> by (apply A2; auto).
    destruct (p_active p1); [|reflexivity].
    exfalso. destruct (proj1 A1 eq_refl) as (_ & _ & T'). apply Hne, tle_antisym; auto.
Qed.

Theorem C11_adjacent_windows_split :
  forall lo c hi ts now p1 p2,
    tle lo c -> tle c hi -> within lo (TDate (now + half_td ts)) hi ->
    TDate (now + half_td ts) <> c ->
    prepare_step (mkProc true lo c false) ts now = Ok p1 ->
    prepare_step (mkProc true c hi false) ts now = Ok p2 ->
    p_active p1 = negb (p_active p2).
Proof. exact split_windows. Qed.
Print Assumptions C11_adjacent_windows_split.

(** C11. Only windows with start strictly before stop can be set; a refused
    window leaves the old one. *)
Lemma set_range_spec : forall p lo hi,
    (tlt lo hi -> set_active_range p lo hi = (mkProc (p_on p) lo hi (p_active p), Ok tt)) /\
    (~ tlt lo hi -> set_active_range p lo hi = (p, Raise ValueErr)).
Proof.
  intros p lo hi. unfold set_active_range. destruct (check_startstop_spec lo hi) as [A B].
  split; intros H; [rewrite (A H)|rewrite (B H)]; reflexivity.
Qed.
Theorem C11_window_must_be_proper :
  forall p lo hi,
    (tlt lo hi -> set_active_range p lo hi = (mkProc (p_on p) lo hi (p_active p), Ok tt)) /\
    (~ tlt lo hi -> set_active_range p lo hi = (p, Raise ValueErr)).
Proof. exact set_range_spec. Qed.
Print Assumptions C11_window_must_be_proper.

Example C11_meets :
  (exists p, prepare_step (mkProc true TMinus (TDate 450) false) 900 0 = Ok p /\ p_active p = true) /\
  (exists p, prepare_step (mkProc true (TDate (-450)) TInf false) (-900) 0 = Ok p /\ p_active p = true) /\
  (exists p, prepare_step (mkProc true (TDate 451) TInf false) 900 0 = Ok p /\ p_active p = false) /\
  (exists p, prepare_step (mkProc false TMinus TInf true) 900 0 = Ok p /\ p_active p = false) /\
  set_active_range (mkProc true TMinus TInf false) (TDate 5) TMinus
  = (mkProc true TMinus TInf false, Raise ValueErr).
Proof. repeat split; try (eexists; split; reflexivity); reflexivity. Qed.

(** C55. round_time gives, for a positive interval, the nearest point of the
    grid that starts at the midnight of the day and has the interval as its
    step, a tie going up; fractions of a second are dropped first. *)
Theorem C55_round_nearest :
  forall r dt, 0 < r -> forall m, midnight m dt ->
    exists y, round_one r dt = Ok y /\ (exists ys, y = ys * sec_us) /\
      exists ms, m = ms * sec_us /\ nearest_up r ms (dt / sec_us) (y / sec_us).
Proof. exact round_one_spec. Qed.
Print Assumptions C55_round_nearest.

Lemma round_time_many : forall r l, 0 < r -> (length l <> 1)%nat ->
  exists o, round_time r (Many l) = Ok (Many o) /\ Forall2 (fun x y => round_one r x = Ok y) l o.
Proof.
  intros r l Hr Hl. unfold round_time.
  assert (exists o, mapM (round_one r) l = Ok o /\ Forall2 (fun x y => round_one r x = Ok y) l o) as (o & E & F).
  { clear Hl. induction l as [|x l IH]; [exists []; split; [reflexivity|constructor]|].
    destruct IH as (o & E & F). simpl. rewrite E.
    assert (exists y, round_one r x = Ok y) as (y & Ey) by (unfold round_one; destruct (Z.eqb_spec r 0); [lia|eexists; reflexivity]).
    rewrite Ey. exists (y :: o). split; [reflexivity|constructor; auto]. }
  rewrite E. simpl. pose proof (Forall2_length _ _ _ F) as HL.
  destruct o as [|a [|b o]]; simpl in HL; try (exfalso; lia);
    (eexists; split; [reflexivity|assumption]).
Qed.
Theorem C55_round_array :
  forall r l, 0 < r -> (length l <> 1)%nat ->
    exists o, round_time r (Many l) = Ok (Many o) /\ Forall2 (fun x y => round_one r x = Ok y) l o.
Proof. exact round_time_many. Qed.
Print Assumptions C55_round_array.

Example C55_round_meets :
  midnight 0 (1800 * sec_us) /\ round_one 3600 (1800 * sec_us) = Ok (3600 * sec_us) /\
  round_one 3600 (1799 * sec_us + 999999) = Ok 0 /\
  round_one 7 (86399 * sec_us) = Ok (86401 * sec_us) /\
  round_time 60 (Many [30 * sec_us]) = Ok (Scalar (60 * sec_us)).
Proof.
  split; [split; [exists 0; reflexivity|unfold day_us, sec_us; lia]|].
  repeat split; vm_compute; reflexivity.
Qed.

(** C55. A datetime, in a zone with any standard offset and any pattern of
    one-hour daylight saving, survives the conversion to seconds and back up to
    the fraction of a second, as long as the seconds fit an unsigned 32-bit
    number; so does a sequence of two or more. *)
Theorem C55_seconds_round_trip :
  (forall z d, 0 <= d / sec_us - z_std z < 4294967296 ->
     exists s, date_to_sec z (Scalar d) = Ok s /\ sec_to_date z s = Scalar (d - d mod sec_us)) /\
  (forall z l, (2 <= length l)%nat ->
     Forall (fun d => 0 <= d / sec_us - z_std z < 4294967296) l ->
     exists s, date_to_sec z (Many l) = Ok s /\
       sec_to_date z s = Many (map (fun d => d - d mod sec_us) l)).
Proof. exact (conj scalar_round_trip many_round_trip). Qed.
Print Assumptions C55_seconds_round_trip.

(** Outside that range it does not: an hour before the epoch comes back more
    than a century later. *)
Theorem C55_seconds_round_trip_refuted :
  exists z d s, d mod sec_us = 0 /\ date_to_sec z (Scalar d) = Ok s /\ sec_to_date z s <> Scalar d.
Proof.
  exists (mkZone 0 (fun _ => false)), (-3600 * sec_us), (Scalar (-3600)).
  repeat split. vm_compute. discriminate.
Qed.
Print Assumptions C55_seconds_round_trip_refuted.

Example C55_seconds_meets :
  let z := mkZone (-28800) (fun s => (1000 <? s) && (s <? 2000000)) in
  0 <= (100000 * sec_us) / sec_us - z_std z < 4294967296 /\
  date_to_sec z (Scalar (100000 * sec_us)) = Ok (Scalar 128800) /\ z_dst z 128800 = true.
Proof. vm_compute. repeat split; discriminate. Qed.

(** C62. The ISO text of a time zone offset (sign, hours, minutes) denotes the
    timedelta of the offset. *)
Theorem C62_offset_text :
  forall o, exists neg h m,
    tz_iso (Some o) = Some (neg, h, m) /\ 0 <= h /\ 0 <= m <= 59 /\
    (neg = true <-> (o < 0)%Q) /\
    tz_minutes (Some o) = (if neg then - (h * 60 + m) else h * 60 + m).
Proof. exact tz_text. Qed.
Print Assumptions C62_offset_text.

Example C62_meets :
  tz_iso (Some (-(7#2))%Q) = Some (true, 3, 30) /\ tz_minutes (Some (-(7#2))%Q) = -210.
Proof. vm_compute. auto. Qed.

(** C52. Converted longitudes lie in the requested range, name the same
    meridians and, if already in range, are unchanged.  For the range
    (-180, 180] the input must lie in (-540, 540]. *)
Open Scope Q_scope.
Lemma convert_360 : forall l, exists o, convert_longitude Lon360 l = Ok o /\
  Forall2 (fun x y => 0 <= y < 360 /\ same_meridian y x /\ (0 <= x < 360 -> y == x)) l o.
Proof.
  intros l. eexists; split; [reflexivity|]. induction l; simpl; constructor; auto.
  split; [apply q_mod_range|]. split; [apply conv360_same|apply conv360_id].
Qed.
Lemma convert_180 : forall l, Forall (fun x => -540 < x <= 540) l ->
  exists o, convert_longitude Lon180 l = Ok o /\
  Forall2 (fun x y => -180 < y <= 180 /\ same_meridian y x /\ (-180 < x <= 180 -> y = x)) l o.
Proof.
  intros l H. eexists; split; [reflexivity|]. induction H; simpl; constructor; auto.
  split; [apply conv180_range; auto|]. split; [apply conv180_same|apply conv180_id].
Qed.
Lemma convert_180_meridian : forall l o, convert_longitude Lon180 l = Ok o ->
  Forall2 (fun x y => same_meridian y x) l o.
Proof.
  intros l o E. simpl in E. inversion E; subst. clear. induction l; simpl; constructor; auto. apply conv180_same.
Qed.
Theorem C52_convert_partial :
  (forall l, exists o, convert_longitude Lon360 l = Ok o /\
     Forall2 (fun x y => 0 <= y < 360 /\ same_meridian y x /\ (0 <= x < 360 -> y == x)) l o) /\
  (forall l, Forall (fun x => -540 < x <= 540) l ->
     exists o, convert_longitude Lon180 l = Ok o /\
     Forall2 (fun x y => -180 < y <= 180 /\ same_meridian y x /\ (-180 < x <= 180 -> y = x)) l o) /\
  (forall l o, convert_longitude Lon180 l = Ok o -> Forall2 (fun x y => same_meridian y x) l o).
Proof.
  exact (conj convert_360 (conj convert_180 convert_180_meridian)).
Qed.
Print Assumptions C52_convert_partial.

(** Farther out the result is out of range. *)
Theorem C52_convert_refuted :
  exists x o, convert_longitude Lon180 [x] = Ok [o] /\ ~ (-180 < o <= 180).
Proof. exists 600, 240. split; [vm_compute; reflexivity|]. intros [_ H]. vm_compute in H. apply H; reflexivity. Qed.
Print Assumptions C52_convert_refuted.

Example C52_meets : convert_longitude Lon180 [190; -180; 12; 540] = Ok [-170; 180; 12; 180]
  /\ convert_longitude Lon360 [-1] = Ok [359].
Proof. split; vm_compute; reflexivity. Qed.

(** C63. The map's longitude shift moves the points west of Greenwich (or east
    of 180) when all points are such, and leaves everything when none is ... *)
Theorem C63_shift_partial :
  (forall l, (forall x, In x l -> x < 0) -> shift_lon_360 l = map (fun x => x + 360) l) /\
  (forall l, (forall x, In x l -> 0 <= x) -> shift_lon_360 l = l) /\
  (forall l, (forall x, In x l -> 180 < x) -> shift_lon_180 l = map (fun x => x + -360) l) /\
  (forall l, (forall x, In x l -> x <= 180) -> shift_lon_180 l = l).
Proof.
  exact (conj (fun l H => shift_all _ 360 l (fun x Hx => f_equal negb (proj2 (Qle_bool_false 0 x) (H x Hx))))
        (conj (fun l H => shift_none _ 360 l (fun x Hx => f_equal negb (proj2 (Qle_bool_iff 0 x) (H x Hx))))
        (conj (fun l H => shift_all _ (-360) l (fun x Hx => f_equal negb (proj2 (Qle_bool_false x 180) (H x Hx))))
              (fun l H => shift_none _ (-360) l (fun x Hx => f_equal negb (proj2 (Qle_bool_iff x 180) (H x Hx))))))).
Qed.
Print Assumptions C63_shift_partial.

(** ... but a map with points on both sides, such as one that straddles the
    date line, is not shifted at all. *)
Lemma mixed_360 : forall l x y, In x l -> x < 0 -> In y l -> 0 <= y -> shift_lon_360 l = l.
Proof.
  intros l x y Hx Sx Hy Sy. apply (shift_mixed _ _ l x y Hx); auto; cbv beta.
  - rewrite (proj2 (Qle_bool_false 0 x)); auto.
  - rewrite (proj2 (Qle_bool_iff 0 y) Sy); reflexivity.
Qed.
Theorem C63_mixed_not_shifted :
  forall l x y, In x l -> x < 0 -> In y l -> 0 <= y -> shift_lon_360 l = l.
Proof. exact mixed_360. Qed.
Print Assumptions C63_mixed_not_shifted.

Theorem C63_shift_refuted :
  exists l x, In x (shift_lon_360 l) /\ x < 0.
Proof. exists [-179; 179], (-179). split; [vm_compute; left; reflexivity|reflexivity]. Qed.
Print Assumptions C63_shift_refuted.
