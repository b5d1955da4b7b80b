(** * C99 to C103: the point wind *)
From Coq Require Import Reals Lra Lia.
From Verif Require Import Py WxModel WxProofs WindModel WindSpec WindProofs.
Open Scope R_scope.

Definition orderly (g : given) : Prop := match g with Array l => in_order l | Lst _ => True end.
Lemma check_ok : forall g, orderly g -> check_timeseries g = true.
Proof. intros [l|l] H; [apply diffs_order; exact H|reflexivity]. Qed.

(** ** C99: wind data are given out as they were put in *)
(** Put in by the constructor or the attribute, in the wind's units and in either coordinate
    system, and given out in any units and either coordinate system: the same winds at the same
    times.  The string 'uv' is left out, see below. *)
Theorem C99_set_get_partial : forall w g c u' c', c <> StrUV -> c' <> StrUV -> 0 < units w -> 0 < u' -> orderly g ->
  (forall e, In e (entries g) -> sensible (polar c) (snd e)) ->
  result (new_set_timeseries w g c) = Ok tt /\
  same_air (units w) (polar c) (entries g) u' (polar c') (get_wind_data (obj (new_set_timeseries w g c)) (Some u') c') /\
  Forall (fun e => normal (polar c') (snd e)) (get_wind_data (obj (new_set_timeseries w g c)) (Some u') c').
Proof.
  intros w g c u' c' F F' U U' O S. unfold new_set_timeseries. rewrite (check_ok g O). cbn [negb].
  destruct (set_air c (units w) (entries g) F U S) as [st [E A]]. rewrite E. cbn [result obj]. split; [reflexivity|].
  destruct (get_air (mkWind st (entries g) (units w) (zone w) (scale w)) u' c' F' U') as [B N]. split; [|exact N].
  exact (same_air_trans _ _ _ _ _ _ _ _ _ A B).
Qed.
Print Assumptions C99_set_get_partial.

Theorem C99_set_wind_data_partial : forall w g u c u' c', c <> StrUV -> c' <> StrUV -> 0 < u -> 0 < u' -> orderly g ->
  (forall e, In e (entries g) -> sensible (polar c) (snd e)) ->
  result (set_wind_data w g u c) = Ok tt /\ units (obj (set_wind_data w g u c)) = u /\
  same_air u (polar c) (entries g) u' (polar c') (get_wind_data (obj (set_wind_data w g u c)) (Some u') c').
Proof.
  intros w g u c u' c' F F' U U' O S. unfold set_wind_data. rewrite (check_ok g O). cbn [negb].
  destruct (set_air c u (entries g) F U S) as [st [E A]]. rewrite E. cbn [result obj units]. split; [reflexivity|]. split; [reflexivity|].
  destruct (get_air (mkWind st (map (fun e => (fst e, convert_units c u 1 (snd e))) (entries g)) u (zone w) (scale w)) u' c' F' U') as [B N].
  exact (same_air_trans _ _ _ _ _ _ _ _ _ A B).
Qed.
Print Assumptions C99_set_wind_data_partial.

(** Speeds and directions come back as the same numbers, in the units they were given in. *)
Theorem C99_same_numbers : forall w g c, polar c = true -> 0 < units w -> orderly g ->
  (forall e, In e (entries g) -> 0 < fst (snd e) /\ 0 <= snd (snd e) < 360) ->
  get_wind_data (obj (new_set_timeseries w g c)) None c = entries g.
Proof.
  intros w g c P U O S. assert (F : c <> StrUV) by (intros ->; discriminate).
  assert (S' : forall e, In e (entries g) -> sensible (polar c) (snd e)) by (intros e I _; destruct (S e I); lra).
  destruct (C99_set_get_partial w g c (units w) c F F U U O S') as [R [A N]].
  replace (get_wind_data (obj (new_set_timeseries w g c)) None c) with (get_wind_data (obj (new_set_timeseries w g c)) (Some (units w)) c).
  - rewrite P in A, N. revert A N S. generalize (get_wind_data (obj (new_set_timeseries w g c)) (Some (units w)) c). generalize (entries g).
    intros l l' A. induction A as [|[t v] [t' v'] l l' [T A] H IH]; intros N S; [reflexivity|]. inversion N as [|? ? N1 N2]; subst.
    cbn [fst snd] in *. subst t'. rewrite IH; [|exact N2|intros e I; apply S; right; exact I]. f_equal. f_equal. symmetry.
    destruct (S (t, v) (or_introl eq_refl)) as [S1 S2]. apply (polar_unique (units w)); [exact U|intros _; cbn in *; lra|exact N1|exact A|exact S1].
  - unfold get_wind_data. replace (units (obj (new_set_timeseries w g c))) with (units w); [reflexivity|].
    unfold new_set_timeseries. destruct (check_timeseries g); [|reflexivity]. cbn [negb]. destruct (to_time_value_pair _ _); reflexivity.
Qed.
Print Assumptions C99_same_numbers.

(** Negative speeds, directions outside 0..360 and arrays out of order are refused, and what the
    wind gives out stays as it was. *)
Theorem C99_refused : forall w g c, 0 < units w -> (polar c = true /\ exists e, In e (entries g) /\ ~ sensible true (snd e)) \/ ~ orderly g ->
  result (new_set_timeseries w g c) = Raise ValueErr /\ forall u c', get_wind_data (obj (new_set_timeseries w g c)) u c' = get_wind_data w u c'.
Proof.
  intros w g c U H. unfold new_set_timeseries. destruct (check_timeseries g) eqn:O; cbn [negb].
  - destruct H as [[P [e [I N]]]|H].
    + rewrite (to_pairs_bad c _ (fst e, convert_units c (units w) 1 (snd e)) P); [split; reflexivity| |exact (fun X => N (sensible_back c (units w) (snd e) P U X))]. apply (in_map (fun x => (fst x, convert_units c (units w) 1 (snd x)))). exact I.
    + exfalso. apply H. destruct g as [l|l]; [apply diffs_order; exact O|exact I].
  - split; reflexivity.
Qed.
Print Assumptions C99_refused.

(** Components given with the string 'uv' in units other than m/s: the second one is not
    converted. *)
Theorem C99_uv_refuted : exists w e, 0 < units w /\ result (new_set_timeseries w (Lst [e]) StrUV) = Ok tt /\
  ~ same_air (units w) false [e] 1 false (get_wind_data (obj (new_set_timeseries w (Lst [e]) StrUV)) (Some 1) EnumUV).
Proof.
  exists (mkWind [] [] (1852 / 3600) None 0), (0%Z, (10, 10)). split; [cbn; lra|]. split; [reflexivity|].
  intros H. inversion H as [|? ? ? ? [_ A] _]; subst. unfold air in A. cbn in A. injection A as A1 A2. lra.
Qed.
Print Assumptions C99_uv_refuted.

Definition noon : wind := mkWind [] [] 1 None 0.
Example C99_meets : orderly (Array [(0%Z, (10, 45)); (3600%Z, (5, 270))]) /\
  (forall e, In e [(0%Z, (10, 45)); (3600%Z, (5, 270))] -> 0 < fst (snd e) /\ 0 <= snd (snd e) < 360) /\
  get_wind_data (obj (new_set_timeseries (set_units noon (1852 / 3600)) (Array [(0%Z, (10, 45)); (3600%Z, (5, 270))]) StrRT)) None StrRT = [(0%Z, (10, 45)); (3600%Z, (5, 270))].
Proof.
  assert (O : orderly (Array [(0%Z, (10, 45)); (3600%Z, (5, 270))])) by (apply diffs_order; reflexivity).
  assert (S : forall e : entry, In e [(0%Z, (10, 45)); (3600%Z, (5, 270))] -> 0 < fst (snd e) /\ 0 <= snd (snd e) < 360) by (intros e [<-|[<-|[]]]; cbn; lra).
  split; [exact O|]. split; [exact S|]. apply C99_same_numbers; [reflexivity|cbn; lra|exact O|exact S].
Qed.

(** ** C100: the attribute [timeseries] shows the wind *)
(** Read as speed and direction in the wind's units, it is the wind used. *)
Definition shows (w : wind) : Prop := same_air (units w) true (shown w) 1 true (get_wind_data w (Some 1) StrRT).
Lemma shows_stored : forall w, shows w <-> same_air (units w) true (shown w) 1 false (stored w).
Proof.
  intros w. destruct (get_air w 1 StrRT ltac:(discriminate) ltac:(lra)) as [B _]. cbn [polar] in B. split; intros H.
  - exact (same_air_trans _ _ _ _ _ _ _ _ _ H (same_air_sym _ _ _ _ _ _ B)).
  - exact (same_air_trans _ _ _ _ _ _ _ _ _ H B).
Qed.

Theorem C100_assigned : forall w g, 0 < units w -> orderly g -> (forall e, In e (entries g) -> sensible true (snd e)) ->
  result (set_timeseries_attr w g) = Ok tt /\ shown (obj (set_timeseries_attr w g)) = entries g /\ shows (obj (set_timeseries_attr w g)).
Proof.
  intros w g U O S. destruct (C99_set_get_partial w g StrRT 1 StrRT ltac:(discriminate) ltac:(discriminate) U ltac:(lra) O S) as [R [A _]].
  unfold set_timeseries_attr. split; [exact R|].
  assert (Q : shown (obj (new_set_timeseries w g StrRT)) = entries g /\ units (obj (new_set_timeseries w g StrRT)) = units w).
  { unfold new_set_timeseries. rewrite (check_ok g O). cbn [negb]. destruct (to_time_value_pair _ _); split; reflexivity. }
  destruct Q as [Q1 Q2]. split; [exact Q1|]. unfold shows. rewrite Q1, Q2. exact A.
Qed.
Print Assumptions C100_assigned.

(** Not after set_wind_data with other units than m/s (here knots), ... *)
Lemma same_one : forall u p v u' p' v' t, same_air u p [(t, v)] u' p' [(t, v')] -> air u p v = air u' p' v'.
Proof. intros u p v u' p' v' t H. inversion H as [|? ? ? ? [_ A] _]; subst. exact A. Qed.
Lemma north : forall u r, air u true (r, 0) = (0, - (r * u)).
Proof. intros u r. unfold air. cbn [fst snd]. replace (0 / 180 * PI) with 0 by lra. rewrite sin_0, cos_0. f_equal; ring. Qed.
Theorem C100_set_wind_data_refuted : exists w g u, 0 < u /\ orderly g /\ (forall e, In e (entries g) -> sensible true (snd e)) /\
  result (set_wind_data w g u StrRT) = Ok tt /\ ~ shows (obj (set_wind_data w g u StrRT)).
Proof.
  exists noon, (Lst [(0%Z, (10, 0))]), (1852 / 3600). split; [lra|]. split; [exact I|].
  assert (S : forall e, In e (entries (Lst [(0%Z, (10, 0))])) -> sensible true (snd e)) by (intros e [<-|[]] _; cbn; lra).
  split; [exact S|].
  destruct (set_air StrRT (1852 / 3600) [(0%Z, (10, 0))] ltac:(discriminate) ltac:(lra) S) as [st [E A]].
  unfold set_wind_data. cbn [check_timeseries negb entries]. rewrite E. cbn [result obj]. split; [reflexivity|].
  rewrite shows_stored. cbn [units shown stored]. intros H. pose proof (same_air_trans _ _ _ _ _ _ _ _ _ H (same_air_sym _ _ _ _ _ _ A)) as X. cbn [map fst snd] in X.
  apply same_one in X. unfold convert_units in X. cbn [fst snd polar] in X. rewrite !north in X. injection X as X. lra.
Qed.
Print Assumptions C100_set_wind_data_refuted.

(** ... not after changing the attribute [units], ... *)
Theorem C100_units_refuted : exists w u, shows w /\ 0 < u /\ ~ shows (set_units w u).
Proof.
  assert (S : forall e, In e (entries (Lst [(0%Z, (10, 0))])) -> sensible true (snd e)) by (intros e [<-|[]] _; cbn; lra).
  destruct (C100_assigned noon (Lst [(0%Z, (10, 0))]) ltac:(cbn; lra) I S) as [R [Q H]].
  exists (obj (set_timeseries_attr noon (Lst [(0%Z, (10, 0))]))), 2. split; [exact H|]. split; [lra|].
  rewrite shows_stored in *. intros X. cbn [set_units shown stored units] in X.
  assert (U : units (obj (set_timeseries_attr noon (Lst [(0%Z, (10, 0))]))) = 1).
  { unfold set_timeseries_attr, new_set_timeseries. cbn [check_timeseries negb]. destruct (to_time_value_pair _ _); reflexivity. }
  rewrite U in H. rewrite Q in X, H. pose proof (same_air_trans _ _ _ _ _ _ _ _ _ X (same_air_sym _ _ _ _ _ _ H)) as Y. cbn [entries] in Y.
  apply same_one in Y. rewrite !north in Y. injection Y as Y. lra.
Qed.
Print Assumptions C100_units_refuted.

(** ... not if the data were given as components, ... *)
Theorem C100_components_refuted : exists w e, result (new_set_timeseries w (Lst [e]) EnumUV) = Ok tt /\ 0 < units w /\ ~ shows (obj (new_set_timeseries w (Lst [e]) EnumUV)).
Proof.
  exists noon, (0%Z, (10, 0)). split; [reflexivity|]. split; [cbn; lra|]. rewrite shows_stored. cbn. intros H. unfold convert_units in H. cbn [fst snd] in H.
  apply same_one in H. rewrite north in H. unfold air in H. cbn [fst snd] in H. injection H as H1 H2. lra.
Qed.
Print Assumptions C100_components_refuted.

(** ... and not after an assignment that was refused. *)
Theorem C100_refused_refuted : exists w g, shows w /\ result (set_timeseries_attr w g) = Raise ValueErr /\ ~ shows (obj (set_timeseries_attr w g)).
Proof.
  exists noon, (Lst [(0%Z, (10, 720))]).
  destruct (C99_refused noon (Lst [(0%Z, (10, 720))]) StrRT ltac:(cbn; lra)) as [R _].
  { left. split; [reflexivity|]. exists (0%Z, (10, 720)). split; [left; reflexivity|]. intros H. specialize (H eq_refl). cbn in H. lra. }
  split; [apply shows_stored; constructor|]. split; [exact R|]. unfold set_timeseries_attr, new_set_timeseries in *. cbn [check_timeseries negb] in *.
  destruct (to_time_value_pair _ _); [discriminate|]. cbn [obj]. intros H. apply shows_stored in H. cbn in H. inversion H.
Qed.
Print Assumptions C100_refused_refuted.

(** ** C101: setting wind data leaves the caller's data alone *)
Theorem C101_partial : forall w g c, (match g with Lst _ => True | Array _ => units w = 1 end) -> caller (new_set_timeseries w g c) = entries g.
Proof.
  intros w g c H. unfold new_set_timeseries. destruct (check_timeseries g); [|reflexivity]. cbn [negb].
  assert (Q : match g with Array _ => map (fun e => (fst e, convert_units c (units w) 1 (snd e))) (entries g) | Lst l => l end = entries g).
  { destruct g as [l|l]; [|reflexivity]. rewrite H. cbn [entries]. rewrite <- (map_id l) at 2. apply map_ext. intros [t [a b]]. unfold convert_units. cbn [fst snd].
    destruct c; repeat f_equal; field. }
  destruct (to_time_value_pair _ _); cbn [caller]; exact Q.
Qed.
Print Assumptions C101_partial.

(** An array in other units is changed in place, so that a second wind made from it in the same
    way is another wind. *)
Theorem C101_refuted : exists w l c, 0 < units w /\ in_order l /\ c = StrRT /\ (forall e, In e l -> sensible true (snd e)) /\
  caller (new_set_timeseries w (Array l) c) <> l /\
  ~ same_air 1 true (get_wind_data (obj (new_set_timeseries w (Array l) c)) (Some 1) StrRT)
             1 true (get_wind_data (obj (new_set_timeseries w (Array (caller (new_set_timeseries w (Array l) c))) c)) (Some 1) StrRT).
Proof.
  set (w := set_units noon 2). exists w, [(0%Z, (10, 0))], StrRT. split; [cbn; lra|]. split; [apply diffs_order; reflexivity|]. split; [reflexivity|].
  assert (S : forall e, In e [(0%Z, (10, 0))] -> sensible true (snd e)) by (intros e [<-|[]] _; cbn; lra). split; [exact S|].
  assert (C : caller (new_set_timeseries w (Array [(0%Z, (10, 0))]) StrRT) = [(0%Z, (10 * 2 / 1, 0))]).
  { unfold new_set_timeseries. cbn [check_timeseries diffs_ok negb entries]. destruct (to_time_value_pair _ _); reflexivity. }
  rewrite C. split; [intros H; injection H as H; lra|].
  assert (S' : forall e, In e [(0%Z, (10 * 2 / 1, 0))] -> sensible true (snd e)) by (intros e [<-|[]] _; cbn; lra).
  destruct (C99_set_get_partial w (Array [(0%Z, (10, 0))]) StrRT 1 StrRT ltac:(discriminate) ltac:(discriminate) ltac:(cbn; lra) ltac:(lra) ltac:(apply diffs_order; reflexivity) S) as [_ [A _]].
  destruct (C99_set_get_partial w (Array [(0%Z, (10 * 2 / 1, 0))]) StrRT 1 StrRT ltac:(discriminate) ltac:(discriminate) ltac:(cbn; lra) ltac:(lra) ltac:(apply diffs_order; reflexivity) S') as [_ [B _]].
  intros H. pose proof (same_air_trans _ _ _ _ _ _ _ _ _ (same_air_trans _ _ _ _ _ _ _ _ _ A H) (same_air_sym _ _ _ _ _ _ B)) as X.
  apply same_one in X. cbn [polar units w set_units] in X. rewrite !north in X. injection X as X. lra.
Qed.
Print Assumptions C101_refuted.

(** ** C102: another time zone shifts the times and keeps the winds *)
Definition shift (k : Z) (l : list entry) : list entry := map (fun e => ((fst e + k)%Z, snd e)) l.
Theorem C102_shift_partial : forall w old new, zone w = Some old -> 0 < units w -> in_order (shown w) -> (forall e, In e (shown w) -> sensible true (snd e)) -> shows w ->
  exists w', set_timezone_offset w (Some new) = (Ok tt, w') /\ zone w' = Some new /\ units w' = units w /\ shows w' /\
    same_air 1 false (shift (new - old) (get_wind_data w (Some 1) EnumUV)) 1 false (get_wind_data w' (Some 1) EnumUV).
Proof.
  intros w old new Z U O S H. unfold set_timezone_offset. rewrite Z.
  set (g := Array (map (fun e => ((fst e + (new - old))%Z, snd e)) (shown w))).
  assert (Og : orderly g) by (apply (in_order_map _ (new - old)%Z); [reflexivity|exact O]).
  assert (Sg : forall e, In e (entries g) -> sensible true (snd e)). { intros e I. cbn [entries g] in I. apply in_map_iff in I. destruct I as [x [<- I]]. exact (S x I). }
  destruct (C100_assigned w g U Og Sg) as [R [Q W]]. unfold set_timeseries_attr in *. rewrite R. eexists. split; [reflexivity|]. cbn [zone units]. split; [reflexivity|].
  assert (Uu : units (obj (new_set_timeseries w g StrRT)) = units w). { unfold new_set_timeseries. destruct (check_timeseries g); [|reflexivity]. cbn [negb]. destruct (to_time_value_pair _ _); reflexivity. }
  split; [exact Uu|]. split; [exact W|].
  destruct (get_air w 1 EnumUV ltac:(discriminate) ltac:(lra)) as [B _].
  match goal with |- same_air _ _ _ _ _ (get_wind_data ?x _ _) => destruct (get_air x 1 EnumUV ltac:(discriminate) ltac:(lra)) as [B' _] end. cbn [polar] in *.
  refine (same_air_trans _ _ _ _ _ _ _ _ _ _ B'). cbn [stored].
  apply shows_stored in W. apply shows_stored in H. rewrite Q, Uu in W. cbn [entries g] in W.
  refine (same_air_trans _ _ _ _ _ _ _ _ _ _ W).
  assert (X : same_air 1 false (get_wind_data w (Some 1) EnumUV) (units w) true (shown w)) by (apply same_air_sym; exact (same_air_trans _ _ _ _ _ _ _ _ _ H B)).
  clear - X. unfold shift. revert X. generalize (get_wind_data w (Some 1) EnumUV) (shown w). intros l l' X. induction X as [|e e' l l' [T A] X IH]; cbn [map]; constructor; [cbn [fst snd]; split; [rewrite T; reflexivity|exact A]|exact IH].
Qed.
Print Assumptions C102_shift_partial.

(** From no zone to one, or from one to none: nothing moves. *)
Theorem C102_unknown : forall w z, zone w = None \/ z = None ->
  exists w', set_timezone_offset w z = (Ok tt, w') /\ zone w' = z /\ forall u c, get_wind_data w' u c = get_wind_data w u c.
Proof.
  intros w z H. unfold set_timezone_offset. destruct H as [-> | ->].
  - eexists. split; [reflexivity|]. split; [reflexivity|]. intros u c. reflexivity.
  - destruct (zone w); (eexists; split; [reflexivity|]; split; [reflexivity|]; intros u c; reflexivity).
Qed.
Print Assumptions C102_unknown.

(** A wind of 10 knots from the north, set by set_wind_data, whose zone is then changed: the speed
    is converted a second time. *)
Theorem C102_refuted : exists w g u w', 0 < u /\ orderly g /\ (forall e, In e (entries g) -> sensible true (snd e)) /\ zone w = Some 0%Z /\
  result (set_wind_data w g u StrRT) = Ok tt /\ set_timezone_offset (obj (set_wind_data w g u StrRT)) (Some 0%Z) = (Ok tt, w') /\
  ~ same_air 1 false (get_wind_data (obj (set_wind_data w g u StrRT)) (Some 1) EnumUV) 1 false (get_wind_data w' (Some 1) EnumUV).
Proof.
  set (w := mkWind [] [] 1 (Some 0%Z) 0). set (u := 1852 / 3600). set (g := Lst [(0%Z, (10, 0))]).
  assert (Up : 0 < u) by (unfold u; lra).
  assert (S : forall e, In e (entries g) -> sensible true (snd e)) by (intros e [<-|[]] _; cbn; lra).
  destruct (C99_set_wind_data_partial w g u StrRT 1 EnumUV ltac:(discriminate) ltac:(discriminate) Up ltac:(lra) I S) as [R [Q A]].
  destruct (set_air StrRT u (entries g) ltac:(discriminate) Up S) as [st [E _]].
  assert (W : obj (set_wind_data w g u StrRT) = mkWind st [(0%Z, (10 * u / 1, 0))] u (Some 0%Z) 0). { unfold set_wind_data. cbn [check_timeseries negb g]. cbn [entries g] in E |- *. rewrite E. reflexivity. }
  set (g2 := Array [(0%Z, (10 * u / 1, 0))]).
  assert (S2 : forall e, In e (entries g2) -> sensible true (snd e)) by (intros e [<-|[]] _; cbn; lra).
  destruct (C99_set_get_partial (mkWind st [(0%Z, (10 * u / 1, 0))] u (Some 0%Z) 0) g2 StrRT 1 EnumUV ltac:(discriminate) ltac:(discriminate) Up ltac:(lra) ltac:(apply diffs_order; reflexivity) S2) as [R2 [A2 _]].
  exists w, g, u.
  destruct (set_timezone_offset (obj (set_wind_data w g u StrRT)) (Some 0%Z)) as [r w'] eqn:T. exists w'.
  split; [exact Up|]. split; [exact I|]. split; [exact S|]. split; [reflexivity|]. split; [exact R|].
  unfold set_timezone_offset in T. rewrite W in T. cbn [zone shown] in T. change (map _ [(0%Z, (10 * u / 1, 0))]) with [((0 + (0 - 0))%Z, (10 * u / 1, 0))] in T. change (0 + (0 - 0))%Z with 0%Z in T. fold g2 in T. rewrite R2 in T. injection T as <- <-.
  split; [reflexivity|]. intros H.
  match type of H with same_air _ _ _ _ _ (get_wind_data ?x _ _) => assert (G : get_wind_data x (Some 1) EnumUV = get_wind_data (obj (new_set_timeseries (mkWind st [(0%Z, (10 * u / 1, 0))] u (Some 0%Z) 0) g2 StrRT)) (Some 1) EnumUV) by reflexivity end.
  rewrite G in H. pose proof (same_air_trans _ _ _ _ _ _ _ _ _ (same_air_trans _ _ _ _ _ _ _ _ _ A H) (same_air_sym _ _ _ _ _ _ A2)) as X. cbn [entries g g2] in X.
  apply same_one in X. cbn [polar units] in X. rewrite !north in X. injection X as X. unfold u in X. lra.
Qed.
Print Assumptions C102_refuted.

Example C102_meets : exists w, zone w = Some (-28800)%Z /\ 0 < units w /\ in_order (shown w) /\ (forall e, In e (shown w) -> sensible true (snd e)) /\ shows w /\ shown w <> [].
Proof.
  set (w0 := mkWind [] [] 2 (Some (-28800)%Z) 0). set (g := Array [(0%Z, (10, 45)); (3600%Z, (5, 270))]).
  assert (O : orderly g) by (apply diffs_order; reflexivity). assert (S : forall e, In e (entries g) -> sensible true (snd e)) by (intros e [<-|[<-|[]]] _; cbn; lra).
  destruct (C100_assigned w0 g ltac:(cbn; lra) O S) as [R [Q W]]. exists (obj (set_timeseries_attr w0 g)). rewrite Q.
  assert (X : zone (obj (set_timeseries_attr w0 g)) = Some (-28800)%Z /\ units (obj (set_timeseries_attr w0 g)) = 2).
  { unfold set_timeseries_attr, new_set_timeseries. rewrite (check_ok g O). cbn [negb]. destruct (to_time_value_pair _ _); split; reflexivity. }
  destruct X as [-> ->]. split; [reflexivity|]. split; [lra|]. split; [exact O|]. split; [exact S|]. split; [exact W|discriminate].
Qed.

(** ** C103: the speed uncertainty *)
(** Every wind is multiplied by one and the same number, directions and times are kept.  Downwards
    the number is below 1; upwards it is above 1 exactly if 0.5 minus the scale is below
    exp(-pi/4), which is about 0.456, and below 1 if that is above. *)
Theorem C103_scaled_partial : forall w d, d <> Other -> 0 < scale w < 5 / 10 -> 0 < units w -> in_order (get_wind_data w (Some 1) EnumUV) ->
  exists w' k, set_speed_uncertainty w d = (Ok true, w') /\
    get_wind_data w' (Some 1) EnumUV = map (fun e => (fst e, (k * fst (snd e), k * snd (snd e)))) (get_wind_data w (Some 1) EnumUV) /\
    (d = Down -> 0 <= k < 1) /\
    (d = Up -> 0 <= k /\ (1 < k <-> 5 / 10 - scale w < exp (- (PI / 4))) /\ (k < 1 <-> exp (- (PI / 4)) < 5 / 10 - scale w)).
Proof.
  intros w d D [S1 S2] U O'.
  set (k := spread (match d with Up => 5 / 10 - scale w | _ => 5 / 10 + scale w end)).
  destruct (get_air w (units w) StrRT ltac:(discriminate) U) as [B N]. cbn [polar] in B, N.
  destruct (get_air w 1 EnumUV ltac:(discriminate) ltac:(lra)) as [B1 _]. cbn [polar] in B1.
  assert (O : in_order (stored w)) by exact (same_air_order _ _ _ _ _ _ (same_air_sym _ _ _ _ _ _ B1) O').
  pose proof (mapM_speed d (scale w) (get_wind_data w (Some (units w)) StrRT) S1 S2) as M. fold k in M.
  set (l' := map (fun e : entry => (fst e, (fst (snd e) * k, snd (snd e)))) (get_wind_data w (Some (units w)) StrRT)) in *.
  assert (K0 : 0 <= k) by (unfold k, spread; apply Rmult_le_pos; apply sqrt_pos).
  assert (Ol : in_order l') by (apply (in_order_map _ 0%Z); [intros e; cbn [fst]; lia|exact (same_air_order _ _ _ _ _ _ B O)]).
  assert (Sl : forall e, In e l' -> sensible true (snd e)). { intros e I _. unfold l' in I. apply in_map_iff in I. destruct I as [x [<- I]]. cbn [fst snd]. rewrite Forall_forall in N. destruct (N x I eq_refl) as [N1 N2]. split; [apply Rmult_le_pos; assumption|lra]. }
  destruct (C99_set_wind_data_partial w (Array l') (units w) StrRT 1 EnumUV ltac:(discriminate) ltac:(discriminate) U ltac:(lra) Ol Sl) as [R [_ A]].
  exists (obj (set_wind_data w (Array l') (units w) StrRT)), k. split; [|split; [|split]].
  - unfold set_speed_uncertainty. destruct d; [| |contradiction D; reflexivity];
      rewrite (Rltb_yes _ _ S1), (Rltb_no (5 / 10) (scale w)) by lra; cbn [negb orb];
      change (get_wind_data w None StrRT) with (get_wind_data w (Some (units w)) StrRT); rewrite M, R; reflexivity.
  - exact (scaled_same _ _ _ _ _ A (same_air_trans _ _ _ _ _ _ _ _ _ (same_air_sym _ _ _ _ _ _ B) B1)).
  - intros ->. split; [exact K0|]. apply spread_lt; [lra|]. pose proof exp_quarter. lra.
  - intros ->. split; [exact K0|]. split; [apply spread_gt; lra|apply spread_lt; lra].
Qed.
Print Assumptions C103_scaled_partial.

(** Any other direction or a scale outside (0, 0.5]: nothing happens. *)
Theorem C103_nothing : forall w d, d = Other \/ scale w <= 0 \/ 5 / 10 < scale w -> set_speed_uncertainty w d = (Ok false, w).
Proof.
  intros w d H. unfold set_speed_uncertainty. destruct d; [| |reflexivity]; destruct H as [H|[H|H]]; try discriminate.
  - rewrite (Rltb_no 0 (scale w) H). reflexivity.
  - rewrite (Rltb_yes _ _ H), Bool.orb_true_r. reflexivity.
  - rewrite (Rltb_no 0 (scale w) H). reflexivity.
  - rewrite (Rltb_yes _ _ H), Bool.orb_true_r. reflexivity.
Qed.
Print Assumptions C103_nothing.

(** A scale of 1 percent upwards lowers every wind. *)
Theorem C103_small_refuted : exists w w' k, 0 < scale w <= 5 / 10 /\ set_speed_uncertainty w Up = (Ok true, w') /\ 0 <= k < 1 /\
  get_wind_data w (Some 1) EnumUV <> [] /\ get_wind_data w' (Some 1) EnumUV = map (fun e => (fst e, (k * fst (snd e), k * snd (snd e)))) (get_wind_data w (Some 1) EnumUV).
Proof.
  set (w := mkWind [(0%Z, (10, 0))] [(0%Z, (10, 270))] 1 None (1 / 100)).
  destruct (C103_scaled_partial w Up ltac:(discriminate) ltac:(cbn; lra) ltac:(cbn; lra) ltac:(apply diffs_order; reflexivity)) as [w' [k [E [G [_ H]]]]].
  destruct (H eq_refl) as [K0 [_ K]]. exists w, w', k. split; [cbn; lra|]. split; [exact E|]. split; [split; [exact K0|]; apply K; cbn [scale w]; pose proof exp_quarter; lra|]. split; [discriminate|exact G].
Qed.
Print Assumptions C103_small_refuted.

(** The largest scale allowed, upwards: the speeds are not finite. *)
Theorem C103_half_refuted : forall w, scale w = 5 / 10 -> get_wind_data w (Some 1) EnumUV <> [] -> set_speed_uncertainty w Up = (Raise AssertErr, w).
Proof.
  intros w S N. unfold set_speed_uncertainty. rewrite S, (Rltb_yes 0 (5 / 10)), (Rltb_no (5 / 10) (5 / 10)) by lra. cbn [negb orb].
  unfold get_wind_data, to_datetime_value_2d in *. cbn [polar] in *. destruct (stored w) as [|e l]; [contradiction N; reflexivity|]. cbn [map mapM].
  unfold new_speed at 1, quantile. replace ((1 - (5 / 10 + 5 / 10)) * (1 - (5 / 10 + 5 / 10))) with 0 by field. rewrite (Rltb_no 0 0) by lra. reflexivity.
Qed.
Print Assumptions C103_half_refuted.

Example C103_meets : exists w, 0 < scale w < 5 / 10 /\ 0 < units w /\ in_order (get_wind_data w (Some 1) EnumUV) /\ get_wind_data w (Some 1) EnumUV <> [] /\ 5 / 10 - scale w < exp (- (PI / 4)).
Proof.
  exists (mkWind [(0%Z, (10, 0)); (9%Z, (3, 4))] [] 1 None (4 / 10)). cbn [scale units]. split; [lra|]. split; [lra|]. split; [apply diffs_order; reflexivity|]. split; [discriminate|].
  pose proof PI_4 as P. apply Rlt_le_trans with (exp (Ropp 1)).
  - rewrite exp_Ropp. pose proof (exp_pos 1). assert (B : exp 1 < 10) by (pose proof exp_le_3; lra).
    apply (Rmult_lt_reg_r (exp 1)); [assumption|]. rewrite Rinv_l by lra. lra.
  - destruct (Rle_lt_or_eq_dec _ _ P) as [L|E]; [left; apply exp_increasing; lra|right; f_equal; lra].
Qed.
