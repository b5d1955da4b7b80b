(** * C56, C57, C89-C93: movers *)
From Verif Require Import Py PyLemmas QLemmas TimeModel ProjModel MvModel MvSpec MvProofs.
Open Scope Q_scope.

(** ** Examples *)

Definition gmt : zone := mkZone 0 (fun _ => false).
Definition flat (lat : Q) : Q := 1 - lat / 180.
Definition east : vec -> Z -> res vec := fun _ _ => Ok (1, -(1 # 2), 1 # 10).
Definition three : list elem :=
  [mkElem (10, 45, 0) true (3 # 100); mkElem (11, 46, 5) false (2 # 100); mkElem (12, -30, 1) true (1 # 100)].

(** ** C56: steady fields *)

(** Every scheme displaces every element by velocity times time step, in metres. *)
Theorem C56_schemes : forall cosd z vel v m dt t ps, steady vel v -> m <> Unknown ->
  exists ds, delta_method cosd z vel m dt t ps = Ok ds /\ length ds = length ps /\
    Forall (fun d => same d (vx v * seconds dt, vy v * seconds dt, vz v * seconds dt)) ds.
Proof.
  intros cosd z vel v m dt t ps Hs Hm. destruct (steady_method cosd z vel v m dt t ps Hs Hm) as [d [H1 H2]].
  eexists. split; [exact H1|]. split; [apply map_length|]. apply Forall_forall. intros x Hx. apply in_map_iff in Hx.
  destruct Hx as [p [<- _]]. destruct H2 as [A [B C]]. unfold same, vscale, vx, vy, vz in *. cbn [fst snd] in *.
  rewrite A, B, C. repeat split; rewrite secs_seconds; ring.
Qed.
Print Assumptions C56_schemes.
Example C56_schemes_meets : steady east (1, -(1 # 2), 1 # 10) /\ RK4 <> Unknown /\
  delta_method flat gmt east RK4 900000000 0 [(10, 45, 0)] = delta_method flat gmt east RK4 900000000 0 [(0, 0, 7)].
Proof. split; [intros p t; reflexivity|]. split; [discriminate|]. vm_compute. reflexivity. Qed.

(** The current mover: an element in water moves by scale times velocity times time
    step, converted to degrees at its latitude; others, and all elements of an inactive
    mover, do not move. *)
Theorem C56_current : forall cosd z vel v m scale active dt t es, steady vel v -> m <> Unknown ->
  exists ds, current_move cosd z vel m scale active false [] dt t es = Ok ds /\
    Forall2 (fun e d => same d
      (if active && e_water e
       then in_degrees (cosd (vy (e_pos e))) (vx v * seconds dt * scale) (vy v * seconds dt * scale) (vz v * seconds dt * scale)
       else (0, 0, 0))) es ds.
Proof.
  intros cosd z vel v m scale active dt t es Hs Hm.
  destruct (current_steady cosd z vel v m scale active dt t es Hs Hm) as [ds [H1 H2]]. exists ds. split; [exact H1|].
  revert H2. apply Forall2_impl. intros e d [A [B C]]. unfold same. rewrite A, B, C. destruct (active && e_water e); [|repeat split; reflexivity].
  unfold to_lonlat_row, meters_to_lonlat, in_degrees, vscale, vx, vy, vz, deg_per_m, Qdiv. cbn [fst snd].
  repeat split; rewrite secs_seconds; ring.
Qed.
Print Assumptions C56_current.
Example C56_current_meets : exists ds, current_move flat gmt east RK2 (1 # 2) true false [] 900000000 0 three = Ok ds /\
  nth 1 ds (1, 1, 1) = (0, 0, 0) /\ 0 < vx (nth 0 ds vzero) /\ vy (nth 2 ds vzero) < 0.
Proof. vm_compute. eexists. split; [reflexivity|]. repeat split. Qed.

(** The wind mover scales the horizontal move by the element's windage as well. *)
Theorem C56_wind : forall cosd z vel v m scale active dt t es, steady vel v -> m <> Unknown ->
  exists ds, wind_move cosd z vel m scale active dt t es = Ok ds /\
    Forall2 (fun e d => same d
      (if active && e_water e
       then in_degrees (cosd (vy (e_pos e))) (vx v * seconds dt * e_windage e * scale)
              (vy v * seconds dt * e_windage e * scale) (vz v * seconds dt)
       else (0, 0, 0))) es ds.
Proof.
  intros cosd z vel v m scale active dt t es Hs Hm.
  destruct (wind_steady cosd z vel v m scale active dt t es Hs Hm) as [ds [H1 H2]]. exists ds. split; [exact H1|].
  revert H2. apply Forall2_impl. intros e d [A [B C]]. unfold same. rewrite A, B, C. destruct (active && e_water e); [|repeat split; reflexivity].
  unfold to_lonlat_row, meters_to_lonlat, in_degrees, blow, vscale, vx, vy, vz, deg_per_m, Qdiv. cbn [fst snd].
  repeat split; rewrite secs_seconds; ring.
Qed.
Print Assumptions C56_wind.
Example C56_wind_meets : exists ds, wind_move flat gmt east Euler 1 true 900000000 0 three = Ok ds /\
  nth 1 ds (1, 1, 1) = (0, 0, 0) /\ 0 < vx (nth 0 ds vzero).
Proof. vm_compute. eexists. split; [reflexivity|]. repeat split. Qed.

(** Whatever the field, the time and the uncertainty: an element that is not in water
    is not moved by a move that succeeds. *)
Theorem C56_dry : forall cosd z vel m scale active unc ul dt t es,
  (forall ds, current_move cosd z vel m scale active unc ul dt t es = Ok ds ->
     Forall2 (fun e d => e_water e = false -> d = (0, 0, 0)) es ds) /\
  (forall ds, wind_move cosd z vel m scale active dt t es = Ok ds ->
     Forall2 (fun e d => e_water e = false -> d = (0, 0, 0)) es ds).
Proof. intros. split; intros ds H; [eapply current_dry|eapply wind_dry]; exact H. Qed.
Print Assumptions C56_dry.
Example C56_dry_meets : exists ds, current_move flat gmt (fun p t => Ok (vx p, vy p, 1)) RK4 1 true true [(1 # 2, 1 # 4)] 60000000 5 three = Ok ds /\
  ~ same (nth 0 ds vzero) vzero.
Proof. vm_compute. eexists. split; [reflexivity|]. intros [H _]. vm_compute in H. discriminate. Qed.

(** The simple mover in a forecast. *)
Theorem C56_simple : forall cosd v scale active on u dt es,
  Forall2 (fun e d => same d
    (if active && on && e_water e
     then in_degrees (cosd (vy (e_pos e))) (vx v * seconds dt) (vy v * seconds dt) (vz v * seconds dt)
     else (0, 0, 0))) es (simple_move cosd v scale active on false u dt es).
Proof.
  intros cosd v scale active on u dt es. rewrite simple_rows.
  apply (f2_indexed (fun i e => if active && on then to_lonlat_row cosd (if e_water e then vscale (secs dt) v else vzero) (e_pos e) else vzero)).
  intros i e _. destruct (active && on); cbn [andb]; [|apply same_refl].
  destruct (e_water e); unfold same, to_lonlat_row, meters_to_lonlat, in_degrees, vscale, vzero, vx, vy, vz, deg_per_m, Qdiv; cbn [fst snd];
    repeat split; rewrite ?secs_seconds; ring.
Qed.
Print Assumptions C56_simple.
Example C56_simple_meets : nth 1 (simple_move flat (1, 2, 3) (1 # 2) true true false (fun _ => vzero) 60000000 three) (1, 1, 1) = (0 * deg_per_m / flat 46, 0 * deg_per_m, 0).
Proof. reflexivity. Qed.

(** ** C57: the ice factor *)

Theorem C57_factor : forall c, 0 <= free_factor c <= 1 /\ (c < 2 # 10 -> free_factor c == 1) /\ (8 # 10 <= c -> free_factor c == 0).
Proof. intros c. destruct (free_cases c) as [[H1 H2]|[[H1 H2]|[H1 H2]]]; rewrite H2; repeat split; intros; lra. Qed.
Print Assumptions C57_factor.
Theorem C57_monotone : forall c c', c <= c' -> free_factor c' <= free_factor c.
Proof.
  intros c c' H. destruct (free_cases c) as [[H1 H2]|[[H1 H2]|[H1 H2]]], (free_cases c') as [[G1 G2]|[[G1 G2]|[G1 G2]]];
    rewrite H2, G2; lra.
Qed.
Print Assumptions C57_monotone.
Example C57_factor_meets : 0 < free_factor (1 # 2) < 1 /\ free_factor (1 # 2) < free_factor (3 # 10).
Proof. vm_compute. auto. Qed.

(** The move: at most the open-water move, the same below 20% of ice, none from 80%
    on; whether or not other elements are in ice. The open-water move of an element
    that is not in water is zero (RandomMover). *)
Theorem C57_move : forall cs es (base : list vec), length cs = length es -> length base = length es ->
  Forall2 (fun e (d : vec) => e_water e = false -> d = (0, 0, 0)) es base ->
  let out := ice_random_move cs es base in
  length out = length es /\
  forall k e c (b d : vec), nth_error es k = Some e -> nth_error cs k = Some c -> nth_error base k = Some b -> nth_error out k = Some d ->
    (c < 2 # 10 -> same d b) /\ (8 # 10 <= c -> same d (0, 0, 0)) /\
    (e_water e = false -> same d (0, 0, 0)) /\
    between 0 (vx b) (vx d) /\ between 0 (vy b) (vy d) /\ between 0 (vz b) (vz d).
Proof.
  intros cs es base Hc Hb Hd out. subst out. unfold ice_random_move. destruct (any_ice cs) eqn:A.
  - split; [unfold stop_dry; rewrite map2_length; [reflexivity|]; rewrite map2_length; [exact (eq_sym Hb)|exact (eq_trans Hb (eq_sym Hc))]|].
    clear A. revert base cs Hc Hb Hd. induction es as [|e0 es IH]; intros [|b0 base] [|c0 cs] Hc Hb Hd k e c b d;
      try discriminate; [destruct k; discriminate|]. inversion Hd as [|? ? ? ? Hd1 Hd2]; subst.
    destruct k as [|k]; cbn [nth_error]; [|apply IH; cbn in *; try congruence; auto].
    intros He Hcc Hbb Ho. unfold stop_dry, map2 in Ho. cbn in Ho. injection He as ->. injection Hcc as ->. injection Hbb as ->. injection Ho as <-.
    destruct (e_water e) eqn:W.
    + destruct (free_cases c) as [[H1 H2]|[[H1 H2]|[H1 H2]]]; unfold same, between, vscale, vx, vy, vz; cbn [fst snd].
      * split; [lra|]. split; [intros _; rewrite H2; repeat split; ring|]. split; [discriminate|]. rewrite H2. repeat split; 
          match goal with |- context[0 * ?q] => destruct (Qlt_le_dec q 0); [right|left]; split; lra end.
      * split; [intros _; rewrite H2; repeat split; ring|]. split; [lra|]. split; [discriminate|]. rewrite H2. repeat split;
          match goal with |- context[1 * ?q] => destruct (Qlt_le_dec q 0); [right|left]; split; lra end.
      * split; [lra|]. split; [lra|]. split; [discriminate|].
        assert (F : 0 <= free_factor c <= 1) by apply C57_factor. set (g := free_factor c) in *. clearbody g. clear - F.
        repeat split; match goal with |- context[g * ?q] => destruct (Qlt_le_dec q 0); [right|left]; split; nra end.
    + rewrite (Hd1 eq_refl) in *. unfold between, vzero, vx, vy, vz. cbn [fst snd].
      repeat split; intros; try apply same_refl; try reflexivity; left; split; lra.
  - split; [auto|]. intros k e c b d He Hcc Hbb Ho. rewrite Hbb in Ho. injection Ho as <-.
    assert (L : c < 2 # 10) by (eapply any_ice_false; [exact A|]; eapply nth_error_In; exact Hcc).
    split; [intros _; apply same_refl|]. split; [lra|]. split.
    + intros W. pose proof (Forall2_nth _ _ _ k Hd) as F. rewrite He, Hbb in F. rewrite (F W). apply same_refl.
    + unfold between. repeat split;
        match goal with |- context[0 <= ?q <= _] => destruct (Qlt_le_dec q 0); [right|left]; split; lra end.
Qed.
Print Assumptions C57_move.
Example C57_move_meets : let base : list vec := [(1, 2, 0); (0, 0, 0); (-4, 6, 0)] in let cs := [9 # 10; 0; 1 # 2] in
  length cs = length three /\ length base = length three /\
  Forall2 (fun e (d : vec) => e_water e = false -> d = (0, 0, 0)) three base /\
  nth_error (ice_random_move cs three base) 1 = Some (0, 0, 0).
Proof.
  cbn [length three]. repeat split; auto. unfold three. constructor; [discriminate|]. constructor; [reflexivity|].
  constructor; [discriminate|constructor].
Qed.

(** ** C89: Runge-Kutta schemes in a current that changes in time *)

(** A cubic in each component, with its antiderivative. *)
Record poly3 := mkP3 { a0 : Q; a1 : Q; a2 : Q; a3 : Q }.
Definition ev (p : poly3) (s : Q) : Q := cubic (a0 p) (a1 p) (a2 p) (a3 p) s.
Definition integral (p : poly3) (s s' : Q) : Q :=
  anti (a0 p) (a1 p) (a2 p) (a3 p) s' - anti (a0 p) (a1 p) (a2 p) (a3 p) s.

Lemma seconds_plus a b : seconds (a + b) == seconds a + seconds b.
Proof. unfold seconds. rewrite inject_Z_plus. field. Qed.
Lemma seconds_half dt : Z.even dt = true -> seconds (half_td dt) == seconds dt / 2.
Proof.
  intros H. apply half_even in H. rewrite <- H at 2. unfold seconds. rewrite inject_Z_mult. field.
Qed.

(** For a step from a whole second, and a velocity that is at most a cubic function of
    time, the fourth order scheme displaces by the exact integral of the velocity; the
    second order scheme does for a velocity linear in time. *)
Theorem C89_rk4 : forall cosd z vel p q r dt t ps, (t mod sec_us = 0)%Z -> Z.even dt = true ->
  uniform_field vel (fun s => (ev p (seconds s), ev q (seconds s), ev r (seconds s))) ->
  exists ds, delta_method cosd z vel RK4 dt t ps = Ok ds /\ length ds = length ps /\
    Forall (fun d => same d (integral p (seconds t) (seconds (t + dt)), integral q (seconds t) (seconds (t + dt)),
                             integral r (seconds t) (seconds (t + dt)))) ds.
Proof.
  intros cosd z vel p q r dt t ps Ht He Hu. cbn [delta_method]. rewrite (rk4_uniform _ _ _ _ Hu).
  replace (t / sec_us * sec_us)%Z with t by (unfold sec_us in *; lia).
  eexists. split; [reflexivity|]. split; [apply map_length|]. apply Forall_forall. intros x Hx. apply in_map_iff in Hx.
  destruct Hx as [? [<- _]]. unfold same, vscale, vadd, vx, vy, vz, ev, cubic, integral, anti. cbn [fst snd].
  repeat split; rewrite !seconds_plus, !seconds_half, secs_seconds by auto; field.
Qed.
Print Assumptions C89_rk4.
Theorem C89_rk2 : forall cosd z vel p q r dt t ps, (t mod sec_us = 0)%Z ->
  a2 p == 0 -> a3 p == 0 -> a2 q == 0 -> a3 q == 0 -> a2 r == 0 -> a3 r == 0 ->
  uniform_field vel (fun s => (ev p (seconds s), ev q (seconds s), ev r (seconds s))) ->
  exists ds, delta_method cosd z vel RK2 dt t ps = Ok ds /\ length ds = length ps /\
    Forall (fun d => same d (integral p (seconds t) (seconds (t + dt)), integral q (seconds t) (seconds (t + dt)),
                             integral r (seconds t) (seconds (t + dt)))) ds.
Proof.
  intros cosd z vel p q r dt t ps Ht E1 E2 E3 E4 E5 E6 Hu. cbn [delta_method]. rewrite (rk2_uniform _ _ _ _ Hu).
  replace (t / sec_us * sec_us)%Z with t by (unfold sec_us in *; lia).
  eexists. split; [reflexivity|]. split; [apply map_length|]. apply Forall_forall. intros x Hx. apply in_map_iff in Hx.
  destruct Hx as [? [<- _]]. unfold same, vscale, vadd, vx, vy, vz, ev, cubic, integral, anti. cbn [fst snd].
  repeat split; rewrite !seconds_plus, secs_seconds, ?E1, ?E2, ?E3, ?E4, ?E5, ?E6; field.
Qed.
Print Assumptions C89_rk2.
Example C89_meets : let p := mkP3 1 2 3 4 in
  uniform_field (fun _ s => Ok (ev p (seconds s), ev p (seconds s), ev (mkP3 0 1 0 0) (seconds s)))
    (fun s => (ev p (seconds s), ev p (seconds s), ev (mkP3 0 1 0 0) (seconds s))) /\
  (7000000 mod sec_us = 0)%Z /\ Z.even 3000000 = true /\ integral p (seconds 0) (seconds 1000000) == 4.
Proof. cbv zeta. split; [intros a b; reflexivity|]. repeat split. Qed.
(** A time step that starts inside a second is integrated from the start of the second. *)
Theorem C89_fraction_refuted : exists vel p t ds,
  uniform_field vel (fun s => (ev p (seconds s), ev p (seconds s), ev p (seconds s))) /\
  delta_method flat gmt vel RK4 2000000 t [(0, 0, 0)] = Ok ds /\
  Forall (fun d => ~ vx d == integral p (seconds t) (seconds (t + 2000000))) ds.
Proof.
  exists (fun _ s => Ok (ev (mkP3 0 1 0 0) (seconds s), ev (mkP3 0 1 0 0) (seconds s), ev (mkP3 0 1 0 0) (seconds s))), (mkP3 0 1 0 0), 500000%Z.
  eexists. split; [intros a b; reflexivity|]. split; [vm_compute; reflexivity|]. constructor; [|constructor].
  intros H. vm_compute in H. discriminate.
Qed.
Print Assumptions C89_fraction_refuted.

(** ** C90: uncertainty of currents and of the simple mover *)

Lemma uncertain_rows : forall unc ds along cross, length unc = length ds ->
  (forall r, In r unc -> - along <= fst r <= along /\ - cross <= snd r <= cross) ->
  exists ds', add_uncertainty unc ds = Ok ds' /\
    Forall2 (fun d d' => (vx d' - vx d) * (vx d' - vx d) + (vy d' - vy d) * (vy d' - vy d)
                         <= (along * along + cross * cross) * (vx d * vx d + vy d * vy d) /\ vz d' = vz d) ds ds'.
Proof.
  intros unc ds along cross HL HB. destruct unc as [|r0 u0] eqn:EU.
  - destruct ds; [|discriminate]. exists []. split; [reflexivity|constructor].
  - rewrite <- EU in *. exists (map2 disturb ds unc). split.
    { unfold add_uncertainty. rewrite EU in *. rewrite HL, Nat.eqb_refl. reflexivity. }
    clear r0 u0 EU. revert unc HL HB. induction ds as [|d ds IH]; intros [|r unc] HL HB; try discriminate; [constructor|].
    unfold map2. cbn [combine map]. constructor.
    + destruct (HB r (or_introl eq_refl)) as [H1 H2]. unfold disturb, vx, vy, vz. cbn [fst snd]. split; [|reflexivity].
      set (u := fst (fst d)). set (v := snd (fst d)). set (a := fst r) in *. set (b := snd r) in *. clearbody u v a b.
      assert (E : (u * (1 + a) + v * b - u) * (u * (1 + a) + v * b - u) + (v * (1 + a) - u * b - v) * (v * (1 + a) - u * b - v)
                  == (a * a + b * b) * (u * u + v * v)) by ring.
      rewrite E. clear E. assert (A : a * a <= along * along) by nra. assert (B : b * b <= cross * cross) by nra.
      assert (C : 0 <= u * u + v * v) by nra. apply Qmult_le_compat_r; [lra|exact C].
    + apply IH; [cbn in HL; congruence|]. intros x Hx. apply HB. right. auto.
Qed.
(** With one record (along, cross) for each element, bounded by the mover's two
    scales, the uncertain move succeeds whenever the certain one does; an element in
    water moves by a vector that differs from its certain move, in metres, by at most
    sqrt(along^2 + cross^2) times its length; its vertical move is the certain one. *)
Theorem C90_current : forall cosd z vel m scale active unc ul dt t es ds along cross, length unc = length es ->
  (forall r, In r unc -> - along <= fst r <= along /\ - cross <= snd r <= cross) ->
  current_move cosd z vel m scale active false ul dt t es = Ok ds ->
  exists ds', current_move cosd z vel m scale active true unc dt t es = Ok ds' /\ length ds' = length es /\
    forall k e d d', nth_error es k = Some e -> nth_error ds k = Some d -> nth_error ds' k = Some d' ->
      exists x y x' y', same d (in_degrees (cosd (vy (e_pos e))) x y (vz d)) /\
        same d' (in_degrees (cosd (vy (e_pos e))) x' y' (vz d)) /\
        (x' - x) * (x' - x) + (y' - y) * (y' - y) <= (along * along + cross * cross) * (x * x + y * y).
Proof.
  intros cosd z vel m scale active unc ul dt t es ds along cross HL HB H. unfold current_move in *. destruct (active && negb _) eqn:A.
  - destruct (delta_method _ _ _ _ _ _ _) as [r|] eqn:E; [|discriminate]. cbn [bind] in *. apply method_length in E. injection H as <-.
    rewrite map_length in E.
    destruct (uncertain_rows unc (map (vscale scale) r) along cross) as [ds' [-> F]]; [rewrite map_length; congruence|exact HB|].
    cbn [bind]. eexists. split; [reflexivity|].
    assert (L : length ds' = length es). { apply Forall2_length in F. rewrite map_length in F. congruence. }
    split. { unfold stop_dry, to_lonlat_rows. rewrite map2_length; rewrite ?map2_length; rewrite ?map_length; congruence. }
    clear HL HB A. assert (L2 : length (map (vscale scale) r) = length es) by (rewrite map_length; exact E). clear E.
    revert F L L2. generalize (map (vscale scale) r) as rs. intros rs F. revert es. induction F as [|a b rs ds' [F1 F2] F IH]; intros [|e0 es] L L2 k e d d' He H1 H2;
      try discriminate; [destruct k; discriminate|]. destruct k as [|k]; [|eapply (IH es); eauto; cbn in *; congruence].
    cbn in He, H1, H2. injection He as ->. injection H1 as <-. injection H2 as <-. destruct (e_water e).
    + exists (vx a), (vy a), (vx b), (vy b). destruct a as [[u v] w], b as [[u' v'] w']. cbn in F2. subst w'.
      split; [|split; [|exact F1]]; unfold to_lonlat_row, meters_to_lonlat, in_degrees, same, vz; cbn [fst snd]; repeat split; reflexivity.
    + exists 0, 0, 0, 0. unfold same, in_degrees, vzero, vz, Qdiv. cbn [fst snd]. repeat split; try ring. lra.
  - injection H as <-. eexists. split; [reflexivity|]. split; [apply map_length|]. intros k e d d' He H1 H2.
    rewrite H1 in H2. injection H2 as <-. apply nth_error_In, in_map_iff in H1. destruct H1 as [? [<- _]].
    exists 0, 0, 0, 0. unfold same, in_degrees, vzero, vz, Qdiv. cbn [fst snd]. repeat split; try ring. lra.
Qed.
Print Assumptions C90_current.
Example C90_current_meets : let unc := [(1 # 2, -(1 # 4)); (0, 1 # 4); (0, 0)] in length unc = length three /\
  (forall r, In r unc -> - (1 # 2) <= fst r <= 1 # 2 /\ - (1 # 4) <= snd r <= 1 # 4) /\
  (exists ds, current_move flat gmt east RK2 1 true false [] 60000000 0 three = Ok ds) /\
  exists ds', current_move flat gmt east RK2 1 true true unc 60000000 0 three = Ok ds'.
Proof.
  cbv zeta. split; [reflexivity|]. split; [|split; eexists; reflexivity].
  intros r [<-|[<-|[<-|[]]]]; cbn; repeat split; lra.
Qed.
(** No records (the delay is not over) or no uncertainty: the move is the certain one. *)
Theorem C90_delay : forall cosd z vel m scale active ul dt t es,
  current_move cosd z vel m scale active true [] dt t es = current_move cosd z vel m scale active false ul dt t es.
Proof. reflexivity. Qed.
Print Assumptions C90_delay.
(** The simple mover's uncertain move lies within uncertainty_scale times the move,
    in each component, for every element in water; others stay. *)
Theorem C90_simple : forall cosd v scale active on u dt es,
  (forall i, 0 <= vx (u i) <= 1 /\ 0 <= vy (u i) <= 1 /\ 0 <= vz (u i) <= 1) ->
  Forall2 (fun e d =>
    if active && on && e_water e then
      exists x y zz, same d (in_degrees (cosd (vy (e_pos e))) x y zz) /\
        between ((1 - scale) * (vx v * seconds dt)) ((1 + scale) * (vx v * seconds dt)) x /\
        between ((1 - scale) * (vy v * seconds dt)) ((1 + scale) * (vy v * seconds dt)) y /\
        between ((1 - scale) * (vz v * seconds dt)) ((1 + scale) * (vz v * seconds dt)) zz
    else same d (0, 0, 0)) es (simple_move cosd v scale active on true u dt es).
Proof.
  intros cosd v scale active on u dt es HU. rewrite simple_rows.
  apply (f2_indexed (fun i e => if active && on then to_lonlat_row cosd (if e_water e then
     vadd (vscale (secs dt) v) (uniform (- vx (vscale (secs dt) (vscale scale v))) (vx (vscale (secs dt) (vscale scale v))) (vx (u i)),
       uniform (- vy (vscale (secs dt) (vscale scale v))) (vy (vscale (secs dt) (vscale scale v))) (vy (u i)),
       uniform (- vz (vscale (secs dt) (vscale scale v))) (vz (vscale (secs dt) (vscale scale v))) (vz (u i))) else vzero) (e_pos e) else vzero)).
  intros i e _. destruct (active && on); cbn [andb]; [|apply same_refl]. destruct (e_water e).
  2: { unfold same, to_lonlat_row, meters_to_lonlat, vzero, Qdiv. cbn [fst snd]. repeat split; ring. }
  destruct (HU i) as [H1 [H2 H3]].
  assert (B : forall w k, 0 <= k <= 1 -> between ((1 - scale) * (w * seconds dt)) ((1 + scale) * (w * seconds dt))
                (secs dt * w + uniform (- (secs dt * (scale * w))) (secs dt * (scale * w)) k)).
  { intros w k Hk. unfold between, uniform. rewrite secs_seconds. set (s := seconds dt). clearbody s. set (n := s * (scale * w)).
    assert (E : (1 - scale) * (w * s) == w * s - n) by (unfold n; ring). assert (E' : (1 + scale) * (w * s) == w * s + n) by (unfold n; ring).
    rewrite E, E'. clearbody n. clear E E'. destruct (Qlt_le_dec n 0); [right|left]; split; nra. }
  eexists. eexists. eexists. split.
  - unfold same, to_lonlat_row, meters_to_lonlat, in_degrees, vadd. unfold vx at 1, vy at 1, vz at 1. cbn [fst snd].
    repeat split; reflexivity.
  - unfold vscale. cbn [vx vy vz fst snd]. repeat split; apply B; assumption.
Qed.
Print Assumptions C90_simple.
Example C90_simple_meets : let u := fun i : nat => (1 # 3, 1, 0) in
  (forall i, 0 <= vx (u i) <= 1 /\ 0 <= vy (u i) <= 1 /\ 0 <= vz (u i) <= 1) /\
  ~ same (nth 0 (simple_move flat (-1, 2, 3) (1 # 2) true true true u 60000000 three) vzero) vzero.
Proof. cbv zeta. split; [intros _; cbn; lra|]. intros [H _]. vm_compute in H. discriminate. Qed.
(** The default velocity of the simple mover is refused; a triple is accepted. *)
Theorem C90_default : simple_velocity [0] = Raise ValueErr /\ forall a b c, simple_velocity [a; b; c] = Ok (a, b, c).
Proof. split; reflexivity. Qed.
Print Assumptions C90_default.

(** ** C91, C92: ice-aware currents and winds *)

(** The velocity is the water's below 20% of ice, the ice's from 80% on, and lies
    between the two otherwise, in every component. *)
Theorem C91_current : forall cs (water ice : list vec), length water = length cs -> length ice = length cs ->
  let out := ice_current_at cs water ice in
  length out = length cs /\
  forall k c (w i d : vec), nth_error cs k = Some c -> nth_error water k = Some w -> nth_error ice k = Some i -> nth_error out k = Some d ->
    (c < 2 # 10 -> same d w) /\ (8 # 10 <= c -> same d i) /\
    between (vx w) (vx i) (vx d) /\ between (vy w) (vy i) (vy d) /\ between (vz w) (vz i) (vz d).
Proof.
  intros cs water ice Hw Hi out. subst out. unfold ice_current_at. destruct (any_ice cs) eqn:A.
  - split; [rewrite map_length, !combine_length; lia|]. clear A. revert water ice Hw Hi.
    induction cs as [|c0 cs IH]; intros [|w0 water] [|i0 ice] Hw Hi k c w i d; try discriminate; [destruct k; discriminate|].
    destruct k as [|k]; cbn [nth_error combine map]; [|apply IH; cbn in *; congruence].
    intros Hc H1 H2 H3. injection Hc as ->. injection H1 as ->. injection H2 as ->. injection H3 as <-.
    assert (G : forall a b : Q, (c < 2 # 10 -> a + ice_factor c * (b - a) == a) /\ (8 # 10 <= c -> a + ice_factor c * (b - a) == b) /\
                between a b (a + ice_factor c * (b - a))).
    { intros a b. pose proof (ice_free c) as F.
      assert (K : 0 <= ice_factor c <= 1 /\ (c < 2 # 10 -> ice_factor c == 0) /\ (8 # 10 <= c -> ice_factor c == 1)).
      { rewrite F. destruct (C57_factor c) as [K1 [K2 K3]]. split; [lra|]. split; intros K; [rewrite K2 by auto|rewrite K3 by auto]; ring. }
      destruct K as [K1 [K2 K3]]. split; [intros K; rewrite (K2 K); ring|]. split; [intros K; rewrite (K3 K); ring|].
      set (g := ice_factor c) in *. clearbody g. clear - K1. unfold between.
      destruct (Qlt_le_dec a b); [left|right]; split; nra. }
    unfold same, vadd, vscale, vsub, vx, vy, vz. cbn [fst snd].
    destruct (G (fst (fst w)) (fst (fst i))) as [X1 [X2 X3]]. destruct (G (snd (fst w)) (snd (fst i))) as [Y1 [Y2 Y3]].
    destruct (G (snd w) (snd i)) as [Z1 [Z2 Z3]]. repeat split; auto.
  - split; [auto|]. intros k c w i d Hc H1 H2 H3. rewrite H1 in H3. injection H3 as <-.
    assert (L : c < 2 # 10) by (eapply any_ice_false; [exact A|]; eapply nth_error_In; exact Hc).
    split; [intros _; apply same_refl|]. split; [lra|]. unfold between. repeat split;
      match goal with |- (?a <= ?a <= ?b) \/ _ => destruct (Qlt_le_dec a b); [left|right]; split; lra end.
Qed.
Print Assumptions C91_current.
Example C91_current_meets : let cs := [0; 1 # 2; 9 # 10] in let w : list vec := [(1, 0, 0); (1, 0, 0); (1, 0, 0)] in
  let i : list vec := [(0, 1, 0); (0, 1, 0); (0, 1, 0)] in
  length w = length cs /\ length i = length cs /\ vx (nth 1 (ice_current_at cs w i) vzero) == 1 # 2.
Proof. cbv zeta. repeat split. Qed.

(** A wind without negative components is scaled by a factor that is 1 below 20% of
    ice, 0 from 80% on, and never increases with the ice. *)
Theorem C92_wind_partial : forall cs (wind : list vec), length wind = length cs ->
  (forall w, In w wind -> 0 <= vx w /\ 0 <= vy w /\ 0 <= vz w) ->
  let out := ice_wind_at 0 cs wind in
  length out = length cs /\
  forall k c (w d : vec), nth_error cs k = Some c -> nth_error wind k = Some w -> nth_error out k = Some d ->
    exists g, same d (g * vx w, g * vy w, g * vz w) /\ 0 <= g <= 1 /\ (c < 2 # 10 -> g == 1) /\ (8 # 10 <= c -> g == 0) /\
      g == free_factor c.
Proof.
  intros cs wind Hw Hp out. subst out. unfold ice_wind_at.
  assert (E : map (raise_to 0) wind = wind).
  { rewrite <- (map_id wind) at 2. apply map_ext_in. intros [[a b] c] H. destruct (Hp _ H) as [P1 [P2 P3]]. cbn in *.
    unfold raise_to. cbn [vx vy vz fst snd]. apply Qle_bool_iff in P1, P2, P3. rewrite P1, P2, P3. reflexivity. }
  rewrite E. clear E Hp. destruct (any_ice cs) eqn:A.
  - split; [rewrite map2_length; auto|]. clear A. revert wind Hw.
    induction cs as [|c0 cs IH]; intros [|w0 wind] Hw k c w d; try discriminate; [destruct k; discriminate|].
    destruct k as [|k]; unfold map2; cbn [nth_error combine map]; [|apply IH; cbn in *; congruence].
    intros Hc H1 H3. injection Hc as ->. injection H1 as ->. injection H3 as <-. exists (free_factor c).
    pose proof (ice_free c) as F. destruct (C57_factor c) as [B1 [B2 B3]].
    split; [|repeat split; auto; try reflexivity; apply B1].
    destruct (Qle_bool_spec (8 # 10) c) as [G|G]; unfold same, vscale, vzero, vx, vy, vz; cbn [fst snd]; rewrite F.
    + rewrite B3 by auto. repeat split; ring.
    + repeat split; ring.
  - split; [auto|]. intros k c w d Hc H1 H3. rewrite H1 in H3. injection H3 as <-.
    assert (L : c < 2 # 10) by (eapply any_ice_false; [exact A|]; eapply nth_error_In; exact Hc).
    exists 1. destruct (C57_factor c) as [B1 [B2 B3]]. split; [vsolve|]. split; [lra|]. split; [reflexivity|]. split; [lra|]. rewrite B2 by auto. reflexivity.
Qed.
Print Assumptions C92_wind_partial.
Example C92_wind_partial_meets : let cs := [0; 1 # 2] in let w : list vec := [(1, 2, 0); (3, 4, 0)] in length w = length cs /\
  (forall v, In v w -> 0 <= vx v /\ 0 <= vy v /\ 0 <= vz v) /\ vx (nth 1 (ice_wind_at 0 cs w) vzero) == 3 # 2.
Proof.
  cbv zeta. split; [reflexivity|]. split; [|reflexivity]. intros v [<-|[<-|[]]]; cbn; repeat split; lra.
Qed.
(** In open water every negative component of the wind is lost: the claim for all winds
    is false. *)
Theorem C92_negative_refuted : exists cs wind k c w d,
  nth_error cs k = Some c /\ c < 2 # 10 /\ nth_error wind k = Some w /\ nth_error (ice_wind_at 0 cs wind) k = Some d /\
  vx w == -5 /\ vx d == 0.
Proof. exists [0], [(-5, 3, 0)], 0%nat. eexists. eexists. eexists. split; [reflexivity|]. split; [reflexivity|]. split; [reflexivity|]. split; [reflexivity|]. split; reflexivity. Qed.
Print Assumptions C92_negative_refuted.

(** ** C93: ship drift *)

(** When all elements are in water they drift by velocity times time step times
    windage; an inactive mover moves nothing. *)
Theorem C93_drift_partial : forall cosd vel v active dt t es, steady vel v ->
  (forall e, In e es -> e_water e = true) \/ length es = 1%nat ->
  exists ds, drift_move cosd vel active dt t es = Ok ds /\
    Forall2 (fun e d => same d
      (if active && e_water e
       then in_degrees (cosd (vy (e_pos e))) (vx v * seconds dt * e_windage e) (vy v * seconds dt * e_windage e) 0
       else (0, 0, 0))) es ds.
Proof.
  intros cosd vel v active dt t es Hs Hw. unfold drift_move. destruct (active && negb _) eqn:A.
  - apply andb_true_iff in A. destruct A as [-> _]. rewrite (field_uniform _ _ (steady_uniform _ _ Hs)). cbn [bind].
    assert (E : ((length (filter e_water es) =? length es) || (length es =? 1))%nat = true).
    { apply orb_true_iff. destruct Hw as [Hw|Hw]; [left; apply Nat.eqb_eq, drift_all; exact Hw|right; rewrite Hw; reflexivity]. }
    rewrite E. eexists. split; [reflexivity|]. unfold to_lonlat_rows. rewrite map_map, map2_map_r, map2_map.
    clear E Hw. induction es as [|e es IH]; [constructor|]. constructor; [|apply IH]. cbn [andb].
    destruct (e_water e); unfold same, to_lonlat_row, meters_to_lonlat, in_degrees, vzero, vx, vy, vz, deg_per_m, Qdiv; cbn [fst snd];
      repeat split; rewrite ?secs_seconds; ring.
  - eexists. split; [reflexivity|]. apply zeros_spec. intros e He. apply andb_false_iff in A. destruct A as [->|A]; [apply same_refl|].
    destruct es; [contradiction|]. cbn in A. discriminate.
Qed.
Print Assumptions C93_drift_partial.
Example C93_drift_partial_meets : exists ds, drift_move flat east true 60000000 0 [mkElem (1, 2, 0) true (1 # 10); mkElem (3, 4, 0) true (2 # 10)] = Ok ds /\ length ds = 2%nat.
Proof. eexists. split; reflexivity. Qed.
(** As soon as some, but not all, of two or more elements are in water the active mover
    fails. *)
Theorem C93_mixed_refuted : forall cosd vel dt t es vs, field_at vel (map e_pos es) t = Ok vs -> (1 < length es)%nat ->
  (exists e, In e es /\ e_water e = false) -> drift_move cosd vel true dt t es = Raise ValueErr.
Proof.
  intros cosd vel dt t es vs Hv Hl [e [He We]]. unfold drift_move. rewrite Hv. cbn [bind andb].
  rewrite map_length. destruct (length es =? 0)%nat eqn:E0; [apply Nat.eqb_eq in E0; lia|]. cbn [negb].
  destruct ((length (filter e_water es) =? length es)%nat) eqn:E1.
  { apply Nat.eqb_eq in E1. rewrite (proj1 (drift_all es) E1 e He) in We. discriminate. }
  destruct (length es =? 1)%nat eqn:E2; [apply Nat.eqb_eq in E2; lia|]. reflexivity.
Qed.
Print Assumptions C93_mixed_refuted.
Example C93_mixed_meets : (1 < length three)%nat /\ (exists e, In e three /\ e_water e = false) /\
  drift_move flat east true 60000000 0 three = Raise ValueErr.
Proof. split; [cbn; lia|]. split; [exists (mkElem (11, 46, 5) false (2 # 100)); split; [right; left; reflexivity|reflexivity]|reflexivity]. Qed.
