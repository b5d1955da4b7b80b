(** * Properties C111 and C112: tide flats *)
From Verif Require Import Py PyLemmas QLemmas LandModel LandSpec ProjModel PipModel MapModel MapSpec MapProofs TfModel TfSpec TfProofs.
Open Scope Q_scope.

(** ** C111 *)

(** Over any run on a map without land, every element goes its own way as the specification says:
    stranded elements stay exactly as long as the flat is dry, at the beginning of the step, where
    they are; all others move, and strand where the flat is dry. *)
Theorem C111_run_partial : forall dry on_map steps es b,
  Forall (fun s => Forall moves_floating (snd s)) steps -> Forall (afloat_or_stranded on_map) es ->
  exists b', tf_run dry on_map steps (es, b) = Ok (survivors (life dry on_map steps) es, b').
Proof. intros dry om steps es b H1 H2. destruct (tf_run_life dry om steps es b H1 H2) as [b' [E _]]. eauto. Qed.
Print Assumptions C111_run_partial.

(** A stranded element stays where it is through all steps that begin while the flat is dry there,
    and moves in the first step that begins when it is wet. *)
Theorem C111_stays : forall dry on_map before t movers e,
  Forall (fun s => dry (e_pos e) (fst s) = true) before -> e_stat e = ON_TIDEFLAT ->
  life dry on_map before e = Some e /\
  (dry (e_pos e) t = false ->
   forall e', life dry on_map (before ++ [(t, movers)]) e = Some e' ->
   e_pos e' = surfaced (target movers (mkElem (e_pos e) (e_next e) IN_WATER (e_lastw e) (e_mass e)))).
Proof.
  intros dry om before t movers e H He.
  assert (G : forall r, life dry om (before ++ r) e = life dry om r e).
  { induction H as [|[u ms] l Hu _ IH]; intros r; cbn [app life]; auto. cbn in Hu.
    unfold life1. rewrite He, Hu. cbn [andb Z.eqb ON_TIDEFLAT Pos.eqb]. apply IH. }
  split.
  - specialize (G []). rewrite app_nil_r in G. rewrite G. reflexivity.
  - intros Hd e'. rewrite G. cbn [life]. unfold life1. rewrite Hd, andb_false_r.
    match goal with |- context[om ?x] => destruct (om x) end; [|discriminate]. intros E. injection E as <-. reflexivity.
Qed.
Print Assumptions C111_stays.

(** On any map the land comes first: the result differs from that of the land map only in that
    elements the land map leaves in the water are stranded where the flat is dry. *)
Theorem C111_land_first : forall m dry t sc es1 b1, beach_of m sc = Ok (es1, b1) ->
  exists es', tf_beach (beach_of m) dry t sc = Ok (es', b1) /\
  Forall2 (fun e e' => e_pos e' = e_pos e /\ e_next e' = e_next e /\ e_lastw e' = e_lastw e /\ e_mass e' = e_mass e /\
     (e_stat e' = ON_TIDEFLAT <-> (e_stat e = IN_WATER /\ dry (e_next e) t = true) \/ e_stat e = ON_TIDEFLAT) /\
     (e_stat e' <> ON_TIDEFLAT -> e_stat e' = e_stat e)) es1 es'.
Proof.
  intros m dry t sc es1 b1 E. unfold tf_beach. rewrite E. cbn [bind fst snd]. eexists. split; [reflexivity|].
  clear E. induction es1 as [|e r IH]; cbn [map]; constructor; auto.
  destruct (strand_fields dry t e) as [F1 [F2 [F3 [F4 F5]]]]. repeat split; auto; rewrite F5;
    destruct (Z.eqb_spec (e_stat e) IN_WATER) as [X|X]; cbn [andb]; destruct (dry (e_next e) t) eqn:D; intros; try tauto; try congruence.
  - rewrite X in *. destruct H as [[_ H]|H]; discriminate.
Qed.
Print Assumptions C111_land_first.

(** SimpleTideflat is dry in its polygon, from the first time to the last inclusive. *)
Theorem C111_simple : forall bounds t0 t1 p t,
  simple_flat bounds t0 t1 p t = true <-> (t0 <= t <= t1)%Z /\ c_point_in_poly bounds (fst p) = true.
Proof.
  intros. unfold simple_flat. destruct (Z.ltb_spec t t0), (Z.ltb_spec t1 t); cbn [orb]; split; try discriminate; try (intros [? ?]; lia).
  - intros E. split; [lia|exact E].
  - tauto.
Qed.
Print Assumptions C111_simple.

Definition square : list PipModel.pt := [(0, -1); (2, -1); (2, 1); (0, 1)].
Definition the_flat : flat := simple_flat square 3600 10800.
Definition east (e : elem) : pos3 := if (e_stat e =? IN_WATER)%Z then ((1, 0), 0) else ((0, 0), 0).
Definition everywhere (p : ProjModel.pt) : bool := true.
Definition drop (x : Q) (s : Z) : elem := mkElem ((x, 0), 0) ((x, 0), 0) s ((x, 0), 0) 1.
Example C111_meets :
  Forall moves_floating [east] /\ Forall (afloat_or_stranded everywhere) [drop (-(1#2)) IN_WATER; drop (1#2) ON_TIDEFLAT] /\
  exists e1 e2, survivors (life the_flat everywhere [(3600, [east]); (7200, [east]); (10800, [east])]%Z)
    [drop (-(1#2)) IN_WATER; drop (1#2) ON_TIDEFLAT] = [e1; e2] /\ fst (fst (e_pos e1)) == 1#2 /\ e_stat e1 = ON_TIDEFLAT /\
    fst (fst (e_pos e2)) == 1#2 /\
  exists e3 e4, survivors (life the_flat everywhere [(3600, [east]); (7200, [east]); (10800, [east]); (14400, [east])]%Z)
    [drop (-(1#2)) IN_WATER; drop (1#2) ON_TIDEFLAT] = [e3; e4] /\ fst (fst (e_pos e3)) == 3#2 /\ e_stat e4 = IN_WATER.
Proof.
  split; [constructor; [|constructor]|].
  { split; [intros e p; reflexivity|]. intros e He. unfold east. destruct (Z.eqb_spec (e_stat e) IN_WATER); [contradiction|reflexivity]. }
  split; [constructor; [left; reflexivity|constructor; [right|constructor]]; repeat split; reflexivity|].
  eexists. eexists. split; [vm_compute; reflexivity|]. split; [reflexivity|]. split; [reflexivity|]. split; [reflexivity|].
  eexists. eexists. split; [vm_compute; reflexivity|]. split; reflexivity.
Qed.

(** The flat is looked at as it was when the step began.  An element that comes to the flat while it
    falls dry is therefore not stranded: it is on the dry flat at 3600 s and moves on over it. *)
Theorem C111_falls_dry_refuted : exists e e1 e2, e_stat e = IN_WATER /\
  life the_flat everywhere [(0, [east])]%Z e = Some e1 /\ the_flat (e_pos e1) 3600%Z = true /\ e_stat e1 = IN_WATER /\
  life the_flat everywhere [(0, [east]); (3600, [east])]%Z e = Some e2 /\ ~ fst (fst (e_pos e2)) == fst (fst (e_pos e1)) /\
  the_flat (e_pos e2) 3600%Z = true.
Proof.
  exists (drop (-(1#2)) IN_WATER). eexists. eexists. split; [reflexivity|]. split; [vm_compute; reflexivity|].
  split; [reflexivity|]. split; [reflexivity|]. split; [vm_compute; reflexivity|]. split; [|reflexivity].
  cbn. intros H. apply Qeq_bool_iff in H. vm_compute in H. discriminate.
Qed.
Print Assumptions C111_falls_dry_refuted.

(** ** C112 *)

(** With a flat that is not dry at any of the steps, the run is that of the map alone, on any map. *)
Theorem C112_transparent : forall ss dry times es b, length times = length ss ->
  (forall t p, In t times -> dry p t = false) -> Forall (fun e => e_stat e <> ON_TIDEFLAT) es ->
  tf_run_steps dry times ss (es, b) = run_steps ss (es, b).
Proof. exact tf_transparent. Qed.
Print Assumptions C112_transparent.

(** The base class is such a flat. *)
Theorem C112_base : forall t p, base_flat p t = false.
Proof. reflexivity. Qed.
Print Assumptions C112_base.

(** No mass is lost on tide flats: what is left and what left the map is constant, on maps without
    land and raster maps. *)
Theorem C112_mass : forall dry ss times es b es' b',
  Forall (fun s => is_param (s_map s) = false) ss ->
  Forall (fun e => e_stat e <> OFF_MAPS /\ e_stat e <> TO_BE_REMOVED) es ->
  tf_run_steps dry times ss (es, b) = Ok (es', b') ->
  mass_sum es' + bal_off b' == mass_sum es + bal_off b.
Proof. intros dry ss times es b es' b' H1 H2 H3. apply (tf_run_conserves dry ss times es b es' b' H1 H2 H3). Qed.
Print Assumptions C112_mass.
Definition g_tf : raster := mkRaster 8 8 (map (fun i => if (i / 8 =? 6)%Z then 1%Z else 0%Z) (zseq 0 64)).
Definition s_tf : step_in := mkStep (Raster (build_layers g_tf [16%Z]) (mkProj 0 0 1 (-1) 4 4) 3600 (fun c => Qle_bool (-4) (fst c))) 3600 0 [1] [east].
Example C112_meets : exists es' b', tf_run_steps the_flat [3600; 7200; 14400; 18000]%Z [s_tf; s_tf; s_tf; s_tf] ([drop (-(1#2)) IN_WATER; drop (3#2) IN_WATER], mkBal 0 0)
    = Ok (es', b') /\ mass_sum es' == 2 /\ map e_stat es' = [ON_LAND; ON_LAND] /\ bal_beached b' == 2 /\
  exists es1 b1, tf_run_steps the_flat [3600; 7200]%Z [s_tf; s_tf] ([drop (-(1#2)) IN_WATER; drop (3#2) IN_WATER], mkBal 0 0)
    = Ok (es1, b1) /\ map e_stat es1 = [ON_TIDEFLAT; ON_LAND].
Proof.
  eexists. eexists. split; [vm_compute; reflexivity|]. split; [reflexivity|]. split; [reflexivity|]. split; [reflexivity|].
  eexists. eexists. split; [vm_compute; reflexivity|]. reflexivity.
Qed.
