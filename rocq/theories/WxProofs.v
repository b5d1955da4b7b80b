(** * Proofs about weathering *)
From Verif Require Import Py PyLemmas WxModel WxSpec.
From Coq Require Import Reals Lra.
Open Scope R_scope.

(** Products of things that are not negative, without unfolding. *)
Ltac rpos := repeat match goal with |- 0 <= _ * _ => apply Rmult_le_pos end; try lra.

Lemma Rltb_iff x y : Rltb x y = true <-> x < y.
Proof. unfold Rltb. destruct (Rlt_dec x y); split; intros; try congruence; tauto. Qed.
Lemma weathered_iff e : weathered e = true <-> at_surface e.
Proof. unfold weathered, at_surface. rewrite andb_true_iff, Z.eqb_eq, Rltb_iff. tauto. Qed.
Lemma weathered_false e : weathered e = false <-> ~ at_surface e.
Proof. rewrite <- weathered_iff. destruct (weathered e); split; congruence. Qed.

(** ** Sums *)

Lemma sumr_cons x l : sumr (x :: l) = x + sumr l.
Proof. reflexivity. Qed.
Lemma sumr_nonneg l : Forall (fun x => 0 <= x) l -> 0 <= sumr l.
Proof. induction 1; cbn; [lra|]. fold (sumr l). lra. Qed.
Lemma sumr_le l l' : Forall2 (fun x x' => x' <= x) l l' -> sumr l' <= sumr l.
Proof. induction 1; cbn; [lra|]. fold (sumr l) (sumr l'). lra. Qed.
Lemma sumr_scale k l : sumr (map (Rmult k) l) = k * sumr l.
Proof. induction l as [|x r IH]; cbn; [ring|]. fold (sumr r) (sumr (map (Rmult k) r)). rewrite IH. ring. Qed.
Lemma sumr_pos_ex l : Forall (fun x => 0 <= x) l -> 0 < sumr l -> exists x, In x l /\ 0 < x.
Proof.
  induction 1 as [|x l Hx Hl IH]; cbn; [lra|]. fold (sumr l). intros H. destruct (Rlt_dec 0 x); [exists x; auto|].
  destruct IH as [y [H1 H2]]; [lra|]. exists y. auto.
Qed.
Lemma sumr_ge l x : Forall (fun x => 0 <= x) l -> In x l -> x <= sumr l.
Proof.
  induction 1 as [|y l Hy Hl IH]; intros H; [destruct H|]. cbn. fold (sumr l). pose proof (sumr_nonneg l Hl).
  destruct H as [->|H]; [lra|]. specialize (IH H). lra.
Qed.

(** ** Putting elements back *)

Definition rel_on (P : wel -> wel -> Prop) (e e' : wel) : Prop := (at_surface e -> P e e') /\ (~ at_surface e -> e' = e).
Lemma scatter_rel (P : wel -> wel -> Prop) : forall l data, Forall2 P (filter weathered l) data ->
  Forall2 (rel_on P) l (scatter l data).
Proof.
  induction l as [|e r IH]; intros data H; [constructor|]. cbn [filter scatter] in *.
  destruct (weathered e) eqn:E.
  - inversion H; subst. constructor; [|apply IH; auto]. apply weathered_iff in E. split; [auto|tauto].
  - constructor; [|apply IH; auto]. apply weathered_false in E. split; [tauto|auto].
Qed.
Lemma scatter_mass : forall l data, length data = length (filter weathered l) ->
  mass_of (scatter l data) = mass_of l - mass_of (filter weathered l) + mass_of data.
Proof.
  unfold mass_of. induction l as [|e r IH]; intros data H; cbn [filter scatter] in *.
  - destruct data; [cbn; ring|discriminate].
  - destruct (weathered e) eqn:E.
    + destruct data as [|d ds]; [discriminate|]. cbn [map]. rewrite !sumr_cons. rewrite IH by (cbn in H; lia). ring.
    + cbn [map]. rewrite !sumr_cons. rewrite IH by auto. ring.
Qed.
Lemma forall2_length {A B} (P : A -> B -> Prop) l l' : Forall2 P l l' -> length l = length l'.
Proof. induction 1; cbn; congruence. Qed.
Lemma conserves_scatter l data b : Forall2 lowered (filter weathered l) data ->
  b = mass_of (filter weathered l) - mass_of data -> (forall e, In e l -> wsane e) -> conserves l (scatter l data) b.
Proof.
  intros H -> Hs. split; [apply scatter_rel; exact H|]. split.
  - rewrite scatter_mass by (symmetry; eapply forall2_length; eauto). ring.
  - assert (G : mass_of data <= mass_of (filter weathered l)); [|lra].
    assert (Hs' : forall e, In e (filter weathered l) -> wsane e) by (intros e He; apply Hs; apply filter_In in He; apply He).
    clear Hs. unfold mass_of. induction H as [|e d es ds Hl H IH]; [cbn; lra|]. cbn [map]. rewrite !sumr_cons.
    assert (w_mass d <= w_mass e).
    { destruct (Hs' e (or_introl eq_refl)) as [_ ->]. destruct Hl as [_ [_ [_ [_ [_ [_ [_ [Hl ->]]]]]]]]. apply sumr_le.
      clear - Hl. induction Hl; constructor; auto. lra. }
    specialize (IH (fun e He => Hs' e (or_intror He))). lra.
Qed.

(** ** Evaporation *)

Lemma transport_pos w : 0 < transport w.
Proof. unfold transport, Rpower. apply Rmult_lt_0_compat; [lra|apply exp_pos]. Qed.
Lemma schmidt_pos w : 0 < schmidt w.
Proof. unfold schmidt, Rpower. apply Rmult_lt_0_compat; [lra|apply exp_pos]. Qed.
Lemma puddle_pos a v : 0 < puddle a v.
Proof. unfold puddle, Rpower. apply exp_pos. Qed.
Lemma sum_mi_pos cs mc : volatile cs -> length mc = length cs -> Forall (fun x => 0 <= x) mc -> 0 < sumr mc -> 0 < sum_mi_mw cs mc.
Proof.
  intros Hv Hl Hm Hp. destruct (sumr_pos_ex mc Hm Hp) as [x [Hx Hx0]].
  unfold sum_mi_mw. revert mc Hl Hm Hp Hx. induction Hv as [|c cs [Hc1 Hc2] Hv IH]; intros mc Hl Hm Hp Hx.
  - destruct mc; [destruct Hx|discriminate].
  - destruct mc as [|m mc]; [discriminate|]. cbn [combine map]. rewrite sumr_cons. cbn [fst snd].
    inversion Hm; subst. assert (Hk : 0 < kg_mol c) by (unfold kg_mol; lra).
    assert (0 <= m / kg_mol c) by (apply Rmult_le_pos; [lra|left; apply Rinv_0_lt_compat; lra]).
    assert (P : 0 <= sumr (map (fun p => snd p / kg_mol (fst p)) (combine cs mc))).
    { apply sumr_nonneg, Forall_forall. intros y Hy. apply in_map_iff in Hy as [[c' m'] [<- Hy]]. cbn [fst snd].
      pose proof (in_combine_l _ _ _ _ Hy) as I1. pose proof (in_combine_r _ _ _ _ Hy) as I2.
      rewrite Forall_forall in Hv, H2. specialize (Hv _ I1). specialize (H2 _ I2). unfold kg_mol.
      apply Rmult_le_pos; [lra|left; apply Rinv_0_lt_compat; lra]. }
    destruct Hx as [->|Hx].
    + assert (0 < x / kg_mol c) by (apply Rmult_lt_0_compat; [lra|apply Rinv_0_lt_compat; lra]). apply Rplus_lt_le_0_compat; [lra|exact P].
    + destruct (Rlt_dec 0 (sumr mc)) as [Hs|Hs].
      * apply Rplus_le_lt_0_compat; [lra|]. apply IH; auto.
      * exfalso. pose proof (sumr_ge mc x H2 Hx). lra.
Qed.
Lemma decay_nonpos T cs w e : 0 < T -> volatile cs -> physical e -> 0 < w_mass e -> length (w_comps e) = length cs ->
  Forall (fun k => k <= 0) (decay T cs w e).
Proof.
  intros HT Hv [[Hc Hm] [Hfw [Ha [Hvf _]]]] Hp Hl. apply Forall_forall. intros k Hk. unfold decay in Hk.
  apply in_map_iff in Hk as [c [<- Hin]].
  assert (HS : 0 < sum_mi_mw cs (w_comps e)) by (apply sum_mi_pos; auto; rewrite <- Hm; auto).
  assert (HG : 0 < gas_constant) by (unfold gas_constant; lra).
  assert (HD : 0 < / (gas_constant * T * sum_mi_mw cs (w_comps e))).
  { apply Rinv_0_lt_compat. apply Rmult_lt_0_compat; [apply Rmult_lt_0_compat; auto|auto]. }
  unfold volatile in Hv. rewrite Forall_forall in Hv. destruct (Hv _ Hin) as [Hf _].
  pose proof (transport_pos w). pose proof (puddle_pos (w_area e) (w_vf e)). pose proof (schmidt_pos (kg_mol c)).
  unfold Rdiv.
  assert (E : 0 <= w_area e * (1 - w_fw e) * transport w * puddle (w_area e) (w_vf e) *
                   / (gas_constant * T * sum_mi_mw cs (w_comps e)) * fst c * schmidt (kg_mol c)).
  { rpos. }
  lra.
Qed.
Lemma exp_decay_bounds mc ks dt : 0 <= dt -> Forall (fun x => 0 <= x) mc -> Forall (fun k => k <= 0) ks -> length ks = length mc ->
  Forall2 (fun x x' => 0 <= x' <= x) mc (exp_decay mc ks dt).
Proof.
  intros Hd Hm. revert ks. induction Hm as [|m mc H0 Hm IH]; intros ks Hk Hl.
  - constructor.
  - destruct ks as [|k ks]; [discriminate|]. inversion Hk; subst. unfold exp_decay. cbn [combine map fst snd]. constructor.
    + pose proof (exp_pos (k * dt)).
      assert (exp (k * dt) <= 1).
      { rewrite <- exp_0. assert (Hkd : k * dt <= 0) by (assert (0 <= - k * dt) by (apply Rmult_le_pos; lra); lra).
        destruct Hkd as [Hkd|Hkd]; [left; apply exp_increasing; auto|right; f_equal; auto]. }
      split; [apply Rmult_le_pos; lra|]. rewrite <- (Rmult_1_r m) at 2. apply Rmult_le_compat_l; lra.
    + apply IH; auto.
Qed.
Lemma decay_length T cs w e : length (decay T cs w e) = length cs.
Proof. unfold decay. apply map_length. Qed.
Lemma evap_el_lowered T cs w e dt : 0 < T -> 0 <= dt -> volatile cs -> physical e -> 0 < w_mass e -> length (w_comps e) = length cs ->
  lowered e (evap_el e (decay T cs w e) dt).
Proof.
  intros HT Hd Hv Hp Hm Hl. unfold lowered, evap_el. cbn. split; auto. split; auto. split; auto. split; auto. split; auto. split; auto. split; auto.
  split; [|reflexivity]. apply exp_decay_bounds; auto; [apply Hp|apply decay_nonpos; auto|rewrite decay_length; auto].
Qed.
Lemma evap_data_ok T cs winds dt data : 0 < T -> 0 <= dt -> volatile cs -> length winds = length data ->
  (forall e, In e data -> physical e /\ 0 < w_mass e /\ length (w_comps e) = length cs) ->
  exists data', evap_data T cs winds dt data = Ok (data', mass_of data - mass_of data') /\
    Forall2 (fun e e' => lowered e e' /\ w_flost e' = 1 - w_mass e' / w_init e /\
                         w_fevap e' = w_fevap e + (w_mass e - w_mass e') / w_init e) data data'.
Proof.
  intros HT Hd Hv Hl H. unfold evap_data.
  assert (E1 : existsb (existsb (Rltb 0)) (map (fun p => decay T cs (fst p) (snd p)) (combine winds data)) = false).
  { destruct (existsb _ _) eqn:E; auto. exfalso. apply existsb_exists in E as [ks [I1 I2]].
    apply existsb_exists in I2 as [k [I2 I3]]. apply Rltb_iff in I3.
    apply in_map_iff in I1 as [[w e] [<- I1]]. cbn [fst snd] in I2. apply in_combine_r in I1. destruct (H _ I1) as [P1 [P2 P3]].
    pose proof (decay_nonpos T cs w e HT Hv P1 P2 P3) as G. rewrite Forall_forall in G. specialize (G _ I2). lra. }
  rewrite E1. eexists. split.
  - f_equal. f_equal. f_equal. unfold mass_of. clear - H. assert (G : forall e, In e data -> w_mass e = sumr (w_comps e)) by (intros e He; apply H; auto).
    clear H. induction data as [|e r IH]; [reflexivity|]. cbn [map]. rewrite !sumr_cons, IH, (G e (or_introl eq_refl)); auto. intros; apply G; right; auto.
  - clear E1. revert winds Hl. induction data as [|e r IH]; intros winds Hl; destruct winds as [|w winds]; try discriminate; [constructor|].
    cbn [combine map]. constructor.
    + cbn [fst snd]. destruct (H e (or_introl eq_refl)) as [P1 [P2 P3]].
      split; [apply evap_el_lowered; auto|]. split; [reflexivity|]. cbn. destruct P1 as [[_ ->] _]. reflexivity.
    + apply IH; [intros; apply H; right; auto|cbn in Hl; lia].
Qed.

(** ** Half-lives *)

Lemma halflife_bounds m h t : 0 <= m -> 0 < h -> 0 <= t -> 0 <= halflife m h t <= m.
Proof.
  intros Hm Hh Ht. unfold halflife. destruct (Req_EM_T h 0); [lra|].
  assert (P : 0 < Rpower (1 / 2) (t / h)) by (unfold Rpower; apply exp_pos).
  assert (Q : Rpower (1 / 2) (t / h) <= 1).
  { unfold Rpower. apply Rle_trans with (exp 0); [|rewrite exp_0; lra].
    assert (L : ln (1 / 2) < 0) by (rewrite <- ln_1; apply ln_increasing; lra).
    assert (D : 0 <= t / h) by (apply Rmult_le_pos; [lra|left; apply Rinv_0_lt_compat; lra]).
    assert (K : t / h * ln (1 / 2) <= 0) by (assert (0 <= t / h * - ln (1 / 2)) by (apply Rmult_le_pos; lra); lra).
    destruct K as [K|K]; [left; apply exp_increasing; auto|right; f_equal; auto]. }
  split; [apply Rmult_le_pos; lra|]. rewrite <- (Rmult_1_r m) at 2. apply Rmult_le_compat_l; lra.
Qed.
Lemma halflife_add m h s t : 0 < h -> halflife (halflife m h s) h t = halflife m h (s + t).
Proof.
  intros Hh. unfold halflife. destruct (Req_EM_T h 0); [lra|]. rewrite Rmult_assoc, <- Rpower_plus. f_equal. f_equal. field. lra.
Qed.
Lemma halflife_half m h : 0 < h -> halflife m h h = m / 2.
Proof.
  intros Hh. unfold halflife. destruct (Req_EM_T h 0); [lra|]. replace (h / h) with 1 by (field; lra). rewrite Rpower_1 by lra. field.
Qed.
Lemma halflife_zero m h : 0 < h -> halflife m h 0 = m.
Proof.
  intros Hh. unfold halflife. destruct (Req_EM_T h 0); [lra|]. replace (0 / h) with 0 by (field; lra). rewrite Rpower_O by lra. ring.
Qed.
Lemma halflife_pos m h t : 0 < m -> 0 < h -> 0 < halflife m h t.
Proof.
  intros Hm Hh. unfold halflife. destruct (Req_EM_T h 0); [lra|]. apply Rmult_lt_0_compat; [lra|]. unfold Rpower. apply exp_pos.
Qed.
Lemma spread_ok hs n : length hs = 1%nat \/ length hs = n -> exists f, spread hs n = Ok f /\ length f = n /\ (forall x, In x f -> In x hs).
Proof.
  intros H. unfold spread. destruct hs as [|h [|h2 r]].
  - destruct H as [H|H]; [discriminate|]. cbn in H. subst n. exists []. cbn. auto.
  - exists (repeat h n). split; auto. split; [apply repeat_length|]. intros x Hx. apply repeat_spec in Hx. subst. left; auto.
  - destruct H as [H|H]; [discriminate|]. rewrite H, Nat.eqb_refl. eexists. split; [reflexivity|auto].
Qed.
Lemma half_lowered mc f t : Forall (fun x => 0 <= x) mc -> length f = length mc -> (forall h, In h f -> 0 < h) -> 0 <= t ->
  Forall2 (fun x x' => 0 <= x' <= x) mc (map (fun p => halflife (fst p) (snd p) t) (combine mc f)).
Proof.
  intros Hm. revert f. induction Hm as [|m mc H0 Hm IH]; intros f Hl Hh Ht; destruct f as [|h f]; try discriminate; cbn; constructor.
  - apply halflife_bounds; auto. apply Hh. left; auto.
  - apply IH; auto. intros; apply Hh; right; auto.
Qed.
Lemma half_pos mc f t : Forall (fun x => 0 <= x) mc -> length f = length mc -> (forall h, In h f -> 0 < h) -> 0 <= t -> 0 < sumr mc ->
  0 < sumr (map (fun p => halflife (fst p) (snd p) t) (combine mc f)).
Proof.
  intros Hm. revert f. induction Hm as [|m mc H0 Hm IH]; intros f Hl Hh Ht Hp; destruct f as [|h f]; try discriminate; [cbn in Hp; lra|].
  rewrite sumr_cons in Hp. cbn [combine map fst snd]. rewrite sumr_cons.
  assert (Hh' : forall h, In h f -> 0 < h) by (intros; apply Hh; right; auto). cbn in Hl. injection Hl as Hl.
  pose proof (half_lowered mc f t Hm Hl Hh' Ht) as G.
  assert (G2 : 0 <= sumr (map (fun p => halflife (fst p) (snd p) t) (combine mc f))).
  { apply sumr_nonneg. clear - G. induction G; constructor; auto. lra. }
  destruct (Rlt_dec 0 m) as [Hm0|Hm0].
  - pose proof (halflife_pos m h t Hm0 (Hh h (or_introl eq_refl))). lra.
  - assert (0 < sumr mc) by lra. specialize (IH f Hl Hh' Ht H).
    pose proof (halflife_bounds m h t H0 (Hh h (or_introl eq_refl)) Ht). lra.
Qed.
Lemma half_data_ok hs t data : (forall h, In h hs -> 0 < h) -> 0 <= t ->
  (forall e, In e data -> wsane e /\ (length hs = 1%nat \/ length hs = length (w_comps e))) ->
  exists data', mapM (half_el hs t) data = Ok data' /\ Forall2 lowered data data'.
Proof.
  intros Hh Ht. induction data as [|e r IH]; intros H; [exists []; split; [reflexivity|constructor]|].
  destruct IH as [r' [E1 E2]]; [intros; apply H; right; auto|].
  destruct (H e (or_introl eq_refl)) as [Hs Hl]. destruct (spread_ok hs _ Hl) as [f [F1 [F2 F3]]].
  cbn [mapM]. unfold half_el at 1. rewrite F1. cbn [bind]. rewrite E1. cbn [bind]. eexists. split; [reflexivity|].
  constructor; auto. unfold lowered, with_comps. cbn. split; auto. split; auto. split; auto. split; auto. split; auto. split; auto. split; auto.
  split; [|reflexivity]. apply half_lowered; auto. apply Hs.
Qed.

Lemma half_comps_add mc f s t : (forall h, In h f -> 0 < h) -> length f = length mc ->
  map (fun p => halflife (fst p) (snd p) t) (combine (map (fun p => halflife (fst p) (snd p) s) (combine mc f)) f) =
  map (fun p => halflife (fst p) (snd p) (s + t)) (combine mc f).
Proof.
  revert f. induction mc as [|m mc IH]; intros f Hh Hl; destruct f as [|h f]; try discriminate; [reflexivity|].
  cbn [combine map fst snd]. rewrite halflife_add by (apply Hh; left; auto). f_equal. apply IH; [intros; apply Hh; right; auto|cbn in Hl; lia].
Qed.
Lemma half_el_add hs s t e : (forall h, In h hs -> 0 < h) -> (length hs = 1%nat \/ length hs = length (w_comps e)) ->
  (do e1 <- half_el hs s e; half_el hs t e1) = half_el hs (s + t) e.
Proof.
  intros Hh Hl. destruct (spread_ok hs _ Hl) as [f [F1 [F2 F3]]]. unfold half_el. rewrite F1. cbn [bind].
  unfold with_comps. cbn [w_comps]. rewrite map_length, combine_length, F2, Nat.min_id, F1. cbn [bind].
  rewrite half_comps_add by auto. reflexivity.
Qed.

(** ** Steps of decay *)

Lemma filter_scatter : forall l data, length data = length (filter weathered l) -> Forall (fun d => weathered d = true) data ->
  filter weathered (scatter l data) = data.
Proof.
  induction l as [|e r IH]; intros data Hl Hd; cbn [filter scatter] in *.
  - destruct data; [reflexivity|discriminate].
  - destruct (weathered e) eqn:E.
    + destruct data as [|d ds]; [discriminate|]. inversion Hd; subst. cbn [filter]. rewrite H1. f_equal. apply IH; auto.
    + cbn [filter]. rewrite E. apply IH; auto.
Qed.
Lemma scatter_scatter : forall l d1 d2, length d1 = length (filter weathered l) -> length d2 = length d1 ->
  Forall (fun d => weathered d = true) d1 -> scatter (scatter l d1) d2 = scatter l d2.
Proof.
  induction l as [|e r IH]; intros d1 d2 H1 H2 Hd; cbn [filter scatter] in *; [reflexivity|].
  destruct (weathered e) eqn:E.
  - destruct d1 as [|x d1]; [discriminate|]. destruct d2 as [|y d2]; [discriminate|]. inversion Hd; subst.
    cbn [scatter]. rewrite H3. f_equal. apply IH; auto.
  - cbn [scatter]. rewrite E. f_equal. apply IH with (d1 := d1); auto.
Qed.
Lemma scatter_same l : scatter l (filter weathered l) = l.
Proof. induction l as [|e r IH]; [reflexivity|]. cbn [filter scatter]. destruct (weathered e); [|rewrite IH; reflexivity]. rewrite IH. reflexivity. Qed.

Definition half_ready (hs : list R) (e : wel) : Prop := wsane e /\ (length hs = 1%nat \/ length hs = length (w_comps e)).
Lemma half_data_pos hs t data data' : (forall h, In h hs -> 0 < h) -> 0 <= t ->
  (forall e, In e data -> half_ready hs e /\ weathered e = true) -> mapM (half_el hs t) data = Ok data' ->
  Forall (fun d => weathered d = true) data' /\ length data' = length data /\ (forall d, In d data' -> half_ready hs d).
Proof.
  intros Hh Ht. revert data'. induction data as [|e r IH]; intros data' H E; cbn [mapM] in E.
  - injection E as <-. split; [constructor|]. split; [reflexivity|]. intros d [].
  - destruct (H e (or_introl eq_refl)) as [[Hs Hl] Hw].
    destruct (spread_ok hs _ Hl) as [f [F1 [F2 F3]]]. unfold half_el in E at 1. rewrite F1 in E. cbn [bind] in E.
    destruct (mapM (half_el hs t) r) as [r'|] eqn:Er; [|discriminate]. cbn [bind] in E. injection E as <-.
    destruct (IH r' (fun e He => H e (or_intror He)) eq_refl) as [I1 [I2 I3]].
    assert (Hf : forall h, In h f -> 0 < h) by auto.
    apply weathered_iff in Hw. destruct Hw as [Hw1 Hw2]. destruct Hs as [Hs1 Hs2].
    split; [|split].
    + constructor; auto. apply weathered_iff. split; [exact Hw1|]. cbn. apply half_pos; auto. rewrite <- Hs2. exact Hw2.
    + cbn. congruence.
    + intros d [<-|Hd]; [|auto]. split.
      * split; [|reflexivity]. cbn. pose proof (half_lowered (w_comps e) f t Hs1 F2 Hf Ht) as G. clear - G. induction G; constructor; auto. lra.
      * cbn. rewrite map_length, combine_length, F2, Nat.min_id. exact Hl.
Qed.
Lemma half_data_add hs s t data d1 : (forall h, In h hs -> 0 < h) ->
  (forall e, In e data -> length hs = 1%nat \/ length hs = length (w_comps e)) ->
  mapM (half_el hs s) data = Ok d1 -> mapM (half_el hs t) d1 = mapM (half_el hs (s + t)) data.
Proof.
  intros Hh. revert d1. induction data as [|e r IH]; intros d1 Hl E; cbn [mapM] in E.
  - injection E as <-. reflexivity.
  - destruct (half_el hs s e) as [e1|] eqn:Ee; [|discriminate]. cbn [bind] in E.
    destruct (mapM (half_el hs s) r) as [r1|] eqn:Er; [|discriminate]. cbn [bind] in E. injection E as <-.
    cbn [mapM]. rewrite <- (half_el_add hs s t e) by (auto; apply Hl; left; auto). rewrite Ee. cbn [bind].
    rewrite (IH r1); auto. intros; apply Hl; right; auto.
Qed.
Lemma half_weather_add hs s t l : (forall h, In h hs -> 0 < h) -> 0 <= s -> (forall e, In e l -> half_ready hs e) ->
  (do l1 <- half_weather hs s l; half_weather hs t l1) = half_weather hs (s + t) l.
Proof.
  intros Hh Hs Hr. unfold half_weather.
  assert (Hd : forall e, In e (filter weathered l) -> half_ready hs e /\ weathered e = true).
  { intros e He. apply filter_In in He as [H1 H2]. auto. }
  destruct (half_data_ok hs s (filter weathered l) Hh Hs) as [d1 [E1 E2]]; [intros e He; apply Hd; auto|].
  destruct (half_data_pos hs s _ _ Hh Hs Hd E1) as [P1 [P2 P3]].
  rewrite E1. cbn [bind]. rewrite filter_scatter by auto.
  rewrite (half_data_add hs s t (filter weathered l) d1 Hh); [|intros e He; destruct (Hd e He) as [[_ G] _]; exact G|exact E1].
  destruct (mapM (half_el hs (s + t)) (filter weathered l)) as [d2|] eqn:E3; [|reflexivity]. cbn [bind]. f_equal.
  apply scatter_scatter; auto. rewrite P2. clear - E3. revert d2 E3. induction (filter weathered l) as [|e r IH]; intros d2 E; cbn [mapM] in E.
  - injection E as <-. reflexivity.
  - destruct (half_el hs (s + t) e); [|discriminate]. cbn [bind] in E. destruct (mapM _ r); [|discriminate]. cbn [bind] in E. injection E as <-. cbn. f_equal. apply IH. reflexivity.
Qed.
Lemma half_ready_next hs t l l1 : (forall h, In h hs -> 0 < h) -> 0 <= t -> (forall e, In e l -> half_ready hs e) ->
  half_weather hs t l = Ok l1 -> forall e, In e l1 -> half_ready hs e.
Proof.
  intros Hh Ht Hr E. unfold half_weather in E.
  assert (Hd : forall e, In e (filter weathered l) -> half_ready hs e /\ weathered e = true).
  { intros e He. apply filter_In in He as [H1 H2]. auto. }
  destruct (half_data_ok hs t (filter weathered l) Hh Ht) as [d1 [E1 E2]]; [intros e He; apply Hd; auto|].
  destruct (half_data_pos hs t _ _ Hh Ht Hd E1) as [P1 [P2 P3]]. rewrite E1 in E. cbn [bind] in E. injection E as <-.
  clear - Hr P3. revert d1 P3. induction l as [|x r IH]; intros d1 P3 e He; [destruct He|]. cbn [scatter] in He.
  destruct (weathered x).
  - destruct d1 as [|d ds]; [apply Hr; exact He|]. destruct He as [<-|He]; [apply P3; left; auto|].
    apply IH with (d1 := ds); auto. { intros; apply Hr; right; auto. } { intros; apply P3; right; auto. }
  - destruct He as [<-|He]; [apply Hr; left; auto|]. apply IH with (d1 := d1); auto. intros; apply Hr; right; auto.
Qed.
Lemma with_same e : wsane e -> with_comps e (w_comps e) = e.
Proof. intros [_ H]. unfold with_comps. rewrite <- H. destruct e. reflexivity. Qed.
Lemma half_zero_el hs e : (forall h, In h hs -> 0 < h) -> half_ready hs e -> half_el hs 0 e = Ok e.
Proof.
  intros Hh [Hs Hl]. destruct (spread_ok hs _ Hl) as [f [F1 [F2 F3]]]. unfold half_el. rewrite F1. cbn [bind]. f_equal.
  replace (map (fun p => halflife (fst p) (snd p) 0) (combine (w_comps e) f)) with (w_comps e); [apply with_same; auto|].
  assert (Hf : forall h, In h f -> 0 < h) by auto. clear - F2 Hf. revert f F2 Hf. induction (w_comps e) as [|m mc IH]; intros f Hl Hf; [reflexivity|].
  destruct f as [|h f]; [discriminate|]. cbn [combine map fst snd]. rewrite halflife_zero by (apply Hf; left; auto). f_equal. apply IH; [cbn in Hl; lia|].
  intros; apply Hf; right; auto.
Qed.
Lemma half_steps_eq hs t : (forall h, In h hs -> 0 < h) -> 0 <= t -> forall n l, (forall e, In e l -> half_ready hs e) ->
  half_steps hs t n l = half_weather hs (INR n * t) l.
Proof.
  intros Hh Ht. induction n as [|n IH]; intros l Hr.
  - cbn [half_steps INR]. rewrite Rmult_0_l. unfold half_weather.
    assert (E : mapM (half_el hs 0) (filter weathered l) = Ok (filter weathered l)).
    { assert (Hd : forall e, In e (filter weathered l) -> half_ready hs e) by (intros e He; apply filter_In in He; apply Hr, He).
      induction (filter weathered l) as [|e r IH]; [reflexivity|]. cbn [mapM]. rewrite half_zero_el by (auto; apply Hd; left; auto).
      cbn [bind]. rewrite IH by (intros; apply Hd; right; auto). reflexivity. }
    rewrite E. cbn [bind]. rewrite scatter_same. reflexivity.
  - cbn [half_steps]. rewrite S_INR. replace ((INR n + 1) * t) with (t + INR n * t) by ring.
    rewrite <- half_weather_add by auto.
    destruct (half_weather hs t l) as [l1|] eqn:E; [|reflexivity]. cbn [bind]. apply IH. eapply half_ready_next; eauto.
Qed.

(** ** Natural dispersion *)

Lemma c_roy_pos v : 0 < c_roy v.
Proof. unfold c_roy. apply Rmult_lt_0_compat; [lra|apply exp_pos]. Qed.
Lemma rpow_nonneg x y : 0 <= rpow x y.
Proof. unfold rpow. destruct (Req_EM_T x 0); [lra|]. unfold Rpower. left; apply exp_pos. Qed.
Lemma c_disp_nonneg v : waves_ok v -> 0 <= c_disp v.
Proof. intros [_ [H _]]. unfold c_disp. pose proof (rpow_nonneg (v_e v) (57 / 100)). rpos. Qed.
Lemma ds_disp_nonneg dt v e : waves_ok v -> 0 <= dt -> 0 <= w_area e -> w_fw e <= 1 -> 0 <= ds_disp dt v e.
Proof.
  intros Hv Hd Ha Hf. unfold ds_disp. pose proof (c_roy_pos (w_visc e)). pose proof (c_disp_nonneg v Hv).
  assert (0 <= volume_entrained) by (unfold volume_entrained; lra). rpos.
Qed.
Lemma thickness_nonneg e : 0 <= w_mass e -> 0 < w_rho e -> w_fw e < 1 -> 0 <= thickness e.
Proof.
  intros Hm Hr Hf. unfold thickness. destruct (Rlt_dec 0 (w_area e)); [|lra]. unfold Rdiv.
  assert (0 < / w_rho e) by (apply Rinv_0_lt_compat; lra). assert (0 < / (1 - w_fw e)) by (apply Rinv_0_lt_compat; lra).
  assert (0 < / w_area e) by (apply Rinv_0_lt_compat; lra). rpos.
Qed.
Lemma ds_sed_nonneg dt w v e : waves_ok v -> 0 < dt -> 0 <= w_area e -> w_fw e < 1 -> 0 <= w_mass e -> 0 < w_rho e -> w_rho e < wt_rho w -> 0 < wt_visc w ->
  0 <= ds_sed dt w v e.
Proof.
  intros Hv Hd Ha Hf Hm Hr Hrw Hvw. unfold ds_sed.
  destruct (Rlt_dec 0 (wt_sed w)) as [Hs|]; [|lra]. destruct (Rle_dec (1 / 10000) (thickness e)) as [Ht|]; [|lra].
  pose proof (c_roy_pos (w_visc e)) as P1. pose proof (c_disp_nonneg v Hv) as P2.
  set (th := thickness e) in *. set (vr := 588 / 1000 * (rpow th (17 / 10) - 5 / 100000000)).
  assert (P3 : 0 <= (if Rlt_dec vr 0 then 0 else vr)) by (destruct (Rlt_dec vr 0); lra).
  set (vr' := if Rlt_dec vr 0 then 0 else vr) in *.
  assert (P4 : 0 < 1 - w_rho e / wt_rho w).
  { assert (0 < / wt_rho w) by (apply Rinv_0_lt_compat; lra). assert (E : wt_rho w * / wt_rho w = 1) by (apply Rinv_r; lra).
    assert (0 < (wt_rho w - w_rho e) * / wt_rho w) by (apply Rmult_lt_0_compat; lra). unfold Rdiv. lra. }
  assert (P5 : 0 < gravity) by (unfold gravity; lra).
  set (sp := 613 / 1000 * th * (613 / 1000 * th) * gravity * (1 - w_rho e / wt_rho w) / (18 * wt_visc w)).
  assert (P6 : 0 < sp).
  { unfold sp, Rdiv. apply Rmult_lt_0_compat; [|apply Rinv_0_lt_compat; lra].
    assert (0 < 613 * / 1000 * th) by lra. unfold Rdiv in P4.
    apply Rmult_lt_0_compat; [apply Rmult_lt_0_compat; [apply Rmult_lt_0_compat|]|]; lra. }
  assert (P7 : 0 < / (sp * dt + 3 / 2 * v_h v)).
  { apply Rinv_0_lt_compat. assert (0 < sp * dt) by (apply Rmult_lt_0_compat; lra). destruct Hv. lra. }
  assert (P8 : 0 <= c_roy (w_visc e) * c_disp v * vr' * w_area e * dt / (sp * dt + 3 / 2 * v_h v)) by (unfold Rdiv; rpos).
  assert (P9 : 0 <= sqrt (v_h v * v_e v * v_f v / (wt_rho w * wt_visc w))) by apply sqrt_pos.
  assert (P10 : 0 < ka) by (unfold ka; lra). rpos.
Qed.
Definition dispersible (w : water) (e : wel) : Prop := 0 <= w_mass e /\ floats w e.
Lemma ds_el_ok dt w v e : waves_ok v -> 0 < dt -> 0 < wt_visc w -> dispersible w e ->
  0 <= fst (ds_el dt w v e) /\ 0 <= snd (ds_el dt w v e) /\ fst (ds_el dt w v e) + snd (ds_el dt w v e) <= w_mass e.
Proof.
  intros Hv Hd Hvw [Hm [Ha [Hf Hr]]]. unfold ds_el. destruct (Rle_dec 1 (w_fw e)) as [H1|H1]; [cbn; lra|].
  assert (D : 0 <= ds_disp dt v e) by (apply ds_disp_nonneg; auto; lra).
  assert (S : 0 <= ds_sed dt w v e) by (apply ds_sed_nonneg; auto; lra).
  destruct (Rlt_dec (w_mass e) (ds_disp dt v e + ds_sed dt w v e)) as [H|H]; cbn [fst snd]; [|lra].
  set (d := ds_disp dt v e) in *. set (s := ds_sed dt w v e) in *.
  assert (I : 0 < / (d + s)) by (apply Rinv_0_lt_compat; lra). assert (E : (d + s) * / (d + s) = 1) by (apply Rinv_r; lra).
  assert (Q0 : 0 <= d * / (d + s)) by rpos.
  assert (Q1 : d * / (d + s) <= 1) by (assert (0 <= s * / (d + s)) by rpos; lra).
  unfold Rdiv. assert (0 <= d * / (d + s) * w_mass e) by rpos.
  assert (0 <= (1 - d * / (d + s)) * w_mass e) by rpos. lra.
Qed.

Lemma lowered_trans a b c : lowered a b -> lowered b c -> lowered a c.
Proof.
  intros [A1 [A2 [A3 [A4 [A5 [A6 [A7 [A8 A9]]]]]]]] [B1 [B2 [B3 [B4 [B5 [B6 [B7 [B8 B9]]]]]]]].
  unfold lowered. repeat (split; [congruence|]). split; [|exact B9].
  clear - A8 B8. revert B8. generalize (w_comps c). induction A8 as [|x y xs ys H A IH]; intros l B; inversion B; subst; constructor; auto. lra.
Qed.
Lemma take_frac_ok amount data : (forall e, In e data -> wsane e) -> 0 <= amount -> amount <= mass_of data ->
  Forall2 lowered data (take_frac amount data) /\ mass_of (take_frac amount data) = mass_of data - amount /\
  (forall e, In e (take_frac amount data) -> wsane e).
Proof.
  intros Hs Ha Hm. unfold take_frac. fold (mass_of data). set (tot := mass_of data) in *.
  set (frac := if Rlt_dec 0 tot then (if Rlt_dec 1 (amount / tot) then 1 else amount / tot) else 0).
  assert (F : 0 <= frac <= 1 /\ frac * tot = amount).
  { unfold frac. destruct (Rlt_dec 0 tot) as [Ht|Ht]; [|split; [lra|assert (amount = 0) by lra; subst; ring]].
    assert (I : 0 < / tot) by (apply Rinv_0_lt_compat; lra). assert (E : tot * / tot = 1) by (apply Rinv_r; lra).
    unfold Rdiv. assert (0 <= amount * / tot) by rpos. assert (0 <= (tot - amount) * / tot) by rpos.
    destruct (Rlt_dec 1 (amount * / tot)); [lra|]. split; [lra|]. rewrite Rmult_assoc, (Rmult_comm (/ tot)), E. ring. }
  destruct F as [[F1 F2] F3].
  assert (G : forall e, wsane e -> lowered e (with_comps e (map (Rmult (1 - frac)) (w_comps e)))).
  { intros e [E1 E2]. unfold lowered, with_comps. cbn. repeat (split; [reflexivity|]). split; [|reflexivity].
    clear - E1 F1 F2. induction E1; cbn; constructor; auto.
    assert (0 <= frac * x) by rpos. assert (0 <= (1 - frac) * x) by rpos. lra. }
  split; [|split].
  - clearbody frac. clear - Hs G. induction data as [|e r IH]; cbn; [constructor|]. constructor; [apply G, Hs; left; auto|apply IH; intros; apply Hs; right; auto].
  - clearbody frac. assert (E : mass_of (map (fun e => with_comps e (map (Rmult (1 - frac)) (w_comps e))) data) = (1 - frac) * mass_of data).
    { clear - Hs. unfold mass_of. induction data as [|e r IH]; [cbn; ring|]. cbn [map]. rewrite !sumr_cons, IH by (intros; apply Hs; right; auto).
      cbn [with_comps w_mass]. rewrite sumr_scale. destruct (Hs e (or_introl eq_refl)) as [_ ->]. ring. }
    rewrite E. fold tot. lra.
  - intros e He. apply in_map_iff in He as [e0 [<- He]]. split; [|reflexivity]. cbn. destruct (Hs _ He) as [H _].
    clear - H F1 F2. induction H; cbn; constructor; auto. rpos.
Qed.
Lemma disp_data_ok dt w vs data : 0 < dt -> 0 < wt_visc w -> length vs = length data -> Forall waves_ok vs ->
  (forall e, In e data -> wsane e /\ dispersible w e) ->
  exists data' d s, disp_data dt w vs data = (data', d, s) /\ Forall2 lowered data data' /\
    mass_of data = mass_of data' + (d + s) /\ 0 <= d /\ 0 <= s.
Proof.
  intros Hd Hv Hl Hw H. unfold disp_data.
  set (out := map (fun p => ds_el dt w (fst p) (snd p)) (combine vs data)).
  assert (G : 0 <= sumr (map fst out) /\ 0 <= sumr (map snd out) /\ sumr (map fst out) + sumr (map snd out) <= mass_of data).
  { unfold out, mass_of. clear out. revert vs Hl Hw. induction data as [|e r IH]; intros vs Hl Hw; destruct vs as [|v vs]; try discriminate; [cbn; lra|].
    inversion Hw; subst. cbn [combine map fst snd]. rewrite !sumr_cons. cbn [fst snd].
    destruct (H e (or_introl eq_refl)) as [_ He]. pose proof (ds_el_ok dt w v e H2 Hd Hv He).
    destruct (IH (fun e He => H e (or_intror He)) vs) as [I1 [I2 I3]]; auto. lra. }
  destruct G as [G1 [G2 G3]].
  destruct (take_frac_ok (sumr (map fst out)) data) as [A1 [A2 A3]]; [intros; apply H; auto|lra|lra|].
  destruct (take_frac_ok (sumr (map snd out)) (take_frac (sumr (map fst out)) data)) as [B1 [B2 B3]]; [auto|lra|lra|].
  eexists. eexists. eexists. split; [reflexivity|]. split; [|split; [lra|lra]].
  clear - A1 B1. revert B1. generalize (take_frac (sumr (map snd out)) (take_frac (sumr (map fst out)) data)).
  induction A1; intros l0 B; inversion B; subst; constructor; auto. eapply lowered_trans; eauto.
Qed.

(** ** Biodegradation *)

Lemma bio_rate_nonneg a k b : 0 <= bio_rate a k b.
Proof. unfold bio_rate. destruct k; try lra; destruct (Rlt_dec b _); destruct a; lra. Qed.
Lemma bio_el_lowered a cs dt dr e : 0 <= dt -> 0 < dr -> 0 < w_rho e -> wsane e -> length (w_comps e) = length cs ->
  lowered e (bio_el a cs dt dr e).
Proof.
  intros Hd Hdr Hr [Hc _] Hl. unfold bio_el, lowered, with_comps. cbn. repeat (split; [reflexivity|]). split; [|reflexivity].
  set (y := 1 / (dr * w_rho e)).
  assert (Hy : 0 < y) by (unfold y, Rdiv; apply Rmult_lt_0_compat; [lra|apply Rinv_0_lt_compat, Rmult_lt_0_compat; lra]).
  clearbody y. revert cs Hl. induction Hc as [|m mc Hm Hc IH]; intros cs Hl; destruct cs as [|[k b] cs]; try discriminate; cbn [combine map fst snd]; constructor.
  - set (x := (0 - y) * (6 * (bio_rate a k b / 86400 * dt))).
    assert (Hx : x <= 0).
    { pose proof (bio_rate_nonneg a k b). assert (0 <= y * (6 * (bio_rate a k b / 86400 * dt))) by (unfold Rdiv; rpos). unfold x. lra. }
    pose proof (exp_pos x). assert (exp x <= 1).
    { rewrite <- exp_0. destruct Hx as [Hx|Hx]; [left; apply exp_increasing; auto|right; f_equal; auto]. }
    split; [rpos|]. rewrite <- (Rmult_1_r m) at 2. apply Rmult_le_compat_l; lra.
  - apply IH. cbn in Hl. lia.
Qed.
Lemma lowered_refl e : wsane e -> lowered e (with_comps e (w_comps e)).
Proof.
  intros [H _]. unfold lowered, with_comps. cbn. repeat (split; [reflexivity|]). split; [|reflexivity]. induction H; constructor; auto. lra.
Qed.

(** ** Evaporation, element by element *)

Lemma scatter_map f l : scatter l (map f (filter weathered l)) = map (fun e => if weathered e then f e else e) l.
Proof.
  induction l as [|e r IH]; [reflexivity|]. cbn [filter map scatter]. destruct (weathered e); [cbn [map]|]; rewrite IH; reflexivity.
Qed.
Lemma combine_map_same {A B} (f : A -> B) (l : list A) : combine (map f l) l = map (fun a => (f a, a)) l.
Proof. induction l as [|x r IH]; [reflexivity|]. cbn. rewrite IH. reflexivity. Qed.
Lemma combine_same_map {A B} (f : A -> B) (l : list A) : combine l (map f l) = map (fun a => (a, f a)) l.
Proof. induction l as [|x r IH]; [reflexivity|]. cbn. rewrite IH. reflexivity. Qed.
Lemma evap_weather_map T cs wind dt l : 0 < T -> volatile cs -> (forall e, In e l -> physical e) -> fits cs l ->
  evap_weather T cs wind dt l =
  let l' := map (fun e => if weathered e then evap_el e (decay T cs (wind e) e) dt else e) l in Ok (l', mass_of l - mass_of l').
Proof.
  intros HT Hv Hp Hf. unfold evap_weather.
  set (f := fun e => evap_el e (decay T cs (wind e) e) dt).
  assert (K : forall e, In e (filter weathered l) -> physical e /\ 0 < w_mass e /\ length (w_comps e) = length cs).
  { intros e He. apply filter_In in He as [H1 H2]. apply weathered_iff in H2. split; [auto|]. split; [apply H2|apply Hf; auto]. }
  assert (M : mass_of (map (fun e => if weathered e then f e else e) l) = mass_of l - mass_of (filter weathered l) + mass_of (map f (filter weathered l))).
  { rewrite <- scatter_map. apply scatter_mass. apply map_length. }
  cbv zeta. change (fun e : wel => if weathered e then evap_el e (decay T cs (wind e) e) dt else e) with (fun e => if weathered e then f e else e).
  rewrite M. destruct (filter weathered l) as [|e0 r0] eqn:E.
  - f_equal. f_equal.
    + rewrite <- scatter_map, E. cbn [map]. clear - E. revert E. induction l as [|e r IH]; intros E; [reflexivity|]. cbn [filter scatter] in *.
      destruct (weathered e); [discriminate|]. f_equal. auto.
    + cbn. ring.
  - rewrite <- E in *. clear e0 r0 E. unfold evap_data. rewrite combine_map_same, !map_map. cbn [fst snd].
    rewrite combine_same_map, map_map. cbn [fst snd]. change (fun x : wel => evap_el x (decay T cs (wind x) x) dt) with f.
    destruct (existsb _ _) eqn:E1.
    + exfalso. apply existsb_exists in E1 as [ks [I1 I2]]. apply existsb_exists in I2 as [k [I2 I3]]. apply Rltb_iff in I3.
      apply in_map_iff in I1 as [e [<- I1]]. destruct (K _ I1) as [P1 [P2 P3]].
      pose proof (decay_nonpos T cs (wind e) e HT Hv P1 P2 P3) as G. rewrite Forall_forall in G. specialize (G _ I2). lra.
    + cbn [bind fst snd]. rewrite scatter_map. f_equal. f_equal. cbn [fst snd].
      replace (map (fun e => sumr (w_comps e)) (filter weathered l)) with (map w_mass (filter weathered l)).
      * unfold mass_of. rewrite ?map_map. cbn [fst snd]. unfold f. ring.
      * apply map_ext_in. intros e He. destruct (K _ He) as [[[_ P] _] _]. exact P.
Qed.

Lemma transport_mono w1 w2 : w1 <= w2 -> transport w1 <= transport w2.
Proof.
  intros H. unfold transport. apply Rmult_le_compat_l; [lra|].
  destruct (Rle_lt_or_eq_dec (Rmax w1 1) (Rmax w2 1)) as [G|G].
  - apply Rle_max_compat_r. exact H.
  - left. unfold Rpower. apply exp_increasing. apply Rmult_lt_compat_l; [lra|]. apply ln_increasing; auto. pose proof (Rmax_r w1 1). lra.
  - rewrite G. lra.
Qed.
Lemma decay_mono T cs w1 w2 e : 0 < T -> volatile cs -> physical e -> 0 < w_mass e -> length (w_comps e) = length cs -> w1 <= w2 ->
  Forall2 Rle (decay T cs w2 e) (decay T cs w1 e).
Proof.
  intros HT Hv [[Hc Hm] [Hfw [Ha [Hvf _]]]] Hp Hl Hw. unfold decay.
  assert (HS : 0 < sum_mi_mw cs (w_comps e)) by (apply sum_mi_pos; auto; rewrite <- Hm; auto).
  assert (HG : 0 < gas_constant) by (unfold gas_constant; lra).
  assert (HD : 0 < / (gas_constant * T * sum_mi_mw cs (w_comps e))).
  { apply Rinv_0_lt_compat. apply Rmult_lt_0_compat; [apply Rmult_lt_0_compat; auto|auto]. }
  set (D := gas_constant * T * sum_mi_mw cs (w_comps e)) in *. clearbody D.
  pose proof (puddle_pos (w_area e) (w_vf e)) as HP. pose proof (transport_mono w1 w2 Hw) as HM.
  clear - Hv HD HP HM Hfw Ha. unfold volatile in Hv. induction Hv as [|c cs [Hc _] Hv IH]; cbn [map]; constructor; [|exact IH].
  pose proof (schmidt_pos (kg_mol c)).
  assert (0 <= (transport w2 - transport w1) * (w_area e * (1 - w_fw e) * puddle (w_area e) (w_vf e) * / D * fst c * schmidt (kg_mol c))) by rpos.
  unfold Rdiv. lra.
Qed.
Lemma exp_decay_mono mc ks1 ks2 d1 d2 : Forall (fun x => 0 <= x) mc -> Forall2 Rle ks2 ks1 -> Forall (fun k => k <= 0) ks1 -> 0 <= d1 <= d2 -> length ks1 = length mc ->
  Forall2 Rle (exp_decay mc ks2 d2) (exp_decay mc ks1 d1).
Proof.
  intros Hm Hk. revert mc Hm. induction Hk as [|k2 k1 ks2 ks1 H Hk IH]; intros mc Hm Hn Hd Hl.
  - destruct mc; [constructor|discriminate].
  - destruct mc as [|m mc]; [discriminate|]. inversion Hm; inversion Hn; subst. unfold exp_decay. cbn [combine map fst snd]. constructor.
    + apply Rmult_le_compat_l; [auto|].
      assert (G : k2 * d2 <= k1 * d1).
      { assert (0 <= (k1 - k2) * d2) by (apply Rmult_le_pos; lra). assert (0 <= - k1 * (d2 - d1)) by (apply Rmult_le_pos; lra). lra. }
      destruct G as [G|G]; [left; apply exp_increasing; exact G|rewrite G; lra].
    + apply IH; auto.
Qed.
Lemma evap_mono T cs w1 w2 d1 d2 e : 0 < T -> volatile cs -> physical e -> 0 < w_mass e -> length (w_comps e) = length cs ->
  w1 <= w2 -> 0 <= d1 <= d2 -> no_more (evap_el e (decay T cs w2 e) d2) (evap_el e (decay T cs w1 e) d1).
Proof.
  intros HT Hv Hp Hm Hl Hw Hd.
  assert (G : Forall2 Rle (exp_decay (w_comps e) (decay T cs w2 e) d2) (exp_decay (w_comps e) (decay T cs w1 e) d1)).
  { apply exp_decay_mono; auto; [apply Hp|apply decay_mono; auto|apply decay_nonpos; auto|rewrite decay_length; auto]. }
  split; [exact G|]. cbn [evap_el w_mass]. apply sumr_le. clear - G. induction G; constructor; auto.
Qed.

(** ** Parts of elements *)

Lemma times_weathered s e : 0 < s -> weathered (times s e) = weathered e.
Proof.
  intros Hs. unfold weathered. cbn [times w_fate w_mass]. f_equal. apply eq_true_iff_eq. rewrite !Rltb_iff. split; intros H.
  - destruct (Rle_lt_dec (w_mass e) 0) as [K|K]; [|exact K]. exfalso.
    assert (0 <= s * - w_mass e) by (apply Rmult_le_pos; lra). lra.
  - apply Rmult_lt_0_compat; auto.
Qed.
Lemma sum_mi_times s cs : forall mc, sum_mi_mw cs (map (Rmult s) mc) = s * sum_mi_mw cs mc.
Proof.
  unfold sum_mi_mw. induction cs as [|c cs IH]; intros [|m mc]; cbn [combine map]; try (cbn; ring). rewrite !sumr_cons, IH. cbn [fst snd]. unfold Rdiv. ring.
Qed.
Lemma decay_times T cs w s e : 0 < T -> volatile cs -> physical e -> 0 < w_mass e -> length (w_comps e) = length cs -> 0 < s ->
  decay T cs w (times s e) = decay T cs w e.
Proof.
  intros HT Hv [[Hc Hm] [Hfw [Ha [Hvf _]]]] Hp Hl Hs. unfold decay. cbn [times w_area w_fw w_vf w_comps]. rewrite sum_mi_times.
  assert (HS : 0 < sum_mi_mw cs (w_comps e)) by (apply sum_mi_pos; auto; rewrite <- Hm; auto).
  assert (HG : 0 < gas_constant) by (unfold gas_constant; lra).
  assert (P : puddle (s * w_area e) (s * w_vf e) = puddle (w_area e) (w_vf e)).
  { unfold puddle. replace (s * w_area e / (s * w_vf e)) with (w_area e / w_vf e); [reflexivity|]. field. lra. }
  rewrite P. apply map_ext. intros c. field. lra.
Qed.
Lemma exp_decay_times s mc : forall ks dt, exp_decay (map (Rmult s) mc) ks dt = map (Rmult s) (exp_decay mc ks dt).
Proof.
  unfold exp_decay. induction mc as [|m mc IH]; intros [|k ks] dt; cbn [combine map]; try reflexivity. rewrite IH. cbn [fst snd]. f_equal. ring.
Qed.
Lemma evap_el_times s e ks dt : s <> 0 -> w_init e <> 0 -> evap_el (times s e) ks dt = times s (evap_el e ks dt).
Proof.
  intros Hs Hi. unfold evap_el, times. cbn [w_fate w_mass w_comps w_fw w_area w_vf w_init w_fevap w_flost w_visc w_rho].
  rewrite exp_decay_times, !sumr_scale. f_equal; field; auto.
Qed.
Lemma times_physical s e : 0 < s -> physical e -> physical (times s e).
Proof.
  intros Hs [[Hc Hm] [Hfw [Ha [Hvf [Hi [Hvi Hr]]]]]]. unfold physical, wsane, times. cbn.
  assert (0 <= s * w_area e) by rpos. assert (0 < s * w_vf e) by (apply Rmult_lt_0_compat; auto). assert (0 < s * w_init e) by (apply Rmult_lt_0_compat; auto).
  split; [|tauto]. split.
  - clear - Hc Hs. induction Hc; cbn; constructor; auto. rpos.
  - rewrite sumr_scale, Hm. reflexivity.
Qed.
Lemma cut_mass s l : mass_of (cut s l) = mass_of l.
Proof.
  unfold mass_of, cut. induction l as [|e r IH]; [reflexivity|]. cbn [flat_map app map]. rewrite !sumr_cons, IH. cbn [times w_mass]. ring.
Qed.
Lemma evap_cut T cs wind dt s l : 0 < T -> volatile cs -> (forall e, In e l -> physical e) -> fits cs l -> 0 < s < 1 ->
  (forall e x, wind (times x e) = wind e) ->
  evap_weather T cs wind dt (cut s l) = do p <- evap_weather T cs wind dt l; Ok (cut s (fst p), snd p).
Proof.
  intros HT Hv Hp Hf Hs Hw.
  rewrite (evap_weather_map T cs wind dt l) by auto. rewrite evap_weather_map; auto.
  - cbv zeta. cbn [bind fst snd].
    assert (E : map (fun e => if weathered e then evap_el e (decay T cs (wind e) e) dt else e) (cut s l) =
                cut s (map (fun e => if weathered e then evap_el e (decay T cs (wind e) e) dt else e) l)).
    { unfold cut. induction l as [|e r IH]; [reflexivity|]. cbn [flat_map app map].
      rewrite IH; [|intros; apply Hp; right; auto|intros x Hx; apply Hf; right; auto].
      assert (Hpe : physical e) by (apply Hp; left; auto). assert (Hfe : length (w_comps e) = length cs) by (apply Hf; left; auto).
      assert (Hi : w_init e <> 0) by (destruct Hpe as [_ [_ [_ [_ [Hi _]]]]]; lra).
      rewrite !times_weathered by lra. rewrite !Hw. destruct (weathered e) eqn:Ew; [|reflexivity].
      apply weathered_iff in Ew. destruct Ew as [_ Ew]. rewrite !decay_times by (auto; lra). rewrite !evap_el_times by (auto; lra). reflexivity. }
    rewrite E, !cut_mass. reflexivity.
  - intros e He. unfold cut in He. apply in_flat_map in He as [x [Hx [<-|[<-|[]]]]]; apply times_physical; auto; lra.
  - intros e He. unfold cut in He. apply in_flat_map in He as [x [Hx [<-|[<-|[]]]]]; cbn; rewrite map_length; apply Hf; auto.
Qed.

(** ** Whole steps *)

Lemma disp_weather_ok dt w v l : 0 < dt -> 0 < wt_visc w -> (forall e, In e l -> wsane e) -> (forall e, In e l -> at_surface e -> floats w e /\ waves_ok (v e)) ->
  exists l' d s, disp_weather dt w v l = (l', d, s) /\ conserves l l' (d + s) /\ 0 <= d /\ 0 <= s.
Proof.
  intros Hd Hv Hs Hf. unfold disp_weather.
  assert (K : forall e, In e (filter weathered l) -> (wsane e /\ dispersible w e) /\ waves_ok (v e)).
  { intros e He. apply filter_In in He as [H1 H2]. apply weathered_iff in H2. destruct (Hf e H1 H2) as [F1 F2].
    split; auto. split; auto. split; auto. destruct H2. lra. }
  destruct (disp_data_ok dt w (map v (filter weathered l)) (filter weathered l)) as [data' [d [s [E1 [E2 [E3 [E4 E5]]]]]]]; auto.
  - apply map_length.
  - apply Forall_forall. intros x Hx. apply in_map_iff in Hx as [e [<- He]]. apply K; auto.
  - intros e He. apply K; auto.
  - destruct (filter weathered l) as [|e0 r0] eqn:E.
    + exists l, 0, 0. split; [reflexivity|]. split; [|lra]. replace l with (scatter l []) at 2.
      * apply conserves_scatter; auto; rewrite E; [constructor|cbn; ring].
      * rewrite <- E. apply scatter_same.
    + rewrite <- E in *. cbv zeta. rewrite E1. cbn [fst snd]. exists (scatter l data'), d, s. split; [reflexivity|]. split; [|auto].
      apply conserves_scatter; auto. lra.
Qed.
Lemma bio_weather_ok arctic cs dt dr l : 0 <= dt -> (forall e, In e l -> wsane e) ->
  (forall e, In e l -> at_surface e -> 0 < w_rho e /\ length (w_comps e) = length cs) ->
  ((forall e, In e l -> at_surface e -> 0 < dr e) \/ (forall e, In e l -> at_surface e -> dr e = 0)) ->
  exists l' b, bio_weather arctic cs dt dr l = (l', b) /\ conserves l l' b.
Proof.
  intros Hd Hs Hr Hdr. unfold bio_weather. eexists. eexists. split; [reflexivity|]. apply conserves_scatter; auto.
  destruct (forallb _ _) eqn:E.
  - assert (K : forall e, In e (filter weathered l) -> wsane e) by (intros e He; apply filter_In in He; apply Hs; tauto).
    clear - K. induction (filter weathered l) as [|e r IH]; cbn [map]; [constructor|]. constructor; [apply lowered_refl, K; left; auto|apply IH; intros; apply K; right; auto].
  - assert (K : forall e, In e (filter weathered l) -> wsane e /\ 0 < w_rho e /\ length (w_comps e) = length cs /\ 0 < dr e).
    { destruct Hdr as [Hdr|Hdr].
      - intros e He. apply filter_In in He as [H1 H2]. apply weathered_iff in H2. destruct (Hr e H1 H2). auto.
      - exfalso. assert (G : forallb (fun e => if Req_EM_T (dr e) 0 then true else false) (filter weathered l) = true); [|congruence].
        apply forallb_forall. intros e He. apply filter_In in He as [H1 H2]. apply weathered_iff in H2. destruct (Req_EM_T (dr e) 0); auto. }
    clear - K Hd. induction (filter weathered l) as [|e r IH]; cbn [map]; [constructor|].
    constructor; [destruct (K e (or_introl eq_refl)) as [K1 [K2 [K3 K4]]]; apply bio_el_lowered; auto|apply IH; intros; apply K; right; auto].
Qed.
Lemma half_weather_ok hs t l : (forall h, In h hs -> 0 < h) -> 0 <= t -> (forall e, In e l -> wsane e) ->
  (forall e, In e l -> at_surface e -> length hs = 1%nat \/ length hs = length (w_comps e)) ->
  exists l', half_weather hs t l = Ok l' /\ conserves l l' (mass_of l - mass_of l').
Proof.
  intros Hh Ht Hs Hl. unfold half_weather. destruct (half_data_ok hs t (filter weathered l) Hh Ht) as [d1 [E1 E2]].
  { intros e He. apply filter_In in He as [H1 H2]. apply weathered_iff in H2. auto. }
  rewrite E1. cbn [bind]. eexists. split; [reflexivity|]. rewrite scatter_mass by (symmetry; eapply forall2_length; eauto).
  apply conserves_scatter; auto. ring.
Qed.
