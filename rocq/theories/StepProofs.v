(** * Proofs about the time stepping *)
From Verif Require Import Py PyLemmas QLemmas TimeModel TimeSpec TimeProofs StepModel StepSpec.
Open Scope Z_scope.

(** ** Sub-steps *)
Lemma gaps_arith : forall s n a,
  gaps (map (fun i => a + i * s) (zseq 0 (S n))) =
  map (fun i => (a + i * s, s)) (zseq 0 n).
Proof.
  intros s n. assert (forall k a, gaps (map (fun i => a + i * s) (zseq k (S n))) = map (fun i => (a + i * s, s)) (zseq k n)) as K.
  { induction n; intros k a; [reflexivity|].
    change (zseq k (S (S n))) with (k :: zseq (k + 1) (S n)).
    change (zseq k (S n)) with (k :: zseq (k + 1) n).
    rewrite !map_cons. rewrite <- IHn. 
    change (zseq (k + 1) (S n)) with ((k + 1) :: zseq (k + 1 + 1) n). simpl. f_equal. f_equal. lia. }
  intros a; apply K.
Qed.

Lemma tiles_app : forall l a b c l', tiles a l b -> tiles b l' c -> tiles a (l ++ l') c.
Proof.
  induction l as [|[t d] l IH]; simpl; intros a b c l' H H'; [subst; auto|].
  destruct H as (H1 & H2 & H3). repeat split; auto. eapply IH; eauto.
Qed.

Lemma tiles_arith : forall now s n k, 0 < s ->
  tiles (now + k * s * sec_us) (map (fun i => (now + (0 + i * s) * sec_us, s)) (zseq k n))
        (now + (k + Z.of_nat n) * s * sec_us).
Proof.
  intros now s n; induction n; intros k Hs.
  - simpl. f_equal. f_equal. f_equal. lia.
  - cbn [zseq map tiles]. split; [lia|]. split; [lia|].
    replace (now + k * s * sec_us + s * sec_us) with (now + (k + 1) * s * sec_us) by lia.
    replace (k + Z.of_nat (S n)) with (k + 1 + Z.of_nat n) by lia. apply IHn; auto.
Qed.

Lemma split_form : forall ts n now, 1 <= n <= Z.quot ts sec_us ->
  let T := Z.quot ts sec_us in let s := T / n in let q := T / s in
  0 < s /\ n <= q /\
  split_substeps ts n now = Ok
    (map (fun i => (now + (0 + i * s) * sec_us, s)) (zseq 0 (Z.to_nat q)) ++
     (if q * s <? T then [(now + q * s * sec_us, T mod s)] else [])).
Proof.
  intros ts n now H T s q. fold T in H.
  assert (0 < s) as Hs by (subst s; apply Z.div_str_pos; lia).
  assert (n * s <= T) by (subst s; apply Z.mul_div_le; lia).
  assert (n <= q) as Hq by (subst q; apply Z.div_le_lower_bound; lia).
  split; [exact Hs|]. split; [exact Hq|].
  unfold split_substeps. fold T. destruct (Z.eqb_spec n 0); [lia|]. fold s.
  unfold py_range. destruct (Z.eqb_spec s 0); [lia|]. destruct (Z.ltb_spec 0 s); [|lia].
  assert ((T + 1 - 0 + s - 1) / s = q + 1) as ->.
  { replace (T + 1 - 0 + s - 1) with (T + 1 * s) by lia. rewrite Z.div_add by lia. reflexivity. }
  cbn [bind]. replace (Z.to_nat (q + 1)) with (S (Z.to_nat q)) by lia. rewrite gaps_arith.
  set (L := map (fun i => (0 + i * s, s)) (zseq 0 (Z.to_nat q))).
  assert (exists r, rev L = ((q - 1) * s, s) :: r) as (r & Er).
  { assert (exists q', Z.to_nat q = S q') as (q' & Eq) by (exists (Z.to_nat (q - 1)); lia).
    unfold L. rewrite Eq, zseq_snoc, map_app, rev_app_distr. cbn [rev app map].
    eexists. f_equal. f_equal. lia. }
  rewrite Er. replace ((q - 1) * s + s) with (q * s) by lia.
  destruct (q * s <? T).
  - rewrite map_app. unfold L. rewrite map_map. reflexivity.
  - unfold L. rewrite map_map, app_nil_r. reflexivity.
Qed.

Lemma split_tiles : forall ts n now, 1 <= n <= Z.quot ts sec_us ->
  exists l, split_substeps ts n now = Ok l /\ tiles now l (now + Z.quot ts sec_us * sec_us).
Proof.
  intros ts n now H. destruct (split_form ts n now H) as (Hs & Hq & E).
  set (T := Z.quot ts sec_us) in *. set (s := T / n) in *. set (q := T / s) in *.
  eexists; split; [exact E|].
  assert (T = q * s + T mod s) by (subst q; pose proof (Z.div_mod T s ltac:(lia)); lia).
  pose proof (Z.mod_pos_bound T s Hs).
  eapply tiles_app.
  - pose proof (tiles_arith now s (Z.to_nat q) 0 Hs) as A. replace (now + 0 * s * sec_us) with now in A by lia. exact A.
  - replace (0 + Z.of_nat (Z.to_nat q)) with q by lia.
    destruct (Z.ltb_spec (q * s) T); cbn [tiles].
    + split; [reflexivity|]. split; [lia|]. assert (now + q * s * sec_us + T mod s * sec_us = now + (q * s + T mod s) * sec_us) as -> by lia. rewrite <- H0. reflexivity.
    + f_equal. f_equal. lia.
Qed.

Lemma split_count : forall ts n now l, 1 <= n <= Z.quot ts sec_us ->
  Z.quot ts sec_us mod n < Z.quot ts sec_us / n ->
  split_substeps ts n now = Ok l ->
  n <= Z.of_nat (length l) <= n + 1 /\ (Z.quot ts sec_us mod n = 0 -> Z.of_nat (length l) = n).
Proof.
  intros ts n now l H Hr E. destruct (split_form ts n now H) as (Hs & Hq & E').
  rewrite E in E'. injection E' as ->. clear E.
  set (T := Z.quot ts sec_us) in *. set (s := T / n) in *.
  assert (T = n * s + T mod n) as ET by (apply Z.div_mod; lia).
  pose proof (Z.mod_pos_bound T n ltac:(lia)).
  assert (T / s = n) as Eq.
  { symmetry. apply Z.div_unique with (r := T mod n); [lia|]. lia. }
  rewrite Eq in *. rewrite app_length, map_length, zseq_length.
  destruct (Z.ltb_spec (n * s) T); simpl; split; intros; lia.
Qed.

(** ** The monad *)
Lemma bindM_ok : forall A B (x : M A) (f : A -> M B) m m1 l1 a,
  x m = ((m1, l1), Ok a) ->
  bindM x f m = let '((m2, l2), r2) := f a m1 in ((m2, l1 ++ l2), r2).
Proof. intros A B x f m m1 l1 a H. unfold bindM. rewrite H. reflexivity. Qed.

Lemma bind_get : forall B (f : model -> M B) m, bindM get f m = f m m.
Proof. intros B f m. unfold bindM, get. destruct (f m m) as [[m2 l2] r2]. reflexivity. Qed.

Lemma call_ok : forall F e m, (forall e, F e = None) -> call F e m = ((m, [e]), Ok tt).
Proof. intros F e m H. unfold call. rewrite H. reflexivity. Qed.

Definition is_weather (e : ev) : Prop := match e with EWeather _ _ _ => True | _ => False end.

Lemma each_ok : forall A (f : A -> M unit) l m,
  (forall a, In a l -> exists lg, f a m = ((m, lg), Ok tt) /\ Forall is_weather lg) ->
  exists lg, each f l m = ((m, lg), Ok tt) /\ Forall is_weather lg.
Proof.
  intros A f l m; induction l as [|a l IH]; intros H; [exists []; split; [reflexivity|constructor]|].
  destruct (H a (or_introl eq_refl)) as (l1 & E1 & W1).
  destruct IH as (l2 & E2 & W2); [intros b Hb; apply H; right; auto|].
  exists (l1 ++ l2). split; [|apply Forall_app; auto].
  simpl. rewrite (bindM_ok _ _ _ _ _ _ _ _ E1). rewrite E2. reflexivity.
Qed.

Lemma weather_ok : forall F cf m ts, clean F cf m ts -> m_ts m = Some ts ->
  exists lg, weather F cf m = ((m, lg), Ok tt) /\ Forall is_weather lg.
Proof.
  intros F cf m ts (HF & Hv & Hw) Hts. unfold weather. rewrite (bindM_ok _ _ _ _ _ m [] m) by reflexivity. rewrite Hts.
  destruct (c_weatherers cf) as [|n] eqn:En; [exists []; split; [reflexivity|constructor]|].
  destruct (Z.ltb_spec ts 0); [exists []; split; [reflexivity|constructor]|].
  destruct Hw as [Hw|[Hw|Hw]]; [discriminate|lia|].
  destruct (split_tiles ts (m_sub m) (m_time m) Hw) as (ss & Ess & _).
  destruct (each_ok _ (fun w : nat => bindM (lift (split_substeps ts (m_sub m) (m_time m)))
       (fun ss => each (fun '(t, d) => call F (EWeather w t d)) ss)) (seq 0 (S n)) m) as (lg & E & W).
  - intros w _. rewrite Ess. unfold lift. rewrite (bindM_ok _ _ _ _ m m [] ss) by reflexivity.
    destruct (each_ok _ (fun '(t, d) => call F (EWeather w t d)) ss m) as (lg & E & W).
    { intros [t d] _. exists [EWeather w t d]. rewrite call_ok by auto. split; [reflexivity|repeat constructor]. }
    exists lg. rewrite E. split; auto.
  - exists lg. rewrite E. split; auto.
Qed.

(** The state after step [k]. *)
Definition at_step (m : model) (ts n k : Z) : model :=
  mkModel (m_start m) (m_dur m) (Some ts) (Some n) k (m_start m + k * ts) (m_back m) (m_unc m) (m_sub m).

Lemma weather_nil : forall lg, Forall is_weather lg ->
  releases lg = [] /\ moves lg = [] /\ outputs lg = [] /\ posts lg = O.
Proof.
  induction 1 as [|e l He _ (A & B & C & D)]; [repeat split|].
  destruct e; simpl in He; try contradiction. simpl. auto.
Qed.

Lemma releases_app : forall a b, releases (a ++ b) = releases a ++ releases b.
Proof. induction a as [|e a IH]; intros b; [reflexivity|]. destruct e; simpl; rewrite ?IH; reflexivity. Qed.
Lemma moves_app : forall a b, moves (a ++ b) = moves a ++ moves b.
Proof. induction a as [|e a IH]; intros b; [reflexivity|]. destruct e; simpl; rewrite ?IH; reflexivity. Qed.
Lemma outputs_app : forall a b, outputs (a ++ b) = outputs a ++ outputs b.
Proof. induction a as [|e a IH]; intros b; [reflexivity|]. destruct e; simpl; rewrite ?IH; reflexivity. Qed.
Lemma posts_app : forall a b, posts (a ++ b) = (posts a + posts b)%nat.
Proof. induction a as [|e a IH]; intros b; [reflexivity|]. destruct e; simpl; rewrite ?IH; reflexivity. Qed.

(** What one step logs. *)
Definition step_log (m : model) (ts n k : Z) (lg : list ev) : Prop :=
  let t := m_start m + k * ts in let t' := m_start m + (k + 1) * ts in let h := half_td ts in
  releases lg = [(t, t + h); (t' - h, t')] /\ moves lg = [(t, ts)] /\
  outputs lg = [(k + 1, t', k + 1 =? n - 1)] /\ posts lg = O.

Lemma step_middle : forall F cf m ts n k, clean F cf m ts -> 0 <= k -> k < n - 1 ->
  exists lg, step F cf (at_step m ts n k) = ((at_step m ts n (k + 1), lg), Ok (k + 1, m_start m + (k + 1) * ts))
    /\ step_log m ts n k lg.
Proof.
  intros F cf m ts n k Hc H0 H1. pose proof Hc as (HF & Hv & Hw).
  destruct (weather_ok F cf (at_step m ts n k) ts) as (lw & Ew & Ww); [exact Hc|reflexivity|].
  destruct (weather_nil lw Ww) as (W1 & W2 & W3 & W4).
  unfold step. rewrite (bindM_ok _ _ _ _ _ (at_step m ts n k) [] (at_step m ts n k)) by reflexivity.
  assert ((m_cur (at_step m ts n k) =? -1) = false) as -> by (apply Z.eqb_neq; simpl; lia).
  assert ((n - 1 <=? k) = false) as Hlt by (apply Z.leb_gt; lia).
  cbn [m_nts m_ts m_cur at_step]. rewrite Hlt. unfold on_error. cbv zeta.
  rewrite (bindM_ok _ _ _ _ _ _ _ _ (call_ok F _ _ HF)).
  rewrite (bindM_ok _ _ _ _ _ _ _ _ (call_ok F _ _ HF)).
  rewrite (bindM_ok _ _ _ _ _ _ _ _ (call_ok F _ _ HF)).
  rewrite (bindM_ok _ _ _ _ _ _ _ _ Ew).
  rewrite (bindM_ok _ _ _ _ _ _ _ _ (call_ok F _ _ HF)).
  rewrite (bindM_ok _ _ _ _ _ (at_step m ts n (k + 1)) [] tt) by reflexivity.
  rewrite (bindM_ok _ _ _ _ _ (at_step m ts n (k + 1)) [] (at_step m ts n (k + 1))) by reflexivity.
  rewrite (bindM_ok _ _ _ _ _ _ _ _ (call_ok F _ _ HF)).
  unfold output_step. rewrite (bindM_ok _ _ _ _ _ (at_step m ts n (k + 1)) [] (at_step m ts n (k + 1))) by reflexivity.
  cbn [m_nts m_cur m_time at_step].
  rewrite (bindM_ok _ _ _ _ _ _ _ _ (call_ok F _ _ HF)).
  unfold ret. eexists. split; [reflexivity|].
  unfold step_log. cbv zeta. cbn [app releases moves outputs posts m_start m_time].
  rewrite ?releases_app, ?moves_app, ?outputs_app, ?posts_app, W1, W2, W3, W4. cbn. repeat split.
Qed.

(** ** Exactly what a step calls *)

Lemma each_exact : forall A (f : A -> M unit) (g : A -> list ev) l m,
  (forall a, In a l -> f a m = ((m, g a), Ok tt)) -> each f l m = ((m, flat_map g l), Ok tt).
Proof.
  intros A f g l m; induction l as [|a l IH]; intros H; [reflexivity|].
  simpl. rewrite (bindM_ok _ _ _ _ _ _ _ _ (H a (or_introl eq_refl))).
  rewrite IH by (intros b Hb; apply H; right; auto). reflexivity.
Qed.

Lemma weather_exact : forall F cf m ts, clean F cf m ts -> m_ts m = Some ts ->
  exists ss, weather F cf m = ((m, weathering (c_weatherers cf) ss), Ok tt) /\
    (0 <= ts -> c_weatherers cf <> O -> tiles (m_time m) ss (m_time m + Z.quot ts sec_us * sec_us)) /\
    (ts < 0 -> ss = []).
Proof.
  intros F cf m ts (HF & Hv & Hw) Hts. unfold weather. rewrite (bindM_ok _ _ _ _ _ m [] m) by reflexivity. rewrite Hts.
  destruct (c_weatherers cf) as [|n] eqn:En.
  { exists []. split; [reflexivity|]. split; [congruence|reflexivity]. }
  destruct (Z.ltb_spec ts 0).
  { exists []. split; [|split; [lia|reflexivity]]. unfold ret, weathering. f_equal. f_equal.
    generalize (seq 0 (S n)). induction l; [reflexivity|]. cbn. exact IHl. }
  destruct Hw as [Hw|[Hw|Hw]]; [discriminate|lia|].
  destruct (split_tiles ts (m_sub m) (m_time m) Hw) as (ss & Ess & Ht).
  exists ss. split; [|split; [intros; exact Ht|lia]].
  rewrite (each_exact _ _ (fun w => map (fun x => EWeather w (fst x) (snd x)) ss)); [reflexivity|].
  intros w _. rewrite Ess. unfold lift. rewrite (bindM_ok _ _ _ _ m m [] ss) by reflexivity.
  rewrite (each_exact _ _ (fun x => [EWeather w (fst x) (snd x)])).
  - reflexivity.
  - intros [t d] _. rewrite call_ok by auto. reflexivity.
Qed.

Lemma step_exact : forall F cf m ts n, clean F cf m ts -> m_ts m = Some ts -> m_nts m = Some n ->
  0 <= m_cur m < n - 1 -> time_ok m ->
  exists ss m', step F cf m =
    ((m', [ERelease (m_time m) (m_time m + half_td ts); ESetupStep (m_time m) ts; EMove (m_time m) ts]
          ++ weathering (c_weatherers cf) ss
          ++ [EStepDone; ERelease (m_time m + ts - half_td ts) (m_time m + ts);
              EOutput (m_cur m + 1) (m_time m + ts) (m_cur m + 1 =? n - 1)]),
     Ok (m_cur m + 1, m_time m + ts)) /\
    (0 <= ts -> c_weatherers cf <> O -> tiles (m_time m) ss (m_time m + Z.quot ts sec_us * sec_us)) /\
    (ts < 0 -> ss = []).
Proof.
  intros F cf m ts n Hc Hts Hn Hk Ht. pose proof Hc as (HF & Hv & Hw).
  assert (Htime : m_start m + (m_cur m + 1) * ts = m_time m + ts).
  { destruct Ht as [[H _]|(_ & ts' & E & H)]; [lia|]. rewrite Hts in E. injection E as <-. lia. }
  destruct (weather_exact F cf m ts Hc Hts) as (ss & Ew & Hss).
  exists ss. eexists. split; [|exact Hss].
  unfold step. rewrite (bindM_ok _ _ _ _ _ m [] m) by reflexivity.
  assert ((m_cur m =? -1) = false) as -> by (apply Z.eqb_neq; lia).
  rewrite Hn, Hts. assert ((n - 1 <=? m_cur m) = false) as -> by (apply Z.leb_gt; lia).
  unfold on_error. cbv zeta.
  rewrite (bindM_ok _ _ _ _ _ _ _ _ (call_ok F _ _ HF)).
  rewrite (bindM_ok _ _ _ _ _ _ _ _ (call_ok F _ _ HF)).
  rewrite (bindM_ok _ _ _ _ _ _ _ _ (call_ok F _ _ HF)).
  rewrite (bindM_ok _ _ _ _ _ _ _ _ Ew).
  rewrite (bindM_ok _ _ _ _ _ _ _ _ (call_ok F _ _ HF)).
  set (m2 := mkModel (m_start m) (m_dur m) (m_ts m) (m_nts m) (m_cur m + 1) (m_start m + (m_cur m + 1) * ts)
               (m_back m) (m_unc m) (m_sub m)).
  rewrite (bindM_ok _ _ _ _ _ m2 [] tt).
  2:{ unfold set_cur. rewrite (bindM_ok _ _ _ _ _ m [] m) by reflexivity. rewrite Hts. reflexivity. }
  rewrite (bindM_ok _ _ _ _ _ m2 [] m2) by reflexivity.
  rewrite (bindM_ok _ _ _ _ _ _ _ _ (call_ok F _ _ HF)).
  unfold output_step. rewrite (bindM_ok _ _ _ _ _ m2 [] m2) by reflexivity.
  cbn [m_nts m_cur m_time m2]. rewrite Hn.
  rewrite (bindM_ok _ _ _ _ _ _ _ _ (call_ok F _ _ HF)).
  unfold ret. rewrite Htime. cbn [app]. rewrite ?app_nil_r. reflexivity.
Qed.

Lemma step_stop : forall F cf m ts n k, (forall e, F e = None) -> 0 <= k -> n - 1 <= k ->
  step F cf (at_step m ts n k) = ((at_step m ts n k, [EPost]), Raise StopIter).
Proof.
  intros F cf m ts n k HF H0 H1. unfold step.
  rewrite (bindM_ok _ _ _ _ _ (at_step m ts n k) [] (at_step m ts n k)) by reflexivity.
  assert ((m_cur (at_step m ts n k) =? -1) = false) as -> by (apply Z.eqb_neq; simpl; lia).
  assert ((n - 1 <=? k) = true) as Hle by (apply Z.leb_le; lia).
  cbn [m_nts m_ts m_cur at_step]. rewrite Hle. unfold post_model_run.
  rewrite (bindM_ok _ _ _ _ _ _ _ _ (call_ok F _ _ HF)). reflexivity.
Qed.

(** ** The first step *)
Lemma rewind_eq : forall F m, (forall e, F e = None) ->
  rewind F m = ((rewound m, [ERewind]), Ok tt).
Proof. intros F m H. unfold rewind. rewrite (bindM_ok _ _ _ _ _ _ _ _ eq_refl). rewrite call_ok by auto. reflexivity. Qed.

Lemma at_start_eta : forall m, at_start m ->
  m = rewound m.
Proof. intros [] [H1 H2]; simpl in *; subst; reflexivity. Qed.

Definition quiet (lg : list ev) : Prop :=
  releases lg = [] /\ moves lg = [] /\ outputs lg = [] /\ posts lg = O.

Lemma times_rewind : forall F n m, (forall e, F e = None) -> at_start m ->
  exists lg, times n (on_add F Weatherers) m = ((m, lg), Ok tt) /\ quiet lg.
Proof.
  intros F n m HF Hm; induction n.
  - exists []. split; [reflexivity|repeat split].
  - destruct IHn as (lg & E & Q1 & Q2 & Q3 & Q4). exists (ERewind :: lg). simpl. unfold on_add.
    rewrite (bindM_ok _ _ _ _ _ _ _ _ (rewind_eq F m HF)). rewrite <- at_start_eta by auto.
    unfold on_add in E. rewrite E. split; [reflexivity|]. repeat split; simpl; auto.
Qed.

Lemma default_pos : forall cf, 0 < default_ts cf.
Proof. intros cf. unfold default_ts, sec_us. destruct (c_transport cf), (c_weathering cf); lia. Qed.

Lemma setup_ok : forall F cf m, (forall e, F e = None) -> at_start m ->
  (m_ts m <> None -> m_nts m <> None) ->
  exists lg, setup_model_run F cf m =
    ((mkModel (m_start m) (m_dur m) (Some (eff_ts cf m)) (Some (eff_nts cf m)) (-1) (m_start m) (m_back m) (m_unc m) (m_sub m), lg), Ok tt)
    /\ quiet lg.
Proof.
  intros F cf m HF Hm Hn. destruct (times_rewind F (c_adds cf) m HF Hm) as (l1 & E1 & Q1 & Q2 & Q3 & Q4).
  unfold setup_model_run. rewrite (bindM_ok _ _ _ _ _ _ _ _ E1).
  rewrite (bindM_ok _ _ _ _ _ _ _ _ (call_ok F ESetupRun m HF)).
  rewrite (bindM_ok _ _ _ _ _ m [] m) by reflexivity.
  unfold eff_ts, eff_nts. destruct (m_ts m) as [t|] eqn:Et.
  - destruct (m_nts m) as [n|] eqn:En; [|exfalso; apply Hn; [discriminate|reflexivity]].
    unfold ret. eexists. split.
    { rewrite (at_start_eta m Hm) at 1. unfold rewound. rewrite Et, En. reflexivity. }
    unfold quiet. rewrite ?releases_app, ?moves_app, ?outputs_app, ?posts_app, Q1, Q2, Q3, Q4. repeat split.
  - unfold put_ts. rewrite (bindM_ok _ _ _ _ _ _ _ _ eq_refl). unfold reset_nts.
    rewrite (bindM_ok _ _ _ _ _ _ _ _ eq_refl). cbn [m_ts].
    pose proof (default_pos cf). destruct (Z.eqb_spec (default_ts cf) 0); [lia|].
    unfold modify. cbn [m_start m_dur m_ts m_cur m_time m_back m_unc m_sub].
    destruct Hm as [Hc Ht]. rewrite Hc, Ht. unfold nts_of.
    eexists. split; [reflexivity|].
    unfold quiet. rewrite ?releases_app, ?moves_app, ?outputs_app, ?posts_app, Q1, Q2, Q3, Q4. repeat split.
Qed.

Definition first_log (m : model) (n : Z) (lg : list ev) : Prop :=
  releases lg = [(m_start m, m_start m)] /\ moves lg = [] /\
  outputs lg = [(0, m_start m, 0 =? n - 1)] /\ posts lg = O.

Lemma step_first : forall F cf m, (forall e, F e = None) -> c_valid cf = true -> at_start m ->
  (m_ts m <> None -> m_nts m <> None) ->
  exists lg, step F cf m = ((at_step m (eff_ts cf m) (eff_nts cf m) 0, lg), Ok (0, m_start m))
    /\ first_log m (eff_nts cf m) lg.
Proof.
  intros F cf m HF Hv Hm Hn. destruct (setup_ok F cf m HF Hm Hn) as (l1 & E1 & Q1 & Q2 & Q3 & Q4).
  unfold step. rewrite (bindM_ok _ _ _ _ _ m [] m) by reflexivity.
  rewrite (proj1 Hm). change (-1 =? -1) with true. cbv iota.
  rewrite (bindM_ok _ _ _ _ _ _ _ _ E1).
  rewrite (bindM_ok _ _ _ _ _ _ _ _ (call_ok F ECheck _ HF)).
  rewrite Hv. rewrite (bindM_ok _ _ _ _ _ _ _ _ eq_refl).
  set (ts := eff_ts cf m) in *. set (n := eff_nts cf m) in *.
  assert (m_start m + 0 * ts = m_start m) as Et by lia.
  rewrite (bindM_ok _ _ _ _ _ (at_step m ts n 0) [] tt) by reflexivity.
  rewrite (bindM_ok _ _ _ _ _ (at_step m ts n 0) [] (at_step m ts n 0)) by reflexivity.
  rewrite (bindM_ok _ _ _ _ _ _ _ _ (call_ok F _ _ HF)).
  unfold output_step. rewrite (bindM_ok _ _ _ _ _ (at_step m ts n 0) [] (at_step m ts n 0)) by reflexivity.
  cbn [m_nts m_cur m_time at_step].
  rewrite (bindM_ok _ _ _ _ _ _ _ _ (call_ok F _ _ HF)). unfold ret. rewrite Et.
  eexists. split; [reflexivity|]. unfold first_log.
  rewrite ?releases_app, ?moves_app, ?outputs_app, ?posts_app, Q1, Q2, Q3, Q4. cbn. repeat split.
Qed.

(** ** Runs *)
Lemma drive_S : forall F cf n m m1 l1 r m2 l2 rs,
  step F cf m = ((m1, l1), r) -> drive F cf n m1 = (m2, l2, rs) ->
  drive F cf (S n) m = (m2, l1 ++ l2, r :: rs).
Proof. intros. simpl. rewrite H, H0. reflexivity. Qed.

(** From step [k] on. *)
Lemma drive_from : forall F cf m ts n, clean F cf m ts -> 
  forall c k, 0 <= k ->
  exists lg, drive F cf c (at_step m ts n k) =
    (at_step m ts n (Z.max k (Z.min (k + Z.of_nat c) (n - 1))), lg,
     map (expected (m_start m) ts n) (zseq (k + 1) c)).
Proof.
  intros F cf m ts n Hc. induction c; intros k Hk.
  - exists []. simpl. rewrite Z.add_0_r. rewrite Z.max_l by lia. reflexivity.
  - pose proof Hc as (HF & _). destruct (Z.lt_ge_cases k (n - 1)).
    + destruct (step_middle F cf m ts n k Hc Hk H) as (l1 & E1 & _).
      destruct (IHc (k + 1) ltac:(lia)) as (l2 & E2).
      exists (l1 ++ l2). rewrite (drive_S _ _ _ _ _ _ _ _ _ _ E1 E2).
      assert (Z.max (k + 1) (Z.min (k + 1 + Z.of_nat c) (n - 1)) = Z.max k (Z.min (k + Z.of_nat (S c)) (n - 1))) as -> by lia.
      cbn [zseq map]. f_equal. f_equal. unfold expected.
      destruct (Z.ltb_spec (k + 1) n); [reflexivity|lia].
    + pose proof (step_stop F cf m ts n k HF Hk H) as E1.
      assert (exists l2, drive F cf c (at_step m ts n k) = (at_step m ts n k, l2, repeat (Raise StopIter) c)) as (l2 & E2).
      { clear IHc. induction c; [exists []; reflexivity|]. destruct IHc as (l2 & E2).
        exists ([EPost] ++ l2). rewrite (drive_S _ _ _ _ _ _ _ _ _ _ E1 E2). reflexivity. }
      exists ([EPost] ++ l2). rewrite (drive_S _ _ _ _ _ _ _ _ _ _ E1 E2).
      rewrite Z.max_l by lia. f_equal.
      assert (forall j c, n - 1 < j -> map (expected (m_start m) ts n) (zseq j c) = repeat (Raise StopIter) c) as K.
      { intros j c'; revert j; induction c'; intros j Hj; [reflexivity|]. cbn [zseq map repeat].
        rewrite IHc' by lia. f_equal. unfold expected. destruct (Z.ltb_spec j n); [lia|reflexivity]. }
      rewrite K by lia. reflexivity.
Qed.

Lemma drive_run : forall F cf m, clean F cf m (eff_ts cf m) -> at_start m ->
  (m_ts m <> None -> m_nts m <> None) ->
  forall c, exists lg m', drive F cf c m = (m', lg,
     map (expected (m_start m) (eff_ts cf m) (Z.max 1 (eff_nts cf m))) (zseq 0 c)) /\
     m_cur m' = Z.min (Z.of_nat c) (Z.max 1 (eff_nts cf m)) - 1.
Proof.
  intros F cf m Hc Hm Hn c. pose proof Hc as (HF & Hv & _).
  set (ts := eff_ts cf m) in *. set (n := eff_nts cf m).
  destruct c as [|c]; [exists [], m; split; [reflexivity|rewrite (proj1 Hm); lia]|].
  destruct (step_first F cf m HF Hv Hm Hn) as (l1 & E1 & _). fold ts n in E1.
  destruct (drive_from F cf m ts n Hc c 0 ltac:(lia)) as (l2 & E2).
  exists (l1 ++ l2), (at_step m ts n (Z.max 0 (Z.min (0 + Z.of_nat c) (n - 1)))).
  rewrite (drive_S _ _ _ _ _ _ _ _ _ _ E1 E2). split.
  - cbn [zseq map]. f_equal. f_equal.
    + unfold expected. destruct (Z.ltb_spec 0 (Z.max 1 n)); [|lia]. f_equal. f_equal. lia.
    + apply map_ext_in. intros k Hk. apply zseq_In in Hk. unfold expected.
      destruct (Z.ltb_spec k n), (Z.ltb_spec k (Z.max 1 n)); try lia; reflexivity.
  - simpl. lia.
Qed.

(** ** full_run *)
Definition run_steps (m : model) (ts : Z) (a : Z) (c : nat) : list (Z * Z) :=
  map (fun k => (k, m_start m + k * ts)) (zseq a c).

Lemma loop_from : forall F cf m ts n, clean F cf m ts ->
  forall c k, 0 <= k -> (Z.of_nat c = Z.max k (n - 1) - k) -> forall fuel, (c < fuel)%nat ->
  exists lg, run_loop F fuel cf (at_step m ts n k) =
    ((at_step m ts n (Z.max k (n - 1)), lg), Some (Ok (run_steps m ts (k + 1) c))) /\
    releases lg = windows (m_start m) ts k c /\
    moves lg = map (fun j => (m_start m + j * ts, ts)) (zseq k c) /\
    outputs lg = map (fun j => (j, m_start m + j * ts, j =? n - 1)) (zseq (k + 1) c) /\
    posts lg = 2%nat.
Proof.
  intros F cf m ts n Hc. pose proof Hc as (HF & _). induction c; intros k Hk E fuel Hf.
  - destruct fuel as [|fuel]; [lia|]. cbn [run_loop].
    rewrite (step_stop F cf m ts n k HF Hk) by lia.
    unfold post_model_run. rewrite call_ok by auto. rewrite Z.max_l by lia.
    eexists. split; [reflexivity|]. repeat split.
  - destruct fuel as [|fuel]; [lia|]. cbn [run_loop].
    assert (k < n - 1) as H by lia.
    destruct (step_middle F cf m ts n k Hc Hk H) as (l1 & E1 & R1 & M1 & O1 & P1). rewrite E1.
    destruct (IHc (k + 1) ltac:(lia) ltac:(lia) fuel ltac:(lia)) as (l2 & E2 & R2 & M2 & O2 & P2). rewrite E2.
    replace (Z.max (k + 1) (n - 1)) with (Z.max k (n - 1)) by lia.
    eexists. split; [reflexivity|].
    rewrite releases_app, moves_app, outputs_app, posts_app, R1, R2, M1, M2, O1, O2, P1, P2. repeat split.
Qed.

Lemma full_run_ok : forall F cf m0 rew, let m := rewound m0 in
  clean F cf m (eff_ts cf m) -> (m_ts m <> None -> m_nts m <> None) ->
  (rew = false -> at_start m0) ->
  let ts := eff_ts cf m in let n := Z.max 1 (eff_nts cf m) in
  exists fuel, forall fuel', (fuel <= fuel')%nat -> exists m' lg,
    full_run F fuel' cf rew m0 =
      ((m', lg), Some (Ok (map (fun k => (k, m_start m + k * ts)) (zseq 0 (Z.to_nat n))))) /\
    m_cur m' = n - 1 /\ m_time m' = m_start m + (n - 1) * ts /\
    releases lg = (m_start m, m_start m) :: windows (m_start m) ts 0 (Z.to_nat (n - 1)) /\
    moves lg = map (fun j => (m_start m + j * ts, ts)) (zseq 0 (Z.to_nat (n - 1))) /\
    map fst (outputs lg) = map (fun j => (j, m_start m + j * ts)) (zseq 0 (Z.to_nat n)) /\
    posts lg = 2%nat.
Proof.
  intros F cf m0 rew m Hc Hn Hr ts n. pose proof Hc as (HF & Hv & _).
  rename m into m1.
  assert (at_start m1) as Hm by (split; reflexivity).
  set (n0 := eff_nts cf m1) in n.
  destruct (step_first F cf m1 HF Hv Hm Hn) as (l1 & E1 & R1 & M1 & O1 & P1). fold ts n0 in E1, O1.
  exists (S (S (Z.to_nat (n - 1)))). intros fuel' Hf. destruct fuel' as [|fuel]; [lia|].
  destruct (loop_from F cf m1 ts n0 Hc (Z.to_nat (n - 1)) 0 ltac:(lia) ltac:(lia) fuel ltac:(lia))
    as (l2 & E2 & R2 & M2 & O2 & P2).
  assert (run_loop F (S fuel) cf m1 = ((at_step m1 ts n0 (Z.max 0 (n0 - 1)), l1 ++ l2),
     Some (Ok ((0, m_start m1) :: run_steps m1 ts (0 + 1) (Z.to_nat (n - 1)))))) as EL.
  { cbn [run_loop]. rewrite E1, E2. reflexivity. }
  assert (exists l0, quiet l0 /\ full_run F (S fuel) cf rew m0 = ((at_step m1 ts n0 (Z.max 0 (n0 - 1)), l0 ++ l1 ++ l2),
     Some (Ok ((0, m_start m1) :: run_steps m1 ts (0 + 1) (Z.to_nat (n - 1)))))) as (l0 & (Q1 & Q2 & Q3 & Q4) & EF).
  { unfold full_run. destruct rew.
    - exists [ERewind]. split; [repeat split|]. rewrite (rewind_eq F m0 HF). fold m1. rewrite EL. reflexivity.
    - exists []. split; [repeat split|]. rewrite (at_start_eta m0 (Hr eq_refl)). fold m1. exact EL. }
  assert ((0, m_start m1) :: run_steps m1 ts (0 + 1) (Z.to_nat (n - 1)) =
          map (fun k => (k, m_start m1 + k * ts)) (zseq 0 (Z.to_nat n))) as ES.
  { replace (Z.to_nat n) with (S (Z.to_nat (n - 1))) by lia. cbn [zseq map]. unfold run_steps. f_equal. f_equal. lia. }
  rewrite ES in EF.
  eexists _, _. split; [exact EF|]. cbn [m_cur m_time at_step].
  split; [lia|]. split; [f_equal; f_equal; lia|].
  rewrite !releases_app, !moves_app, !outputs_app, !posts_app, Q1, Q2, Q3, Q4, R1, R2, M1, M2, O1, O2, P1, P2.
  repeat split. cbn [app map].
  replace (Z.to_nat n) with (S (Z.to_nat (n - 1))) by lia. cbn [zseq map]. f_equal; [cbn [fst]; f_equal; lia|].
  rewrite map_map. reflexivity.
Qed.

Lemma windows_chain : forall start ts c k, 2 * half_td ts = ts ->
  chain (start + k * ts) (windows start ts k c) (start + (k + Z.of_nat c) * ts).
Proof.
  intros start ts; induction c; intros k H; cbn [windows chain].
  - f_equal. f_equal. lia.
  - split; [reflexivity|]. split; [lia|].
    replace (k + Z.of_nat (S c)) with (k + 1 + Z.of_nat c) by lia. apply IHc; auto.
Qed.

(** ** Number of steps *)
Lemma nts_covers_fwd : forall dur ts, 0 < ts -> 0 <= dur -> covers dur ts (1 + dur / ts).
Proof.
  intros dur ts H1 H2. unfold covers. rewrite !Z.abs_eq by lia.
  pose proof (Z.div_mod dur ts ltac:(lia)). pose proof (Z.mod_pos_bound dur ts H1).
  assert (0 <= dur / ts) by (apply Z.div_pos; lia). split; [lia|]. nia.
Qed.
Lemma nts_covers_bwd : forall dur ts, ts < 0 -> dur <= 0 -> covers dur ts (1 + dur / ts).
Proof.
  intros dur ts H1 H2. replace (dur / ts) with ((- dur) / (- ts)) by (rewrite Z.div_opp_opp by lia; reflexivity).
  pose proof (nts_covers_fwd (- dur) (- ts) ltac:(lia) ltac:(lia)) as H. unfold covers in *.
  rewrite !Z.abs_opp in H. exact H.
Qed.

(** ** Operations *)
Definition counts_right (m : model) : Prop :=
  forall ts, m_ts m = Some ts -> m_nts m = Some (1 + m_dur m / ts).

Lemma no_fault_none : forall e, no_fault e = None.
Proof. reflexivity. Qed.

Ltac opsimp := unfold after_op, do_op; cbn -[Z.div Z.mul Z.abs Z.ltb Z.eqb step].

Lemma op_reset : forall m ts, ts <> 0 ->
  after_op m (OTimeStep ts) =
  mkModel (m_start m) (m_dur m) (Some ts) (Some (1 + m_dur m / ts)) (-1) (m_start m) (m_back m) (m_unc m) (m_sub m).
Proof.
  intros m ts H. unfold after_op, do_op, set_ts, put_ts, reset_nts, rewind, bindM, get, modify, call. cbn.
  destruct (Z.eqb_spec ts 0); [contradiction|]. reflexivity.
Qed.

Definition flip_dir (m : model) (b : bool) : model :=
  fst (fst ((if b then go_backward no_fault else go_forward no_fault) (mkModel (m_start m) (m_dur m) (m_ts m) (m_nts m) (m_cur m) (m_time m) b (m_unc m) (m_sub m)))).

Lemma op_back : forall m b ts, b <> m_back m -> m_ts m = Some ts ->
  (if m_back m then ts < 0 /\ m_dur m <= 0 else 0 < ts /\ 0 <= m_dur m) ->
  after_op m (OBackwards b) =
  mkModel (m_start m) (- m_dur m) (Some (- ts)) (Some (1 + (- m_dur m) / (- ts))) (-1) (m_start m) b (m_unc m) (m_sub m).
Proof.
  intros m b ts Hb Ets Hs. unfold after_op, do_op, set_back, bindM, get.
  destruct m as [st du ts' nt cu ti ba un su]. cbn in *. subst ts'.
  destruct (Bool.eqb ba b) eqn:E; [apply eqb_prop in E; congruence|].
  destruct b, ba; try congruence; cbn.
  - unfold go_backward, bindM, get, put_dur, modify, set_ts, put_ts, reset_nts, rewind, call. cbn.
    destruct Hs as [H1 H2]. destruct (Z.ltb_spec 0 ts); [|lia].
    destruct (Z.ltb_spec 0 du); cbn.
    + unfold bindM, put_ts, modify, get, call; cbn. destruct (Z.eqb_spec (- ts) 0); [lia|]. reflexivity.
    + assert (du = 0) as -> by lia. unfold bindM, put_ts, modify, get, call; cbn. destruct (Z.eqb_spec (- ts) 0); [lia|]. reflexivity.
  - unfold go_forward, bindM, get, put_dur, modify, set_ts, put_ts, reset_nts, rewind, call. cbn.
    destruct Hs as [H1 H2]. destruct (Z.ltb_spec ts 0); [|lia]. rewrite (Z.abs_neq ts) by lia.
    destruct (Z.ltb_spec du 0); cbn.
    + rewrite (Z.abs_neq du) by lia. unfold bindM, put_ts, modify, get, call; cbn. destruct (Z.eqb_spec (- ts) 0); [lia|]. reflexivity.
    + assert (du = 0) as -> by lia. unfold bindM, put_ts, modify, get, call; cbn. destruct (Z.eqb_spec (- ts) 0); [lia|]. reflexivity.
Qed.

Lemma op_back_same : forall m, after_op m (OBackwards (m_back m)) = m.
Proof. intros m. unfold after_op, do_op, set_back, bindM, get. rewrite eqb_reflx. reflexivity. Qed.

(** *** What a step, failing or not, can do to the state. *)

(** The time attributes are kept. *)
Definition same_times (m m' : model) : Prop :=
  m_start m' = m_start m /\ m_dur m' = m_dur m /\ m_back m' = m_back m /\ m_unc m' = m_unc m /\ m_sub m' = m_sub m.

(** A computation keeps a relation to the initial state, whatever happens. *)
Definition keeps {A} (R : model -> model -> Prop) (x : M A) : Prop :=
  forall m0 m, R m0 m -> forall m' l r, x m = ((m', l), r) -> R m0 m'.

Lemma keeps_ret : forall A R (a : A), keeps R (ret a).
Proof. intros A R a m0 m H m' l r E. inversion E; subst; auto. Qed.
Lemma keeps_fail : forall A R e, keeps R (@fail A e).
Proof. intros A R a m0 m H m' l r E. inversion E; subst; auto. Qed.
Lemma keeps_call : forall R F e, keeps R (call F e).
Proof. intros R F e m0 m H m' l r E. inversion E; subst; auto. Qed.
Lemma keeps_get : forall R, keeps R get.
Proof. intros R m0 m H m' l r E. inversion E; subst; auto. Qed.
Lemma keeps_lift : forall A R (x : res A), keeps R (lift x).
Proof. intros A R []; [apply keeps_ret|apply keeps_fail]. Qed.
Lemma keeps_bind : forall A B R (x : M A) (f : A -> M B),
  keeps R x -> (forall a, keeps R (f a)) -> keeps R (bindM x f).
Proof.
  intros A B R x f Hx Hf m0 m H m' l r E. unfold bindM in E.
  destruct (x m) as [[m1 l1] r1] eqn:E1. destruct r1 as [a|e].
  - destruct (f a m1) as [[m2 l2] r2] eqn:E2. inversion E; subst.
    apply (Hf a m0 m1) with (l := l2) (r := r); auto. eapply Hx; eauto.
  - inversion E; subst. eapply Hx; eauto.
Qed.
Lemma keeps_each : forall A R (f : A -> M unit) l, (forall a, keeps R (f a)) -> keeps R (each f l).
Proof. intros A R f l H; induction l; simpl; [apply keeps_ret|apply keeps_bind; auto]. Qed.
Lemma keeps_times : forall R n x, keeps R x -> keeps R (times n x).
Proof. intros R n x H; induction n; simpl; [apply keeps_ret|apply keeps_bind; auto]. Qed.
Lemma keeps_on_error : forall A R (x : M A) h, keeps R x -> keeps R h -> keeps R (on_error x h).
Proof.
  intros A R x h Hx Hh m0 m H m' l r E. unfold on_error in E.
  destruct (x m) as [[m1 l1] r1] eqn:E1. destruct r1 as [a|e].
  - inversion E; subst. eapply Hx; eauto.
  - destruct (h m1) as [[m2 l2] r2] eqn:E2. inversion E; subst.
    eapply Hh; [|exact E2]. eapply Hx; eauto.
Qed.
Lemma keeps_modify : forall (R : model -> model -> Prop) f,
  (forall m0 m, R m0 m -> R m0 (f m)) -> keeps R (modify f).
Proof. intros R f Hf m0 m H m' l r E. inversion E; subst; auto. Qed.

(** [with_state] computations: the body may use the state read by [get]. *)
Lemma keeps_weather : forall R F cf, keeps R (weather F cf).
Proof.
  intros R F cf. unfold weather. apply keeps_bind; [apply keeps_get|]. intros m.
  destruct (c_weatherers cf), (m_ts m); try apply keeps_ret; try apply keeps_fail.
  destruct (_ <? _); [apply keeps_ret|]. apply keeps_each. intros w.
  apply keeps_bind; [apply keeps_lift|]. intros ss. apply keeps_each. intros [t d]. apply keeps_call.
Qed.

Lemma keeps_output : forall R F, keeps R (output_step F).
Proof.
  intros R F. unfold output_step. apply keeps_bind; [apply keeps_get|]. intros m.
  destruct (m_nts m); [|apply keeps_fail]. apply keeps_bind; [apply keeps_call|]. intros _. apply keeps_ret.
Qed.

Lemma weather_state : forall F cf m m' l r, weather F cf m = ((m', l), r) -> m' = m.
Proof. intros. symmetry. eapply (keeps_weather (fun a b => a = b) F cf m m eq_refl); eauto. Qed.
Lemma output_state : forall F m m' l r, output_step F m = ((m', l), r) -> m' = m.
Proof. intros. symmetry. eapply (keeps_output (fun a b => a = b) F m m eq_refl); eauto. Qed.

Lemma bindM_inv : forall A B (x : M A) (f : A -> M B) m m' l r,
  bindM x f m = ((m', l), r) ->
  exists m1 l1 r1, x m = ((m1, l1), r1) /\
    match r1 with
    | Ok a => exists l2, f a m1 = ((m', l2), r) /\ l = l1 ++ l2
    | Raise e => m' = m1 /\ r = Raise e /\ l = l1
    end.
Proof.
  intros A B x f m m' l r E. unfold bindM in E. destruct (x m) as [[m1 l1] r1] eqn:E1.
  exists m1, l1, r1. split; [reflexivity|]. destruct r1.
  - destruct (f a m1) as [[m2 l2] r2] eqn:E2. inversion E; subst. exists l2. auto.
  - inversion E; subst; auto.
Qed.
Lemma on_error_inv : forall A (x : M A) h m m' l r, on_error x h m = ((m', l), r) ->
  exists m1 l1 r1, x m = ((m1, l1), r1) /\
    match r1 with
    | Ok a => m' = m1 /\ r = Ok a /\ l = l1
    | Raise e => exists l2 r2, h m1 = ((m', l2), r2) /\ l = l1 ++ l2 /\
        r = match r2 with Ok _ => Raise e | Raise e' => Raise e' end
    end.
Proof.
  intros A x h m m' l r E. unfold on_error in E. destruct (x m) as [[m1 l1] r1].
  exists m1, l1, r1. split; [reflexivity|]. destruct r1.
  - inversion E; subst; auto.
  - destruct (h m1) as [[m2 l2] r2] eqn:E2. inversion E; subst. exists l2, r2. auto.
Qed.
Lemma call_inv : forall F e m m' l r, call F e m = ((m', l), r) -> m' = m /\ l = [e].
Proof. intros F e m m' l r E. inversion E; auto. Qed.

(** A step advances by one or not at all; it succeeds only by advancing. *)
Definition advanced (m m' : model) (ts : Z) : Prop :=
  m' = at_step m ts (match m_nts m' with Some n => n | None => 0 end) (m_cur m + 1) /\ m_ts m' = Some ts.

Lemma setup_states : forall F cf m m' l r, at_start m ->
  setup_model_run F cf m = ((m', l), r) ->
  m' = m \/ (m_ts m = None /\ exists n, m' =
    mkModel (m_start m) (m_dur m) (Some (default_ts cf)) (Some n) (-1) (m_start m) (m_back m) (m_unc m) (m_sub m) /\ n = 1 + m_dur m / default_ts cf).
Proof.
  intros F cf m m' l r Hm E. unfold setup_model_run in E.
  apply bindM_inv in E as (m1 & l1 & r1 & E1 & E).
  assert (m1 = m) as ->.
  { assert (keeps (fun a b => at_start a /\ b = a) (times (c_adds cf) (on_add F Weatherers))) as K.
    { apply keeps_times. unfold on_add, rewind. apply keeps_bind; [|intros; apply keeps_call].
      apply keeps_modify. intros a b [H ->]. split; auto. symmetry. apply at_start_eta; auto. }
    exact (proj2 (K m m (conj Hm eq_refl) _ _ _ E1)). }
  destruct r1 as [[]|e]; [|left; tauto]. destruct E as (l2 & E & _).
  apply bindM_inv in E as (m1 & l3 & r3 & E3 & E). apply call_inv in E3 as [-> _].
  destruct r3 as [[]|e]; [|left; tauto]. destruct E as (l4 & E & _).
  rewrite (bindM_ok _ _ _ _ _ m [] m) in E by reflexivity.
  destruct (m_ts m) eqn:Et.
  - left. inversion E. reflexivity.
  - right. split; [reflexivity|]. unfold put_ts, reset_nts, bindM, get, modify in E. cbn in E.
    pose proof (default_pos cf). destruct (Z.eqb_spec (default_ts cf) 0); [lia|].
    inversion E. eexists. split; [|reflexivity]. destruct Hm as [-> ->]. reflexivity.
Qed.

Lemma set_cur_inv : forall k m m' l r, set_cur k m = ((m', l), r) ->
  (m_ts m = None /\ m' = m /\ r = Raise TypeErr) \/
  (exists ts, m_ts m = Some ts /\ r = Ok tt /\
     m' = mkModel (m_start m) (m_dur m) (m_ts m) (m_nts m) k (m_start m + k * ts) (m_back m) (m_unc m) (m_sub m)).
Proof.
  intros k m m' l r E. unfold set_cur in E. rewrite bind_get in E.
  destruct (m_ts m) eqn:Et; inversion E; subst; [right|left].
  - exists z. rewrite Et. auto.
  - auto.
Qed.

(** The tail of a step: release, then output. *)
Definition tail (F : oracle) (a b : Z) : M (Z * Z) := call F (ERelease a b) ;;; output_step F.

Lemma output_inv : forall F m m' l r, output_step F m = ((m', l), r) ->
  m' = m /\ (forall o, r = Ok o -> o = (m_cur m, m_time m)).
Proof.
  intros F m m' l r E. split; [eapply output_state; eauto|]. intros o ->.
  unfold output_step in E. rewrite bind_get in E.
  destruct (m_nts m); [|inversion E].
  apply bindM_inv in E as (m1 & l1 & r1 & E1 & E). destruct r1; [|destruct E as (_ & E & _); discriminate].
  destruct E as (l2 & E & _). inversion E. reflexivity.
Qed.

Lemma step_states : forall F cf m m' l r, time_ok m ->
  step F cf m = ((m', l), r) ->
  time_ok m' /\ same_times m m' /\
  (m_cur m' = m_cur m \/ m_cur m' = m_cur m + 1) /\
  (m_ts m' = m_ts m \/ (m_ts m = None /\ m_cur m = -1 /\ m_ts m' = Some (default_ts cf) /\ m_nts m' = Some (1 + m_dur m / default_ts cf))) /\
  (m_ts m' = m_ts m -> m_nts m' = m_nts m) /\
  (forall o, r = Ok o -> m_cur m' = m_cur m + 1 /\ o = (m_cur m', m_time m')) /\
  (m_cur m <> -1 -> is_ok r = false -> (m_ts m <> None -> m_nts m <> None) -> In EPost l).
Proof.
  intros F cf m m' l r Hok E. unfold step in E.
  rewrite bind_get in E.
  destruct (Z.eqb_spec (m_cur m) (-1)) as [Hc|Hc].
  - assert (at_start m) as Hm by (destruct Hok as [|[? _]]; [assumption|lia]).
    apply bindM_inv in E as (m1 & l1 & r1 & E1 & E).
    apply setup_states in E1; [|assumption].
    assert (at_start m1 /\ same_times m m1 /\
      (m_ts m1 = m_ts m \/ (m_ts m = None /\ m_cur m = -1 /\ m_ts m1 = Some (default_ts cf) /\ m_nts m1 = Some (1 + m_dur m / default_ts cf))) /\
      (m_ts m1 = m_ts m -> m_nts m1 = m_nts m)) as (S1 & S2 & S3 & S4).
    { destruct E1 as [->|(N & n & -> & ->)].
      - split; [assumption|]. repeat split; auto.
      - split; [split; reflexivity|]. split; [repeat split|]. split; [right; cbn; auto|].
        cbn. intros K. rewrite N in K. discriminate. }
    assert (forall e, Raise e = r -> time_ok m1 /\ same_times m m1 /\
        (m_cur m1 = m_cur m \/ m_cur m1 = m_cur m + 1) /\
        (m_ts m1 = m_ts m \/ (m_ts m = None /\ m_cur m = -1 /\ m_ts m1 = Some (default_ts cf) /\ m_nts m1 = Some (1 + m_dur m / default_ts cf))) /\
        (m_ts m1 = m_ts m -> m_nts m1 = m_nts m) /\
        (forall o, r = Ok o -> m_cur m1 = m_cur m + 1 /\ o = (m_cur m1, m_time m1)) /\
        (m_cur m <> -1 -> is_ok r = false -> (m_ts m <> None -> m_nts m <> None) -> In EPost l)) as Early.
    { intros e <-. split; [left; assumption|]. split; [assumption|].
      split; [left; destruct S1, Hm; congruence|]. repeat (split; auto); intros; try discriminate; contradiction. }
    destruct r1 as [[]|e]; [|destruct E as (-> & -> & _); eapply Early; reflexivity].
    destruct E as (l3 & E & ->).
    apply bindM_inv in E as (m3 & l4 & r4 & E4 & E). apply call_inv in E4 as [-> _].
    destruct r4 as [[]|e]; [|destruct E as (-> & -> & _); eapply Early; reflexivity].
    destruct E as (l5 & E & ->).
    apply bindM_inv in E as (m3 & l6 & r6 & E6 & E).
    assert (m3 = m1) as -> by (destruct (c_valid cf); inversion E6; reflexivity).
    destruct r6 as [[]|e]; [|destruct E as (-> & -> & _); eapply Early; reflexivity].
    destruct E as (l7 & E & ->).
    apply bindM_inv in E as (m3 & l8 & r8 & E8 & E).
    rewrite bind_get in E8.
    apply set_cur_inv in E8. destruct E8 as [(N & -> & ->)|(ts & N & -> & ->)].
    { destruct E as (-> & -> & _). eapply Early; reflexivity. }
    destruct E as (l9 & E & ->).
    set (m3 := mkModel (m_start m1) (m_dur m1) (m_ts m1) (m_nts m1) (m_cur m1 + 1) (m_start m1 + (m_cur m1 + 1) * ts) (m_back m1) (m_unc m1) (m_sub m1)) in *.
    rewrite bind_get in E.
    apply bindM_inv in E as (m4 & l10 & r10 & E10 & E). apply call_inv in E10 as [-> _].
    assert (m' = m3 /\ (forall o, r = Ok o -> o = (m_cur m3, m_time m3))) as (-> & Ho).
    { destruct r10; [|destruct E as (-> & -> & _); split; [reflexivity|intros; discriminate]].
      destruct E as (l11 & E & _). apply output_inv in E. exact E. }
    destruct S1 as [C1 T1]. subst m3. cbn [m_cur m_time m_ts m_nts m_start].
    split; [right; cbn; rewrite C1; split; [lia|exists ts; split; auto; lia]|].
    split; [exact S2|]. split; [right; congruence|]. split; [exact S3|]. split; [exact S4|].
    split; [|contradiction].
    intros o ->. split; [congruence|]. apply Ho; reflexivity.
  - destruct Hok as [[Hs _]|(Hc0 & ts & Hts & Htime)]; [contradiction|].
    destruct (m_nts m) as [n|] eqn:En.
    2:{ inversion E; subst. split; [right; split; auto; exists ts; auto|]. split; [repeat split|].
        split; [auto|]. split; [auto|]. split; [auto|]. split; [intros; discriminate|].
        intros _ _ K. exfalso. apply K; [rewrite Hts; discriminate|reflexivity]. }
    rewrite Hts in E.
    assert (time_ok m) as Hok' by (right; split; auto; exists ts; auto).
    destruct (n - 1 <=? m_cur m).
    + apply bindM_inv in E as (m1 & l1 & r1 & E1 & E). apply call_inv in E1 as [-> ->].
      assert (m' = m /\ is_ok r = false /\ In EPost l) as (-> & Hr & Hl).
      { destruct r1 as [[]|e].
        - destruct E as (l2 & E & ->). inversion E; subst. repeat split. left; reflexivity.
        - destruct E as (-> & -> & ->). repeat split. left; reflexivity. }
      split; [auto|]. split; [repeat split|]. split; [auto|]. split; [auto|]. split; [auto|].
      split; [|auto]. intros o ->. discriminate.
    + apply on_error_inv in E as (m1 & l1 & r1 & EX & E). cbv zeta in EX.
      assert (time_ok m1 /\ same_times m m1 /\ (m_cur m1 = m_cur m \/ m_cur m1 = m_cur m + 1) /\
              m_ts m1 = m_ts m /\ m_nts m1 = m_nts m /\
              (forall o, r1 = Ok o -> m_cur m1 = m_cur m + 1 /\ o = (m_cur m1, m_time m1))) as (A1 & A2 & A3 & A4 & A5 & A6).
      { assert (forall e, Raise e = r1 -> time_ok m /\ same_times m m /\ (m_cur m = m_cur m \/ m_cur m = m_cur m + 1) /\
              m_ts m = m_ts m /\ m_nts m = m_nts m /\
              (forall o, r1 = Ok o -> m_cur m = m_cur m + 1 /\ o = (m_cur m, m_time m))) as Early.
        { intros e <-. split; [auto|]. split; [repeat split|]. split; [auto|]. repeat (split; auto); intros; discriminate. }
        apply bindM_inv in EX as (m2 & l2 & r2 & E2 & EX). apply call_inv in E2 as [-> _].
        destruct r2 as [[]|e]; [|destruct EX as (-> & -> & _); eapply Early; reflexivity]. destruct EX as (l3 & EX & _).
        apply bindM_inv in EX as (m2 & l4 & r2 & E2 & EX). apply call_inv in E2 as [-> _].
        destruct r2 as [[]|e]; [|destruct EX as (-> & -> & _); eapply Early; reflexivity]. destruct EX as (l5 & EX & _).
        apply bindM_inv in EX as (m2 & l6 & r2 & E2 & EX). apply call_inv in E2 as [-> _].
        destruct r2 as [[]|e]; [|destruct EX as (-> & -> & _); eapply Early; reflexivity]. destruct EX as (l7 & EX & _).
        apply bindM_inv in EX as (m2 & l8 & r2 & E2 & EX). apply weather_state in E2 as ->.
        destruct r2 as [[]|e]; [|destruct EX as (-> & -> & _); eapply Early; reflexivity]. destruct EX as (l9 & EX & _).
        apply bindM_inv in EX as (m2 & l10 & r2 & E2 & EX). apply call_inv in E2 as [-> _].
        destruct r2 as [[]|e]; [|destruct EX as (-> & -> & _); eapply Early; reflexivity]. destruct EX as (l11 & EX & _).
        apply bindM_inv in EX as (m2 & l12 & r2 & E2 & EX). apply set_cur_inv in E2.
        destruct E2 as [(N & _)|(ts' & N & -> & ->)]; [congruence|].
        assert (ts' = ts) as -> by congruence. destruct EX as (l13 & EX & _).
        set (m3 := mkModel (m_start m) (m_dur m) (m_ts m) (m_nts m) (m_cur m + 1) (m_start m + (m_cur m + 1) * ts) (m_back m) (m_unc m) (m_sub m)) in *.
        rewrite bind_get in EX. rename EX into EY.
        apply bindM_inv in EY as (m4 & l14 & r14 & E14 & EY). apply call_inv in E14 as [-> _].
        assert (m1 = m3 /\ (forall o, r1 = Ok o -> o = (m_cur m3, m_time m3))) as (-> & Ho).
        { destruct r14; [|destruct EY as (-> & -> & _); split; [reflexivity|intros; discriminate]].
          destruct EY as (l15 & EY & _). apply output_inv in EY. exact EY. }
        subst m3. cbn [m_cur m_time m_ts m_nts m_start].
        split; [right; cbn; split; [lia|exists ts; auto]|]. split; [repeat split|]. split; [auto|]. split; [auto|]. split; [auto|].
        intros o Eo. split; auto. }
      destruct r1 as [o|e].
      * destruct E as (-> & -> & ->). rewrite <- En. split; [auto|]. split; [auto|]. split; [auto|]. split; [left; auto|]. split; [auto|].
        split; [auto|]. intros _ K. discriminate.
      * destruct E as (l2 & r2 & E & -> & ->). apply call_inv in E as [-> ->]. rewrite <- En. split; [auto|]. split; [auto|]. split; [auto|].
        split; [left; auto|]. split; [auto|]. split.
        -- intros o K. destruct r2; discriminate.
        -- intros _ _ _. apply in_or_app. right. left. reflexivity.
Qed.

(** ** Histories *)
Ltac run_op := unfold after_op, do_op, set_start, set_ts, set_dur, set_map, set_unc, set_back, go_backward, go_forward,
    on_replace, on_add, on_remove, on_spill_change, put_ts, put_dur, put_back, reset_nts, rewind, bindM, get, modify, call, no_fault, ret, fail.

Ltac bust := repeat (run_op; cbn -[Z.opp Z.abs Z.ltb Z.eqb Z.div Z.add];
  match goal with
  | |- context[?a =? ?b] => destruct (Z.eqb_spec a b); try lia
  | |- context[?a <? ?b] => destruct (Z.ltb_spec a b); try lia
  end); run_op; cbn -[Z.opp Z.abs Z.ltb Z.eqb Z.div Z.add].

Lemma back_start : forall m b, b <> m_back m -> at_start (after_op m (OBackwards b)).
Proof.
  intros [st du ts nt cu ti ba un su] b Hb. cbn in Hb. run_op. cbn -[Z.opp Z.abs Z.ltb Z.eqb Z.div Z.add].
  destruct (Bool.eqb ba b) eqn:E; [apply eqb_prop in E; congruence|].
  destruct b, ts as [t|]; bust; split; reflexivity.
Qed.

Lemma invalidates_start : forall m o, invalidates m o -> at_start (after_op m o).
Proof.
  intros m o H. destruct o; cbn [invalidates] in H; try contradiction.
  - split; reflexivity.
  - split; reflexivity.
  - rewrite op_reset by auto. split; reflexivity.
  - run_op. destruct m as [st du [t|] nt cu ti ba un su]; cbn in H; bust; split; reflexivity.
  - split; reflexivity.
  - run_op. cbn. destruct (Bool.eqb (m_unc m) b) eqn:E; [apply eqb_prop in E; congruence|]. split; reflexivity.
  - apply back_start; auto.
  - destruct c; try congruence; split; reflexivity.
  - destruct c; try congruence; split; reflexivity.
  - subst c. split; reflexivity.
Qed.

Lemma op_step : forall F cf m, after_op m (OStep F cf) = fst (fst (step F cf m)).
Proof.
  intros F cf m. unfold after_op, do_op, bindM. destruct (step F cf m) as [[m1 l1] [a|e]]; reflexivity.
Qed.

Lemma op_dur : forall m d, after_op m (ODuration d) =
  let m1 := if d <? m_dur m then rewound m else m in
  mkModel (m_start m) d (m_ts m)
    (match m_ts m with
     | Some ts => if ts =? 0 then m_nts m else Some (1 + d / ts)
     | None => None end) (m_cur m1) (m_time m1) (m_back m) (m_unc m) (m_sub m).
Proof.
  intros [st du ts nt cu ti ba un su] d. run_op. cbn.
  destruct (d <? du), ts as [t|]; cbn; try reflexivity; destruct (t =? 0); reflexivity.
Qed.

Lemma op_time_ok : forall m o, time_ok m -> no_zero_step o -> time_ok (after_op m o).
Proof.
  intros m o H Hz.
  assert (invalidates m o \/ ~ invalidates m o) as [I|I].
  { destruct o; cbn; try (left; exact I); try (right; tauto);
      try (destruct c; ((left; discriminate) || (left; reflexivity) || (right; congruence) || (right; discriminate))).
    - destruct (Z.eq_dec ts 0); [right; congruence|left; auto].
    - destruct (Z.lt_ge_cases d (m_dur m)); [left; auto|right; lia].
    - destruct (Bool.bool_dec b (m_unc m)); [right; congruence|left; auto].
    - destruct (Bool.bool_dec b (m_back m)); [right; congruence|left; auto]. }
  { left. apply invalidates_start; auto. }
  destruct o; cbn [invalidates no_zero_step] in *; try (exfalso; apply I; exact Logic.I); try contradiction.
  - rewrite op_dur. destruct (Z.ltb_spec d (m_dur m)); [contradiction|]. cbn. exact H.
  - assert (b = m_unc m) as -> by (destruct b, (m_unc m); congruence || (exfalso; apply I; discriminate)).
    run_op. cbn. rewrite eqb_reflx. exact H.
  - assert (b = m_back m) as -> by (destruct b, (m_back m); congruence || (exfalso; apply I; discriminate)).
    rewrite op_back_same. exact H.
  - destruct c; try (exfalso; apply I; discriminate). exact H.
  - destruct c; try (exfalso; apply I; discriminate). exact H.
  - destruct c; try (exfalso; apply I; reflexivity); exact H.
  - exact H.
  - rewrite op_step. destruct (step F cf m) as [[m1 l1] r1] eqn:E. cbn.
    apply (step_states F cf m m1 l1 r1 H E).
Qed.

Lemma ops_time_ok : forall os m, time_ok m -> Forall no_zero_step os -> time_ok (run_ops m os).
Proof.
  induction os as [|o os IH]; intros m H Hz; [exact H|]. inversion Hz; subst.
  apply IH; auto. apply op_time_ok; auto.
Qed.

(** *** Construction *)


Lemma construct_fwd : forall start dur ts unc sub m, ts <> 0 -> 1 <= sub ->
  construct no_fault start dur (Some ts) false unc sub m =
    ((built start dur ts false unc sub, [ERewind; ERewind]), Ok tt).
Proof.
  intros start dur ts unc sub m Ht Hs. unfold construct. run_op. cbn -[Z.opp Z.abs Z.ltb Z.eqb Z.div Z.add].
  bust; reflexivity.
Qed.

Lemma construct_bwd : forall start dur ts unc sub m, 0 < ts -> 0 <= dur -> 1 <= sub ->
  exists l, construct no_fault start dur (Some ts) true unc sub m =
    ((built start (- dur) (- ts) true unc sub, l), Ok tt).
Proof.
  intros start dur ts unc sub m Ht Hd Hs. unfold construct. run_op. cbn -[Z.opp Z.abs Z.ltb Z.eqb Z.div Z.add].
  bust; unfold built, nts_of; try (eexists; reflexivity);
    assert (dur = 0) as -> by lia; eexists; reflexivity.
Qed.

(** *** The number of steps *)


Lemma step_counted : forall F cf m, time_ok m -> counted m -> counted (after_op m (OStep F cf)).
Proof.
  intros F cf m Ht Hc. rewrite op_step. destruct (step F cf m) as [[m1 l1] r1] eqn:E. cbn.
  destruct (step_states F cf m m1 l1 r1 Ht E) as (_ & (_ & Hd & _) & _ & Hts & Hn & _).
  intros ts E1. rewrite Hd. destruct Hts as [K|(K1 & _ & K2 & K3)].
  - rewrite (Hn K). apply Hc. congruence.
  - rewrite E1 in K2. inversion K2; subst. split; [pose proof (default_pos cf); lia|auto].
Qed.



Lemma op_counted : forall m o, time_ok m -> counted m -> no_zero_step o -> keeps_direction o ->
  counted (after_op m o).
Proof.
  intros m o Ht Hc Hz Hk. destruct o; try contradiction; try exact Hc.
  - rewrite op_reset by exact Hz. intros t E. inversion E; subst. split; [exact Hz|reflexivity].
  - rewrite op_dur. intros t E. cbn in *. destruct (Hc t E) as [Hz' _]. rewrite E.
    destruct (Z.eqb_spec t 0); [contradiction|]. split; auto.
  - run_op. cbn. destruct (Bool.eqb (m_unc m) b); exact Hc.
  - destruct c; exact Hc.
  - destruct c; exact Hc.
  - destruct c; exact Hc.
  - apply step_counted; auto.
Qed.

Lemma ops_counted : forall os m, time_ok m -> counted m -> Forall no_zero_step os ->
  Forall keeps_direction os -> counted (run_ops m os).
Proof.
  induction os as [|o os IH]; intros m Ht Hc Hz Hk; [exact Hc|]. inversion Hz; inversion Hk; subst.
  apply IH; auto; [apply op_time_ok; auto|apply op_counted; auto].
Qed.

Lemma respecting_nonzero : forall m o, sign_respecting m o -> no_zero_step o.
Proof. intros m [] H; cbn in *; auto. destruct (m_back m); lia. Qed.

Lemma op_signs : forall m o, time_ok m -> counted m -> signs_ok m -> sign_respecting m o ->
  counted (after_op m o) /\ signs_ok (after_op m o).
Proof.
  intros m o Ht Hc Hs Hr. pose proof (respecting_nonzero m o Hr) as Hz.
  destruct o; try (split; [apply op_counted; auto; exact I|]); try exact Hs.
  - cbn in Hr. rewrite op_reset by exact Hz. destruct Hs as (t & E & K). exists ts. cbn. split; auto.
    destruct (m_back m); tauto.
  - cbn in Hr. rewrite op_dur. destruct Hs as (t & E & K). exists t. cbn. split; auto. destruct (m_back m); tauto.
  - run_op. cbn. destruct (Bool.eqb (m_unc m) b); exact Hs.
  - destruct Hs as (t & E & K). destruct (Bool.bool_dec b (m_back m)) as [->|N].
    + rewrite op_back_same. split; auto. exists t; auto.
    + rewrite (op_back m b t N E K). split.
      * intros ts' E'. inversion E'; subst. split; [destruct (m_back m); lia|reflexivity].
      * exists (- t). cbn. split; auto. destruct b, (m_back m); try congruence; lia.
  - destruct c; exact Hs.
  - destruct c; exact Hs.
  - destruct c; exact Hs.
  - rewrite op_step. destruct (step F cf m) as [[m1 l1] r1] eqn:E. cbn.
    destruct (step_states F cf m m1 l1 r1 Ht E) as (_ & (_ & Hd & Hb & _) & _ & Hts & _).
    destruct Hs as (t & E' & K). exists t. rewrite Hb, Hd. split; auto.
    destruct Hts as [->|(N & _)]; [auto|congruence].
Qed.

Lemma ops_signs : forall os m, time_ok m -> counted m -> signs_ok m -> respecting m os ->
  time_ok (run_ops m os) /\ counted (run_ops m os) /\ signs_ok (run_ops m os).
Proof.
  induction os as [|o os IH]; intros m Ht Hc Hs Hr; [auto|]. destruct Hr as [R1 R2].
  destruct (op_signs m o Ht Hc Hs R1) as [C S]. apply IH; auto.
  apply op_time_ok; auto. eapply respecting_nonzero; eauto.
Qed.

Lemma signs_covers : forall m, counted m -> signs_ok m ->
  exists ts n, m_ts m = Some ts /\ m_nts m = Some n /\ covers (m_dur m) ts n.
Proof.
  intros m Hc (ts & E & K). destruct (Hc ts E) as [_ N]. exists ts, (1 + m_dur m / ts).
  split; [exact E|]. split; [exact N|].
  destruct (m_back m); destruct K; [apply nts_covers_bwd|apply nts_covers_fwd]; auto.
Qed.

Lemma built_ok : forall start dur ts back unc sub, ts <> 0 ->
  time_ok (built start dur ts back unc sub) /\ counted (built start dur ts back unc sub).
Proof.
  intros. split; [left; split; reflexivity|]. intros t E. inversion E; subst. split; auto.
Qed.

(** ** Mirroring *)


Lemma mirrored_run : forall F cf m b, time_ok m -> counted m -> signs_ok m -> b <> m_back m ->
  clean F cf m (eff_ts cf m) -> clean F cf m (- eff_ts cf m) ->
  let m' := after_op m (OBackwards b) in
  m_nts m' = m_nts m /\ m_dur m' = - m_dur m /\ m_start m' = m_start m /\ at_start m' /\
  forall c, snd (drive F cf c m') = map (mirror (m_start m)) (snd (drive F cf c (rewound m))).
Proof.
  intros F cf m b Ht Hc Hs Hb Hcl Hcl' m'. destruct Hs as (ts & E & K).
  destruct (Hc ts E) as [Hz Hn].
  assert (m' = built (m_start m) (- m_dur m) (- ts) b (m_unc m) (m_sub m)) as Em by (apply op_back; auto).
  clearbody m'. subst m'. cbn [built m_nts m_dur m_start m_cur m_time].
  rewrite Z.div_opp_opp by auto. split; [congruence|]. split; [reflexivity|]. split; [reflexivity|].
  split; [split; reflexivity|]. intros c.
  assert (eff_ts cf m = ts) as Ee by (unfold eff_ts; rewrite E; reflexivity). rewrite Ee in *.
  destruct (drive_run F cf (rewound m)) with (c := c) as (l1 & m1 & E1 & _).
  { unfold eff_ts, rewound; cbn. rewrite E. exact Hcl. }
  { split; reflexivity. }
  { cbn. rewrite Hn. discriminate. }
  destruct (drive_run F cf (built (m_start m) (- m_dur m) (- ts) b (m_unc m) (m_sub m))) with (c := c) as (l2 & m2 & E2 & _).
  { exact Hcl'. }
  { split; reflexivity. }
  { discriminate. }
  rewrite E1, E2. cbn [snd]. rewrite map_map. unfold eff_nts, eff_ts, rewound, built; cbn.
  rewrite E, Hn. rewrite Z.div_opp_opp by auto. apply map_ext_in. intros k _. unfold expected, mirror.
  destruct (k <? _); [|reflexivity]. f_equal. f_equal. lia.
Qed.

(** ** In the form of the properties *)
Lemma full_run_steps : forall F cf m0 rew, let m := rewound m0 in
  clean F cf m (eff_ts cf m) -> (m_ts m <> None -> m_nts m <> None) ->
  (rew = false -> at_start m0) ->
  let ts := eff_ts cf m in let n := Z.max 1 (eff_nts cf m) in
  exists fuel, forall fuel', (fuel <= fuel')%nat -> exists m' log,
    full_run F fuel' cf rew m0 =
      ((m', log), Some (Ok (map (fun k => (k, m_start m + k * ts)) (zseq 0 (Z.to_nat n))))) /\
    m_cur m' = n - 1 /\ m_time m' = m_start m + (n - 1) * ts /\
    moves log = map (fun j => (m_start m + j * ts, ts)) (zseq 0 (Z.to_nat (n - 1))) /\
    map fst (outputs log) = map (fun j => (j, m_start m + j * ts)) (zseq 0 (Z.to_nat n)).
Proof.
  intros F cf m0 rew m H1 H2 H3 ts n. destruct (full_run_ok F cf m0 rew H1 H2 H3) as [fuel K].
  exists fuel. intros fuel' Hf. destruct (K fuel' Hf) as (m' & lg & A & B & C & _ & D & E & _).
  exists m', lg. auto.
Qed.

Lemma half_even : forall ts, Z.even ts = true -> 2 * half_td ts = ts.
Proof.
  intros ts H. unfold half_td. rewrite H. apply Z.even_spec in H as [k ->].
  rewrite (Z.mul_comm 2 k), Z.div_mul by lia. lia.
Qed.

Lemma windows_length : forall start ts c k, length (windows start ts k c) = (2 * c)%nat.
Proof. induction c; intros; cbn; [reflexivity|]. rewrite IHc. lia. Qed.

Lemma release_windows : forall F cf m0 rew, let m := rewound m0 in
  clean F cf m (eff_ts cf m) -> (m_ts m <> None -> m_nts m <> None) ->
  (rew = false -> at_start m0) ->
  let ts := eff_ts cf m in Z.even ts = true ->
  exists fuel, forall fuel', (fuel <= fuel')%nat -> exists m' log r w,
    full_run F fuel' cf rew m0 = ((m', log), Some (Ok r)) /\
    releases log = (m_start m, m_start m) :: w /\
    length w = (2 * Z.to_nat (Z.max 1 (eff_nts cf m) - 1))%nat /\
    chain (m_start m) w (m_time m').
Proof.
  intros F cf m0 rew m H1 H2 H3 ts He. destruct (full_run_ok F cf m0 rew H1 H2 H3) as [fuel K].
  exists fuel. intros fuel' Hf. destruct (K fuel' Hf) as (m' & lg & A & B & C & D & _).
  do 4 eexists. split; [exact A|]. split; [exact D|]. split; [apply windows_length|].
  rewrite C. fold m. pose proof (windows_chain (m_start m) ts (Z.to_nat (Z.max 1 (eff_nts cf m) - 1)) 0 (half_even ts He)) as W.
  rewrite Z2Nat.id in W by lia. rewrite !Z.mul_0_l, Z.add_0_r, Z.add_0_l in W. exact W.
Qed.

Lemma history_covers : forall os start dur ts back unc sub,
  let m := built start dur ts back unc sub in
  signs_ok m -> respecting m os ->
  let m' := run_ops m os in
  exists ts' n', m_ts m' = Some ts' /\ m_nts m' = Some n' /\ covers (m_dur m') ts' n'.
Proof.
  intros os start dur ts back unc sub m Hs Hr m'.
  assert (ts <> 0) as Hz. { destruct Hs as (t & E & K). inversion E; subst. destruct (m_back m); lia. }
  destruct (built_ok start dur ts back unc sub Hz) as [Ht Hc].
  destruct (ops_signs os m Ht Hc Hs Hr) as (_ & A & B). apply signs_covers; auto.
Qed.

Lemma constructed_as_switched : forall start dur ts unc sub m, 0 < ts -> 0 <= dur -> 1 <= sub ->
  exists log, construct no_fault start dur (Some ts) true unc sub m =
    ((after_op (built start dur ts false unc sub) (OBackwards true), log), Ok tt).
Proof.
  intros start dur ts unc sub m H1 H2 H3. rewrite (op_back _ true ts); [|discriminate|reflexivity|cbn; lia].
  exact (construct_bwd start dur ts unc sub m H1 H2 H3).
Qed.

Lemma next_is_zero : forall m o F cf m1 log k t, invalidates m o ->
  step F cf (after_op m o) = ((m1, log), Ok (k, t)) -> k = 0 /\ t = m_start (after_op m o).
Proof.
  intros m o F cf m1 log k t Hi E. pose proof (invalidates_start m o Hi) as [A B].
  destruct (step_states F cf _ _ _ _ (or_introl (conj A B)) E) as (T & (S1 & _) & _ & _ & _ & K & _).
  destruct (K _ eq_refl) as [K1 K2]. inversion K2; subst. rewrite A in K1. split; [lia|].
  destruct T as [[T _]|(_ & ts & _ & ->)]; [lia|]. rewrite K1, S1. lia.
Qed.

Lemma step_never_skips : forall F cf m m' log r, time_ok m -> (m_ts m <> None -> m_nts m <> None) ->
  step F cf m = ((m', log), r) ->
  time_ok m' /\ m_start m' = m_start m /\ m_dur m' = m_dur m /\
  (m_cur m' = m_cur m \/ m_cur m' = m_cur m + 1) /\
  (forall o, r = Ok o -> m_cur m' = m_cur m + 1 /\ o = (m_cur m', m_time m')) /\
  (m_cur m <> -1 -> is_ok r = false -> In EPost log).
Proof.
  intros F cf m m' log r Ht Hn E.
  destruct (step_states F cf m m' log r Ht E) as (A & (B1 & B2 & _) & C & _ & _ & D & G).
  repeat (split; auto).
Qed.

(** Every logged call that fails makes the computation fail. *)
Definition reports (F : oracle) {A} (x : M A) : Prop :=
  forall m m' l r e z, x m = ((m', l), r) -> In e l -> F e = Some z -> is_ok r = false.

Lemma rep_silent : forall F A (x : M A), (forall m, snd (fst (x m)) = []) -> reports F x.
Proof. intros F A x H m m' l r e z E Hi. specialize (H m). rewrite E in H. cbn in H. subst. contradiction. Qed.
Lemma rep_call : forall F e, reports F (call F e).
Proof.
  intros F e m m' l r e' z E Hi Hf. unfold call in E. inversion E; subst.
  destruct Hi as [<-|[]]. rewrite Hf. reflexivity.
Qed.
Lemma rep_bind : forall F A B (x : M A) (f : A -> M B),
  reports F x -> (forall a, reports F (f a)) -> reports F (bindM x f).
Proof.
  intros F A B x f Hx Hf m m' l r e z E Hi Hz.
  apply bindM_inv in E as (m1 & l1 & r1 & E1 & E). destruct r1 as [a|e1].
  - destruct E as (l2 & E & ->). apply in_app_or in Hi as [Hi|Hi].
    + specialize (Hx _ _ _ _ _ _ E1 Hi Hz). discriminate.
    + eapply Hf; eauto.
  - destruct E as (-> & -> & _). reflexivity.
Qed.
Lemma rep_error : forall F A (x : M A) h, reports F x -> reports F (on_error x h).
Proof.
  intros F A x h Hx m m' l r e z E Hi Hz.
  apply on_error_inv in E as (m1 & l1 & r1 & E1 & E). destruct r1 as [a|e1].
  - destruct E as (-> & -> & ->). eapply Hx; eauto.
  - destruct E as (l2 & r2 & _ & _ & ->). destruct r2; reflexivity.
Qed.
Lemma rep_each : forall F A (f : A -> M unit) l, (forall a, reports F (f a)) -> reports F (each f l).
Proof.
  intros F A f l Hf. induction l; cbn; [apply rep_silent; reflexivity|]. apply rep_bind; auto.
Qed.

Ltac rep := repeat first
  [ apply rep_call | apply rep_error | apply rep_each; intros | apply rep_silent; reflexivity
  | apply rep_bind; [|intros] ].

Lemma rep_weather : forall F cf, reports F (weather F cf).
Proof.
  intros F cf. unfold weather. apply rep_bind; [apply rep_silent; reflexivity|]. intros m.
  destruct (c_weatherers cf); [apply rep_silent; reflexivity|].
  destruct (m_ts m) as [ts|]; [|apply rep_silent; reflexivity].
  destruct (ts <? 0); [apply rep_silent; reflexivity|]. apply rep_each. intros w.
  apply rep_bind; [destruct (split_substeps _ _ _); apply rep_silent; reflexivity|]. intros ss.
  apply rep_each. intros [t d]. apply rep_call.
Qed.
Lemma rep_rewind : forall F, reports F (rewind F).
Proof. intros F. unfold rewind. rep. Qed.
Lemma rep_setup : forall F cf, reports F (setup_model_run F cf).
Proof.
  intros F cf. unfold setup_model_run. apply rep_bind.
  { induction (c_adds cf); cbn [times]; [apply rep_silent; reflexivity|].
    apply rep_bind; [apply rep_rewind|auto]. }
  intros _. rep. destruct (m_ts a0); rep. unfold reset_nts. rep.
  destruct (m_ts a2) as [t|]; [destruct (t =? 0)|]; rep.
Qed.
Lemma rep_output : forall F, reports F (output_step F).
Proof. intros F. unfold output_step. rep. destruct (m_nts a); rep. Qed.
Lemma rep_setcur : forall F k, reports F (set_cur k).
Proof. intros F k. unfold set_cur. rep. destruct (m_ts a); rep. Qed.

Lemma step_reports : forall F cf m m' log r e x,
  step F cf m = ((m', log), r) -> In e log -> F e = Some x -> is_ok r = false.
Proof.
  intros F cf. change (reports F (step F cf)). unfold step.
  apply rep_bind; [apply rep_silent; reflexivity|]. intros m.
  destruct (m_cur m =? -1).
  - apply rep_bind; [apply rep_setup|]. intros _. apply rep_bind; [apply rep_call|]. intros _.
    apply rep_bind; [destruct (c_valid cf); rep|]. intros _.
    apply rep_bind; [apply rep_bind; [rep|intros; apply rep_setcur]|]. intros _.
    apply rep_bind; [rep|]. intros ?. apply rep_bind; [rep|]. intros _. apply rep_output.
  - destruct (m_nts m) as [n|]; [|rep]. destruct (m_ts m) as [ts|]; [|rep].
    destruct (n - 1 <=? m_cur m).
    + unfold post_model_run. rep.
    + apply rep_error. cbv zeta. apply rep_bind; [rep|]. intros _. apply rep_bind; [rep|]. intros _.
      apply rep_bind; [rep|]. intros _. apply rep_bind; [apply rep_weather|]. intros _.
      apply rep_bind; [rep|]. intros _. apply rep_bind; [apply rep_setcur|]. intros _.
      apply rep_bind; [rep|]. intros ?. apply rep_bind; [rep|]. intros _. apply rep_output.
Qed.

(** The same, where nothing raises StopIteration: the error is not one. *)
Definition stops (F : oracle) {A} (x : M A) : Prop :=
  (forall e, F e <> Some StopIter) ->
  forall m m' l r e z, x m = ((m', l), r) -> In e l -> F e = Some z -> exists y, r = Raise y /\ y <> StopIter.

Lemma stp_silent : forall F A (x : M A), (forall m, snd (fst (x m)) = []) -> stops F x.
Proof. intros F A x H _ m m' l r e z E Hi. specialize (H m). rewrite E in H. cbn in H. subst. contradiction. Qed.
Lemma stp_call : forall F e, stops F (call F e).
Proof.
  intros F e Hn m m' l r e' z E Hi Hf. unfold call in E. inversion E; subst.
  destruct Hi as [<-|[]]. rewrite Hf. exists z. split; [reflexivity|]. intros ->. exact (Hn _ Hf).
Qed.
Lemma stp_bind : forall F A B (x : M A) (f : A -> M B),
  stops F x -> (forall a, stops F (f a)) -> stops F (bindM x f).
Proof.
  intros F A B x f Hx Hf Hn m m' l r e z E Hi Hz.
  apply bindM_inv in E as (m1 & l1 & r1 & E1 & E). destruct r1 as [a|e1].
  - destruct E as (l2 & E & ->). apply in_app_or in Hi as [Hi|Hi].
    + destruct (Hx Hn _ _ _ _ _ _ E1 Hi Hz) as [y [Q _]]. discriminate.
    + eapply Hf; eauto.
  - destruct E as (-> & -> & ->). destruct (Hx Hn _ _ _ _ _ _ E1 Hi Hz) as [y [[= ->] Q]]. eauto.
Qed.
Lemma stp_error : forall F A (x : M A) e0, stops F x -> stops F (on_error x (call F e0)).
Proof.
  intros F A x e0 Hx Hn m m' l r e z E Hi Hz.
  apply on_error_inv in E as (m1 & l1 & r1 & E1 & E). destruct r1 as [a|e1].
  - destruct E as (-> & -> & ->). eapply Hx; eauto.
  - destruct E as (l2 & r2 & E2 & -> & ->). apply in_app_or in Hi as [Hi|Hi].
    + destruct (Hx Hn _ _ _ _ _ _ E1 Hi Hz) as [y [[= ->] Q]].
      unfold call in E2. inversion E2; subst. destruct (F e0) as [w|] eqn:Ew; [|eauto].
      exists w. split; [reflexivity|]. intros ->. exact (Hn _ Ew).
    + destruct (stp_call F e0 Hn _ _ _ _ _ _ E2 Hi Hz) as [y [-> Q]]. eauto.
Qed.
Lemma stp_each : forall F A (f : A -> M unit) l, (forall a, stops F (f a)) -> stops F (each f l).
Proof.
  intros F A f l Hf. induction l; cbn; [apply stp_silent; reflexivity|]. apply stp_bind; auto.
Qed.

Ltac stp := repeat first
  [ apply stp_call | apply stp_error | apply stp_each; intros | apply stp_silent; reflexivity
  | apply stp_bind; [|intros] ].

Lemma stp_weather : forall F cf, stops F (weather F cf).
Proof.
  intros F cf. unfold weather. apply stp_bind; [apply stp_silent; reflexivity|]. intros m.
  destruct (c_weatherers cf); [apply stp_silent; reflexivity|].
  destruct (m_ts m) as [ts|]; [|apply stp_silent; reflexivity].
  destruct (ts <? 0); [apply stp_silent; reflexivity|]. apply stp_each. intros w.
  apply stp_bind; [destruct (split_substeps _ _ _); apply stp_silent; reflexivity|]. intros ss.
  apply stp_each. intros [t d]. apply stp_call.
Qed.
Lemma stp_rewind : forall F, stops F (rewind F).
Proof. intros F. unfold rewind. stp. Qed.
Lemma stp_setup : forall F cf, stops F (setup_model_run F cf).
Proof.
  intros F cf. unfold setup_model_run. apply stp_bind.
  { induction (c_adds cf); cbn [times]; [apply stp_silent; reflexivity|].
    apply stp_bind; [apply stp_rewind|auto]. }
  intros _. stp. destruct (m_ts a0); stp. unfold reset_nts. stp.
  destruct (m_ts a2) as [t|]; [destruct (t =? 0)|]; stp.
Qed.
Lemma stp_output : forall F, stops F (output_step F).
Proof. intros F. unfold output_step. stp. destruct (m_nts a); stp. Qed.
Lemma stp_setcur : forall F k, stops F (set_cur k).
Proof. intros F k. unfold set_cur. stp. destruct (m_ts a); stp. Qed.

Lemma step_stops : forall F cf, stops F (step F cf).
Proof.
  intros F cf. unfold step.
  apply stp_bind; [apply stp_silent; reflexivity|]. intros m.
  destruct (m_cur m =? -1).
  - apply stp_bind; [apply stp_setup|]. intros _. apply stp_bind; [apply stp_call|]. intros _.
    apply stp_bind; [destruct (c_valid cf); stp|]. intros _.
    apply stp_bind; [apply stp_bind; [stp|intros; apply stp_setcur]|]. intros _.
    apply stp_bind; [stp|]. intros ?. apply stp_bind; [stp|]. intros _. apply stp_output.
  - destruct (m_nts m) as [n|]; [|stp]. destruct (m_ts m) as [ts|]; [|stp].
    destruct (n - 1 <=? m_cur m).
    + unfold post_model_run. stp.
    + unfold post_model_run. apply stp_error. cbv zeta. apply stp_bind; [stp|]. intros _. apply stp_bind; [stp|]. intros _.
      apply stp_bind; [stp|]. intros _. apply stp_bind; [apply stp_weather|]. intros _.
      apply stp_bind; [stp|]. intros _. apply stp_bind; [apply stp_setcur|]. intros _.
      apply stp_bind; [stp|]. intros ?. apply stp_bind; [stp|]. intros _. apply stp_output.
Qed.


(** Errors end a full run with that error, unless one of them is a
    StopIteration. *)
Lemma run_loop_reports : forall F cf, (forall e, F e <> Some StopIter) -> forall fuel m m' log r,
  run_loop F fuel cf m = ((m', log), Some (Ok r)) -> forall e, In e log -> F e = None.
Proof.
  intros F cf Hn. induction fuel as [|fuel IH]; intros m m' log r H e Hi; [discriminate|]. cbn [run_loop] in H.
  destruct (step F cf m) as [[m1 l1] r1] eqn:E1. destruct r1 as [o|x].
  - destruct (run_loop F fuel cf m1) as [[m2 l2] r2] eqn:E2. injection H as <- <- H.
    destruct r2 as [[os|]|]; try discriminate. apply in_app_or in Hi. destruct Hi as [Hi|Hi].
    + destruct (F e) as [x|] eqn:Ex; auto. pose proof (step_reports F cf m m1 l1 (Ok o) e x E1 Hi Ex). discriminate.
    + exact (IH m1 m2 l2 os E2 e Hi).
  - assert (x = StopIter) as ->.
    { destruct x; try reflexivity; discriminate. }
    destruct (post_model_run F m1) as [[m2 l2] r2] eqn:E2. injection H as <- <- H.
    destruct r2 as [u|]; [|discriminate]. apply in_app_or in Hi. destruct Hi as [Hi|Hi].
    + destruct (F e) as [x|] eqn:Ex; auto. destruct (step_stops F cf Hn _ _ _ _ _ _ E1 Hi Ex) as [y [[= <-] Q]]. congruence.
    + unfold post_model_run in E2. destruct (F e) as [x|] eqn:Ex; auto.
      pose proof (rep_call F EPost m1 m2 l2 (Ok u) e x E2 Hi Ex). discriminate.
Qed.

Lemma full_run_reports : forall F cf, (forall e, F e <> Some StopIter) -> forall fuel rew m m' log r,
  full_run F fuel cf rew m = ((m', log), Some (Ok r)) -> forall e, In e log -> F e = None.
Proof.
  intros F cf Hn fuel rew m m' log r H e Hi. unfold full_run in H. destruct rew.
  - destruct (rewind F m) as [[m1 l1] r1] eqn:E1. destruct r1 as [u|]; [|discriminate].
    destruct (run_loop F fuel cf m1) as [[m2 l2] r2] eqn:E2. injection H as <- <- ->.
    apply in_app_or in Hi. destruct Hi as [Hi|Hi]; [|exact (run_loop_reports F cf Hn fuel m1 m2 l2 r E2 e Hi)].
    destruct (F e) as [x|] eqn:Ex; auto. pose proof (rep_rewind F m m1 l1 (Ok u) e x E1 Hi Ex). discriminate.
  - exact (run_loop_reports F cf Hn fuel m m' log r H e Hi).
Qed.
