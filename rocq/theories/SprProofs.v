(** * Proofs about spreading and emulsification *)
From Verif Require Import Py PyLemmas WxModel WxSpec WxProofs SprModel SprSpec.
From Coq Require Import Reals Lra.
Open Scope R_scope.

Lemma Ok_inj {A} (a b : A) : Ok a = Ok b -> a = b.
Proof. intros H. injection H. auto. Qed.
Lemma sq_nonneg x : 0 <= sq x.
Proof. unfold sq. destruct (Rle_dec 0 x); [apply Rmult_le_pos; lra|]. replace (x * x) with (- x * - x) by ring. apply Rmult_le_pos; lra. Qed.
Lemma rpower_pos x y : 0 < Rpower x y.
Proof. unfold Rpower. apply exp_pos. Qed.
Lemma fay_K_pos : 0 < fay_K.
Proof. unfold fay_K. pose proof PI_RGT_0. lra. Qed.
Lemma fay_C_pos nu b vol : 0 < fay_C nu b vol.
Proof.
  unfold fay_C. pose proof PI_RGT_0. pose proof (rpower_pos (sq vol * gravity * b / sqrt nu) (1 / 3)).
  apply Rmult_lt_0_compat; auto. apply Rmult_lt_0_compat; auto. unfold sq, k2. lra.
Qed.
Lemma fay_new_gt nu b dt e : 0 < dt -> 0 < p_fay e -> 0 < p_vf e -> p_fay e < fay_new nu b dt e.
Proof.
  intros Hd Hf Hv. unfold fay_new. pose proof (fay_C_pos nu b (p_bulk e)) as HC. pose proof fay_K_pos as HK.
  pose proof (rpower_pos (p_fay e / p_vf e / fay_K) (1 / 7)) as HR.
  assert (HB : 0 < / (p_fay e / p_vf e)) by (apply Rinv_0_lt_compat; unfold Rdiv; apply Rmult_lt_0_compat; auto; apply Rinv_0_lt_compat; auto).
  set (blob := p_fay e / p_vf e) in *. set (C := fay_C nu b (p_bulk e)) in *. set (P := Rpower (blob / fay_K) (1 / 7)) in *. clearbody C P blob.
  pose proof (sq_nonneg C) as HS.
  assert (0 <= sq C * / blob * dt) by rpos.
  assert (0 < fay_K * P * dt) by (apply Rmult_lt_0_compat; [apply Rmult_lt_0_compat|]; auto).
  assert (0 < p_vf e * (1 / 2 * (sq C * / blob) * dt + 7 / 6 * fay_K * P * dt)); [|unfold Rdiv in *; lra].
  apply Rmult_lt_0_compat; auto. lra.
Qed.
Lemma fay_el_ok nu b limit dt v0 e : 0 < dt -> 0 <= p_fay e -> 0 < p_vf e ->
  let e' := fay_el nu b limit dt v0 e in
  p_fay e <= p_fay e' <= Rmax (p_fay e) (fay_max limit e) /\ p_area e' = p_fay e' /\ p_max e' = fay_max limit e /\
  (fay_t0 nu b v0 < p_age e + dt -> 0 < p_fay e < fay_max limit e -> p_fay e < p_fay e').
Proof.
  intros Hd Hf Hv. unfold fay_el. set (mx := fay_max limit e). cbv zeta. cbn [set_fay p_fay p_area p_max].
  destruct (Rltb (fay_t0 nu b v0) (p_age e + dt) && Rltb (p_fay e) mx && Rltb 0 (p_fay e)) eqn:E.
  - apply andb_true_iff in E as [E E3]. apply andb_true_iff in E as [E1 E2]. apply Rltb_iff in E1, E2, E3.
    pose proof (fay_new_gt nu b dt e Hd E3 Hv) as G.
    assert (p_fay e < Rmin (fay_new nu b dt e) mx) by (apply Rmin_glb_lt; lra).
    pose proof (Rmin_r (fay_new nu b dt e) mx). pose proof (Rmax_r (p_fay e) mx). repeat split; auto; lra.
  - pose proof (Rmax_l (p_fay e) mx). repeat split; auto; try lra. intros H1 [H2 H3]. exfalso.
    apply Rltb_iff in H1, H2, H3. rewrite H1, H2, H3 in E. discriminate.
Qed.
Lemma fay_weather_map nu b limit dt l : (forall e, In e l -> p_in e = true -> 0 <= p_age e) -> 0 < dt ->
  fay_weather nu b limit dt l = Ok (map (fun e => if p_in e then fay_el nu b limit dt (first_vol l (p_spill e)) e else e) l).
Proof.
  intros H Hd. unfold fay_weather. destruct (existsb _ l) eqn:E; [|reflexivity]. exfalso.
  apply existsb_exists in E as [e [H1 H2]]. apply andb_true_iff in H2 as [H2 H3]. destruct (Req_EM_T (p_age e + dt) 0) as [K|]; [|discriminate].
  specialize (H e H1 H2). lra.
Qed.
Lemma fay_el_spreadable nu b limit dt v0 e : 0 < dt -> spreadable e -> spreadable (fay_el nu b limit dt v0 e).
Proof.
  intros Hd [H1 [H2 [H3 [H4 [H5 H6]]]]]. pose proof (fay_el_ok nu b limit dt v0 e Hd H3 H4) as [G _]. cbv zeta in G.
  unfold spreadable. split; [exact H1|]. split; [exact H2|]. split; [lra|]. split; [exact H4|]. split; [exact H5|exact H6].
Qed.
Lemma fay_run_ok nu b limit A : forall h l, Forall (fun p => 0 < fst p /\ keeps_fay (snd p)) h -> (forall e, In e l -> spreadable e) ->
  (forall e, In e l -> p_fay e <= A) -> Forall (fun p => forall e, p_init e / p_rho e / limit <= A -> p_init (snd p e) / p_rho (snd p e) / limit <= A) h ->
  (forall e, In e l -> p_init e / p_rho e / limit <= A) ->
  exists l', fay_run nu b limit h l = Ok l' /\ Forall2 (fun e e' => p_fay e <= p_fay e' <= A) l l'.
Proof.
  induction h as [|[dt f] h IH]; intros l Hh Hl HA Hm Hi.
  - exists l. split; [reflexivity|]. clear - HA. induction l as [|e r IH]; constructor; [|apply IH; intros; apply HA; right; auto].
    specialize (HA e (or_introl eq_refl)). lra.
  - inversion Hh; subst. cbn [fst snd] in H1. destruct H1 as [Hd Hf]. inversion Hm; subst. cbn [snd] in H1.
    assert (Hl1 : forall e, In e (map f l) -> spreadable e).
    { intros e He. apply in_map_iff in He as [x [<- Hx]]. apply Hf; auto. }
    cbn [fay_run]. rewrite fay_weather_map by (auto; intros e He _; apply Hl1 in He; apply He). cbn [bind].
    set (g := fun e : sel => if p_in e then fay_el nu b limit dt (first_vol (map f l) (p_spill e)) e else e).
    assert (G : forall e, In e (map f l) -> spreadable (g e) /\ p_fay e <= p_fay (g e) <= Rmax (p_fay e) (p_init e / p_rho e / limit) /\ p_init (g e) = p_init e /\ p_rho (g e) = p_rho e).
    { intros e He. unfold g. specialize (Hl1 e He). destruct (p_in e).
      - destruct Hl1 as [S1 [S2 [S3 [S4 S5]]]]. pose proof (fay_el_ok nu b limit dt (first_vol (map f l) (p_spill e)) e Hd S3 S4) as [G _].
        cbv zeta in G. split; [apply fay_el_spreadable; auto; unfold spreadable; tauto|]. unfold fay_max in G. split; [exact G|]. split; reflexivity.
      - pose proof (Rmax_l (p_fay e) (p_init e / p_rho e / limit)). split; [exact Hl1|]. split; [lra|]. split; reflexivity. }
    assert (B : forall e, In e (map f l) -> p_fay (g e) <= A).
    { intros e He. destruct (G e He) as [_ [[_ G2] _]]. eapply Rle_trans; [exact G2|]. apply Rmax_lub.
      - apply in_map_iff in He as [x [<- Hx]]. destruct (Hf x (Hl x Hx)) as [-> _]. auto.
      - apply in_map_iff in He as [x [<- Hx]]. apply H1. apply Hi. exact Hx. }
    destruct (IH (map g (map f l))) as [l' [E1 E2]]; auto.
    + intros e He. apply in_map_iff in He as [x [<- Hx]]. apply G; auto.
    + intros e He. apply in_map_iff in He as [x [<- Hx]]. apply B; auto.
    + intros e He. apply in_map_iff in He as [x [<- Hx]]. destruct (G x Hx) as [_ [_ [-> ->]]]. apply in_map_iff in Hx as [y [<- Hy]]. apply H1. auto.
    + exists l'. split; [exact E1|].
      assert (F : forall e, In e l -> p_fay e <= p_fay (g (f e))).
      { intros e He. destruct (G (f e)) as [_ [G2 _]]; [apply in_map; auto|]. destruct (Hf e (Hl e He)) as [K _]. lra. }
      clearbody g. clear - E2 F. rewrite map_map in E2. revert l' E2. induction l as [|e r IHl]; intros l' E2; cbn [map] in E2; inversion E2; subst; constructor.
      * specialize (F e (or_introl eq_refl)). lra.
      * apply IHl; auto. intros; apply F; right; auto.
Qed.

(** ** Parts of elements *)

Lemma fay_new_times nu b dt s e : s <> 0 -> p_vf e <> 0 -> fay_new nu b dt (stimes s e) = s * fay_new nu b dt e.
Proof.
  intros Hs Hv. unfold fay_new. cbn [stimes p_fay p_vf p_bulk]. replace (s * p_fay e / (s * p_vf e)) with (p_fay e / p_vf e) by (field; auto). cbv zeta. ring.
Qed.
Lemma rltb_times s x y : 0 < s -> Rltb (s * x) (s * y) = Rltb x y.
Proof.
  intros Hs. apply eq_true_iff_eq. rewrite !Rltb_iff. split; intros H; [apply Rmult_lt_reg_l with s; auto|apply Rmult_lt_compat_l; auto].
Qed.
Lemma rmin_times s x y : 0 < s -> Rmin (s * x) (s * y) = s * Rmin x y.
Proof.
  intros Hs. unfold Rmin. destruct (Rle_dec x y) as [H|H], (Rle_dec (s * x) (s * y)) as [K|K]; auto.
  - exfalso. apply K. apply Rmult_le_compat_l; lra.
  - exfalso. apply H. apply Rmult_le_reg_l with s; auto.
Qed.
Lemma fay_max_times limit s e : fay_max limit (stimes s e) = s * fay_max limit e.
Proof. unfold fay_max. cbn [stimes p_init p_rho]. unfold Rdiv. ring. Qed.
Lemma fay_el_times nu b limit dt v0 s e : 0 < s -> p_vf e <> 0 ->
  fay_el nu b limit dt v0 (stimes s e) = stimes s (fay_el nu b limit dt v0 e).
Proof.
  intros Hs Hv. unfold fay_el. rewrite fay_max_times, fay_new_times by (auto; lra). cbv zeta. set (mx := fay_max limit e).
  assert (E : (if Rltb (fay_t0 nu b v0) (p_age (stimes s e) + dt) && Rltb (p_fay (stimes s e)) (s * mx) && Rltb 0 (p_fay (stimes s e))
               then Rmin (s * fay_new nu b dt e) (s * mx) else p_fay (stimes s e)) =
              s * (if Rltb (fay_t0 nu b v0) (p_age e + dt) && Rltb (p_fay e) mx && Rltb 0 (p_fay e) then Rmin (fay_new nu b dt e) mx else p_fay e)).
  { cbn [stimes p_age p_fay]. rewrite rltb_times by auto. replace 0 with (s * 0) at 1 by ring. rewrite rltb_times by auto. rewrite rmin_times by auto.
    destruct (_ && _ && _); reflexivity. }
  rewrite E. reflexivity.
Qed.
Lemma first_vol_cut s l k : first_vol (scut s l) k = first_vol l k.
Proof.
  unfold first_vol, scut. induction l as [|e r IH]; [reflexivity|]. cbn [flat_map app filter].
  change (p_in (stimes s e)) with (p_in e). change (p_spill (stimes s e)) with (p_spill e).
  change (p_in (stimes (1 - s) e)) with (p_in e). change (p_spill (stimes (1 - s) e)) with (p_spill e).
  destruct (p_in e && (p_spill e =? k)%Z); [reflexivity|exact IH].
Qed.
Lemma fay_cut nu b limit dt s l : 0 < dt -> (forall e, In e l -> spreadable e) -> 0 < s < 1 ->
  fay_weather nu b limit dt (scut s l) = do l' <- fay_weather nu b limit dt l; Ok (scut s l').
Proof.
  intros Hd Hl Hs. rewrite !fay_weather_map; auto.
  - cbn [bind]. f_equal. unfold scut at 2 3. rewrite !flat_map_concat_map, concat_map, !map_map. f_equal.
    apply map_ext_in. intros e He. cbn [map]. change (p_in (stimes s e)) with (p_in e). change (p_in (stimes (1 - s) e)) with (p_in e).
    change (p_spill (stimes s e)) with (p_spill e). change (p_spill (stimes (1 - s) e)) with (p_spill e). rewrite first_vol_cut.
    assert (Hv : p_vf e <> 0) by (destruct (Hl e He) as [_ [_ [_ [Hv _]]]]; lra).
    destruct (p_in e) eqn:Ei; [|reflexivity]. rewrite !fay_el_times by (auto; lra). reflexivity.
  - intros e He _. apply Hl; auto.
  - intros e He _. unfold scut in He. apply in_flat_map in He as [x [Hx [<-|[<-|[]]]]]; apply (Hl x Hx).
Qed.

(** ** One spill *)

Lemma filter_map_comm {A} (p : A -> bool) (g : A -> A) l : (forall x, p (g x) = p x) -> filter p (map g l) = map g (filter p l).
Proof. intros H. induction l as [|x r IH]; [reflexivity|]. cbn [map filter]. rewrite H. destruct (p x); cbn; rewrite IH; reflexivity. Qed.
Lemma first_vol_filter l k : first_vol (filter (fun e => (p_spill e =? k)%Z) l) k = first_vol l k.
Proof.
  unfold first_vol. induction l as [|e r IH]; [reflexivity|]. cbn [filter]. destruct (p_spill e =? k)%Z eqn:E.
  - cbn [filter]. rewrite E. destruct (p_in e); [reflexivity|exact IH].
  - rewrite andb_false_r. exact IH.
Qed.
Lemma fay_spill nu b limit dt l k : 0 < dt -> (forall e, In e l -> spreadable e) ->
  fay_weather nu b limit dt (filter (fun e => (p_spill e =? k)%Z) l) =
  do l' <- fay_weather nu b limit dt l; Ok (filter (fun e => (p_spill e =? k)%Z) l').
Proof.
  intros Hd Hl. rewrite !fay_weather_map; auto.
  - cbn [bind]. f_equal. rewrite filter_map_comm.
    + apply map_ext_in. intros e He. apply filter_In in He as [_ He]. apply Z.eqb_eq in He. rewrite He, first_vol_filter. reflexivity.
    + intros e. destruct (p_in e); reflexivity.
  - intros e He _. apply Hl; auto.
  - intros e He _. apply filter_In in He as [He _]. apply Hl; auto.
Qed.

(** ** Areas at first *)

Lemma init_area_ok limit nu b vol : 0 < limit -> 0 < vol -> 0 < init_area limit nu b vol <= vol / limit.
Proof.
  intros Hl Hv. unfold init_area. split; [|apply Rmin_r]. apply Rmin_glb_lt.
  - pose proof PI_RGT_0. pose proof (rpower_pos (vol ^ 5 * gravity * b / sq nu) (1 / 6)).
    apply Rmult_lt_0_compat; auto. apply Rmult_lt_0_compat; auto. unfold sq, k1, k0. lra.
  - unfold Rdiv. apply Rmult_lt_0_compat; auto. apply Rinv_0_lt_compat; auto.
Qed.
Lemma sumr_map_scale {A} (k : R) (f : A -> R) l : sumr (map (fun x => k * f x) l) = k * sumr (map f l).
Proof. induction l as [|x r IH]; [cbn; ring|]. cbn [map]. rewrite !sumr_cons, IH. ring. Qed.
Lemma first_areas_sum limit nu b l : 0 < sumr (map (fun e => p_init e / p_rho e) l) ->
  sumr (map p_fay (first_areas limit nu b l)) = init_area limit nu b (sumr (map (fun e => p_init e / p_rho e) l)) /\
  sumr (map p_vf (first_areas limit nu b l)) = 1.
Proof.
  intros H. unfold first_areas. set (bulk := sumr _) in *. rewrite !map_map. cbn [p_fay p_vf]. destruct (Rlt_dec 0 bulk); [|contradiction].
  assert (E : sumr (map (fun x => p_init x / p_rho x / bulk) l) = 1).
  { rewrite (map_ext _ (fun x => / bulk * (p_init x / p_rho x))) by (intros; unfold Rdiv; ring). rewrite sumr_map_scale. fold bulk. field. lra. }
  split; [|exact E]. rewrite sumr_map_scale, E. ring.
Qed.

(** ** Langmuir *)

Lemma fclip_bounds x : 1 / 10 <= fclip x <= 1.
Proof.
  destruct x; cbn; try lra. split; [|apply Rmin_r]. apply Rmin_glb; [apply Rmax_r|lra].
Qed.
Lemma f2_map {A} (P : A -> A -> Prop) g l : (forall x, P x (g x)) -> Forall2 P l (map g l).
Proof. intros H. induction l; constructor; auto. Qed.
Lemma f2_map_in {A} (P : A -> A -> Prop) g l : (forall x, In x l -> P x (g x)) -> Forall2 P l (map g l).
Proof. intros H. induction l; constructor; [apply H; left; auto|apply IHl; intros; apply H; right; auto]. Qed.
Lemma lang_rel rho_w wind l :
  Forall2 (fun e e' => (p_in e = true -> 1 / 10 <= p_cov e' <= 1 /\ p_area e' = p_fay e * p_cov e' /\ p_fay e' = p_fay e) /\ (p_in e = false -> e' = e))
          l (lang_weather rho_w wind l).
Proof.
  unfold lang_weather. destruct (filter p_in l) as [|e0 es] eqn:E.
  - assert (H : forall e, In e l -> p_in e = false).
    { intros e He. destruct (p_in e) eqn:K; auto. exfalso. assert (In e []) by (rewrite <- E; apply filter_In; auto). contradiction. }
    clear E. induction l as [|e r IH]; constructor; [|apply IH; intros; apply H; right; auto].
    rewrite (H e (or_introl eq_refl)). split; [discriminate|reflexivity].
  - apply f2_map. intros e.
    destruct (p_in e); [|split; [discriminate|reflexivity]]. split; [|discriminate]. intros _. cbv zeta. cbn [p_cov p_area p_fay].
    split; [apply fclip_bounds|]. split; reflexivity.
Qed.
Definition x_of (v t b : R) : R := sq v * sq PI / (t * 4 * b * gravity).
Lemma coverage_fin v t b : 0 <= v -> 0 < t -> 0 < b -> coverage v (Fin t) b = if Rlt_dec 0 (x_of v t b) then Rmin (Rmax (Rpower (x_of v t b) (- (1 / 3))) (1 / 10)) 1 else 1.
Proof.
  intros Hv Ht Hb. unfold coverage. cbn [fmul fdivby].
  assert (G : 0 < t * 4 * b * gravity) by (unfold gravity; assert (0 < t * b) by (apply Rmult_lt_0_compat; auto); lra).
  unfold fdiv. destruct (Req_EM_T (t * 4 * b * gravity) 0); [lra|]. fold (x_of v t b). cbn [fpow].
  assert (0 <= x_of v t b).
  { unfold x_of, Rdiv. apply Rmult_le_pos; [apply Rmult_le_pos; apply sq_nonneg|left; apply Rinv_0_lt_compat; auto]. }
  destruct (Rlt_dec 0 (x_of v t b)); [reflexivity|]. destruct (Rlt_dec (x_of v t b) 0); [lra|reflexivity].
Qed.
Lemma rpower_neg_mono x y : 0 < x -> x <= y -> Rpower y (- (1 / 3)) <= Rpower x (- (1 / 3)).
Proof.
  intros Hx [H|H]; [|subst; lra]. left. unfold Rpower. apply exp_increasing.
  assert (ln x < ln y) by (apply ln_increasing; auto). lra.
Qed.
Lemma x_of_mono v1 v2 t1 t2 b1 b2 : 0 <= v1 <= v2 -> 0 < t1 -> t1 <= t2 -> 0 < b1 -> b1 <= b2 -> x_of v1 t2 b2 <= x_of v2 t1 b1.
Proof.
  intros Hv Ht1 Ht Hb1 Hb. unfold x_of, Rdiv.
  assert (S1 : 0 <= sq v1 * sq PI) by (apply Rmult_le_pos; apply sq_nonneg).
  assert (S2 : sq v1 * sq PI <= sq v2 * sq PI).
  { apply Rmult_le_compat_r; [apply sq_nonneg|]. unfold sq. apply Rmult_le_compat; lra. }
  assert (TB : t1 * b1 <= t2 * b2) by (apply Rmult_le_compat; lra).
  assert (P1 : 0 < t1 * b1) by (apply Rmult_lt_0_compat; auto).
  assert (D1 : 0 < t1 * 4 * b1 * gravity) by (unfold gravity; lra).
  assert (D2 : t1 * 4 * b1 * gravity <= t2 * 4 * b2 * gravity) by (unfold gravity; lra).
  apply Rmult_le_compat; auto; [left; apply Rinv_0_lt_compat; lra|]. apply Rinv_le_contravar; auto.
Qed.
Lemma coverage_mono v1 v2 t1 t2 b1 b2 : 0 <= v1 <= v2 -> 0 < t1 -> t1 <= t2 -> 0 < b1 -> b1 <= b2 -> coverage v2 (Fin t1) b1 <= coverage v1 (Fin t2) b2.
Proof.
  intros Hv Ht1 Ht Hb1 Hb. pose proof (x_of_mono v1 v2 t1 t2 b1 b2 Hv Ht1 Ht Hb1 Hb) as M.
  rewrite !coverage_fin by lra. destruct (Rlt_dec 0 (x_of v1 t2 b2)) as [K1|K1].
  - destruct (Rlt_dec 0 (x_of v2 t1 b1)) as [K2|K2]; [|lra].
    pose proof (rpower_neg_mono _ _ K1 M) as R. apply Rle_min_compat_r. apply Rle_max_compat_r. exact R.
  - destruct (Rlt_dec 0 (x_of v2 t1 b1)) as [K2|K2]; [apply Rmin_r|lra].
Qed.
Lemma x_of_bound n t b v : 0 < t -> 0 < b -> 0 < n -> v = sqrt (n * 4 * t * b * gravity / sq PI) / (5 / 1000) -> x_of (v * (5 / 1000)) t b = n.
Proof.
  intros Ht Hb Hn ->. unfold x_of. replace (sqrt (n * 4 * t * b * gravity / sq PI) / (5 / 1000) * (5 / 1000)) with (sqrt (n * 4 * t * b * gravity / sq PI)) by field.
  pose proof PI_RGT_0 as HP. assert (G : 0 < gravity) by (unfold gravity; lra).
  unfold sq at 1. rewrite sqrt_sqrt.
  - unfold sq. field. repeat split; lra.
  - unfold Rdiv. assert (0 < / sq PI) by (apply Rinv_0_lt_compat; unfold sq; apply Rmult_lt_0_compat; auto).
    left. repeat apply Rmult_lt_0_compat; auto; lra.
Qed.
Lemma rpower_1000 : Rpower 1000 (- (1 / 3)) = 1 / 10.
Proof.
  assert (E : Rpower 1000 (1 / 3) = 10).
  { replace 1000 with (Rpower 10 3).
    - rewrite Rpower_mult. replace (3 * (1 / 3)) with 1 by field. apply Rpower_1. lra.
    - replace 3 with (INR 3) by (cbn; lra). rewrite Rpower_pow by lra. cbn. lra. }
  rewrite Rpower_Ropp, E. lra.
Qed.
Lemma rpower_one y : Rpower 1 y = 1.
Proof. unfold Rpower. rewrite ln_1, Rmult_0_r, exp_0. reflexivity. Qed.
Lemma wind_bound_pos n t b : 0 <= sqrt (n * 4 * t * b * gravity / sq PI) / (5 / 1000).
Proof. pose proof (sqrt_pos (n * 4 * t * b * gravity / sq PI)). lra. Qed.
Lemma wind_bounds_1 b t : fst (wind_bounds b t) = sqrt (1 * 4 * t * b * gravity / sq PI) / (5 / 1000).
Proof. unfold wind_bounds. cbn [fst]. replace (1 * 4 * t * b) with (4 * t * b) by ring. reflexivity. Qed.
Lemma coverage_calm v t b : 0 < t -> 0 < b -> 0 <= v <= fst (wind_bounds b t) -> coverage (v * (5 / 1000)) (Fin t) b = 1.
Proof.
  intros Ht Hb Hv. apply Rle_antisym; [apply fclip_bounds|].
  pose proof (wind_bounds_1 b t) as E. pose proof (x_of_bound 1 t b _ Ht Hb ltac:(lra) E) as X.
  pose proof (wind_bound_pos 1 t b) as P. rewrite <- E in P.
  apply Rle_trans with (coverage (fst (wind_bounds b t) * (5 / 1000)) (Fin t) b); [|apply coverage_mono; lra].
  rewrite coverage_fin by lra. rewrite X. destruct (Rlt_dec 0 1); [|lra]. rewrite rpower_one. rewrite Rmax_left, Rmin_left by lra. lra.
Qed.
Lemma coverage_gale v t b : 0 < t -> 0 < b -> snd (wind_bounds b t) <= v -> coverage (v * (5 / 1000)) (Fin t) b = 1 / 10.
Proof.
  intros Ht Hb Hv. apply Rle_antisym; [|apply fclip_bounds].
  assert (E : snd (wind_bounds b t) = sqrt (1000 * 4 * t * b * gravity / sq PI) / (5 / 1000)) by reflexivity.
  pose proof (x_of_bound 1000 t b _ Ht Hb ltac:(lra) E) as X. pose proof (wind_bound_pos 1000 t b) as P. rewrite <- E in P.
  apply Rle_trans with (coverage (snd (wind_bounds b t) * (5 / 1000)) (Fin t) b); [apply coverage_mono; lra|].
  rewrite coverage_fin by lra. rewrite X. destruct (Rlt_dec 0 1000); [|lra]. rewrite rpower_1000. rewrite Rmax_left, Rmin_left by lra. lra.
Qed.
Lemma coverage_between v t b : 0 < t -> 0 < b -> fst (wind_bounds b t) < v < snd (wind_bounds b t) -> 1 / 10 < coverage (v * (5 / 1000)) (Fin t) b < 1.
Proof.
  intros Ht Hb [H1 H2]. pose proof (wind_bounds_1 b t) as E1. pose proof (x_of_bound 1 t b _ Ht Hb ltac:(lra) E1) as X1.
  pose proof (wind_bound_pos 1 t b) as P1. rewrite <- E1 in P1.
  assert (E2 : snd (wind_bounds b t) = sqrt (1000 * 4 * t * b * gravity / sq PI) / (5 / 1000)) by reflexivity.
  pose proof (x_of_bound 1000 t b _ Ht Hb ltac:(lra) E2) as X2.
  assert (M : forall u w, 0 <= u < w -> x_of (u * (5 / 1000)) t b < x_of (w * (5 / 1000)) t b).
  { intros u w Hu. unfold x_of, Rdiv. pose proof PI_RGT_0 as HP. assert (0 < t * b) by (apply Rmult_lt_0_compat; auto).
    apply Rmult_lt_compat_r; [apply Rinv_0_lt_compat; unfold gravity; lra|]. apply Rmult_lt_compat_r; [unfold sq; apply Rmult_lt_0_compat; auto|].
    unfold sq. apply Rmult_le_0_lt_compat; lra. }
  assert (X3 : 1 < x_of (v * (5 / 1000)) t b) by (pose proof (M _ _ (conj P1 H1)); lra).
  assert (X4 : x_of (v * (5 / 1000)) t b < 1000) by (pose proof (M v (snd (wind_bounds b t)) ltac:(lra)); lra).
  rewrite coverage_fin by lra. destruct (Rlt_dec 0 (x_of (v * (5 / 1000)) t b)); [|lra]. set (x := x_of (v * (5 / 1000)) t b) in *. clearbody x.
  assert (A : Rpower x (- (1 / 3)) < 1).
  { apply Rlt_le_trans with (Rpower 1 (- (1 / 3))); [|rewrite rpower_one; lra]. unfold Rpower. apply exp_increasing. assert (ln 1 < ln x) by (apply ln_increasing; lra). lra. }
  assert (B : 1 / 10 < Rpower x (- (1 / 3))).
  { apply Rle_lt_trans with (Rpower 1000 (- (1 / 3))); [rewrite rpower_1000; lra|]. unfold Rpower. apply exp_increasing. assert (ln x < ln 1000) by (apply ln_increasing; lra). lra. }
  rewrite Rmax_left, Rmin_left by lra. lra.
Qed.

(** ** Emulsification *)

Definition water_of (ymax s : R) : R := Rmin (s * drop_max / (6 + s * drop_max)) ymax.
Lemma frac_mono s t : 0 <= s <= t -> s * drop_max / (6 + s * drop_max) <= t * drop_max / (6 + t * drop_max).
Proof.
  intros H. unfold drop_max. set (d := 1 / 100000). assert (Hd : 0 < d) by (unfold d; lra). clearbody d.
  assert (0 <= s * d) by (apply Rmult_le_pos; lra). assert (s * d <= t * d) by (apply Rmult_le_compat_r; lra).
  replace (s * d / (6 + s * d)) with (1 - 6 * / (6 + s * d)) by (field; lra). replace (t * d / (6 + t * d)) with (1 - 6 * / (6 + t * d)) by (field; lra).
  assert (/ (6 + t * d) <= / (6 + s * d)) by (apply Rinv_le_contravar; lra). lra.
Qed.
Lemma frac_nonneg s : 0 <= s -> 0 <= s * drop_max / (6 + s * drop_max).
Proof. intros H. replace 0 with (0 * drop_max / (6 + 0 * drop_max)) by (unfold drop_max; field). apply frac_mono. lra. Qed.
Lemma frac_at ymax : 0 < ymax < 1 -> let s := 6 / drop_max * (ymax / (1 - ymax)) in s * drop_max / (6 + s * drop_max) = ymax.
Proof.
  intros H. cbv zeta. assert (D : drop_max <> 0) by (unfold drop_max; lra). set (d := drop_max) in *. clearbody d. field. repeat split; lra.
Qed.
Lemma cut_pos ymax d : 0 < ymax < 1 -> 0 < d -> 0 < 6 / d * (ymax / (1 - ymax)).
Proof.
  intros H Hd. assert (0 < / d) by (apply Rinv_0_lt_compat; auto). assert (0 < / (1 - ymax)) by (apply Rinv_0_lt_compat; lra). unfold Rdiv.
  apply Rmult_lt_0_compat; apply Rmult_lt_0_compat; lra.
Qed.
Lemma emul_el_ok dt tm c ymax e : 0 < ymax < 1 -> 0 <= dt -> 0 <= m_s e -> 0 <= m_k e ->
  exists e', emul_el dt tm c ymax e = Ok e' /\ 0 <= m_s e' <= 6 / drop_min * (ymax / (1 - ymax)) /\ m_y e' = water_of ymax (m_s e') /\
    (emulsifies tm c e = true -> m_s e <= 6 / drop_min * (ymax / (1 - ymax)) -> m_s e <= m_s e') /\ (emulsifies tm c e = false -> m_s e' = 0) /\
    m_evap e' = m_evap e /\ m_age e' = m_age e /\ m_k e' = m_k e /\ m_mass e' = m_mass e.
Proof.
  intros Hy Hd Hs Hk. unfold emul_el. cbv zeta.
  set (smax := 6 / drop_min * (ymax / (1 - ymax))). set (scut := 6 / drop_max * (ymax / (1 - ymax))).
  assert (Hsm : 0 < smax) by (apply cut_pos; auto; unfold drop_min; lra).
  assert (Hsc : 0 < scut) by (apply cut_pos; auto; unfold drop_max; lra).
  set (inc := m_k e * dt * exp _).
  assert (Hinc : 0 <= inc) by (unfold inc; apply Rmult_le_pos; [apply Rmult_le_pos; auto|left; apply exp_pos]).
  clearbody inc.
  set (s := if emulsifies tm c e then Rmin (m_s e + inc) smax else 0).
  assert (S : 0 <= s <= smax).
  { unfold s. destruct (emulsifies tm c e); [|lra]. split; [apply Rmin_glb; lra|apply Rmin_r]. }
  set (y := if Rltb s scut then s * drop_max / (6 + s * drop_max) else ymax).
  assert (Y : y = water_of ymax s /\ 0 <= y).
  { unfold y, water_of. pose proof (frac_at ymax Hy) as F. cbv zeta in F. fold scut in F. destruct (Rltb s scut) eqn:E.
    - apply Rltb_iff in E. pose proof (frac_mono s scut ltac:(lra)) as M. rewrite F in M. rewrite Rmin_left by lra. split; [reflexivity|apply frac_nonneg; lra].
    - assert (K : scut <= s) by (apply Rnot_lt_le; intros K; apply Rltb_iff in K; congruence).
      pose proof (frac_mono scut s ltac:(lra)) as M. rewrite F in M. rewrite Rmin_right by lra. split; [reflexivity|lra]. }
  destruct Y as [Y1 Y2]. destruct (Rltb y 0) eqn:E; [apply Rltb_iff in E; lra|].
  eexists. split; [reflexivity|]. cbn [m_s m_y m_evap m_age m_k m_mass]. split; [exact S|]. split; [exact Y1|]. split; [|split; [|auto]].
  - intros Hem Hle. unfold s. rewrite Hem. apply Rmin_glb; lra.
  - intros Hem. unfold s. rewrite Hem. reflexivity.
Qed.
Lemma water_of_bounds ymax s : 0 < ymax -> 0 <= s -> 0 <= water_of ymax s <= ymax.
Proof. intros Hy Hs. unfold water_of. split; [apply Rmin_glb; [apply frac_nonneg; auto|lra]|apply Rmin_r]. Qed.
Lemma water_of_mono ymax s t : 0 <= s <= t -> water_of ymax s <= water_of ymax t.
Proof. intros H. unfold water_of. apply Rle_min_compat_r. apply frac_mono. exact H. Qed.
Lemma emulsifies_later tm c e e' : m_age e <= m_age e' -> m_evap e <= m_evap e' -> emulsifies tm c e = true -> emulsifies tm c e' = true.
Proof.
  intros H1 H2. unfold emulsifies. rewrite !orb_true_iff, !andb_true_iff, !negb_true_iff.
  assert (N : forall x y, Rltb x y = false <-> y <= x).
  { intros x y. split; intros H; [apply Rnot_lt_le; intros K; apply Rltb_iff in K; congruence|]. destruct (Rltb x y) eqn:E; auto. apply Rltb_iff in E. lra. }
  rewrite !N, !Rltb_iff. intros [[A B]|[[A B] C]]; [left|right]; repeat split; auto; lra.
Qed.
(** What stays true over a run. *)
Definition emul_inv (tm c ymax : R) (e : mel) : Prop :=
  0 <= m_s e <= 6 / drop_min * (ymax / (1 - ymax)) /\ m_y e = water_of ymax (m_s e) /\ (m_s e = 0 \/ emulsifies tm c e = true).
Lemma emul_el_inv dt tm c ymax e0 e : 0 < ymax < 1 -> 0 <= dt -> emul_inv tm c ymax e0 -> later e0 e ->
  exists e', emul_el dt tm c ymax e = Ok e' /\ emul_inv tm c ymax e' /\ m_y e0 <= m_y e' /\ wet ymax e' /\
             m_evap e' = m_evap e /\ m_age e' = m_age e.
Proof.
  intros Hy Hd [I1 [I2 I3]] [L1 [L2 [L3 [L4 [L5 L6]]]]].
  destruct (emul_el_ok dt tm c ymax e Hy Hd) as [e' [E1 [E2 [E3 [E4 [E5 [E6 [E7 _]]]]]]]]; auto; [rewrite L2; lra|].
  exists e'. split; [exact E1|].
  assert (M : m_s e0 <= m_s e' /\ (m_s e' = 0 \/ emulsifies tm c e' = true)).
  { destruct (emulsifies tm c e) eqn:Em.
    - split; [rewrite <- L2; apply E4; auto; rewrite L2; lra|]. right. apply emulsifies_later with e; auto; lra.
    - rewrite (E5 eq_refl). destruct I3 as [I3|I3]; [split; [lra|auto]|]. apply emulsifies_later with (e' := e) in I3; auto. congruence. }
  destruct M as [M1 M2].
  split; [split; [exact E2|split; [exact E3|exact M2]]|]. split; [rewrite I2, E3; apply water_of_mono; lra|].
  split; [unfold wet; rewrite E3; apply water_of_bounds; lra|]. split; auto.
Qed.
Lemma emul_run_ok hours c ymax : 0 < ymax < 1 ->
  let tm := if Rltb 0 hours then hours * 3600 else hours in
  forall h l, Forall (fun p => 0 <= fst p /\ forall e, later e (snd p e)) h -> (forall e, In e l -> emul_inv tm c ymax e) ->
  exists l', emul_run hours c ymax h l = Ok l' /\ Forall2 (fun e e' => m_y e <= m_y e' /\ wet ymax e') l l'.
Proof.
  intros Hy tm. induction h as [|[dt f] h IH]; intros l Hh Hl.
  - exists l. split; [reflexivity|]. induction l as [|e r IHl]; constructor; [|apply IHl; intros; apply Hl; right; auto].
    destruct (Hl e (or_introl eq_refl)) as [I1 [I2 _]]. split; [lra|]. unfold wet. rewrite I2. apply water_of_bounds; lra.
  - inversion Hh as [|? ? H1 H2]; subst. cbn [fst snd] in H1. destruct H1 as [Hd Hf]. cbn [emul_run].
    assert (M : exists l1, mapM (emul_el dt tm c ymax) (map f l) = Ok l1 /\ Forall2 (fun e e' => m_y e <= m_y e') l l1 /\ (forall e, In e l1 -> emul_inv tm c ymax e)).
    { clear IH Hh H2. induction l as [|e r IHl]; [exists []; split; [reflexivity|]; split; [constructor|intros e []]|].
      destruct (emul_el_inv dt tm c ymax e (f e) Hy Hd) as [e' [E1 [E2 [E3 _]]]]; [apply Hl; left; auto|auto|].
      destruct IHl as [r1 [R1 [R2 R3]]]; [intros; apply Hl; right; auto|].
      exists (e' :: r1). cbn [map mapM]. rewrite E1. cbn [bind]. rewrite R1. cbn [bind]. split; [reflexivity|]. split; [constructor; auto|].
      intros x [<-|Hx]; auto. }
    destruct M as [l1 [M1 [M2 M3]]].
    assert (W : exists o, emul_weather dt hours c ymax (map f l) = Ok (l1, o)).
    { unfold emul_weather. fold tm. destruct (map f l) eqn:E; [cbn in M1; injection M1 as <-; eexists; reflexivity|].
      destruct (Rle_dec ymax 0); [lra|]. rewrite M1. cbn [bind]. eexists. reflexivity. }
    destruct W as [o W]. rewrite W. cbn [bind fst]. destruct (IH l1 H2 M3) as [l' [E1 E2]]. exists l'. split; [exact E1|].
    clear - M2 E2. revert l' E2. induction M2; intros l2 E2; inversion E2; subst; constructor; auto. match goal with K : _ /\ wet _ _ |- _ => destruct K end. split; [lra|auto].
Qed.
Lemma water_content_bounds l ymax : (forall e, In e l -> 0 <= m_mass e /\ wet ymax e) -> 0 < sumr (map m_mass l) ->
  0 <= sumr (map (fun e => m_mass e / sumr (map m_mass l) * m_y e) l) <= ymax.
Proof.
  intros H Ht. set (tot := sumr (map m_mass l)) in *. assert (I : 0 < / tot) by (apply Rinv_0_lt_compat; auto).
  assert (G : 0 <= sumr (map (fun e => m_mass e / tot * m_y e) l) <= sumr (map m_mass l) * / tot * ymax).
  { clearbody tot. induction l as [|e r IH]; [cbn; lra|]. cbn [map]. rewrite !sumr_cons. destruct (H e (or_introl eq_refl)) as [H1 [H2 H3]].
    specialize (IH (fun x Hx => H x (or_intror Hx))). unfold Rdiv in *. assert (P : 0 <= m_mass e * / tot) by (apply Rmult_le_pos; lra).
    assert (0 <= m_mass e * / tot * m_y e) by (apply Rmult_le_pos; lra). assert (0 <= m_mass e * / tot * (ymax - m_y e)) by (apply Rmult_le_pos; lra). lra. }
  fold tot in G. replace (tot * / tot * ymax) with ymax in G by (field; lra). exact G.
Qed.

Lemma emul_run_inv hours c ymax : 0 < ymax < 1 ->
  let tm := if Rltb 0 hours then hours * 3600 else hours in
  forall h l l', Forall (fun p => 0 <= fst p /\ forall e, later e (snd p e)) h -> (forall e, In e l -> emul_inv tm c ymax e) ->
  emul_run hours c ymax h l = Ok l' -> forall e, In e l' -> emul_inv tm c ymax e.
Proof.
  intros Hy tm. induction h as [|[dt f] h IH]; intros l l' Hh Hl E; [injection E as <-; exact Hl|].
  inversion Hh as [|? ? H1 H2]; subst. cbn [fst snd] in H1. destruct H1 as [Hd Hf]. cbn [emul_run] in E.
  destruct (emul_weather dt hours c ymax (map f l)) as [[l1 o]|] eqn:W; [|discriminate]. cbn [bind fst] in E. apply (IH l1 l'); auto.
  unfold emul_weather in W. fold tm in W. destruct (map f l) as [|x0 r0] eqn:M; [injection W as <- _; intros ? []|]. rewrite <- M in W. clear M.
  destruct (Rle_dec ymax 0); [lra|]. destruct (mapM (emul_el dt tm c ymax) (map f l)) as [l2|] eqn:M; [|discriminate]. cbn [bind] in W. injection W as <- _.
  clear - M Hl Hf Hy Hd. revert l2 M. induction l as [|e r IHl]; intros l2 M; cbn [map mapM] in M; [injection M as <-; intros ? []|].
  destruct (emul_el_inv dt tm c ymax e (f e) Hy Hd) as [e' [E1 [E2 _]]]; [apply Hl; left; auto|auto|].
  rewrite E1 in M. cbn [bind] in M. destruct (mapM (emul_el dt tm c ymax) (map f r)) as [r1|]; [|discriminate]. cbn [bind] in M. apply Ok_inj in M. subst l2.
  intros x [<-|Hx]; [exact E2|]. apply (IHl ltac:(intros; apply Hl; right; auto) r1 eq_refl x Hx).
Qed.
Lemma rmax_const w l : (forall y, In y l -> y = w) -> rmax w l = w.
Proof. induction l as [|y r IH]; intros H; [reflexivity|]. cbn [rmax]. rewrite (H y (or_introl eq_refl)), Rmax_left by lra. apply IH. intros; apply H; right; auto. Qed.
Lemma lang_spill rho_w w l k :
  lang_weather rho_w (fun _ => w) (filter (fun e => (p_spill e =? k)%Z) l) =
  filter (fun e => (p_spill e =? k)%Z) (lang_weather rho_w (fun _ => w) l).
Proof.
  set (q := fun e : sel => (p_spill e =? k)%Z). unfold lang_weather.
  assert (RM : forall es, rmax (w * (5 / 1000)) (map (fun _ : sel => w * (5 / 1000)) es) = w * (5 / 1000)).
  { intros. apply rmax_const. intros y Hy. apply in_map_iff in Hy as [? [<- _]]. reflexivity. }
  assert (F2 : forall x, In x (filter q l) -> filter (fun y => p_in y && (p_spill y =? p_spill x)%Z) (filter q l) = filter (fun y => p_in y && (p_spill y =? p_spill x)%Z) l).
  { intros x Hx. apply filter_In in Hx as [_ Hx]. unfold q in *. apply Z.eqb_eq in Hx. rewrite Hx. clear. induction l as [|y r IH]; [reflexivity|]. cbn [filter].
    destruct (p_spill y =? k)%Z eqn:E; cbn [filter]; rewrite ?E, IH; [reflexivity|]. rewrite andb_false_r. reflexivity. }
  destruct (filter p_in (filter q l)) as [|a b] eqn:E1.
  - destruct (filter p_in l) as [|c d] eqn:E2; [reflexivity|]. rewrite filter_map_comm; [|intros e; destruct (p_in e); reflexivity].
    rewrite <- (map_id (filter q l)) at 1. apply map_ext_in. intros e He. destruct (p_in e) eqn:Ei; [|reflexivity].
    exfalso. assert (In e []) by (rewrite <- E1; apply filter_In; auto). contradiction.
  - destruct (filter p_in l) as [|c d] eqn:E2.
    + exfalso. assert (In a (a :: b)) as Ha by (left; auto). rewrite <- E1 in Ha. apply filter_In in Ha as [Ha1 Ha2]. apply filter_In in Ha1 as [Ha1 _].
      assert (In a []) by (rewrite <- E2; apply filter_In; auto). contradiction.
    + rewrite filter_map_comm; [|intros e; destruct (p_in e); reflexivity]. rewrite !RM. apply map_ext_in. intros e He. destruct (p_in e) eqn:Ei; [|reflexivity].
      rewrite F2 by auto. cbv zeta. assert (V : first_vol (filter q l) (p_spill e) = first_vol l (p_spill e)).
      { apply filter_In in He as [_ He]. unfold q in He. apply Z.eqb_eq in He. rewrite He. apply first_vol_filter. }
      rewrite V. reflexivity.
Qed.
