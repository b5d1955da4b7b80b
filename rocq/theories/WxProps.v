(** * C25, C26, C81, C82: weathering *)
From Verif Require Import Py PyLemmas WxModel WxSpec WxProofs.
From Coq Require Import Reals Lra.
Open Scope R_scope.

(** Evaporation lowers the components of the elements at the surface and books the
    difference; the others stay. *)
Theorem C25_evaporation : forall T cs wind dt l, 0 < T -> 0 <= dt -> volatile cs ->
  (forall e, In e l -> physical e) -> fits cs l ->
  exists l' b, evap_weather T cs wind dt l = Ok (l', b) /\ conserves l l' b.
Proof.
  intros T cs wind dt l HT Hd Hv Hp Hf. rewrite evap_weather_map by auto. cbv zeta. eexists. eexists. split; [reflexivity|].
  rewrite <- (scatter_map (fun e => evap_el e (decay T cs (wind e) e) dt)).
  assert (K : forall e, In e (filter weathered l) -> physical e /\ 0 < w_mass e /\ length (w_comps e) = length cs).
  { intros e He. apply filter_In in He as [H1 H2]. apply weathered_iff in H2. split; [auto|]. split; [apply H2|apply Hf; auto]. }
  apply conserves_scatter.
  - clear - K HT Hd Hv. induction (filter weathered l) as [|e r IH]; cbn [map]; [constructor|].
    constructor; [destruct (K e (or_introl eq_refl)) as [K1 [K2 K3]]; apply evap_el_lowered; auto|apply IH; intros; apply K; right; auto].
  - rewrite scatter_mass by apply map_length. ring.
  - intros e He. apply Hp; auto.
Qed.
Print Assumptions C25_evaporation.
(** The fraction lost is what is missing of the initial mass, and the fraction
    evaporated grows by what evaporated. *)
Theorem C25_evaporation_fractions : forall T cs wind dt l l' b, 0 < T -> 0 <= dt -> volatile cs ->
  (forall e, In e l -> physical e) -> fits cs l -> evap_weather T cs wind dt l = Ok (l', b) ->
  Forall2 (fun e e' => at_surface e -> w_flost e' * w_init e = w_init e - w_mass e' /\
                       (w_fevap e' - w_fevap e) * w_init e = w_mass e - w_mass e') l l'.
Proof.
  intros T cs wind dt l l' b HT Hd Hv Hp Hf. rewrite evap_weather_map by auto. intros E. cbv zeta in E. injection E as <- _. clear Hf.
  induction l as [|e r IH]; cbn [map]; constructor; [|apply IH; intros; apply Hp; right; auto].
  intros Hs. apply weathered_iff in Hs. rewrite Hs. destruct (Hp e (or_introl eq_refl)) as [[Hc Hm] [_ [_ [_ [Hi _]]]]].
  cbn [evap_el w_flost w_init w_mass w_fevap]. rewrite Hm. split; field; lra.
Qed.
Print Assumptions C25_evaporation_fractions.
Definition crude : list pseudo := [(1000, 100); (10, 200)].
Definition slick : list wel := [mkW 2 10 [4; 6] 0 100 1 10 0 0 (1 / 100000) 900; mkW 1 10 [4; 6] 0 100 1 10 0 0 (1 / 100000) 900].
Lemma slick_physical : forall e, In e slick -> physical e.
Proof.
  intros e [<-|[<-|[]]]; unfold physical, wsane; cbn; repeat split; try lra; repeat constructor; lra.
Qed.
Lemma slick_fits : fits crude slick.
Proof. intros e [<-|[<-|[]]]; reflexivity. Qed.
Lemma slick_surface : exists e, In e slick /\ at_surface e.
Proof. eexists. split; [left; reflexivity|]. split; [reflexivity|cbn; lra]. Qed.
Lemma crude_volatile : volatile crude.
Proof. repeat constructor; cbn; lra. Qed.
Example C25_evaporation_meets : 0 < 288 /\ 0 <= 900 /\ volatile crude /\ (forall e, In e slick -> physical e) /\ fits crude slick /\ exists e, In e slick /\ at_surface e.
Proof. split; [lra|]. split; [lra|]. split; [exact crude_volatile|]. split; [exact slick_physical|]. split; [exact slick_fits|exact slick_surface]. Qed.

(** Natural dispersion of oil that floats. *)
Theorem C25_dispersion : forall dt w v l, 0 < dt -> 0 < wt_visc w -> (forall e, In e l -> wsane e) ->
  (forall e, In e l -> at_surface e -> floats w e /\ waves_ok (v e)) ->
  exists l' d s, disp_weather dt w v l = (l', d, s) /\ conserves l l' (d + s) /\ 0 <= d /\ 0 <= s.
Proof. exact disp_weather_ok. Qed.
Print Assumptions C25_dispersion.
Example C25_dispersion_meets : let w := mkWater (1 / 1000000) 1020 5 in
  0 < 900 /\ 0 < wt_visc w /\ (forall e, In e slick -> wsane e) /\ (forall e, In e slick -> at_surface e -> floats w e /\ waves_ok (mkWave 1 (1 / 10) 2)).
Proof.
  split; [lra|]. split; [cbn; lra|]. split; [intros e He; apply slick_physical; auto|].
  intros e [<-|[<-|[]]] _; unfold floats, waves_ok; cbn; repeat split; lra.
Qed.
(** Biodegradation, if all droplets have a size or none has. *)
Theorem C25_biodegradation : forall arctic cs dt dr l, 0 <= dt -> (forall e, In e l -> wsane e) ->
  (forall e, In e l -> at_surface e -> 0 < w_rho e /\ length (w_comps e) = length cs) ->
  ((forall e, In e l -> at_surface e -> 0 < dr e) \/ (forall e, In e l -> at_surface e -> dr e = 0)) ->
  exists l' b, bio_weather arctic cs dt dr l = (l', b) /\ conserves l l' b.
Proof. exact bio_weather_ok. Qed.
Print Assumptions C25_biodegradation.
Example C25_biodegradation_meets : let cs := [(Saturate, 400); (Aromatic, 700)] in
  (forall e, In e slick -> wsane e) /\ (forall e, In e slick -> at_surface e -> 0 < w_rho e /\ length (w_comps e) = length cs) /\
  (forall e, In e slick -> at_surface e -> 0 < 1 / 100000).
Proof.
  split; [intros e He; apply slick_physical; auto|]. split; [intros e [<-|[<-|[]]] _; cbn; split; auto; lra|]. intros; lra.
Qed.
(** Decay lowers components too, but it books nothing. *)
Theorem C25_halflife_partial : forall hs t l, (forall h, In h hs -> 0 < h) -> 0 <= t -> (forall e, In e l -> wsane e) ->
  (forall e, In e l -> at_surface e -> length hs = 1%nat \/ length hs = length (w_comps e)) ->
  exists l', half_weather hs t l = Ok l' /\ conserves l l' (mass_of l - mass_of l').
Proof. exact half_weather_ok. Qed.
Print Assumptions C25_halflife_partial.
Theorem C25_halflife_refuted : exists hs t l l' b, (forall e, In e l -> wsane e) /\ half_booked hs t l = Ok (l', b) /\
  mass_of l = 10 /\ mass_of l' = 5 /\ b = 0.
Proof.
  exists [900], 900, [mkW 2 10 [4; 6] 0 100 1 10 0 0 0 900]. eexists. eexists. split.
  { intros e [<-|[]]. unfold wsane; cbn. split; [repeat constructor; lra|lra]. }
  unfold half_booked, half_weather. cbn [filter].
  assert (E : weathered (mkW 2 10 [4; 6] 0 100 1 10 0 0 0 900) = true) by (apply weathered_iff; split; [reflexivity|cbn; lra]).
  rewrite E. cbn [mapM half_el spread length w_comps repeat bind combine map fst snd]. rewrite !halflife_half by lra. cbn [bind scatter]. rewrite E.
  split; [reflexivity|]. unfold mass_of. cbn. split; [lra|]. split; [lra|reflexivity].
Qed.
Print Assumptions C25_halflife_refuted.
(** Oil that is heavier than the water gains mass by sedimentation. *)
Theorem C25_sinking_refuted : exists dt w v l l' d s, 0 < dt /\ 0 < wt_visc w /\ waves_ok v /\ (forall e, In e l -> physical e) /\
  disp_weather dt w (fun _ => v) l = (l', d, s) /\ s < 0 /\ mass_of l < mass_of l'.
Proof.
  set (e0 := mkW 2 2000 [2000] 0 1 1 2000 0 0 0 2000).
  exists 900, (mkWater (1 / 1000000) 1000 20), (mkWave 1 1 1), [e0].
  assert (Ew : weathered e0 = true) by (apply weathered_iff; split; [reflexivity|cbn; lra]).
  unfold disp_weather. cbn [filter]. rewrite Ew. cbv zeta. cbn [map]. unfold disp_data. cbn [combine map fst snd scatter]. rewrite Ew.
  eexists. eexists. eexists. split; [lra|]. split; [cbn; lra|]. split; [unfold waves_ok; cbn; lra|]. split.
  { intros e [<-|[]]. unfold physical, wsane. cbn. repeat split; try lra. repeat constructor; lra. }
  split; [reflexivity|].
  assert (Er : c_roy 0 = 2400) by (unfold c_roy; rewrite sqrt_0, Rmult_0_r, exp_0; lra).
  assert (Ec : c_disp (mkWave 1 1 1) = 1).
  { unfold c_disp. cbn [v_e v_f]. unfold rpow. destruct (Req_EM_T 1 0); [lra|]. unfold Rpower. rewrite ln_1, Rmult_0_r, exp_0. lra. }
  assert (Et : thickness e0 = 1) by (unfold thickness, e0; cbn; destruct (Rlt_dec 0 1); [field|lra]).
  assert (Ed : ds_disp 900 (mkWave 1 1 1) e0 = 8424 / 100000).
  { unfold ds_disp. cbn [w_visc w_fw w_area e0]. rewrite Er, Ec. unfold volume_entrained. lra. }
  assert (Es : - 2 < ds_sed 900 (mkWater (1 / 1000000) 1000 20) (mkWave 1 1 1) e0 < - (1 / 10)).
  { unfold ds_sed. rewrite Et. cbn [wt_sed wt_visc wt_rho w_rho w_visc w_area w_fw v_h v_e v_f e0]. rewrite Er, Ec.
    destruct (Rlt_dec 0 20); [|lra]. destruct (Rle_dec (1 / 10000) 1); [|lra]. cbv zeta.
    assert (Ep : rpow 1 (17 / 10) = 1) by (unfold rpow; destruct (Req_EM_T 1 0); [lra|]; unfold Rpower; rewrite ln_1, Rmult_0_r, exp_0; lra).
    rewrite Ep. destruct (Rlt_dec (588 / 1000 * (1 - 5 / 100000000)) 0); [lra|].
    assert (Q : 31 <= sqrt (1 * 1 * 1 / (1000 * (1 / 1000000))) <= 32).
    { replace (1 * 1 * 1 / (1000 * (1 / 1000000))) with 1000 by field. split.
      - rewrite <- (sqrt_square 31) by lra. apply sqrt_le_1; lra.
      - rewrite <- (sqrt_square 32) by lra. apply sqrt_le_1; lra. }
    set (q := sqrt (1 * 1 * 1 / (1000 * (1 / 1000000)))) in *. clearbody q.
    unfold gravity, ka.
    replace (613 / 1000 * 1 * (613 / 1000 * 1) * (980665 / 100000) * (1 - 2000 / 1000) / (18 * (1 / 1000000)) * 900 + 3 / 2 * 1) with (- (73700700677 / 400)) by field.
    set (c := 2400 * 1 * (588 / 1000 * (1 - 5 / 100000000)) * 1 * 900 / - (73700700677 / 400)).
    assert (Hc : - (7 / 1000) < c < - (6 / 1000)) by (replace c with (- (2400 * (588 / 1000 * (1 - 5 / 100000000)) * 900 * (400 / 73700700677))) by (unfold c; field); lra).
    replace ((1 - 0) * (16 / 10 * (1 / 10000) * q * c * 20) * 900) with (288 / 100 * (q * c)) by field.
    clearbody c. assert (0 <= (q - 31) * - c) by (apply Rmult_le_pos; lra). assert (0 <= (32 - q) * - c) by (apply Rmult_le_pos; lra). lra. }
  unfold ds_el. cbn [w_fw e0]. fold e0. destruct (Rle_dec 1 0); [lra|]. rewrite Ed.
  set (s := ds_sed _ _ _ _) in *. clearbody s.
  destruct (Rlt_dec (w_mass e0) (8424 / 100000 + s)) as [H|H]; [cbn in H; lra|]. cbn [fst snd]. split.
  - cbn. lra.
  - assert (A : forall a e, 0 < w_mass e -> w_mass e = sumr (w_comps e) -> a <= w_mass e -> take_frac a [e] = [with_comps e (map (Rmult (1 - a / w_mass e)) (w_comps e))]).
    { intros a e He Hm Ha. unfold take_frac. cbn [map]. replace (sumr [w_mass e]) with (w_mass e) by (cbn; ring).
      destruct (Rlt_dec 0 (w_mass e)); [|lra]. destruct (Rlt_dec 1 (a / w_mass e)) as [K|K]; [|reflexivity]. exfalso.
      assert (0 <= (w_mass e - a) * / w_mass e) by (apply Rmult_le_pos; [lra|left; apply Rinv_0_lt_compat; lra]).
      assert (w_mass e * / w_mass e = 1) by (apply Rinv_r; lra). unfold Rdiv in K. lra. }
    replace (sumr [8424 / 100000]) with (8424 / 100000) by (cbn; ring). replace (sumr [s]) with s by (cbn; ring).
    rewrite (A (8424 / 100000) e0) by (cbn; lra).
    set (e1 := with_comps e0 _).
    assert (M1 : w_mass e1 = 2000 - 8424 / 100000) by (unfold e1; cbn; field).
    rewrite (A s e1); [|rewrite M1; lra|reflexivity|rewrite M1; lra].
    replace (mass_of (with_comps e1 (map (Rmult (1 - s / w_mass e1)) (w_comps e1)) :: [])) with (w_mass e1 - s).
    + rewrite M1. cbn. lra.
    + unfold mass_of. cbn [map with_comps w_mass]. rewrite sumr_scale. change (sumr (w_comps e1)) with (w_mass e1). cbn. field.
Qed.
Print Assumptions C25_sinking_refuted.

(** Decay does not depend on the steps. *)
Theorem C26_add : forall hs s t l, (forall h, In h hs -> 0 < h) -> 0 <= s ->
  (forall e, In e l -> wsane e /\ (length hs = 1%nat \/ length hs = length (w_comps e))) ->
  (do l1 <- half_weather hs s l; half_weather hs t l1) = half_weather hs (s + t) l.
Proof. exact half_weather_add. Qed.
Print Assumptions C26_add.
Theorem C26_steps : forall hs t n l, (forall h, In h hs -> 0 < h) -> 0 <= t ->
  (forall e, In e l -> wsane e /\ (length hs = 1%nat \/ length hs = length (w_comps e))) ->
  half_steps hs t n l = half_weather hs (INR n * t) l.
Proof. intros hs t n l Hh Ht Hl. apply half_steps_eq; auto. Qed.
Print Assumptions C26_steps.
(** After one half-life half is left of each component of each element at the surface. *)
Theorem C26_half : forall h l, 0 < h -> (forall e, In e l -> wsane e) ->
  exists l', half_weather [h] h l = Ok l' /\
    Forall2 (fun e e' => (at_surface e -> w_comps e' = map (fun x => x / 2) (w_comps e) /\ w_mass e' = w_mass e / 2) /\ (~ at_surface e -> e' = e)) l l'.
Proof.
  intros h l Hh Hs. unfold half_weather.
  assert (E : forall data, mapM (half_el [h] h) data = Ok (map (fun e => with_comps e (map (fun x => x / 2) (w_comps e))) data)).
  { induction data as [|e r IH]; [reflexivity|]. cbn [mapM map]. unfold half_el at 1. cbn [spread bind]. rewrite IH. cbn [bind]. f_equal. f_equal.
    f_equal. induction (w_comps e) as [|m mc IHm]; [reflexivity|]. cbn [length repeat combine map fst snd]. rewrite halflife_half by auto. f_equal. exact IHm. }
  rewrite E. cbn [bind]. eexists. split; [reflexivity|]. rewrite scatter_map. clear E.
  induction l as [|e r IH]; cbn [map]; constructor; [|apply IH; intros; apply Hs; right; auto].
  destruct (weathered e) eqn:Ew.
  - apply weathered_iff in Ew. split; [|tauto]. intros _. split; [reflexivity|]. cbn [with_comps w_mass].
    destruct (Hs e (or_introl eq_refl)) as [_ ->]. induction (w_comps e) as [|m mc IHm]; cbn; [lra|].
    fold (sumr mc) (sumr (map (fun x => x / 2) mc)). unfold sumr in *. lra.
  - apply weathered_false in Ew. tauto.
Qed.
Print Assumptions C26_half.
Example C26_meets : (forall h, In h [900; 1800] -> 0 < h) /\ 0 <= 300 /\ (forall e, In e slick -> wsane e /\ (length [900; 1800] = 1%nat \/ length [900; 1800] = length (w_comps e))).
Proof. split; [intros h [<-|[<-|[]]]; lra|]. split; [lra|]. intros e He. split; [apply slick_physical; auto|]. destruct He as [<-|[<-|[]]]; right; reflexivity. Qed.

(** More wind or more time: no less evaporates, of any component of any element. *)
Theorem C81_more_wind : forall T cs w1 w2 d1 d2 l l1 b1 l2 b2, 0 < T -> 0 <= d1 <= d2 -> volatile cs ->
  (forall e, In e l -> physical e) -> fits cs l -> (forall e, In e l -> w1 e <= w2 e) ->
  evap_weather T cs w1 d1 l = Ok (l1, b1) -> evap_weather T cs w2 d2 l = Ok (l2, b2) -> Forall2 no_more l2 l1 /\ b1 <= b2.
Proof.
  intros T cs w1 w2 d1 d2 l l1 b1 l2 b2 HT Hd Hv Hp Hf Hw. rewrite !evap_weather_map by auto. cbv zeta. intros E1 E2. injection E1 as <- <-. injection E2 as <- <-.
  assert (G : Forall2 no_more (map (fun e => if weathered e then evap_el e (decay T cs (w2 e) e) d2 else e) l)
                              (map (fun e => if weathered e then evap_el e (decay T cs (w1 e) e) d1 else e) l)).
  { induction l as [|e r IH]; cbn [map]; constructor; [|apply IH; intros; [apply Hp|intros x Hx; apply Hf|apply Hw]; right; auto].
    destruct (weathered e) eqn:Ew.
    - apply weathered_iff in Ew. destruct Ew as [_ Ew]. apply evap_mono; auto; [apply Hp; left; auto|apply Hf; left; auto|apply Hw; left; auto].
    - split; [|lra]. clear. induction (w_comps e); constructor; auto. lra. }
  split; [exact G|].
  assert (M : forall a b, Forall2 no_more a b -> mass_of a <= mass_of b).
  { unfold mass_of. induction 1 as [|x y xs ys [_ H1] H IH]; cbn [map]; [cbn; lra|]. rewrite !sumr_cons. lra. }
  specialize (M _ _ G). lra.
Qed.
Print Assumptions C81_more_wind.
Example C81_meets : 0 < 288 /\ 0 <= 900 <= 1800 /\ volatile crude /\ (forall e, In e slick -> physical e) /\ fits crude slick /\ (forall e, In e slick -> 5 <= 10) /\
  (exists l1 b1, evap_weather 288 crude (fun _ => 5) 900 slick = Ok (l1, b1)) /\ (exists l2 b2, evap_weather 288 crude (fun _ => 10) 1800 slick = Ok (l2, b2)).
Proof.
  split; [lra|]. split; [lra|]. split; [exact crude_volatile|]. split; [exact slick_physical|]. split; [exact slick_fits|]. split; [intros; lra|].
  split; (rewrite evap_weather_map; [eexists; eexists; reflexivity|lra|exact crude_volatile|exact slick_physical|exact slick_fits]).
Qed.

(** Cutting every element into two parts changes nothing but the number of
    elements: the parts of the results are the results of the parts. *)
Theorem C82_cut : forall T cs wind dt s l, 0 < T -> volatile cs -> (forall e, In e l -> physical e) -> fits cs l -> 0 < s < 1 ->
  (forall e x, wind (times x e) = wind e) ->
  evap_weather T cs wind dt (cut s l) = do p <- evap_weather T cs wind dt l; Ok (cut s (fst p), snd p).
Proof. exact evap_cut. Qed.
Print Assumptions C82_cut.
Example C82_meets : 0 < 288 /\ volatile crude /\ (forall e, In e slick -> physical e) /\ fits crude slick /\ 0 < 1 / 3 < 1 /\ (forall e x, (fun _ : wel => 7) (times x e) = (fun _ : wel => 7) e) /\
  length (cut (1 / 3) slick) = 4%nat.
Proof.
  split; [lra|]. split; [exact crude_volatile|]. split; [exact slick_physical|]. split; [exact slick_fits|]. split; [lra|]. split; reflexivity.
Qed.
