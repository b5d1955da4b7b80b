(** * Properties of the files of outputters *)
From Coq Require Import QArith Qabs Lia Lqa Sorted.
From Verif Require Import Py TimeModel TimeSpec OutModel OutSpec FilModel FilSpec FilProofs.
Open Scope Z_scope.

(** C158: a BinaryOutput with zip_output leaves an archive of exactly the files of the
    steps that were due, numbered without gaps, forecast before uncertain, and no loose
    files; if the last step is due ... *)
Theorem C158_archive_partial : forall (C : Type) (b : bin) (w : world C) unc n l scs,
  b_on b = true -> b_zip b = true -> (b_dir b = 0 -> free b w) ->
  n = Z.of_nat (length l) + 1 -> Forall (fun fs => shaped unc (snd fs)) (l ++ [(true, scs)]) ->
  exists w' b', bin_run C unc n (map Some (l ++ [(true, scs)])) w b = (w', b', None) /\
    archive (b_dir b) (b_stem b) w' = Some (members 0 (due_steps (l ++ [(true, scs)]))) /\
    w_loose w' = elsewhere b w /\ others_same b w w'.
Proof. intros C b w unc n l scs H1 H2 H3. apply (archive_complete b w unc n H1 H3 l scs H2). Qed.
Print Assumptions C158_archive_partial.

(** ... or if something else makes the run fail after the first step. *)
Theorem C158_broken : forall (C : Type) (b : bin) (w : world C) unc n l evs,
  b_on b = true -> b_zip b = true -> (b_dir b = 0 -> free b w) ->
  l <> [] -> Z.of_nat (length l) < n -> Forall (fun fs => shaped unc (snd fs)) l ->
  exists w' b', bin_run C unc n (map Some l ++ None :: evs) w b = (w', b', Some RuntimeErr) /\
    archive (b_dir b) (b_stem b) w' = Some (members 0 (due_steps l)) /\
    w_loose w' = elsewhere b w /\ others_same b w w'.
Proof. intros C b w unc n l evs H1 H2 H3. apply (archive_broken b w unc n H1 H3 l evs H2). Qed.
Print Assumptions C158_broken.

(** If the last step is not due the run fails and nothing at all is left of it. *)
Theorem C158_lost_refuted : forall (C : Type) (b : bin) (w : world C) unc n l scs,
  b_on b = true -> b_zip b = true -> (b_dir b = 0 -> free b w) ->
  l <> [] -> n = Z.of_nat (length l) + 1 -> Forall (fun fs => shaped unc (snd fs)) l ->
  exists w' b', bin_run C unc n (map Some (l ++ [(false, scs)])) w b = (w', b', Some OSErr) /\
    archive (b_dir b) (b_stem b) w' = Some [] /\ w_loose w' = elsewhere b w.
Proof. intros C b w unc n l scs H1 H2 H3. apply (archive_lost b w unc n H1 H3 l scs H2). Qed.
Print Assumptions C158_lost_refuted.

Definition bin1 : bin := Bin 4 9 true true 7 false true.
Definition disk1 : world Z := World [(Path 4 1 false 0, 50); (Path 5 9 false 0, 51)] [((4, 9), [(false, 0, 60)]); ((4, 8), [(false, 0, 61)])].

Example C158_meets :
  let l := [(true, [(false, 100); (true, 200)]); (false, [(false, 101); (true, 201)])] in
  let last := [(false, 102); (true, 202)] in
  Forall (fun fs => shaped true (snd fs)) (l ++ [(true, last)]) /\
  members 0 (due_steps (l ++ [(true, last)])) = [(false, 0, 100); (true, 0, 200); (false, 1, 102); (true, 1, 202)] /\
  elsewhere bin1 disk1 = [(Path 5 9 false 0, 51)] /\
  exists b', bin_run Z true 3 (map Some (l ++ [(true, last)])) disk1 bin1 =
    (World [(Path 5 9 false 0, 51)]
       [((4, 9), [(false, 0, 100); (true, 0, 200); (false, 1, 102); (true, 1, 202)]); ((4, 8), [(false, 0, 61)])], b', None).
Proof. cbn zeta. split; [repeat constructor|]. split; [reflexivity|]. split; [reflexivity|]. eexists. vm_compute. reflexivity. Qed.
Example C158_lost_meets : exists b',
  bin_run Z false 3 (map Some [(true, [(false, 100)]); (true, [(false, 101)]); (false, [(false, 102)])]) disk1 bin1 =
    (World [(Path 5 9 false 0, 51)] [((4, 9), []); ((4, 8), [(false, 0, 61)])], b', Some OSErr).
Proof. eexists. vm_compute. reflexivity. Qed.
Example C158_broken_meets : exists b',
  bin_run Z false 5 (map Some [(true, [(false, 100)]); (true, [(false, 101)])] ++ [None]) disk1 bin1 =
    (World [(Path 5 9 false 0, 51)] [((4, 9), [(false, 0, 100); (false, 1, 101)]); ((4, 8), [(false, 0, 61)])], b', Some RuntimeErr).
Proof. eexists. vm_compute. reflexivity. Qed.

(** C159: without zip_output the files of the steps that are due are left, numbered
    without gaps, whichever steps those are. *)
Theorem C159_loose_partial : forall (C : Type) (b : bin) (w : world C) unc n l,
  b_on b = true -> b_zip b = false -> (b_dir b = 0 -> free b w) ->
  n = Z.of_nat (length l) -> Forall (fun fs => shaped unc (snd fs)) l ->
  exists w' b', bin_run C unc n (map Some l) w b = (w', b', None) /\
    w_loose w' = elsewhere b w ++ loose b (members 0 (due_steps l)) /\ w_zip w' = w_zip w.
Proof. intros C b w unc n l H1 H2 H3. apply (loose_complete b w unc n H1 H3 l H2). Qed.
Print Assumptions C159_loose_partial.

(** A file name without a directory cannot be used for a second run ... *)
Theorem C159_second_refuted : forall (C : Type) (b : bin) (w : world C) unc n scs l,
  b_on b = true -> b_dir b = 0 ->
  (exists u c, In (Path 0 (b_stem b) u 0, c) (w_loose w) /\ In u (map fst scs)) ->
  shaped unc scs -> 0 < n ->
  exists w' b', bin_run C unc n (Some (true, scs) :: l) w b = (w', b', Some ValueErr).
Proof. intros C b w unc n scs l H1 H2 H3 H4. apply (second_refused b w unc n H1 l scs H2 H3 H4). Qed.
Print Assumptions C159_second_refuted.

(** ... and one with a directory deletes the files that other outputters have left there. *)
Theorem C159_others_refuted : forall (C : Type) (b : bin) (w : world C) unc n l p,
  b_on b = true -> b_zip b = false -> b_dir b <> 0 ->
  n = Z.of_nat (length l) -> Forall (fun fs => shaped unc (snd fs)) l ->
  p_dir p = b_dir b -> p_stem p <> b_stem b ->
  forall w' b' e, bin_run C unc n (map Some l) w b = (w', b', e) -> forall c, ~ In (p, c) (w_loose w').
Proof.
  intros C b w unc n l p H1 H2 H3 H4 H5 Hd Hs w' b' e E c.
  destruct (loose_complete b w unc n H1 ltac:(contradiction) l H2 H4 H5) as (w2 & b2 & E2 & El & _).
  rewrite E in E2. injection E2 as -> -> ->. rewrite El. rewrite in_app_iff. intros [H|H].
  - unfold elsewhere in H. apply filter_In in H. destruct H as [_ H]. cbn in H. rewrite Hd, Z.eqb_refl in H.
    rewrite orb_false_r in H. apply Z.eqb_eq in H. contradiction.
  - apply in_loose in H. destruct H as (u & i & -> & _). cbn in Hs. contradiction.
Qed.
Print Assumptions C159_others_refuted.

Definition bin2 : bin := Bin 0 9 false true 0 false false.
Example C159_meets :
  let run w := bin_run Z false 2 (map Some [(false, [(false, 100)]); (true, [(false, 101)])]) w bin2 in
  exists b', run (World [(Path 5 9 false 0, 51)] []) = (World [(Path 5 9 false 0, 51); (Path 0 9 false 0, 101)] [], b', None).
Proof. eexists. vm_compute. reflexivity. Qed.
Example C159_second_meets : exists w' b',
  bin_run Z false 2 [Some (true, [(false, 100)])] (World [(Path 0 9 false 0, 101)] []) bin2 = (w', b', Some ValueErr).
Proof. do 2 eexists. vm_compute. reflexivity. Qed.
Example C159_others_meets :
  In (Path 4 1 false 0, 50) (w_loose disk1) /\
  exists w' b', bin_run Z false 1 (map Some [(true, [(false, 7)])]) disk1 (Bin 4 9 false true 0 false false) = (w', b', None) /\
    w_loose w' = [(Path 5 9 false 0, 51); (Path 4 9 false 0, 7)].
Proof. split; [left; reflexivity|]. do 2 eexists. split; [vm_compute; reflexivity|reflexivity]. Qed.

(** C160: from a binary file the date, the number of elements and each element's position,
    age and whether it is on land can be read back; the time in the header is that since
    the start of the leap cycle. *)
Theorem C160_contents : forall f l, real_date f -> 4 <= f_y f ->
  exists h es, encode f l = Ok (h, es) /\
    (h_d h, h_mo h, h_y h, h_h h, h_mi h) = (f_d f, f_mo f, f_y f, f_h f, f_mi f) /\
    h_n h = Z.of_nat (length l) /\
    (h_time h * 3600 == inject_Z (fields_us f / sec_us - cycle_start (f_y f) / sec_us))%Q /\
    Forall2 (fun e x => same_elem (decode_elem h e) x) es l /\
    Forall2 (fun e x => 0 <= x_age x -> (e_agerel e == 0)%Q) es l.
Proof. exact encode_ok. Qed.
Print Assumptions C160_contents.

(** The time is less than four years. *)
Theorem C160_time : forall f l h es, real_date f -> encode f l = Ok (h, es) ->
  (0 <= h_time h < 1461 * 24)%Q.
Proof.
  intros f l h es Hr E. destruct (Z_lt_le_dec (f_y f) 4) as [Hy|Hy].
  { rewrite encode_early in E; [discriminate|exact Hy|unfold real_date in Hr; lia]. }
  destruct (encode_ok f l Hr Hy) as (h2 & es2 & E2 & _ & _ & Et & _). rewrite E in E2. injection E2 as <- <-.
  destruct (cycle_bound f Hr) as [H1 H2]. rewrite Zle_Qle in H1. rewrite Zlt_Qlt in H2.
  rewrite <- Et in H1, H2. change (inject_Z 0) with 0%Q in H1. change (inject_Z (1461 * 86400)) with (126230400 # 1)%Q in H2.
  change (1461 * 24)%Q with (35064 # 1)%Q. split; lra.
Qed.
Print Assumptions C160_time.

Example C160_meets :
  let f := mkFields 2021 3 1 12 30 0 0 in
  real_date f /\
  match encode f [Elem (-125) 48 0 7200 3; Elem (1 # 2) (-3) 10 0 2] with
  | Ok (h, [a; b]) => (h_y h, h_n h) = (2021, 2) /\ (h_time h == 10212 + (1 # 2))%Q /\
      (e_lon a == 125 /\ e_beach a == -50 /\ e_rel a == 10210 + (1 # 2) /\ e_lat b == -3 /\ e_beach b == 0)%Q
  | _ => False
  end.
Proof. cbn zeta. split; [unfold real_date; cbn; lia|]. vm_compute. repeat split; reflexivity. Qed.

(** C161: the oil budget of a forward run has a row for the first step, for the last and for
    every step at which an output interval ends, in the order of the steps, each with the
    time, the hours since the start and the amounts of the forecast. *)
Theorem C161_rows : forall on T s0 mstart ts n mbs, 0 < ts -> (forall T', T = Some T' -> 0 < T') ->
  exists l rows, budget_run (budget_cfg on T) s0 mstart ts n mbs = Ok rows /\
    rows = map (fun k => (mstart + k * ts * sec_us, row_hours (k * ts * sec_us), map (fun c => dget c (mbs k)) [1; 2; 3; 4; 5; 6; 7])) l /\
    StronglySorted Z.lt l /\ forall k, In k l <-> budget_due T ts (Z.of_nat n) k.
Proof. exact budget_ok. Qed.
Print Assumptions C161_rows.

(** The hours are cut to whole minutes, before the start as after. *)
Theorem C161_hours : forall us, exists m,
  (row_hours us == inject_Z m / 60)%Q /\ m * (60 * sec_us) <= us < (m + 1) * (60 * sec_us).
Proof. exact row_hours_ok. Qed.
Print Assumptions C161_hours.

(** Rows are told apart by their hours if the time step is a minute or more ... *)
Theorem C161_distinct : forall ts j k, 60 <= Z.abs ts -> j <> k ->
  ~ (row_hours (j * ts * sec_us) == row_hours (k * ts * sec_us))%Q.
Proof.
  intros ts j k Hts Hne E. apply row_hours_inj in E. unfold sec_us in E.
  assert (H : Z.abs ((j - k) * ts) < 60) by (revert E; replace (j * ts * 1000000 - k * ts * 1000000) with ((j - k) * ts * 1000000) by ring; lia).
  rewrite Z.abs_mul in H. nia.
Qed.
Print Assumptions C161_distinct.

(** ... and not if it is less. *)
Theorem C161_short_refuted : exists ts rows, 0 < ts /\
  budget_run (budget_cfg true None) (mkOst None None true true false) 0 ts 3 (fun _ => []) = Ok rows /\
  map (fun r => snd (fst r)) rows = [0 # 60; 0 # 60; 0 # 60]%Q.
Proof. exists 20. eexists. split; [lia|]. split; [reflexivity|]. vm_compute. reflexivity. Qed.
Print Assumptions C161_short_refuted.

(** The constructor's [on] is ignored. *)
Theorem C161_on_refuted : forall T s0 mstart ts n mbs,
  budget_run (budget_cfg false T) s0 mstart ts n mbs = budget_run (budget_cfg true T) s0 mstart ts n mbs /\
  c_on (budget_cfg false T) = true.
Proof. intros. split; reflexivity. Qed.
Print Assumptions C161_on_refuted.

Example C161_meets :
  match budget_run (budget_cfg true (Some 3600)) (mkOst None None true true false) 1000 1500 7 (fun k => [(1, inject_Z k); (6, 5%Q)]) with
  | Ok rows => map (fun r => fst (fst r)) rows = map (fun k => 1000 + k * 1500 * sec_us) [0; 3; 5; 6] /\
      map (fun r => map (option_map Qred) (snd r)) rows = map (fun k => [Some k; None; None; None; None; Some 5; None]%Q) [0; 3; 5; 6]%Q
  | Raise _ => False
  end.
Proof. vm_compute. split; reflexivity. Qed.
Example C161_hours_meets : (row_hours (5430 * sec_us) == 1 + (1 # 2))%Q /\ (row_hours (- 90 * sec_us) == - (2 # 60))%Q.
Proof. vm_compute. split; reflexivity. Qed.

(** C162: a GeoJSON output directory has a file for a step exactly if the step was due ... *)
Theorem C162_files : forall g steps fs k, g_dir g = true -> 0 <= k ->
  (dget k (geo_run g steps fs) <> None <-> exists scs, nth_error steps (Z.to_nat k) = Some (true, scs)).
Proof.
  intros g steps fs k Hd Hk. unfold geo_run, geo_clean. rewrite Hd, geo_steps_ok by exact Hd. rewrite Z.sub_0_r.
  replace (0 <=? k) with true by (symmetry; apply Z.leb_le; exact Hk).
  destruct (nth_error steps (Z.to_nat k)) as [[[|] scs]|].
  - split; [eauto|discriminate].
  - split; [intros H; exfalso; apply H; reflexivity|intros [s E]; discriminate].
  - split; [intros H; exfalso; apply H; reflexivity|intros [s E]; discriminate].
Qed.
Print Assumptions C162_files.

(** ... and what is returned for a step shows every element of the forecast and of the
    uncertain container, in order ... *)
Theorem C162_returned : forall g k fs ps us,
  fst (geo_write g true k [(false, ps); (true, us)] fs) = Some (map (feat g false) ps, map (feat g true) us) /\
  fst (geo_write g true k [(false, ps)] fs) = Some (map (feat g false) ps, []).
Proof. intros. unfold geo_write, feats. cbn. rewrite !app_nil_r. split; reflexivity. Qed.
Print Assumptions C162_returned.

(** ... rounded to the number of digits; ... *)
Theorem C162_rounded : forall g u p, 0 <= g_digits g ->
  let near x y := (Qabs (x - y) * inject_Z (10 ^ g_digits g) <= 1 # 2)%Q in
  near (t_lon (feat g u p)) (q_lon p) /\ near (t_lat (feat g u p)) (q_lat p) /\ near (t_mass (feat g u p)) (q_mass p) /\
  t_status (feat g u p) = q_status p /\ t_spill (feat g u p) = q_spill p /\ t_unc (feat g u p) = u.
Proof. intros g u p Hd. cbn zeta. unfold feat, p_float. cbn. repeat split; apply np_round_ok; exact Hd. Qed.
Print Assumptions C162_rounded.

(** ... but the file never holds the forecast: it has the uncertain elements, and none at all if
    the run is not uncertain. *)
Theorem C162_forecast_refuted : forall g steps fs k ps us, g_dir g = true -> 0 <= k ->
  (nth_error steps (Z.to_nat k) = Some (true, [(false, ps); (true, us)]) -> dget k (geo_run g steps fs) = Some (map (feat g true) us)) /\
  (nth_error steps (Z.to_nat k) = Some (true, [(false, ps)]) -> dget k (geo_run g steps fs) = Some []).
Proof.
  intros g steps fs k ps us Hd Hk. unfold geo_run, geo_clean. rewrite Hd, geo_steps_ok by exact Hd. rewrite Z.sub_0_r.
  replace (0 <=? k) with true by (symmetry; apply Z.leb_le; exact Hk).
  split; intros ->; [|reflexivity]. unfold feats. cbn. rewrite app_nil_r. reflexivity.
Qed.
Print Assumptions C162_forecast_refuted.

(** round_data=False rounds as well. *)
Theorem C162_round_refuted : exists p, forall dir,
  ~ (t_lon (feat (Geo false 4 dir) false p) == q_lon p)%Q.
Proof. exists (Particle (1 # 3) 0 0 2 1 0). intros dir H. vm_compute in H. discriminate. Qed.
Print Assumptions C162_round_refuted.

Definition part1 : particle := Particle (1 # 3) (5 # 100000) 0 2 7 1.
Example C162_meets :
  let g := Geo true 4 true in
  let steps := [(true, [(false, [part1])]); (false, []); (true, [(false, [part1; part1]); (true, [part1])])] in
  map fst (geo_run g steps [(9, [])]) = [0; 2] /\
  dget 0 (geo_run g steps [(9, [])]) = Some [] /\
  (t_lon (feat g false part1) == 3333 # 10000)%Q /\ (t_lat (feat g false part1) == 0)%Q.
Proof. vm_compute. repeat split; reflexivity. Qed.

(** C163: an outputter that is off writes nothing; if it is of a kind that looks at [on],
    and, for the binary, KMZ and NetCDF ones, if it was added to a model that already
    existed and writes the first step or was used before; ... *)
Theorem C163_off_partial : forall kd c a mstart ts n, c_on c = false -> kd <> KGeoJson -> kd <> KWeathering ->
  (prepares kd false = false -> a_cache a = true /\ (c_zero c = true \/ a_single a <> None)) ->
  kind_run kd c a mstart ts n = Ok [].
Proof. intros kd c a mstart ts n H1 H2 H3. apply off_run; [exact H1|split; assumption]. Qed.
Print Assumptions C163_off_partial.

(** ... one that is on writes the steps of the schedule, whatever its kind. *)
Theorem C163_on : forall kd c a mstart ts n, c_on c = true ->
  kind_run kd c a mstart ts n = live_run c (a_ost a) mstart ts n.
Proof. intros. apply kind_run_on. assumption. Qed.
Print Assumptions C163_on.

(** The GeoJSON and the weathering outputter write every step when they are off, whatever the
    interval they were given. *)
Theorem C163_deaf_refuted : forall kd c a mstart ts n, kd = KGeoJson \/ kd = KWeathering ->
  c_on c = false -> c_zero c = true -> kind_run kd c a mstart ts n = Ok (map Z.of_nat (seq 0 n)).
Proof. intros kd c a mstart ts n Hk H1 H2. apply deaf_run; [exact H1| |exact H2]. intros [A B]. destruct Hk; contradiction. Qed.
Print Assumptions C163_deaf_refuted.

(** Given to the constructor of the model, one that is off ends the run at its first step. *)
Theorem C163_cache_refuted : forall kd c a mstart ts n, kd = KBinary \/ kd = KKmz \/ kd = KNetcdf ->
  c_on c = false -> c_zero c = true -> a_cache a = false -> kind_run kd c a mstart ts (S n) = Raise ValueErr.
Proof.
  intros kd c a mstart ts n Hk Hon Hz Ha. unfold kind_run, att_prepare. rewrite Hon.
  replace (prepares kd false) with false by (destruct Hk as [->|[->| ->]]; reflexivity).
  unfold att_write. cbn [Z.eqb a_cache a_ost]. rewrite Hz. cbn [bind]. rewrite Ha.
  replace (o_write _) with true by (destruct (_ && c_last c); reflexivity). reflexivity.
Qed.
Print Assumptions C163_cache_refuted.

(** And so does one that was never on and does not write the first step. *)
Theorem C163_never_refuted : forall kd c a mstart ts n, kd = KBinary \/ kd = KKmz \/ kd = KNetcdf ->
  c_on c = false -> c_zero c = false -> a_single a = None -> kind_run kd c a mstart ts (S n) = Raise AttrErr.
Proof.
  intros kd c a mstart ts n Hk Hon Hz Ha. unfold kind_run, att_prepare. rewrite Hon.
  replace (prepares kd false) with false by (destruct Hk as [->|[->| ->]]; reflexivity).
  unfold att_write. cbn [Z.eqb a_single]. rewrite Hz, Ha. reflexivity.
Qed.
Print Assumptions C163_never_refuted.

Definition att0 (cache : bool) : oatt := Oatt cache None (mkOst None None true true false).
Example C163_meets :
  let off := mkCfg false (Some 3600) true true false None in
  let on := mkCfg true (Some 3600) true true false None in
  kind_run KBinary off (att0 true) 0 900 6 = Ok [] /\ kind_run KBudget off (att0 false) 0 900 6 = Ok [] /\
  kind_run KBinary on (att0 false) 0 900 6 = Ok [0; 4; 5] /\ kind_run KGeoJson on (att0 false) 0 900 6 = Ok [0; 4; 5] /\
  kind_run KGeoJson off (att0 false) 0 900 6 = Ok [0; 1; 2; 3; 4; 5] /\
  kind_run KNetcdf off (att0 false) 0 900 6 = Raise ValueErr /\
  kind_run KKmz (mkCfg false None false true false None) (att0 true) 0 900 6 = Raise AttrErr.
Proof. vm_compute. repeat split; reflexivity. Qed.

(** C164: the KMZ file of a complete run, or of one that fails after the first step, has one
    layer for each container of each step that was due, in order, between one header and one
    footer; ... *)
Theorem C164_file : forall T dt mstart n l z,
  n = Z.of_nat (length l) -> l <> [] ->
  z_file (kmz_run T dt mstart n (map Some l) z) = Some (PHead :: map PLayer (klayers T dt mstart 0 l) ++ [PFoot]).
Proof. exact kmz_complete. Qed.
Print Assumptions C164_file.
Theorem C164_broken : forall T dt mstart n l z evs, l <> [] -> Z.of_nat (length l) < n ->
  z_file (kmz_run T dt mstart n (map Some l ++ None :: evs) z) = Some (PHead :: map PLayer (klayers T dt mstart 0 l) ++ [PFoot]).
Proof. exact kmz_broken. Qed.
Print Assumptions C164_broken.

(** ... a run that the caller stops early leaves none. *)
Theorem C164_stopped : forall T dt mstart n l z, Z.of_nat (length l) < n ->
  z_file (kmz_run T dt mstart n (map Some l) z) = None.
Proof. exact kmz_stopped. Qed.
Print Assumptions C164_stopped.

(** A layer is of the time of its step and shows the elements in the water and those on land. *)
Theorem C164_layer : forall T dt mstart l k y, 0 <= k ->
  In y (klayers T dt mstart k l) <->
  exists i scs sc, nth_error l i = Some (true, scs) /\ In sc scs /\
    l_from y = mstart + (k + Z.of_nat i) * dt * sec_us /\ l_to y = layer_end T dt (l_from y) /\ l_unc y = fst sc /\
    l_water y = map (fun x => (x_lon x, x_lat x)) (filter (fun x => x_status x =? 2) (snd sc)) /\
    l_beached y = map (fun x => (x_lon x, x_lat x)) (filter (fun x => x_status x =? 3) (snd sc)).
Proof.
  intros T dt mstart. induction l as [|[flag scs] l IH]; intros k y Hk; cbn [klayers].
  - split; [intros []|]. intros (i & s & sc & E & _). destruct i; discriminate.
  - rewrite in_app_iff, IH by lia. split.
    + intros [H|(i & s & sc & E & H)].
      * destruct flag; [|destruct H]. unfold step_layers in H. apply in_map_iff in H. destruct H as [sc [<- Hin]].
        exists O, scs, sc. cbn. rewrite Z.add_0_r. repeat split; auto.
      * exists (S i), s, sc. split; [exact E|]. destruct H as (H1 & H2 & H3). split; [exact H1|]. split; [rewrite H2; f_equal; f_equal; f_equal; lia|exact H3].
    + intros ([|i] & s & sc & E & Hin & H1 & H2 & H3 & H4 & H5).
      * left. cbn in E. injection E as -> ->. unfold step_layers. apply in_map_iff. exists sc. split; [|exact Hin].
        cbn in H1. rewrite Z.add_0_r in H1. destruct y as [f t u wa be]. cbn in *. subst. reflexivity.
      * right. exists i, s, sc. split; [exact E|]. split; [exact Hin|]. split; [rewrite H1; f_equal; f_equal; f_equal; lia|auto].
Qed.
Print Assumptions C164_layer.

(** In a forward run whose output interval is a multiple of the time step, or not set, the
    layer of a step that is written ends where the next one begins, except before the last. *)
Theorem C164_meet_partial : forall T last s0 mstart ts n l k1 k2, 0 < ts -> (forall T', T = Some T' -> 0 < T' /\ (ts | T')) ->
  live_run (mkCfg true T true last false None) s0 mstart ts n = Ok l -> next_in l k1 k2 ->
  let t k := mstart + k * ts * sec_us in
  t k2 <= layer_end T ts (t k1) /\ (k2 <> Z.of_nat n - 1 \/ last = false -> layer_end T ts (t k1) = t k2).
Proof. exact layers_meet. Qed.
Print Assumptions C164_meet_partial.

(** Other intervals leave gaps and overlaps, ... *)
Theorem C164_gap_refuted : exists T ts l, 
  live_run (mkCfg true (Some T) true true false None) (mkOst None None true true false) 0 ts 8 = Ok l /\
  next_in l 0 2 /\ layer_end (Some T) ts 0 < 2 * ts * sec_us /\
  next_in l 2 3 /\ 3 * ts * sec_us < layer_end (Some T) ts (2 * ts * sec_us).
Proof.
  exists 3600, 2400, [0; 2; 3; 5; 6; 7]. split; [vm_compute; reflexivity|].
  unfold next_in. cbn [In]. repeat split; try lia; vm_compute; reflexivity.
Qed.
Print Assumptions C164_gap_refuted.

(** ... and in a backward run a layer ends before it begins. *)
Theorem C164_backward_refuted : forall ts t, ts < 0 -> layer_end None ts t < t.
Proof. intros ts t H. unfold layer_end, sec_us. lia. Qed.
Print Assumptions C164_backward_refuted.

Example C164_meets :
  let x := Elem 1 2 0 0 2 in let y := Elem 3 4 0 0 3 in let o := Elem 5 6 0 0 7 in
  z_file (kmz_run None 900 0 2 (map Some [(true, [(false, [x; y; o])]); (false, [(false, [x])])]) (Kmz [] true None)) =
  Some [PHead; PLayer (Layer 0 (900 * sec_us) false [(1, 2)] [(3, 4)])%Q; PFoot].
Proof. vm_compute. reflexivity. Qed.
Example C164_meet_meets :
  live_run (mkCfg true (Some 3600) true true false None) (mkOst None None true true false) 0 1200 8 = Ok [0; 3; 6; 7] /\
  next_in [0; 3; 6; 7] 3 6 /\ (1200 | 3600) /\ layer_end (Some 3600) 1200 (3 * 1200 * sec_us) = 6 * 1200 * sec_us.
Proof.
  split; [vm_compute; reflexivity|]. unfold next_in. cbn [In]. repeat split; try lia. exists 3. reflexivity.
Qed.
