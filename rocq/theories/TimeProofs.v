(** * Proofs about times *)
From Verif Require Import Py PyLemmas QLemmas TimeModel TimeSpec.
Open Scope Z_scope.

(** ** The extended time line *)
Lemma tle_dec_cases : forall a b, tle a b <->
  match a, b with
  | TMinus, _ => True | _, TInf => True
  | TDate x, TDate y => x <= y
  | _, _ => False end.
Proof.
  intros a b; split.
  - intros H; destruct H as [t|t|x y H]; auto. destruct t; auto.
  - destruct a, b; intros H; try contradiction; constructor; auto.
Qed.

Lemma tle_refl : forall a, tle a a.
Proof. intros []; constructor; lia. Qed.
Lemma tle_trans : forall a b c, tle a b -> tle b c -> tle a c.
Proof. intros a b c; rewrite !tle_dec_cases; destruct a, b, c; try lia; try tauto. Qed.
Lemma tle_antisym : forall a b, tle a b -> tle b a -> a = b.
Proof. intros a b; rewrite !tle_dec_cases; destruct a, b; try tauto; intros; f_equal; lia. Qed.
Lemma tle_total : forall a b, tle a b \/ tle b a.
Proof. intros a b; rewrite !tle_dec_cases; destruct a, b; try tauto; lia. Qed.

Lemma dec_true : forall r (P : Prop), r = Ok true -> P -> decides r P.
Proof. intros r P H HP; exists true; split; [exact H|]. split; auto. Qed.
Lemma dec_false : forall r (P : Prop), r = Ok false -> ~ P -> decides r P.
Proof. intros r P H HP; exists false; split; [exact H|]. split; [discriminate|contradiction]. Qed.
Lemma dec_b : forall b (P : Prop), (b = true <-> P) -> decides (Ok b) P.
Proof. intros b P H; exists b; auto. Qed.

Lemma decides_ext : forall r P Q, (P <-> Q) -> decides r Q -> decides r P.
Proof. intros r P Q H (b & E & Hb). exists b. split; auto. rewrite Hb, H. tauto. Qed.

Lemma py_le_dec : forall a b, decides (py_le a b) (tle a b).
Proof.
  intros a b; eapply decides_ext; [apply tle_dec_cases|]; destruct a, b;
    try (apply dec_true; [reflexivity|exact I]);
    try (apply dec_false; [reflexivity|tauto]).
  apply dec_b, Z.leb_le.
Qed.
Lemma py_ge_dec : forall a b, decides (py_ge a b) (tle b a).
Proof.
  intros a b; eapply decides_ext; [apply tle_dec_cases|]; destruct a, b;
    try (apply dec_true; [reflexivity|exact I]);
    try (apply dec_false; [reflexivity|tauto]).
  unfold py_ge, dispatch; simpl. apply dec_b. rewrite Z.geb_le. tauto.
Qed.
Lemma tlt_cases : forall a b, tlt a b <->
  match a, b with
  | TMinus, TMinus => False | TMinus, _ => True | TInf, TInf => False | _, TInf => True
  | TDate x, TDate y => x < y | _, _ => False end.
Proof.
  intros a b; unfold tlt; rewrite tle_dec_cases; destruct a, b; split;
    try tauto; try (intros [? H]; exfalso; apply H; reflexivity);
    try (intros _; split; [exact I|discriminate]).
  - intros [H H']; assert (us <> us0) by (intros E; apply H'; f_equal; exact E). lia.
  - intros H; split; [lia|]. intros E; inversion E; lia.
Qed.
Lemma py_lt_dec : forall a b, decides (py_lt a b) (tlt a b).
Proof.
  intros a b; eapply decides_ext; [apply tlt_cases|]; destruct a, b;
    try (apply dec_true; [reflexivity|exact I]);
    try (apply dec_false; [reflexivity|tauto]).
  apply dec_b, Z.ltb_lt.
Qed.
Lemma py_gt_dec : forall a b, decides (py_gt a b) (tlt b a).
Proof.
  intros a b; eapply decides_ext; [apply tlt_cases|]; destruct a, b;
    try (apply dec_true; [reflexivity|exact I]);
    try (apply dec_false; [reflexivity|tauto]).
  unfold py_gt, dispatch; simpl. apply dec_b. rewrite Z.gtb_lt. tauto.
Qed.
Lemma py_eq_dec : forall a b, decides (py_eq a b) (a = b).
Proof.
  intros a b; destruct a, b;
    try (apply dec_true; [reflexivity|reflexivity]);
    try (apply dec_false; [reflexivity|discriminate]).
  apply dec_b. simpl. rewrite Z.eqb_eq. split; [intros ->; reflexivity|intros E; inversion E; reflexivity].
Qed.
Lemma py_ne_dec : forall a b, decides (py_ne a b) (a <> b).
Proof.
  intros a b; destruct a, b;
    try (apply dec_true; [reflexivity|discriminate]);
    try (apply dec_false; [reflexivity|intros H; apply H; reflexivity]).
  apply dec_b. simpl. rewrite negb_true_iff, Z.eqb_neq.
  split; [intros H E; inversion E; auto|intros H E; apply H; f_equal; auto].
Qed.

Lemma decides_iff : forall r P b, decides r P -> r = Ok b -> (b = true <-> P).
Proof. intros r P b (b' & H & H') E. rewrite H in E. inversion E; subst; auto. Qed.

Lemma decides_case : forall r P, decides r P -> (r = Ok true /\ P) \/ (r = Ok false /\ ~ P).
Proof.
  intros r P ([] & H & H'); [left|right]; split; auto; [apply H'; auto|].
  intros HP; apply H' in HP; discriminate.
Qed.

(** ** The calendar *)
Lemma dby_step : forall y, days_before_year (y + 1) = days_before_year y + 365 + b2z (leap y).
Proof.
  intros y. unfold days_before_year, b2z, leap. replace (y + 1 - 1) with y by lia.
  destruct (Z.eqb_spec (y mod 4) 0), (Z.eqb_spec (y mod 100) 0), (Z.eqb_spec (y mod 400) 0);
    cbn [andb orb negb]; lia.
Qed.
Lemma dby_mono : forall a b, a <= b -> days_before_year a <= days_before_year b.
Proof. intros a b H. unfold days_before_year. lia. Qed.

Lemma b2z_range : forall b, 0 <= b2z b <= 1.
Proof. intros []; simpl; lia. Qed.

Lemma month_cases : forall (P : Z -> Prop),
  P 1 -> P 2 -> P 3 -> P 4 -> P 5 -> P 6 -> P 7 -> P 8 -> P 9 -> P 10 -> P 11 -> P 12 ->
  forall m, 1 <= m <= 12 -> P m.
Proof.
  intros P ? ? ? ? ? ? ? ? ? ? ? ? m H.
  assert (m=1\/m=2\/m=3\/m=4\/m=5\/m=6\/m=7\/m=8\/m=9\/m=10\/m=11\/m=12) as C by lia.
  repeat (destruct C as [C|C]; [subst; assumption|]); subst; assumption.
Qed.

Lemma dbm_step : forall y m, 1 <= m <= 11 ->
  days_before_month y (m + 1) = days_before_month y m + days_in_month y m.
Proof.
  intros y m H. unfold days_before_month, days_in_month. generalize (b2z (leap y)); intros z.
  set (m1 := m + 1). assert ((m=1/\m1=2)\/(m=2/\m1=3)\/(m=3/\m1=4)\/(m=4/\m1=5)\/(m=5/\m1=6)\/(m=6/\m1=7)\/(m=7/\m1=8)\/(m=8/\m1=9)\/(m=9/\m1=10)\/(m=10/\m1=11)\/(m=11/\m1=12)) as C by lia.
  clearbody m1.
  repeat (destruct C as [[C C']|C]; [subst; cbv iota; lia|]); destruct C; subst; cbv iota; lia.
Qed.
Lemma dbm_end : forall y, days_before_month y 12 + days_in_month y 12 = 365 + b2z (leap y).
Proof. intros. unfold days_before_month, days_in_month. cbv iota. lia. Qed.
Lemma dim_pos : forall y m, 1 <= days_in_month y m <= 31.
Proof. intros y m. unfold days_in_month. pose proof (b2z_range (leap y)).
  destruct m as [|p|p]; try lia. repeat (destruct p; try lia). Qed.

Lemma dbm_mono : forall y (n : nat) a, 1 <= a -> a + Z.of_nat n + 1 <= 12 ->
  days_before_month y a + days_in_month y a <= days_before_month y (a + Z.of_nat n + 1).
Proof.
  intros y n; induction n; intros a Ha Hb.
  - replace (a + Z.of_nat 0 + 1) with (a + 1) by lia. rewrite dbm_step by lia. lia.
  - replace (a + Z.of_nat (S n) + 1) with ((a + 1) + Z.of_nat n + 1) by lia.
    pose proof (IHn (a + 1) ltac:(lia) ltac:(lia)). rewrite dbm_step in H by lia.
    pose proof (dim_pos y (a + 1)). lia.
Qed.
Lemma dbm_lt : forall y a b, 1 <= a -> a < b -> b <= 12 ->
  days_before_month y a + days_in_month y a <= days_before_month y b.
Proof.
  intros y a b H1 H2 H3. pose proof (dbm_mono y (Z.to_nat (b - a - 1)) a H1 ltac:(lia)).
  replace (a + Z.of_nat (Z.to_nat (b - a - 1)) + 1) with b in H by lia. exact H.
Qed.
Lemma dbm_nonneg : forall y m, 1 <= m <= 12 -> 0 <= days_before_month y m.
Proof.
  intros y m H. destruct (Z.eq_dec m 1) as [->|]; [simpl; lia|].
  pose proof (dbm_lt y 1 m ltac:(lia) ltac:(lia) ltac:(lia)). pose proof (dim_pos y 1). simpl in H0. lia.
Qed.
Lemma dbm_le_year : forall y m d, 1 <= m <= 12 -> 1 <= d <= days_in_month y m ->
  1 <= days_before_month y m + d <= 365 + b2z (leap y).
Proof.
  intros y m d Hm Hd. pose proof (dbm_nonneg y m Hm). split; [lia|].
  rewrite <- dbm_end. destruct (Z.eq_dec m 12) as [->|]; [lia|].
  pose proof (dbm_lt y m 12 ltac:(lia) ltac:(lia) ltac:(lia)). pose proof (dim_pos y 12). lia.
Qed.

Lemma ord_year : forall y1 m1 d1 y2 m2 d2,
  1 <= m1 <= 12 -> 1 <= d1 <= days_in_month y1 m1 ->
  1 <= m2 <= 12 -> 1 <= d2 <= days_in_month y2 m2 ->
  y1 < y2 -> ymd2ord y1 m1 d1 < ymd2ord y2 m2 d2.
Proof.
  intros. unfold ymd2ord. pose proof (dbm_le_year y1 m1 d1 ltac:(lia) ltac:(lia)).
  pose proof (dbm_le_year y2 m2 d2 ltac:(lia) ltac:(lia)).
  pose proof (dby_step y1). pose proof (dby_mono (y1 + 1) y2 ltac:(lia)). lia.
Qed.
Lemma ord_month : forall y m1 d1 m2 d2,
  1 <= m1 <= 12 -> 1 <= d1 <= days_in_month y m1 ->
  1 <= m2 <= 12 -> 1 <= d2 <= days_in_month y m2 ->
  m1 < m2 -> ymd2ord y m1 d1 < ymd2ord y m2 d2.
Proof.
  intros. unfold ymd2ord. pose proof (dbm_lt y m1 m2 ltac:(lia) ltac:(lia) ltac:(lia)). lia.
Qed.

Lemma tod_range : forall f, real_date f ->
  0 <= ((f_h f * 60 + f_mi f) * 60 + f_s f) * sec_us + f_us f < day_us.
Proof. intros f (_ & _ & _ & H). unfold day_us, sec_us. lia. Qed.

Lemma earlier_lt : forall f g, real_date f -> real_date g -> earlier f g -> fields_us f < fields_us g.
Proof.
  intros f g Hf Hg H. pose proof (tod_range f Hf). pose proof (tod_range g Hg).
  destruct Hf as (Yf & Mf & Df & Tf). destruct Hg as (Yg & Mg & Dg & Tg).
  unfold fields_us.
  assert (ymd2ord (f_y f) (f_mo f) (f_d f) < ymd2ord (f_y g) (f_mo g) (f_d g) \/
          (ymd2ord (f_y f) (f_mo f) (f_d f) = ymd2ord (f_y g) (f_mo g) (f_d g) /\
           lex_lt [f_h f; f_mi f; f_s f; f_us f] [f_h g; f_mi g; f_s g; f_us g])) as C.
  { unfold earlier, fields_list in H. simpl in H.
    destruct H as [H|[Ey H]]; [left; apply ord_year; auto|].
    destruct H as [H|[Em H]]; [left; rewrite Ey in *; apply ord_month; auto|].
    destruct H as [H|[Ed H]]; [left; unfold ymd2ord; rewrite Ey, Em; lia|].
    right. rewrite Ey, Em, Ed. split; [reflexivity|exact H]. }
  destruct C as [C|[C L]].
  - unfold day_us, sec_us in *. lia.
  - rewrite C. simpl in L. unfold day_us, sec_us in *. lia.
Qed.

Lemma lex_total : forall a b : list Z, length a = length b -> lex_lt a b \/ a = b \/ lex_lt b a.
Proof.
  induction a as [|x a IH]; intros [|y b] H; simpl in *; try discriminate; [right; left; reflexivity|].
  destruct (Z.lt_trichotomy x y) as [L|[E|G]]; [left; left; exact L| |right; right; left; exact G].
  subst. destruct (IH b) as [C|[C|C]]; [lia| | |].
  - left; right; auto.
  - right; left; subst; reflexivity.
  - right; right; right; auto.
Qed.

Lemma fields_ext : forall f g, fields_list f = fields_list g -> f = g.
Proof. intros [] []; unfold fields_list; simpl; intros E; inversion E; reflexivity. Qed.

Lemma us_earlier : forall f g, real_date f -> real_date g ->
  (fields_us f < fields_us g <-> earlier f g).
Proof.
  intros f g Hf Hg. split; [|apply earlier_lt; auto].
  intros L. destruct (lex_total (fields_list f) (fields_list g) eq_refl) as [C|[C|C]]; auto.
  - apply fields_ext in C. subst. lia.
  - pose proof (earlier_lt g f Hg Hf C). lia.
Qed.

Lemma fields_ok_spec : forall f, fields_ok f = true <-> real_date f.
Proof.
  intros f. unfold fields_ok, in_range, real_date. rewrite !andb_true_iff, !Z.leb_le. tauto.
Qed.

Definition f_min : fields := mkFields 1970 1 1 0 0 0 0.
Definition f_max : fields := mkFields 2038 1 19 0 0 0 0.
Lemma f_min_real : real_date f_min.
Proof. unfold real_date; simpl; lia. Qed.
Lemma f_max_real : real_date f_max.
Proof. unfold real_date; simpl; lia. Qed.

Lemma infdt_accepts : forall y mo d h mi s us t,
  infdt_new (YInt y) (Some mo) (Some d) h mi s us false = Ok t <->
  (let f := mkFields y mo d h mi s us in
   real_date f /\ ~ earlier f f_min /\ ~ earlier f_max f /\ t = TDate (fields_us f)).
Proof.
  intros y mo d h mi s us t. cbn zeta. set (f := mkFields y mo d h mi s us).
  unfold infdt_new, datetime_new. fold f.
  destruct (fields_ok f) eqn:Ef; cbn [bind].
  - apply fields_ok_spec in Ef. change max_datetime with (fields_us f_max). change min_datetime with (fields_us f_min).
    rewrite <- (us_earlier f f_min Ef f_min_real), <- (us_earlier f_max f f_max_real Ef).
    destruct (Z.ltb_spec (fields_us f_max) (fields_us f)).
    + split; [discriminate|]. intros (_ & _ & H' & _). lia.
    + destruct (Z.ltb_spec (fields_us f) (fields_us f_min)).
      * split; [discriminate|]. intros (_ & H' & _). lia.
      * split.
        -- intros E; inversion E; subst. repeat split; try (apply Ef); lia.
        -- intros (_ & _ & _ & ->). reflexivity.
  - split; [discriminate|]. intros (H & _). apply fields_ok_spec in H. congruence.
Qed.

(** ** Active windows *)
Lemma check_startstop_spec : forall lo hi,
  (tlt lo hi -> check_startstop lo hi = Ok true) /\
  (~ tlt lo hi -> check_startstop lo hi = Raise ValueErr).
Proof.
  intros lo hi.
  assert (forall r, decides r (tle hi lo) ->
          (tlt lo hi -> (do b <- r; if b then Raise ValueErr else Ok true) = Ok true) /\
          (~ tlt lo hi -> (do b <- r; if b then Raise ValueErr else Ok true) = Raise ValueErr)) as K.
  { intros r Hr. destruct (decides_case _ _ Hr) as [[-> Hle]|[-> Hn]]; simpl; split; auto.
    - intros [H1 H2]. exfalso. apply H2, tle_antisym; auto.
    - intros H. exfalso. apply H. destruct (tle_total lo hi) as [T|T]; [|contradiction].
      split; auto. intros ->. apply Hn, tle_refl. }
  unfold check_startstop. destruct (is_date lo && negb (is_date hi)); apply K;
    [apply py_le_dec|apply py_ge_dec].
Qed.

Lemma prepare_step_spec : forall p ts now, exists p',
  prepare_step p ts now = Ok p' /\
  p_on p' = p_on p /\ p_lo p' = p_lo p /\ p_hi p' = p_hi p /\
  (p_active p' = true <-> p_on p = true /\ within (p_lo p) (TDate (now + half_td ts)) (p_hi p)).
Proof.
  intros p ts now. unfold prepare_step, within. cbn zeta. set (h := TDate (now + half_td ts)).
  destruct (decides_case _ _ (py_le_dec (p_lo p) h)) as [[-> H]|[-> H]]; cbn [bind].
  - destruct (decides_case _ _ (py_ge_dec (p_hi p) h)) as [[-> H']|[-> H']]; cbn [bind];
      eexists; (split; [reflexivity|]); simpl; repeat split; auto; try tauto; try discriminate.
  - eexists; (split; [reflexivity|]); simpl; repeat split; auto; try tauto; try discriminate.
Qed.

Lemma half_td_even : forall ts, Z.even ts = true -> 2 * half_td ts = ts.
Proof. intros ts H. unfold half_td. rewrite H. apply Zeven_bool_iff in H. apply Zeven_ex_iff in H. destruct H; lia. Qed.
Lemma half_td_bound : forall ts, ts - 1 <= 2 * half_td ts <= ts + 1.
Proof. intros ts. unfold half_td. pose proof (Zmod_even ts). destruct (Z.even ts), (Z.even (ts / 2)); lia. Qed.

(** ** Rounding *)
Lemma round_one_spec : forall r dt, 0 < r -> forall m, midnight m dt ->
  exists y, round_one r dt = Ok (y) /\ (exists ys, y = ys * sec_us) /\
    exists ms, m = ms * sec_us /\ nearest_up r ms (dt / sec_us) (y / sec_us).
Proof.
  intros r dt Hr m ((d & Em) & Hm). unfold round_one.
  destruct (Z.eqb_spec r 0); [lia|]. eexists; split; [reflexivity|].
  set (date := dt / sec_us). set (sc := date mod 86400).
  set (k := (2 * sc + r) / (2 * r)).
  split; [eexists; reflexivity|]. exists (d * 86400).
  assert (date = d * 86400 + sc).
  { subst sc. assert (date / 86400 = d).
    { symmetry. apply Z.div_unique with (r := date - d * 86400); [|lia].
      subst date. unfold day_us, sec_us in *. lia. }
    pose proof (Z.div_mod date 86400 ltac:(lia)). lia. }
  split; [unfold day_us in Em; lia|]. unfold nearest_up. exists k.
  assert (sec_us <> 0) by (unfold sec_us; lia).
  rewrite Z.div_mul by assumption. split; [lia|].
  assert (2 * sc + r = 2 * r * k + (2 * sc + r) mod (2 * r)) as E by (apply Z.div_mod; lia).
  pose proof (Z.mod_pos_bound (2 * sc + r) (2 * r) ltac:(lia)). nia.
Qed.

(** ** Conversions *)
Lemma u32_id : forall x, 0 <= x < 4294967296 -> u32 x = x.
Proof. intros; unfold u32; apply Z.mod_small; auto. Qed.

Lemma sec_to_datetime_eq : forall z s, sec_to_datetime z s = (s + z_std z) * sec_us.
Proof. intros z s. unfold sec_to_datetime. destruct (z_dst z s); f_equal; lia. Qed.

Lemma scalar_round_trip : forall z d,
  0 <= d / sec_us - z_std z < 4294967296 ->
  exists s, date_to_sec z (Scalar d) = Ok s /\ sec_to_date z s = Scalar (d - d mod sec_us).
Proof.
  intros z d H. eexists; split; [reflexivity|]. unfold sec_to_date. simpl.
  rewrite u32_id by (unfold mktime0; lia). rewrite sec_to_datetime_eq. unfold mktime0. f_equal.
  pose proof (Z.div_mod d sec_us ltac:(unfold sec_us; lia)). lia.
Qed.

Lemma many_round_trip : forall z l, (2 <= length l)%nat ->
  Forall (fun d => 0 <= d / sec_us - z_std z < 4294967296) l ->
  exists s, date_to_sec z (Many l) = Ok s /\
    sec_to_date z s = Many (map (fun d => d - d mod sec_us) l).
Proof.
  intros z l Hl H. destruct l as [|d1 [|d2 r]]; simpl in Hl; try lia.
  eexists; split; [reflexivity|]. unfold sec_to_date.
  assert (forall l', Forall (fun d => 0 <= d / sec_us - z_std z < 4294967296) l' ->
    map (fun s => sec_to_datetime z (u32 s)) (map (fun d => u32 (mktime0 z (d / sec_us))) l')
    = map (fun d => d - d mod sec_us) l') as K.
  { intros l' Hl'. rewrite map_map. apply map_ext_in. intros d Hd.
    rewrite Forall_forall in Hl'. specialize (Hl' d Hd).
    rewrite u32_id by (unfold u32; apply Z.mod_pos_bound; lia).
    rewrite u32_id by (unfold mktime0; lia). rewrite sec_to_datetime_eq. unfold mktime0.
    pose proof (Z.div_mod d sec_us ltac:(unfold sec_us; lia)). lia. }
  rewrite (K _ H). reflexivity.
Qed.

(** ** Time zone offsets *)
Open Scope Q_scope.
Lemma q_trunc_nonneg : forall x, 0 <= x -> q_trunc x = Qfloor x.
Proof. intros x H. unfold q_trunc. destruct (Qle_bool_spec 0 x); [reflexivity|lra]. Qed.

Lemma floor_split : forall x k, 0 <= x ->
  (Qfloor (x * inject_Z k) = Qfloor x * k + Qfloor ((x - inject_Z (Qfloor x)) * inject_Z k))%Z.
Proof.
  intros x k H.
  pose proof (Qfloor_bounds ((x - inject_Z (Qfloor x)) * inject_Z k)) as [B1 B2].
  assert (x * inject_Z k == inject_Z (Qfloor x) * inject_Z k + (x - inject_Z (Qfloor x)) * inject_Z k) as E by ring.
  apply Qfloor_unique; rewrite E, inject_Z_plus, inject_Z_mult; lra.
Qed.

Lemma tz_text : forall o, exists neg h m,
  tz_iso (Some o) = Some (neg, h, m) /\ (0 <= h)%Z /\ (0 <= m <= 59)%Z /\
  (neg = true <-> o < 0) /\
  tz_minutes (Some o) = (if neg then - (h * 60 + m) else h * 60 + m)%Z.
Proof.
  intros o. unfold tz_iso, tz_minutes. cbn zeta.
  set (h := q_trunc (Qabs o)). set (m := q_trunc ((Qabs o - inject_Z h) * 60)).
  exists (negb (Qle_bool 0 o)), h, m. split; [reflexivity|].
  pose proof (Qabs_nonneg o) as Hn.
  assert (h = Qfloor (Qabs o)) as Eh by (apply q_trunc_nonneg; auto).
  pose proof (Qfloor_bounds (Qabs o)) as [B1 B2]. rewrite <- Eh in B1, B2.
  assert (m = Qfloor ((Qabs o - inject_Z h) * 60)) as Em by (apply q_trunc_nonneg; lra).
  pose proof (Qfloor_bounds ((Qabs o - inject_Z h) * 60)) as [C1 C2]. rewrite <- Em in C1, C2.
  assert (0 <= h)%Z. { assert (inject_Z (-1) < inject_Z h) by (change (inject_Z (-1)) with (-1); lra). rewrite <- Zlt_Qlt in H. lia. }
  split; [assumption|].
  assert (0 <= m <= 59)%Z.
  { assert (inject_Z (-1) < inject_Z m) by (change (inject_Z (-1)) with (-1); lra).
    assert (inject_Z m < inject_Z 60) by (change (inject_Z 60) with 60; lra).
    rewrite <- Zlt_Qlt in *. lia. }
  split; [assumption|]. split.
  { destruct (Qle_bool_spec 0 o); simpl; split; intros; try discriminate; try lra; reflexivity. }
  assert (Qfloor (Qabs o * 60) = h * 60 + m)%Z as K.
  { change 60 with (inject_Z 60) at 1. rewrite floor_split by auto. rewrite <- Eh. rewrite Em. reflexivity. }
  destruct (Qle_bool_spec 0 o); simpl.
  - rewrite q_trunc_nonneg by lra. rewrite <- K. apply Qfloor_comp. rewrite Qabs_pos by auto. reflexivity.
  - unfold q_trunc. destruct (Qle_bool_spec 0 (o * 60)); [lra|]. rewrite <- K. f_equal.
    apply Qfloor_comp. rewrite Qabs_neg by lra. ring.
Qed.

(** ** Longitudes *)
Lemma q_mod_range : forall x, 0 <= q_mod x 360 < 360.
Proof.
  intros x. unfold q_mod. pose proof (Qfloor_bounds (x / 360)) as [A B].
  assert (x == 360 * (x / 360)) as E by field. split; lra.
Qed.

Lemma conv180_range : forall x, -540 < x <= 540 -> -180 < conv180 x <= 180.
Proof.
  intros x H. unfold conv180. cbn zeta.
  destruct (Qle_bool_spec x 180); [destruct (Qle_bool_spec x (-180))|destruct (Qle_bool_spec (x - 360) (-180))]; lra.
Qed.
Lemma conv180_same : forall x, same_meridian (conv180 x) x.
Proof.
  intros x. unfold conv180. cbn zeta.
  destruct (Qle_bool_spec x 180); [destruct (Qle_bool_spec x (-180))|destruct (Qle_bool_spec (x - 360) (-180))].
  - exists 1%Z. change (inject_Z 1) with 1. ring.
  - exists 0%Z. change (inject_Z 0) with 0. ring.
  - exists 0%Z. change (inject_Z 0) with 0. ring.
  - exists (-1)%Z. change (inject_Z (-1)) with (-1). ring.
Qed.
Lemma conv180_id : forall x, -180 < x <= 180 -> conv180 x = x.
Proof.
  intros x H. unfold conv180. cbn zeta.
  destruct (Qle_bool_spec x 180); [destruct (Qle_bool_spec x (-180))|destruct (Qle_bool_spec (x - 360) (-180))]; try lra; reflexivity.
Qed.
Lemma conv360_same : forall x, same_meridian (q_mod (x + 360) 360) x.
Proof.
  intros x. unfold q_mod. exists (1 - Qfloor ((x + 360) / 360))%Z.
  unfold Z.sub. rewrite inject_Z_plus, inject_Z_opp. change (inject_Z 1) with 1. ring.
Qed.
Lemma conv360_id : forall x, 0 <= x < 360 -> q_mod (x + 360) 360 == x.
Proof.
  intros x H. unfold q_mod.
  assert (Qfloor ((x + 360) / 360) = 1%Z) as E.
  { assert ((x + 360) / 360 == x / 360 + 1) as E by field.
    assert (0 <= x / 360) by (apply Qle_shift_div_l; lra).
    assert (x / 360 < 1) by (apply Qlt_shift_div_r; lra).
    apply Qfloor_unique; rewrite E; change (inject_Z 1) with 1; lra. }
  rewrite E. change (inject_Z 1) with 1. ring.
Qed.

Lemma count_true : forall (sel : Q -> bool) l,
  length (filter (fun b => b) (map sel l)) = length (filter sel l).
Proof. intros sel l; induction l; simpl; auto. destruct (sel a); simpl; auto. Qed.

Lemma put_all : forall (sel : Q -> bool) f l, (forall x, In x l -> sel x = true) ->
  put_masked (map sel l) (map f l) l = map f l.
Proof.
  intros sel f l; induction l as [|x l IH]; intros H; [reflexivity|].
  simpl. rewrite (H x) by (left; reflexivity). f_equal. apply IH. intros y Hy. apply H; right; auto.
Qed.
Lemma put_none : forall (sel : Q -> bool) v l, (forall x, In x l -> sel x = false) ->
  put_masked (map sel l) v l = l.
Proof.
  intros sel v l; induction l as [|x l IH]; intros H; [reflexivity|].
  simpl. rewrite (H x) by (left; reflexivity). f_equal. apply IH. intros y Hy. apply H; right; auto.
Qed.
Lemma filter_full : forall (sel : Q -> bool) l, length (filter sel l) = length l ->
  forall x, In x l -> sel x = true.
Proof.
  intros sel l; induction l as [|a l IH]; simpl; intros H x; [tauto|].
  assert (length (filter sel l) <= length l)%nat by (clear; induction l; simpl; auto; destruct (sel a); simpl; lia).
  destruct (sel a) eqn:E; simpl in H; [|lia].
  intros [->|Hx]; auto.
Qed.

(** A shift moves every selected longitude or, when some are selected and some
    are not, none at all. *)
Lemma shift_all : forall sel d l, (forall x, In x l -> sel x = true) ->
  shift_lon sel d l = map (fun x => x + d) l.
Proof.
  intros sel d l H. unfold shift_lon, assign_masked. rewrite count_true, map_length.
  assert (filter sel l = l) as E.
  { clear -H; induction l as [|a l IH]; simpl; auto. rewrite H by (left; reflexivity). f_equal; apply IH; intros; apply H; right; auto. }
  rewrite E, Nat.eqb_refl. apply put_all; auto.
Qed.
Lemma shift_mixed : forall sel d l x y, In x l -> sel x = true -> In y l -> sel y = false ->
  shift_lon sel d l = l.
Proof.
  intros sel d l x y Hx Sx Hy Sy. unfold shift_lon, assign_masked. rewrite count_true, map_length.
  destruct (Nat.eqb_spec (length l) (length (filter sel l))) as [E|_].
  - exfalso. symmetry in E. pose proof (filter_full sel l E y Hy). congruence.
  - destruct l as [|a [|b r]]; [contradiction| |reflexivity].
    simpl in Hx, Hy. destruct Hx as [->|[]], Hy as [->|[]]. congruence.
Qed.
Lemma shift_none : forall sel d l, (forall x, In x l -> sel x = false) -> shift_lon sel d l = l.
Proof.
  intros sel d l H. unfold shift_lon, assign_masked. rewrite count_true, map_length.
  destruct (Nat.eqb _ _); [apply put_none; auto|].
  destruct l as [|a [|b r]]; simpl; auto. rewrite (H a) by (left; reflexivity). reflexivity.
Qed.
