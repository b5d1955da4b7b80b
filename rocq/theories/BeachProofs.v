(** * Proofs about manual beaching *)
From Verif Require Import Py PyLemmas QLemmas PipModel PipProofs PolyModel PolyProofs CleanModel CleanSpec CleanProofs BeachModel BeachSpec.
Open Scope Q_scope.

(** ** The table *)

Lemma ends_cons start t1 v r : ends start ((t1, v) :: r) = ends t1 r.
Proof.
  unfold ends. cbn [map fst]. destruct (map fst r) as [|z l] eqn:E; [reflexivity|]. cbn [last].
  clear. revert z. induction l as [|y l IH]; intros; [reflexivity|]. cbn [last] in *. apply (IH y).
Qed.
Lemma asc_ends start tab : ascending start tab -> (start <= ends start tab)%Z.
Proof.
  revert start. induction tab as [|[t1 v] r IH]; intros start H; [unfold ends; cbn; lia|]. destruct H as [H1 H2].
  specialize (IH _ H2). rewrite ends_cons. lia.
Qed.
Lemma ov_zero a b s e : (a <= b)%Z -> (e <= a \/ b <= s \/ e <= s)%Z -> overlap a b s e = 0%Z.
Proof. unfold overlap. lia. Qed.
Lemma beached_before start tab s e : ascending start tab -> (e <= start)%Z -> beached start tab s e == 0.
Proof.
  revert start. induction tab as [|[t1 v] r IH]; intros start H He; [reflexivity|]. destruct H as [H1 H2]. cbn [beached].
  rewrite IH by (auto; lia). rewrite ov_zero by lia. unfold Qdiv. change (inject_Z 0) with 0. ring.
Qed.
Lemma beached_after start tab s e : ascending start tab -> (ends start tab <= s)%Z -> beached start tab s e == 0.
Proof.
  revert start. induction tab as [|[t1 v] r IH]; intros start H He; [reflexivity|]. destruct H as [H1 H2]. cbn [beached].
  rewrite ends_cons in He. pose proof (asc_ends _ _ H2).
  rewrite IH by auto. rewrite ov_zero by lia. unfold Qdiv. change (inject_Z 0) with 0. ring.
Qed.
Lemma beached_empty start tab s e : ascending start tab -> (e <= s)%Z -> beached start tab s e == 0.
Proof.
  revert start. induction tab as [|[t1 v] r IH]; intros start H He; [reflexivity|]. destruct H as [H1 H2]. cbn [beached].
  rewrite IH by auto. rewrite ov_zero by lia. unfold Qdiv. change (inject_Z 0) with 0. ring.
Qed.
Lemma beached_clip start tab s s' e : ascending start tab -> (s <= start)%Z -> (s' <= start)%Z -> beached start tab s e == beached start tab s' e.
Proof.
  revert start. induction tab as [|[t1 v] r IH]; intros start H Hs Hs'; [reflexivity|]. destruct H as [H1 H2]. cbn [beached].
  rewrite (IH t1) by (auto; lia). replace (overlap start t1 s e) with (overlap start t1 s' e) by (unfold overlap; lia). reflexivity.
Qed.
Lemma beached_end start tab s e e' : ascending start tab -> (ends start tab <= e)%Z -> (ends start tab <= e')%Z ->
  beached start tab s e == beached start tab s e'.
Proof.
  revert start. induction tab as [|[t1 v] r IH]; intros start H Hs Hs'; [reflexivity|]. destruct H as [H1 H2]. cbn [beached].
  rewrite ends_cons in *. pose proof (asc_ends _ _ H2).
  rewrite (IH t1) by auto. replace (overlap start t1 s e) with (overlap start t1 s e') by (unfold overlap; lia). reflexivity.
Qed.
Lemma beached_cut start tab s m e : ascending start tab -> (s <= m)%Z -> (m <= e)%Z ->
  beached start tab s m + beached start tab m e == beached start tab s e.
Proof.
  revert start. induction tab as [|[t1 v] r IH]; intros start H Hs He; [reflexivity|]. destruct H as [H1 H2]. cbn [beached].
  rewrite <- (IH t1) by auto. rewrite <- (overlap_cut start t1 s m e) by lia. rewrite inject_Z_plus. field.
  change 0 with (inject_Z 0). rewrite inject_Z_injective. lia.
Qed.
Lemma beached_all start tab s e : ascending start tab -> (s <= start)%Z -> (ends start tab <= e)%Z ->
  beached start tab s e == amounts tab.
Proof.
  revert start. induction tab as [|[t1 v] r IH]; intros start H Hs He; [reflexivity|]. destruct H as [H1 H2]. cbn [beached amounts].
  rewrite ends_cons in *. pose proof (asc_ends _ _ H2).
  rewrite IH by (auto; lia). replace (overlap start t1 s e) with (t1 - start)%Z by (unfold overlap; lia). field.
  change 0 with (inject_Z 0). rewrite inject_Z_injective. lia.
Qed.

(** ** The interval of a time *)

Lemma last_le_none i t times : (forall x, In x times -> (t < x)%Z) -> last_le i t times = None.
Proof.
  revert i. induction times as [|x r IH]; intros i H; [reflexivity|]. cbn [last_le].
  rewrite IH by (intros; apply H; right; auto). destruct (Z.leb_spec x t); [|reflexivity]. specialize (H x (or_introl eq_refl)). lia.
Qed.
Lemma asc_all start tab : ascending start tab -> forall x, In x (map fst tab) -> (start < x)%Z.
Proof.
  revert start. induction tab as [|[t1 v] r IH]; intros start H x Hx; [destruct Hx|]. destruct H as [H1 H2].
  cbn [map fst In] in Hx. destruct Hx as [<-|Hx]; [lia|]. specialize (IH _ H2 _ Hx). lia.
Qed.
Lemma find_interval unit t : forall table start i, ascending start table -> (start <= t)%Z ->
  exists pre t0 tab rpre, start :: map fst table = pre ++ t0 :: map fst tab /\
    rates unit (start :: map fst table) (map snd table) = rpre ++ rates unit (t0 :: map fst tab) (map snd tab) /\
    length rpre = length pre /\ last_le i t (start :: map fst table) = Some (i + length pre)%nat /\ (t0 <= t)%Z /\
    (forall t1 v r, tab = (t1, v) :: r -> (t < t1)%Z) /\ ascending t0 tab /\ ends start table = ends t0 tab /\
    (forall e, beached start table t e == beached t0 tab t e) /\ (length tab <= length table)%nat.
Proof.
  induction table as [|[t1 v] r IH]; intros start i H Hs.
  - exists [], start, [], []. cbn [map app length last_le]. destruct (Z.leb_spec start t); [|lia].
    rewrite Nat.add_0_r. do 4 (split; [reflexivity|]). split; [lia|]. split; [discriminate|]. split; [constructor|].
    split; [reflexivity|]. split; [reflexivity|lia].
  - destruct H as [H1 H2]. destruct (Z.le_gt_cases t1 t) as [Ht|Ht].
    + destruct (IH t1 (S i) H2 Ht) as [pre [t0 [tab [rpre [E1 [E2 [E3 [E4 [E5 [E6 [E7 [E8 [E9 E10]]]]]]]]]]]]].
      exists (start :: pre), t0, tab, ((if (t1 - start =? 0)%Z then None else Some (unit * v / sec (t1 - start))) :: rpre).
      split; [cbn [map fst app]; rewrite E1; reflexivity|].
      split; [cbn [map fst snd app]; rewrite <- E2; reflexivity|]. split; [cbn; congruence|].
      split. { cbn [map fst]. change (last_le i t (start :: t1 :: map fst r)) with
                 (match last_le (S i) t (t1 :: map fst r) with Some k => Some k | None => if (start <=? t)%Z then Some i else None end).
               rewrite E4. f_equal. cbn [length]. lia. }
      split; [exact E5|]. split; [exact E6|]. split; [exact E7|]. split; [rewrite ends_cons; exact E8|].
      split; [|cbn; lia]. intros e. cbn [beached]. rewrite E9. rewrite ov_zero by lia. change (inject_Z 0) with 0. unfold Qdiv. ring.
    + exists [], start, ((t1, v) :: r), []. cbn [app length]. rewrite Nat.add_0_r. do 3 (split; [reflexivity|]).
      split. { cbn [map fst]. change (last_le i t (start :: t1 :: map fst r)) with
                 (match last_le (S i) t (t1 :: map fst r) with Some k => Some k | None => if (start <=? t)%Z then Some i else None end).
               rewrite last_le_none; [destruct (Z.leb_spec start t); [reflexivity|lia]|].
               intros x [<-|Hx]; [lia|]. pose proof (asc_all _ _ H2 _ Hx). lia. }
      split; [lia|]. split; [intros ? ? ? [= <- <- <-]; lia|]. split; [split; auto|]. split; [reflexivity|]. split; [reflexivity|lia].
Qed.

(** ** The loop *)

Lemma sec_div v a b : (b <> 0)%Z -> v / sec b * sec a == v * inject_Z a / inject_Z b.
Proof.
  intros H. unfold sec. field. intros K. apply H, inject_Z_injective. exact K.
Qed.
Lemma loop_ok unit times rs : forall tab fuel pre t0 rpre s remain acc,
  times = pre ++ t0 :: map fst tab -> rs = rpre ++ rates unit (t0 :: map fst tab) (map snd tab) -> length rpre = length pre ->
  ascending t0 tab -> (t0 <= s)%Z -> (forall t1 v r, tab = (t1, v) :: r -> (s <= t1)%Z) -> (0 <= remain)%Z ->
  (s + remain <= ends t0 tab)%Z -> (length tab <= fuel)%nat ->
  exists x, beach_loop fuel times rs (length pre) s remain (Some acc) = Ok (Some x) /\
    x == acc + unit * beached t0 tab s (s + remain).
Proof.
  induction tab as [|[t1 v] r IH]; intros fuel pre t0 rpre s remain acc Et Er El Ha H0 H1 Hr He Hf.
  - unfold ends in He. cbn in He. assert (remain = 0%Z) as -> by lia.
    exists acc. split; [destruct fuel; reflexivity|]. cbn [beached]. ring.
  - destruct (Z.leb_spec remain 0) as [Hz|Hz].
    + assert (remain = 0%Z) as -> by lia. exists acc. split; [destruct fuel; reflexivity|].
      rewrite beached_empty by (auto; lia). ring.
    + destruct fuel as [|f]; [cbn in Hf; lia|]. cbn [beach_loop]. destruct (Z.leb_spec remain 0); [lia|].
      destruct Ha as [Ha1 Ha2]. specialize (H1 t1 v r eq_refl). rewrite ends_cons in He.
      assert (N1 : nth_error times (S (length pre)) = Some t1).
      { rewrite Et. rewrite nth_error_app2 by lia. replace (S (length pre) - length pre)%nat with 1%nat by lia. reflexivity. }
      assert (N2 : nth_error rs (length pre) = Some (Some (unit * v / sec (t1 - t0)))).
      { rewrite Er, <- El. rewrite nth_error_app2 by lia. replace (length rpre - length rpre)%nat with 0%nat by lia. cbn [map fst snd rates nth_error].
        destruct (Z.eqb_spec (t1 - t0) 0); [lia|reflexivity]. }
      rewrite N1, N2. cbn [omul_add].
      assert (E0 : forall d, unit * v / sec (t1 - t0) * sec d == unit * (v * inject_Z d / inject_Z (t1 - t0))).
      { intros d. rewrite sec_div by lia. unfold Qdiv. ring. }
      destruct (Z.le_gt_cases remain (t1 - s)) as [Hc|Hc].
      * rewrite Z.min_l by lia. replace (remain - remain)%Z with 0%Z by lia.
        eexists. split; [destruct f; reflexivity|]. cbn [beached]. rewrite E0.
        rewrite (beached_before t1 r) by (auto; lia). replace (overlap t0 t1 s (s + remain)) with remain by (unfold overlap; lia). ring.
      * rewrite Z.min_r by lia.
        destruct (IH f (pre ++ [t0]) t1 (rpre ++ [Some (unit * v / sec (t1 - t0))]) t1 (remain - (t1 - s))%Z
          (acc + unit * v / sec (t1 - t0) * sec (t1 - s))) as [x [E1 E2]]; try lia.
        { rewrite Et. cbn [map fst]. rewrite <- app_assoc. reflexivity. }
        { rewrite Er. cbn [map fst snd rates]. rewrite <- app_assoc. destruct (Z.eqb_spec (t1 - t0) 0); [lia|reflexivity]. }
        { rewrite !app_length. cbn. lia. }
        { exact Ha2. }
        { intros t2 v2 r2 ->. destruct Ha2. lia. }
        { cbn in Hf. lia. }
        rewrite app_length in E1. cbn [length] in E1. rewrite Nat.add_1_r in E1. rewrite E1. exists x. split; [reflexivity|].
        rewrite E2. cbn [beached]. rewrite E0. replace (t1 + (remain - (t1 - s)))%Z with (s + remain)%Z by lia.
        rewrite (beached_clip t1 r t1 s) by (auto; lia).
        replace (overlap t0 t1 s (s + remain)) with (t1 - s)%Z by (unfold overlap; lia). ring.
Qed.

Definition of_table (b : beach) (start : Z) (table : list (Z * Q)) : Prop :=
  be_times b = start :: map fst table /\ be_vals b = map snd table /\ be_b b = ends start table.
Lemma remove_ok_table b start table ts t : of_table b start table -> ascending start table -> (start <= t)%Z -> (0 <= ts)%Z ->
  (t + ts <= be_b b)%Z -> exists x, remove_mass b ts t = Ok (Some x) /\ x == be_unit b * beached start table t (t + ts).
Proof.
  intros [E1 [E2 E3]] Ha Hs Hts He. unfold remove_mass. rewrite E1, E2.
  destruct (find_interval (be_unit b) t table start 0 Ha Hs) as [pre [t0 [tab [rpre [F1 [F2 [F3 [F4 [F5 [F6 [F7 [F8 [F9 F10]]]]]]]]]]]]].
  rewrite F4. cbn [Nat.add].
  destruct (loop_ok (be_unit b) (start :: map fst table) (rates (be_unit b) (start :: map fst table) (map snd table))
    tab (length (start :: map fst table)) pre t0 rpre t ts 0 F1 F2 F3 F7 F5) as [x [G1 G2]].
  - intros t1 v r Er. specialize (F6 _ _ _ Er). lia.
  - exact Hts.
  - rewrite <- F8, <- E3. exact He.
  - cbn [length]. rewrite map_length. lia.
  - exists x. split; [exact G1|]. rewrite G2, F9. ring.
Qed.

(** ** Runs *)

Lemma beach_run_ok b start table dt : (0 < dt)%Z -> be_on b = true -> of_table b start table -> ascending start table ->
  (be_a b = Some start \/ be_a b = None) ->
  forall n t, (forall k, (k < n)%nat -> ~ ((t + Z.of_nat k * dt < start)%Z /\ (start < t + Z.of_nat k * dt + dt)%Z)) ->
  (be_a b = None -> (start <= t)%Z) ->
  exists x, beach_run b dt t n = Ok x /\ x == be_unit b * beached start table t (t + Z.of_nat n * dt).
Proof.
  intros Hd Hon Ht Ha Hb. destruct Ht as [E1 [E2 E3]]. induction n as [|n IH]; intros t Hk Hinf.
  - exists 0. split; [reflexivity|]. rewrite beached_empty by (auto; lia). ring.
  - cbn [beach_run].
    assert (S1 : exists x, (if beach_active b dt t then remove_mass b (beach_time b dt t) t else Ok (Some 0)) = Ok (Some x) /\
      x == be_unit b * beached start table t (t + dt)).
    { assert (G : forall ts, (start <= t)%Z -> (t < be_b b)%Z -> ts = (if (be_b b <? t + dt)%Z then (be_b b - t)%Z else dt) ->
        exists x, remove_mass b ts t = Ok (Some x) /\ x == be_unit b * beached start table t (t + dt)).
      { intros ts H1 H2 ->. destruct (Z.ltb_spec (be_b b) (t + dt)) as [H3|H3].
        - destruct (remove_ok_table b start table (be_b b - t) t) as [x [G1 G2]]; try lia; [split; auto|exact Ha|].
          exists x. split; [exact G1|]. rewrite G2. rewrite (beached_end start table t (t + (be_b b - t)) (t + dt)) by (auto; rewrite <- E3; lia). reflexivity.
        - apply remove_ok_table; auto; [split; auto|lia]. }
      assert (Z0 : (t + dt <= start)%Z \/ (be_b b <= t)%Z -> exists x, Ok (Some 0) = Ok (Some x) /\ x == be_unit b * beached start table t (t + dt)).
      { intros [H|H]; exists 0; (split; [reflexivity|]).
        - rewrite beached_before by auto. ring.
        - rewrite beached_after by (auto; rewrite <- E3; auto). ring. }
      unfold beach_active, beach_time. destruct Hb as [Hb|Hb]; rewrite Hb.
      - unfold is_active. rewrite Hon. cbn [andb]. specialize (Hk 0%nat). replace (t + Z.of_nat 0 * dt)%Z with t in Hk by lia.
        destruct (Z.ltb_spec start (t + dt)), (Z.ltb_spec t (be_b b)); cbn [andb]; try (apply Z0; lia).
        assert (start <= t)%Z by (assert (~ (t < start < t + dt)%Z) by (apply Hk; lia); lia).
        apply G; auto. unfold step_time. destruct (Z.ltb_spec t start); [lia|reflexivity].
      - rewrite Hon. cbn [andb]. destruct (Z.ltb_spec t (be_b b)); [|apply Z0; lia].
        apply G; auto. }
    destruct S1 as [x [X1 X2]]. rewrite X1. cbn [bind].
    destruct (IH (t + dt)%Z) as [y [Y1 Y2]].
    + intros k Hkk. replace (t + dt + Z.of_nat k * dt)%Z with (t + Z.of_nat (S k) * dt)%Z by lia. apply Hk. lia.
    + intros K. specialize (Hinf K). lia.
    + rewrite Y1. cbn [bind]. exists (x + y). split; [reflexivity|]. rewrite X2, Y2.
      assert (K : (0 <= Z.of_nat n * dt)%Z) by nia.
      replace (t + dt + Z.of_nat n * dt)%Z with (t + Z.of_nat (S n) * dt)%Z by lia.
      rewrite <- (beached_cut start table t (t + dt) (t + Z.of_nat (S n) * dt)) by (auto; lia). ring.
Qed.

(** ** Weathering *)

Lemma beach_weather_ok b dt t l rm : all_sane l -> beach_active b dt t = true ->
  remove_mass b (beach_time b dt t) t = Ok (Some rm) -> 0 <= rm ->
  exists l' x, beach_weather b dt t l = Ok (l', x) /\ removes f_surf rm l l' x.
Proof.
  intros Hs Hact Hrm Hp. unfold beach_weather. rewrite Hact. cbn [negb orb].
  destruct l as [|e0 r0]; [exists [], 0; split; [reflexivity|apply remove_nothing; auto]|].
  cbn [length Nat.eqb]. set (l := e0 :: r0) in *.
  destruct (view f_surf l) as [|d0 dr] eqn:Ev; [exists l, 0; split; [reflexivity|apply remove_nothing; auto]|].
  rewrite Hrm. cbn [bind]. assert (Ht : 0 < total (view f_surf l)) by (apply available_pos; rewrite Ev; discriminate).
  rewrite <- Ev in *. assert (E : rm / total (view f_surf l) * total (view f_surf l) == rm) by (field; lra).
  destruct (Qltb_spec 1 (rm / total (view f_surf l))) as [H|H].
  - assert (Hlt : total (view f_surf l) < rm).
    { assert (P : 0 < (rm / total (view f_surf l) - 1) * total (view f_surf l)) by (apply Qmul_pos; lra). lra. }
    eexists. eexists. split; [reflexivity|]. apply remove_ok; auto; [lra|ring|intros; lra|reflexivity].
  - assert (Hle : rm <= total (view f_surf l)).
    { assert (P : 0 <= (1 - rm / total (view f_surf l)) * total (view f_surf l)) by (apply Qmul_nonneg; lra). lra. }
    assert (0 <= rm / total (view f_surf l)) by (apply Qle_shift_div_l; lra).
    eexists. eexists. split; [reflexivity|]. apply remove_ok; auto; [lra|intros; reflexivity|intros; lra].
Qed.

Lemma floor_whole t : (t mod 1000000 = 0)%Z -> floor_sec t = t.
Proof. intros H. unfold floor_sec. pose proof (Z.div_mod t 1000000). lia. Qed.
Lemma set_timeseries_ok b start table : (be_a b = Some start \/ be_a b = None /\ start = 0%Z) -> (start mod 1000000 = 0)%Z -> whole_secs table ->
  (start < ends start table)%Z ->
  exists b', set_timeseries b table = Ok b' /\ of_table b' start table /\ be_a b' = be_a b /\ be_on b' = be_on b /\ be_unit b' = be_unit b.
Proof.
  intros Hb Hs Hw He.
  assert (Em : map (fun p => floor_sec (fst p)) table = map fst table).
  { clear He Hb. induction table as [|[t v] r IH]; [reflexivity|]. destruct Hw as [H1 H2]. cbn [map fst]. rewrite IH, floor_whole; auto. }
  assert (El : last (start :: map fst table) start = ends start table).
  { unfold ends. destruct (map fst table); reflexivity. }
  unfold set_timeseries. rewrite Em. destruct Hb as [Hb|[Hb ->]]; rewrite Hb.
  - rewrite (floor_whole start Hs), El. destruct (Z.leb_spec (ends start table) start); [lia|].
    eexists. split; [reflexivity|]. cbn. repeat split; auto.
  - rewrite El. eexists. split; [reflexivity|]. cbn. repeat split; auto.
Qed.
