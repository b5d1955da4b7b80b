(** * Proofs about the output schedule *)
From Coq Require Import Sorted.
From Verif Require Import Py PyLemmas TimeModel OutModel OutSpec.
Open Scope Z_scope.

Lemma crosses_div T a b : 0 < T -> (crosses T a b <-> a / T < b / T).
Proof.
  intros HT. split.
  - intros [m [H1 H2]]. assert (a / T < m). { apply Z.div_lt_upper_bound; lia. }
    assert (m <= b / T). { apply Z.div_le_lower_bound; lia. } lia.
  - intros H. exists (b / T). split.
    + pose proof (Z.div_mod a T). pose proof (Z.mod_pos_bound a T). nia.
    + pose proof (Z.div_mod b T). pose proof (Z.mod_pos_bound b T). nia.
Qed.

(** One more step of length [ts]: the residue. *)
Lemma residue T ts j : 0 < T -> 0 < ts -> 0 <= j ->
  (T <= (j * ts) mod T + ts <-> crosses T (j * ts) ((j + 1) * ts)) /\
  ((j * ts) mod T + ts < T -> (j * ts) mod T + ts = ((j + 1) * ts) mod T) /\
  ((j * ts) mod T + ts) mod T = ((j + 1) * ts) mod T.
Proof.
  intros HT Hts Hj. set (a := j * ts). replace ((j + 1) * ts) with (a + ts) by (unfold a; ring).
  pose proof (Z.div_mod a T ltac:(lia)) as E. pose proof (Z.mod_pos_bound a T HT) as B.
  set (q := a / T) in *. set (r := a mod T) in *.
  assert (E2 : (a + ts) mod T = (r + ts) mod T).
  { rewrite E. replace (T * q + r + ts) with (r + ts + q * T) by ring. apply Z.mod_add. lia. }
  split; [|split].
  - rewrite crosses_div by auto. fold q.
    replace ((a + ts) / T) with (q + (r + ts) / T).
    2:{ rewrite E. replace (T * q + r + ts) with (r + ts + q * T) by ring. rewrite Z.div_add by lia. ring. }
    split; intros H.
    + assert (1 <= (r + ts) / T) by (apply Z.div_le_lower_bound; lia). lia.
    + destruct (Z.lt_ge_cases (r + ts) T) as [L|L]; auto. rewrite Z.div_small in H by lia. lia.
  - intros H. rewrite E2, Z.mod_small; lia.
  - rewrite E2. reflexivity.
Qed.

Section Run.
  Variables (c : cfg) (mstart ts b n : Z).
  Hypothesis Hts : 0 < ts.
  Hypothesis HT : forall T, c_ts c = Some T -> 0 < T.
  Hypothesis Hon : c_on c = true.
  Hypothesis Hb : anchored c mstart ts b.

  Lemma b_nonneg : 0 <= b.
  Proof using Hb. clear - Hb. unfold anchored in Hb. destruct (c_start c); [|lia]. destruct (_ =? _); lia. Qed.

  Definition Inv (k : Z) (s : ost) : Prop :=
    o_mstart s = Some mstart /\
    (b <= k -> (c_single c = false ->
        match c_ts c with None => o_write s = true | Some T => o_dt s = Some (((k - b) * ts) mod T) end) /\
      (0 < b -> o_first s = false)) /\
    (k < b -> o_dt s = Some 0 /\ o_first s = true).

  Lemma schedule_ok k s : 1 <= k -> b < k -> Inv (k - 1) s ->
    exists s1, o_schedule c ts s = Ok s1 /\ Inv k s1 /\ (o_write s1 = true <-> due c ts b k).
  Proof.
    intros Hk Hbk [I1 [I2 _]]. destruct I2 as [I2 I3]; [lia|]. unfold o_schedule, due, Inv.
    destruct (c_single c).
    - eexists. split; [reflexivity|]. split.
      + cbn. split; auto. split; [|lia]. intros _. split; [discriminate|auto].
      + cbn. split; [discriminate|]. intros [H|[_ [H _]]]; [lia|discriminate].
    - specialize (I2 eq_refl). destruct (c_ts c) as [T|] eqn:ET.
      + rewrite I2. pose proof (HT T eq_refl) as HT'.
        destruct (residue T ts (k - 1 - b) HT' Hts ltac:(lia)) as [R1 [R2 R3]].
        replace (k - 1 - b + 1) with (k - b) in * by ring.
        set (d := ((k - 1 - b) * ts) mod T) in *.
        assert (Hd : 0 <= d) by (apply Z.mod_pos_bound; lia).
        rewrite !Z.abs_eq by lia. destruct (Z.leb_spec T (d + ts)).
        * destruct (Z.eqb_spec T 0); [lia|]. eexists. split; [reflexivity|]. cbn. split.
          -- split; auto. split; [|lia]. intros _. split; auto. intros _. f_equal. exact R3.
          -- split; auto. intros _. right. split; auto. split; auto. apply R1; auto.
        * eexists. split; [reflexivity|]. cbn. split.
          -- split; auto. split; [|lia]. intros _. split; auto. intros _. f_equal. auto.
          -- split; [discriminate|]. intros [E|[_ [_ E]]]; [lia|]. apply R1 in E. lia.
      + eexists. split; [reflexivity|]. split.
        * split; auto. split; [|lia]. intros _. split; auto.
        * rewrite I2. split; auto.
  Qed.

  Lemma step_ok k s : 1 <= k -> Inv (k - 1) s ->
    exists s1, o_prepare_step c ts (mstart + (k - 1) * ts * sec_us) s = Ok s1 /\ Inv k s1 /\
      (o_write s1 = true <-> due c ts b k).
  Proof.
    intros Hk HI. unfold o_prepare_step. rewrite Hon. cbn [negb]. unfold anchored in Hb.
    destruct (c_start c) as [st|] eqn:Est; [|apply schedule_ok; auto; lia].
    pose proof HI as [I1 [I2 I3]]. rewrite I1. cbn [eq_opt]. rewrite Z.eqb_sym.
    destruct (Z.eqb_spec st mstart) as [E|E]; [apply schedule_ok; auto; lia|].
    destruct Hb as [B1 [B2 B3]].
    replace (mstart + (k - 1) * ts * sec_us + ts * sec_us) with (mstart + k * ts * sec_us) by ring.
    set (t := mstart + k * ts * sec_us) in *.
    assert (Hlt : t < st -> k < b).
    { intros H. destruct (Z.lt_ge_cases k b) as [|G]; auto. exfalso.
      assert (b * (ts * sec_us) <= k * (ts * sec_us)) by (apply Z.mul_le_mono_nonneg_r; unfold sec_us; lia).
      rewrite !Z.mul_assoc in *. unfold t in *. lia. }
    assert (Hge : st <= t -> b <= k).
    { intros H. destruct (Z.lt_ge_cases k b) as [G|]; auto. specialize (B3 k ltac:(lia)). fold t in B3. lia. }
    destruct (Z.ltb_spec t st) as [L|L].
    - eexists. split; [reflexivity|]. specialize (Hlt L). split.
      + destruct (I3 ltac:(lia)) as [Id If]. split; auto. split; [lia|]. intros _. auto.
      + cbn. split; [discriminate|]. unfold due. lia.
    - destruct (Z.eqb_spec t st) as [Et|Et].
      + assert (k = b) as ->.
        { specialize (Hge L). destruct (Z.eq_dec k b); auto. exfalso.
          assert (b * (ts * sec_us) < k * (ts * sec_us)) by (apply Z.mul_lt_mono_pos_r; unfold sec_us; lia).
          rewrite !Z.mul_assoc in *. unfold t in *. lia. }
        destruct (I3 ltac:(lia)) as [Id If].
        eexists. split; [reflexivity|]. split.
        * split; auto. split; [|lia]. intros _. cbn. split; auto. intros _.
          destruct (c_ts c) as [T|]; auto. rewrite Id. replace ((b - b) * ts) with 0 by ring. rewrite Zmod_0_l. reflexivity.
        * cbn. split; auto. intros _. left. reflexivity.
      + destruct (Z.ltb_spec st t); [|lia]. destruct (Z.ltb_spec 0 ts); [|lia]. cbn [andb orb].
        destruct (Z.eq_dec k b) as [->|Hkb].
        * destruct (I3 ltac:(lia)) as [Id If]. rewrite If.
          eexists. split; [reflexivity|]. split.
          -- split; auto. split; [|lia]. intros _. cbn. split; auto. intros _.
             destruct (c_ts c) as [T|]; auto. rewrite Id. replace ((b - b) * ts) with 0 by ring. rewrite Zmod_0_l. reflexivity.
          -- cbn. split; auto. intros _. left. reflexivity.
        * specialize (Hge L). destruct (I2 ltac:(lia)) as [_ If]. rewrite (If ltac:(lia)).
          apply schedule_ok; auto. lia.
  Qed.

  Lemma write_ok k s il : 1 <= k -> Inv k s ->
    Inv k (o_write_output c k il s) /\
    (o_write (o_write_output c k il s) = true <-> o_write s = true \/ (il = true /\ c_last c = true)).
  Proof.
    intros Hk HI. unfold o_write_output. destruct (Z.eqb_spec k 0); [lia|].
    destruct il, (c_last c); cbn [andb]; split; auto; try tauto.
    - destruct HI as [I1 [I2 I3]]. split; auto. split; auto. intros G. destruct (I2 G) as [I4 I5]. split; auto.
      intros E. specialize (I4 E). destruct (c_ts c); auto.
    - intuition discriminate.
    - intuition discriminate.
    - intuition discriminate.
  Qed.

  Lemma steps_ok fuel : forall k s, 1 <= k -> k + Z.of_nat fuel = n -> Inv (k - 1) s ->
    exists l, steps c ts mstart n fuel k s = Ok l /\ StronglySorted Z.lt l /\
      forall j, In j l <-> k <= j < n /\ (due c ts b j \/ (j = n - 1 /\ c_last c = true)).
  Proof.
    induction fuel as [|fuel IH]; intros k s Hk Hn HI.
    - exists []. split; [reflexivity|]. split; [constructor|]. intros j. cbn. split; [tauto|]. lia.
    - destruct (step_ok k s Hk HI) as [s1 [E1 [HI1 W1]]].
      destruct (write_ok k s1 (k =? n - 1) Hk HI1) as [HI2 W2].
      set (s2 := o_write_output c k (k =? n - 1) s1) in *.
      destruct (IH (k + 1) s2) as [r [E2 [Ss Hr]]]; try lia.
      { replace (k + 1 - 1) with k by ring. exact HI2. }
      cbn [steps]. rewrite E1. cbn [bind]. fold s2. rewrite E2. cbn [bind]. rewrite Hon. cbn [andb].
      eexists. split; [reflexivity|].
      assert (W3 : o_write s2 = true <-> due c ts b k \/ (k = n - 1 /\ c_last c = true)).
      { rewrite W2, W1, Z.eqb_eq. tauto. }
      destruct (o_write s2) eqn:Ew.
      + split.
        * constructor; auto. apply Forall_forall. intros j Hj. apply Hr in Hj. lia.
        * intros j. cbn [In]. rewrite Hr. split.
          -- intros [<-|[H1 H2]]; [|split; [lia|auto]]. split; [lia|]. apply W3. reflexivity.
          -- intros [H1 H2]. destruct (Z.eq_dec k j); auto. right. split; [lia|auto].
      + split; auto. intros j. rewrite Hr. split.
        * intros [H1 H2]. split; [lia|auto].
        * intros [H1 H2]. split; auto. destruct (Z.eq_dec k j) as [<-|]; [|lia].
          exfalso. apply W3 in H2. discriminate.
  Qed.

  Lemma single0_iff s0 : o_single0 (o_prepare_run c mstart s0) = true <-> c_single c = true /\ b = 0.
  Proof using Hb. clear - Hb.
    cbn. unfold anchored in Hb. destruct (c_start c) as [st|]; cbn [eq_opt].
    - rewrite orb_false_r. destruct (Z.eqb_spec st mstart).
      + rewrite andb_true_r. intuition.
      + rewrite andb_false_r. split; [discriminate|]. lia.
    - rewrite orb_true_r, andb_true_r. intuition.
  Qed.
End Run.

Lemma live_run_ok c s0 mstart ts b n :
  0 < ts -> (forall T, c_ts c = Some T -> 0 < T) -> anchored c mstart ts b ->
  (c_ts c = None -> c_single c = false -> b = 0 -> c_zero c = true) ->
  exists l, live_run c s0 mstart ts n = Ok l /\ StronglySorted Z.lt l /\
    forall k, In k l <-> scheduled c ts (Z.of_nat n) b k.
Proof.
  intros Hts HT Hb Hz. unfold live_run, scheduled. destruct (c_on c) eqn:Hon.
  - destruct n as [|m].
    + exists []. split; [reflexivity|]. split; [constructor|]. intros k. cbn. split; [tauto|]. lia.
    + set (s := o_prepare_run c mstart (o_rewind s0)).
      set (s1 := o_write_output c 0 (0 =? Z.of_nat (S m) - 1) s).
      pose proof (single0_iff c mstart ts b Hb (o_rewind s0)) as H0. fold s in H0.
      assert (W : o_write s1 = true <->
        (c_zero c = true \/ (c_single c = true /\ b = 0)) \/ (0 = Z.of_nat (S m) - 1 /\ c_last c = true)).
      { unfold s1, o_write_output. change (0 =? 0) with true. cbv iota. rewrite <- H0.
        destruct (Z.eqb_spec 0 (Z.of_nat (S m) - 1)) as [E0|E0]; destruct (c_last c); cbn [andb set_write o_write];
          rewrite ?orb_true_iff; intuition congruence. }
      assert (HI : Inv c mstart ts b (1 - 1) s1).
      { pose proof (b_nonneg c mstart ts b Hb) as Hb0.
        unfold s1, o_write_output. change (0 =? 0) with true. cbv iota. replace (1 - 1) with 0 by ring.
        assert (G : Inv c mstart ts b 0 (set_write s (c_zero c || o_single0 s))).
        { split; [reflexivity|]. split.
          - intros Hle. assert (b = 0) as -> by lia. split; [|lia]. intros Hsi.
            destruct (c_ts c) as [T|] eqn:ET; cbn.
            + rewrite ?Zmod_0_l; reflexivity.
            + rewrite Hz; auto.
          - intros _. cbn. auto. }
        destruct ((0 =? Z.of_nat (S m) - 1) && c_last c); [|exact G].
        destruct G as [G1 [G2 G3]]. split; auto. split; auto. intros Q. destruct (G2 Q) as [G4 G5]. split; auto.
        intros E. specialize (G4 E). destruct (c_ts c); auto. }
      destruct (steps_ok c mstart ts b (Z.of_nat (S m)) Hts HT Hon Hb m 1 s1) as [r [E [Ss Hr]]]; auto; try lia.
      rewrite E. cbn [bind andb]. eexists. split; [reflexivity|].
      assert (Hr' : forall k, In k r <-> (0 <= k < Z.of_nat (S m) /\ 1 <= k) /\
         (due c ts b k \/ (k = Z.of_nat (S m) - 1 /\ c_last c = true))).
      { intros k. rewrite Hr. intuition lia. }
      destruct (o_write s1) eqn:Ew.
      * split.
        -- constructor; auto. apply Forall_forall. intros j Hj. apply Hr in Hj. lia.
        -- intros k. cbn [In]. rewrite Hr'. split.
           ++ intros [<-|[[H1 H2] [H3|H3]]].
              ** destruct W as [W _]. specialize (W eq_refl). split; [lia|]. split; auto.
                 destruct W as [W|[W1 W2]]; auto.
              ** split; [lia|]. split; auto.
              ** split; [lia|]. split; auto.
           ++ intros [H1 [_ H2]]. destruct (Z.eq_dec k 0) as [->|]; auto. right.
              split; [lia|]. destruct H2 as [H2|[H2|H2]]; [lia|auto|tauto].
      * split; auto. intros k. rewrite Hr'. split.
        -- intros [[H1 H2] [H3|H3]]; (split; [lia|]); split; auto.
        -- intros [H1 [_ H2]]. destruct (Z.eq_dec k 0) as [->|].
           ++ exfalso. destruct W as [_ W]. discriminate W.
              destruct H2 as [[_ H2]|[[H2 H3]|[H2 _]]]; [auto|auto|lia].
           ++ split; [lia|]. destruct H2 as [H2|[H2|[_ H2]]]; [lia|auto|auto].
  - exists []. split; [|split; [constructor|]].
    + destruct n as [|m]; [reflexivity|]. cbn [andb].
      assert (G : forall fuel k s nn, steps c ts mstart nn fuel k s = Ok []).
      { induction fuel as [|fuel IH]; intros k s nn; [reflexivity|]. cbn [steps].
        unfold o_prepare_step. rewrite Hon. cbn [negb bind]. rewrite IH. reflexivity. }
      rewrite G. reflexivity.
    + intros k. cbn. split; [tauto|]. intros [_ [H _]]. discriminate.
Qed.

Lemma anchor_exists c mstart ts : 0 < ts -> exists b, anchored c mstart ts b.
Proof.
  intros Hts. unfold anchored. destruct (c_start c) as [st|]; [|eauto].
  destruct (Z.eqb_spec st mstart); [eauto|].
  set (u := ts * sec_us). assert (Hu : 0 < u) by (unfold u, sec_us; lia).
  set (b := Z.max 1 (- ((mstart - st) / u))). exists b.
  pose proof (Z.div_mod (mstart - st) u ltac:(lia)). pose proof (Z.mod_pos_bound (mstart - st) u Hu).
  set (q := (mstart - st) / u) in *. set (r := (mstart - st) mod u) in *.
  split; [unfold b; lia|]. split.
  - rewrite <- Z.mul_assoc. fold u. assert (- q * u <= b * u) by (apply Z.mul_le_mono_nonneg_r; unfold b; lia). lia.
  - intros j Hj. rewrite <- Z.mul_assoc. fold u. assert (Hq : j <= - q - 1) by (unfold b in Hj; lia).
    assert (j * u <= (- q - 1) * u) by (apply Z.mul_le_mono_nonneg_r; lia). lia.
Qed.

(** ** Backward *)

Lemma mod_neg_zero x T : T <> 0 -> x mod T = 0 -> (- x) mod T = 0.
Proof. intros H E. rewrite Z.mod_opp_l_z; auto. Qed.

Section Back.
  Variables (c : cfg) (m1 m2 ts n : Z).
  Hypothesis Hts : 0 < ts.
  Hypothesis HT : forall T, c_ts c = Some T -> 0 < T /\ ((ts | T) \/ (T | ts)).
  Hypothesis Hst : c_start c = None.

  Definition Mirror (a b : ost) : Prop :=
    o_write a = o_write b /\ o_single0 a = o_single0 b /\
    (forall T, c_ts c = Some T -> exists d, o_dt a = Some d /\ o_dt b = Some (- d) /\ 0 <= d < T /\ (ts | d) /\ ((T | ts) -> d = 0)).

  Lemma mirror_step k s1 s2 : Mirror s1 s2 ->
    exists t1 t2, o_prepare_step c ts (m1 + (k - 1) * ts * sec_us) s1 = Ok t1 /\
      o_prepare_step c (- ts) (m2 + (k - 1) * (- ts) * sec_us) s2 = Ok t2 /\ Mirror t1 t2.
  Proof.
    intros [M1 [M2 M3]]. unfold o_prepare_step. rewrite Hst. destruct (c_on c); cbn [negb].
    2:{ exists s1, s2. repeat split; auto. }
    unfold o_schedule. destruct (c_single c).
    { eexists _, _. split; [reflexivity|]. split; [reflexivity|]. repeat split; auto. }
    destruct (c_ts c) as [T|] eqn:ET.
    2:{ eexists _, _. split; [reflexivity|]. split; [reflexivity|]. split; auto. split; auto. congruence. }
    destruct (M3 T eq_refl) as [d [D1 [D2 [D3 [D4 D5]]]]]. rewrite D1, D2.
    destruct (HT T eq_refl) as [HTp Hdiv].
    replace (- d + - ts) with (- (d + ts)) by ring. rewrite Z.abs_opp, !Z.abs_eq by lia.
    destruct (Z.eqb_spec T 0); [lia|].
    destruct (Z.leb_spec T (d + ts)) as [L|L].
    - assert (E : (d + ts) mod T = 0).
      { destruct Hdiv as [Hd|Hd].
        - destruct D4 as [q Eq]. destruct Hd as [p Ep]. assert (q + 1 = p).
          { assert (q < p) by nia. assert (p <= q + 1) by nia. lia. }
          replace (d + ts) with (1 * T) by (subst; ring). apply Z.mod_mul. lia.
        - rewrite (D5 Hd). destruct Hd as [p Ep]. subst ts. rewrite Z.add_0_l. apply Z.mod_mul. lia. }
      eexists _, _. split; [reflexivity|]. split; [reflexivity|]. split; auto. split; auto.
      intros T' HH. rewrite ET in HH. injection HH as <-. exists 0. cbn. rewrite E, mod_neg_zero; auto.
      repeat split; auto; try lia. exists 0. ring.
    - eexists _, _. split; [reflexivity|]. split; [reflexivity|]. split; auto. split; auto.
      intros T' HH. rewrite ET in HH. injection HH as <-. exists (d + ts). cbn. repeat split; auto; try lia.
      + apply Z.divide_add_r; auto. exists 1. ring.
      + intros Hd. apply Z.divide_pos_le in Hd; lia.
  Qed.

  Lemma mirror_write k il s1 s2 : Mirror s1 s2 -> Mirror (o_write_output c k il s1) (o_write_output c k il s2).
  Proof.
    intros [M1 [M2 M3]]. unfold o_write_output. rewrite M2.
    destruct (k =? 0); destruct (il && c_last c); split; cbn; auto.
  Qed.

  Lemma mirror_steps fuel : forall k s1 s2, Mirror s1 s2 ->
    steps c ts m1 n fuel k s1 = steps c (- ts) m2 n fuel k s2.
  Proof.
    induction fuel as [|fuel IH]; intros k s1 s2 HM; [reflexivity|]. cbn [steps].
    destruct (mirror_step k s1 s2 HM) as [t1 [t2 [E1 [E2 HM']]]]. rewrite E1, E2. cbn [bind].
    pose proof (mirror_write k (k =? n - 1) t1 t2 HM') as HM2.
    rewrite (IH (k + 1) _ _ HM2). destruct HM2 as [-> _]. reflexivity.
  Qed.
End Back.

Lemma backward_ok c s1 s2 m1 m2 ts n :
  0 < ts -> (forall T, c_ts c = Some T -> 0 < T /\ ((ts | T) \/ (T | ts))) -> c_start c = None ->
  live_run c s2 m2 (- ts) n = live_run c s1 m1 ts n.
Proof.
  intros Hts HT Hst. unfold live_run. destruct n as [|m]; [reflexivity|].
  assert (HM : Mirror c ts (o_prepare_run c m1 (o_rewind s1)) (o_prepare_run c m2 (o_rewind s2))).
  { unfold o_prepare_run, Mirror. rewrite Hst. cbn. split; auto. split; auto. intros T E. exists 0.
    destruct (HT T E). repeat split; auto; try lia. exists 0. ring. }
  pose proof (mirror_write c ts 0 (0 =? Z.of_nat (S m) - 1) _ _ HM) as HM2.
  rewrite (mirror_steps c m1 m2 ts (Z.of_nat (S m)) Hts HT Hst m 1 _ _ HM2).
  destruct HM2 as [-> _]. reflexivity.
Qed.

(** ** After the run *)

Lemma td_seconds_ok ts a b : b - a = ts * sec_us -> 0 < ts < 86400 -> td_seconds (b - a) = ts.
Proof.
  intros -> H. unfold td_seconds. rewrite Z.mod_small by (unfold sec_us; lia). apply Z.div_mul. unfold sec_us. lia.
Qed.

Section Post.
  Variables (c : cfg) (mstart ts n : Z).
  Hypothesis Hts : 0 < ts < 86400.
  Hypothesis Hlast : c_last c = true.
  Let stamp (k : Z) := mstart + k * ts * sec_us.

  Lemma no_error k s : c_on c = true -> (forall T, c_ts c = Some T -> 0 < T) -> (exists d, o_dt s = Some d) ->
    exists s1, o_prepare_step c ts (mstart + (k - 1) * ts * sec_us) s = Ok s1 /\ exists d, o_dt s1 = Some d.
  Proof.
    intros Hon HT [d Hd]. assert (G : exists s1, o_schedule c ts s = Ok s1 /\ exists d, o_dt s1 = Some d).
    { unfold o_schedule. destruct (c_single c); [eexists; split; [reflexivity|cbn; eauto]|].
      destruct (c_ts c) as [T|] eqn:ET; [|eauto]. rewrite Hd. destruct (_ <=? _); [|eexists; split; [reflexivity|cbn; eauto]].
      specialize (HT T eq_refl). destruct (Z.eqb_spec T 0); [lia|]. eexists; split; [reflexivity|cbn; eauto]. }
    unfold o_prepare_step. rewrite Hon. cbn [negb]. destruct (c_start c) as [st|]; auto.
    destruct (eq_opt (o_mstart s) st); auto. destruct (_ <? _); [eexists; split; [reflexivity|cbn; eauto]|].
    destruct (_ =? _); [eexists; split; [reflexivity|cbn; eauto]|].
    destruct (_ || _); auto. destruct (o_first s); auto. eexists; split; [reflexivity|cbn; eauto].
  Qed.

  Lemma post_steps_ok (HT : forall T, c_ts c = Some T -> 0 < T) fuel : forall k s, 1 <= k -> k + Z.of_nat fuel = n ->
    (exists d, o_dt s = Some d) ->
    post_steps c stamp n fuel k (stamp (k - 1)) s = steps c ts mstart n fuel k s.
  Proof.
    induction fuel as [|fuel IH]; intros k s Hk Hn Hd; [reflexivity|]. cbn [post_steps steps].
    destruct (Z.ltb_spec 0 k); [|lia]. cbn [andb].
    destruct (c_on c) eqn:Hon.
    2:{ assert (P : forall t, o_prepare_step c t (stamp (k - 1)) s = Ok s /\ o_prepare_step c ts (mstart + (k - 1) * ts * sec_us) s = Ok s).
        { intros t. unfold o_prepare_step. rewrite Hon. cbn. auto. }
        destruct (P (td_seconds (stamp k - stamp (k - 1)))) as [P1 P2]. rewrite P1, P2.
        assert (Hd' : exists d, o_dt (o_write_output c k (k =? n - 1) s) = Some d).
        { destruct Hd as [d Hd]. exists d. unfold o_write_output.
          destruct (k =? 0); destruct (_ && _); cbn; auto. }
        pose proof (IH (k + 1) (o_write_output c k (k =? n - 1) s) ltac:(lia) ltac:(lia) Hd') as Q.
        replace (k + 1 - 1) with k in Q by ring.
        destruct (k <? n - 1); cbn [bind andb]; rewrite Q; reflexivity. }
    destruct (Z.ltb_spec k (n - 1)) as [L|L].
    - rewrite (td_seconds_ok ts); auto. 2:{ unfold stamp. ring. }
      destruct (no_error k s Hon HT Hd) as [s1 [E1 [d1 D1]]].
      change (stamp (k - 1)) with (mstart + (k - 1) * ts * sec_us). rewrite E1. cbn [bind].
      assert (Hd' : exists d, o_dt (o_write_output c k (k =? n - 1) s1) = Some d).
      { exists d1. unfold o_write_output. destruct (k =? 0); destruct (_ && _); cbn; auto. }
      pose proof (IH (k + 1) (o_write_output c k (k =? n - 1) s1) ltac:(lia) ltac:(lia) Hd') as Q.
      replace (k + 1 - 1) with k in Q by ring. rewrite Q. reflexivity.
    - assert (k = n - 1) by lia. assert (fuel = O) by lia. subst fuel. cbn [post_steps steps bind].
      destruct (no_error k s Hon HT Hd) as [s1 [E1 _]]. rewrite E1. cbn [bind].
      destruct (Z.eqb_spec k (n - 1)); [|lia]. unfold o_write_output. rewrite Hlast. reflexivity.
  Qed.
End Post.

Lemma post_run_ok c s1 s2 mstart ts n :
  0 < ts < 86400 -> c_last c = true -> (forall T, c_ts c = Some T -> 0 < T) ->
  post_run c s2 mstart (fun k => mstart + k * ts * sec_us) n = live_run c s1 mstart ts n.
Proof.
  intros Hts Hl HT. unfold post_run, live_run. destruct n as [|m]; [reflexivity|].
  cbn [post_steps Z.ltb Z.compare andb bind].
  assert (E : o_write_output c 0 (0 =? Z.of_nat (S m) - 1) (o_prepare_run c mstart (o_rewind s2)) =
              o_write_output c 0 (0 =? Z.of_nat (S m) - 1) (o_prepare_run c mstart (o_rewind s1))) by reflexivity.
  rewrite E. set (s := o_write_output c 0 _ _).
  pose proof (post_steps_ok c mstart ts (Z.of_nat (S m)) Hts Hl HT m (0 + 1) s ltac:(lia) ltac:(lia)) as Q.
  replace (0 + 1 - 1) with 0 in Q by ring. cbv zeta. rewrite Q; [reflexivity|].
  exists 0. unfold s, o_write_output. change (0 =? 0) with true. cbv iota. destruct (_ && _); reflexivity.
Qed.
