(** * Proofs about response options *)
From Coq Require Import QArith Lqa.
From Verif Require Import Py PyLemmas QLemmas RocModel RocSpec.
Open Scope Q_scope.

Lemma Qltb_iff a b : Qltb a b = true <-> a < b.
Proof.
  unfold Qltb. rewrite Bool.negb_true_iff. split.
  - intros H. apply Qnot_le_lt. rewrite <- Qle_bool_iff. congruence.
  - intros H. destruct (Qle_bool b a) eqn:E; [|reflexivity]. apply Qle_bool_iff in E. lra.
Qed.
Lemma Qltb_no a b : Qltb a b = false <-> b <= a.
Proof. unfold Qltb. rewrite Bool.negb_false_iff. apply Qle_bool_iff. Qed.
Lemma Qleb_no a b : Qle_bool a b = false <-> b < a.
Proof.
  split; intros H.
  - apply Qnot_le_lt. rewrite <- Qle_bool_iff. congruence.
  - destruct (Qle_bool a b) eqn:E; [|reflexivity]. apply Qle_bool_iff in E. lra.
Qed.
Lemma Qeqb_no a b : Qeq_bool a b = false <-> ~ a == b.
Proof. rewrite <- Qeq_bool_iff. destruct (Qeq_bool a b); intuition congruence. Qed.

Ltac qcase :=
  match goal with
  | |- context [Qltb ?a ?b] => let H := fresh "C" in destruct (Qltb a b) eqn:H; [apply Qltb_iff in H | apply Qltb_no in H]
  | |- context [Qle_bool ?a ?b] => let H := fresh "C" in destruct (Qle_bool a b) eqn:H; [apply Qle_bool_iff in H | apply Qleb_no in H]
  | |- context [Qeq_bool ?a ?b] => let H := fresh "C" in destruct (Qeq_bool a b) eqn:H; [apply Qeq_bool_iff in H | apply Qeqb_no in H]
  end.

(** ** Schedules *)

Lemma index_from_spec : forall ts i t, (0 <= i)%Z ->
  (index_from i ts t = (-1)%Z /\ Forall (fun e => ~ within e t) ts) \/
  exists k e, index_from i ts t = (i + Z.of_nat k)%Z /\ nth_error ts k = Some e /\ within e t.
Proof.
  induction ts as [|[a b] r IH]; intros i t I0; cbn [index_from]; [left; now split|].
  destruct ((a <=? t) && (t <? b))%Z eqn:C.
  - right. exists 0%nat, (a, b). apply andb_true_iff in C. split; [lia|]. split; [reflexivity|]. unfold within. cbn. lia.
  - assert (N : ~ within (a, b) t) by (unfold within; cbn; apply andb_false_iff in C; lia).
    destruct (IH (i + 1)%Z t) as [[E F]|(k & e & E & Nk & Wk)]; [lia| |].
    + left. split; [exact E|]. now constructor.
    + right. exists (S k), e. split; [lia|]. now split.
Qed.

Lemma orderly_tail e r : orderly (e :: r) -> orderly r.
Proof. destruct e. cbn. tauto. Qed.
Lemma orderly_after a b r : orderly ((a, b) :: r) -> Forall (fun e => (b <= fst e /\ fst e < snd e)%Z) r.
Proof.
  revert a b. induction r as [|[a2 b2] r IH]; intros a b O; [constructor|].
  cbn in O. destruct O as (L & B & L2 & O2).
  constructor; [cbn; lia|]. assert (O' : orderly ((a2, b2) :: r)) by (cbn; tauto).
  specialize (IH _ _ O'). eapply Forall_impl; [|exact IH]. cbn. lia.
Qed.
Lemma orderly_last a b r : orderly ((a, b) :: r) -> (b <= snd (last ((a, b) :: r) (0, 0)))%Z.
Proof.
  revert a b. induction r as [|[a2 b2] r IH]; intros a b O; [cbn; lia|].
  assert (O' : orderly ((a2, b2) :: r)) by (cbn in *; tauto).
  specialize (IH _ _ O'). change (last ((a, b) :: (a2, b2) :: r) (0, 0)%Z) with (last ((a2, b2) :: r) (0, 0)%Z).
  cbn in O. lia.
Qed.

Lemma gap_spec : forall ts i t, orderly ts -> Forall (fun e => ~ within e t) ts ->
  (match ts with [] => True | e :: _ => (fst e <= t)%Z end) -> ts <> [] -> (t < snd (last ts (0, 0)))%Z ->
  exists k e0 e1, gap_from i ts t = Some (i + 1 + Z.of_nat k)%Z /\ nth_error ts k = Some e0 /\ nth_error ts (S k) = Some e1 /\
    (snd e0 <= t < fst e1)%Z.
Proof.
  induction ts as [|[a b] r IH]; intros i t O NW LE NE LA; [congruence|].
  inversion NW as [|? ? N NR]; subst. cbn [fst] in LE.
  assert (BT : (b <= t)%Z) by (unfold within in N; cbn in N; lia).
  destruct r as [|[a2 b2] r].
  - cbn in LA. lia.
  - change (gap_from i ((a, b) :: (a2, b2) :: r) t) with
      (if ((b <=? t) && (t <? a2))%Z then Some (i + 1)%Z else gap_from (i + 1)%Z ((a2, b2) :: r) t).
    destruct ((b <=? t) && (t <? a2))%Z eqn:C.
    + apply andb_true_iff in C. exists 0%nat, (a, b), (a2, b2). cbn [nth_error fst snd]. repeat split; try lia. f_equal. lia.
    + assert (A2 : (a2 <= t)%Z) by (apply andb_false_iff in C; lia).
      destruct (IH (i + 1)%Z t (orderly_tail _ _ O) NR A2) as (k & e0 & e1 & G & N0 & N1 & W); [discriminate|exact LA|].
      exists (S k), e0, e1. split; [rewrite G; f_equal; lia|]. now split.
Qed.

(** ** Burn *)

Section Burn.
  Variable p : bpar.
  Hypothesis GP : good_burn p.

  Definition rate_ok (s : bst) : Prop := match s_brate s with Some r => 0 < r | None => True end.
  Definition cap_ok (s : bst) : Prop := 0 <= s_cap s /\ s_cap s <= p_capmax p.

  Definition flags (s : bst) (c t b k : bool) : Prop := s_coll s = c /\ s_tran s = t /\ s_burn s = b /\ s_clean s = k.

  Definition PColl s := flags s true false false false /\ s_btime s = None /\ s_full s = false /\ rate_ok s /\ cap_ok s.
  Definition PTranE s := flags s false true false false /\ s_btime s = None /\ s_full s = false /\ rate_ok s /\ cap_ok s /\ 0 <= s_off s.
  Definition PTranF s := flags s false true false false /\ s_btime s = None /\ s_full s = true /\
    (exists r, s_brate s = Some r /\ 0 < r) /\ s_cap s == 0 /\ 0 <= s_off s.
  Definition PBurn s := flags s false false true false /\ (exists r, s_brate s = Some r /\ 0 < r) /\ s_cap s == 0 /\
    match s_btime s with Some b => 0 <= s_brem s | None => True end.
  Definition PClean s := flags s false false false true /\ s_full s = false /\ rate_ok s /\ cap_ok s /\ 0 <= s_crem s.
  Definition PNone s := flags s false false false false /\ s_btime s = None /\ s_full s = false /\ rate_ok s /\ cap_ok s.
  Definition Inv s := PColl s \/ PTranE s \/ PTranF s \/ PBurn s \/ PClean s \/ PNone s.

  (** One activity: some time passes and is logged. *)
  Definition goes (s s' : bst) : Prop := exists a d, 0 <= d /\ s_log s' = s_log s ++ [(a, d)] /\ s_t s' == s_t s - d /\ 0 <= s_t s'.

  Lemma cap_pos : 0 < p_capmax p. Proof. apply GP. Qed.

  Lemma collect_spec e s : good_slick e -> PColl s -> 0 < s_t s ->
    exists s', collect p e s = Ok s' /\ goes s s' /\ s_tbur s' = s_tbur s /\ s_cap s' == s_cap s - s_tcol s' /\ 0 <= s_tcol s' /\
    ((PColl s' /\ s_t s' == 0) \/ PTranF s').
  Proof.
    intros [GT GF] ((F1 & F2 & F3 & F4) & BT & FU & RO & C0 & C1) T.
    destruct GP as (G1 & G2 & G3 & G4 & G5 & G6 & G7).
    unfold collect. cbv zeta.
    set (rr := (6313 # 100) * p_swath p * e_thick e * p_speed p * p_throughput p).
    set (br := match s_brate s with None => _ | r => r end).
    assert (BR : exists r, br = Some r /\ 0 < r).
    { unfold br, rate_ok in *. destruct (s_brate s) as [r|]; [now exists r|]. eexists. split; [reflexivity|]. nra. }
    destruct BR as (r0 & BR & R0). rewrite BR.
    assert (NEV : forall st, 0 <= st -> st <= s_cap s -> st = rr * s_t s / p_gal p ->
      exists s', Ok (mkBS (s_coll s) (s_tran s) (s_burn s) (s_clean s) (s_full s)
                    (s_cap s - rr * s_t s / p_gal p) (s_off s) (s_brem s) (s_crem s) (s_btime s) (Some r0)
                    0 (rr * s_t s / p_gal p) (s_tbur s) (s_burning s) (s_log s ++ [(Collect, s_t s)])) = Ok s' /\
      goes s s' /\ s_tbur s' = s_tbur s /\ s_cap s' == s_cap s - s_tcol s' /\ 0 <= s_tcol s' /\
      ((PColl s' /\ s_t s' == 0) \/ PTranF s')).
    { intros st S0 S1 SE. eexists. split; [reflexivity|]. split.
      { exists Collect, (s_t s). cbn. split; [lra|]. split; [reflexivity|]. split; lra. }
      cbn. split; [reflexivity|]. split; [reflexivity|]. rewrite <- SE. split; [exact S0|]. left. split; [|reflexivity].
      repeat split; cbn; try assumption; try lra. }
    qcase.
    - assert (RR : 0 < rr) by (unfold rr; repeat apply Qmult_lt_0_compat; try assumption; reflexivity).
      destruct (Qeq_bool rr 0) eqn:Z; [apply Qeq_bool_iff in Z; lra|]. cbn [bind].
      set (f := s_cap s * p_gal p / rr).
      assert (FE : rr * f / p_gal p == s_cap s) by (unfold f; field; split; lra).
      assert (F0 : 0 <= f) by (unfold f; apply Qle_shift_div_l; [exact RR|]; nra).
      destruct (Qle_bool (s_t s) f) eqn:L; [apply Qle_bool_iff in L|apply Qleb_no in L].
      + apply (NEV (rr * s_t s / p_gal p)); [apply Qle_shift_div_l; nra| |reflexivity].
        apply Qle_shift_div_r; [exact G7|]. assert (rr * f == s_cap s * p_gal p) by (unfold f; field; lra). nra.
      + assert (TT : Qltb 0 (s_t s) = true) by (apply Qltb_iff; exact T). rewrite TT.
        eexists. split; [reflexivity|]. split.
        { exists Collect, f. cbn. split; [exact F0|]. split; [reflexivity|]. split; lra. }
        cbn. split; [reflexivity|]. split; [reflexivity|]. split; [rewrite FE; exact C0|]. right.
        repeat split; cbn; try assumption; try lra. now exists r0.
    - cbn [bind]. destruct (Qle_bool (s_t s) (s_t s)) eqn:L; [|apply Qleb_no in L; lra].
      assert (RZ : rr == 0) by (unfold rr; assert (e_thick e == 0) as -> by lra; ring).
      apply (NEV (rr * s_t s / p_gal p)); [| |reflexivity].
      + rewrite RZ. apply Qle_shift_div_l; lra.
      + rewrite RZ. apply Qle_shift_div_r; nra.
  Qed.

  Lemma transit_specF s : PTranF s -> 0 < s_t s -> let s' := transit s in
    goes s s' /\ s_tbur s' = s_tbur s /\ s_tcol s' = s_tcol s /\ s_cap s' = s_cap s /\
    ((PTranF s' /\ s_t s' == 0) \/ PBurn s').
  Proof.
    intros ((F1 & F2 & F3 & F4) & BT & FU & (r & R & RP) & C & O) T. cbv zeta. unfold transit.
    qcase.
    - split. { exists Transit, (s_t s). cbn. split; [lra|]. split; [reflexivity|]. split; lra. }
      cbn. split; [reflexivity|]. split; [reflexivity|]. split; [reflexivity|]. left. split; [|reflexivity].
      repeat split; cbn; try assumption; try lra. now exists r.
    - assert (TT : Qltb 0 (s_t s) = true) by (apply Qltb_iff; exact T). rewrite TT, FU.
      split. { exists Transit, (s_off s). cbn. split; [lra|]. split; [reflexivity|]. split; lra. }
      cbn. split; [reflexivity|]. split; [reflexivity|]. split; [reflexivity|]. right.
      repeat split; cbn; try assumption; [now exists r|]. rewrite BT. exact I.
  Qed.

  Lemma transit_specE s : PTranE s -> 0 < s_t s -> let s' := transit s in
    goes s s' /\ s_tbur s' = s_tbur s /\ s_tcol s' = s_tcol s /\ s_cap s' = s_cap s /\
    ((PTranE s' /\ s_t s' == 0) \/ PColl s').
  Proof.
    intros ((F1 & F2 & F3 & F4) & BT & FU & R & C & O) T. cbv zeta. unfold transit.
    qcase.
    - split. { exists Transit, (s_t s). cbn. split; [lra|]. split; [reflexivity|]. split; lra. }
      cbn. split; [reflexivity|]. split; [reflexivity|]. split; [reflexivity|]. left. split; [|reflexivity].
      repeat split; cbn; try assumption; try lra; try apply C.
    - assert (TT : Qltb 0 (s_t s) = true) by (apply Qltb_iff; exact T). rewrite TT, FU.
      split. { exists Transit, (s_off s). cbn. split; [lra|]. split; [reflexivity|]. split; lra. }
      cbn. split; [reflexivity|]. split; [reflexivity|]. split; [reflexivity|]. right.
      repeat split; cbn; try assumption; try apply C.
  Qed.

  (** [burn] also runs when no time is left. *)
  Lemma burn_spec s : PBurn s -> 0 <= s_t s ->
    exists s', burn p s = Ok s' /\ s_tcol s' = s_tcol s /\
    ((s_t s == 0 /\ s_t s' == 0 /\ PBurn s' /\ (s_log s' = s_log s \/ goes s s') /\ s_tbur s' = s_tbur s /\ s_cap s' = s_cap s) \/
     (goes s s' /\ s_t s' == 0 /\ PBurn s' /\ s_tbur s' = s_tbur s /\ s_cap s' = s_cap s) \/
     (goes s s' /\ PClean s' /\ s_crem s' == 3600 /\ s_tbur s' == p_capmax p /\ s_cap s' == p_capmax p)).
  Proof.
    intros ((F1 & F2 & F3 & F4) & (r & R & RP) & C & B) T.
    destruct GP as (G1 & G2 & G3 & G4 & G5 & G6 & G7).
    unfold burn. rewrite R.
    match goal with |- exists s', bind ?m _ = _ /\ _ => assert (X : exists b brem, m = Ok (b, brem) /\ 0 <= brem) end.
    { destruct (s_btime s) as [b|]; [now exists b, (s_brem s)|].
      destruct (Qeq_bool r 0) eqn:Z; [apply Qeq_bool_iff in Z; lra|]. cbv zeta.
      assert (CL : Qle_bool (Qabs (s_cap s)) (1 # 100000000) = true) by (apply Qle_bool_iff; rewrite C; discriminate).
      rewrite CL. eexists _, _. split; [reflexivity|].
      apply Qmult_le_0_compat; [|discriminate]. apply Qle_shift_div_l; [exact RP|]. nra. }
    destruct X as (b & brem & X & BP). rewrite X. cbn [bind].
    qcase.
    - eexists. split; [reflexivity|]. cbn. split; [reflexivity|]. right. left.
      split. { exists BurnA, (s_t s). cbn. split; [lra|]. split; [reflexivity|]. split; lra. }
      split; [reflexivity|]. split; [|split; reflexivity].
      repeat split; cbn; try assumption; try lra. now exists r.
    - qcase.
      + eexists. split; [reflexivity|]. cbn. split; [reflexivity|]. right. right.
        split. { exists BurnA, brem. cbn. split; [exact BP|]. split; [reflexivity|]. split; lra. }
        split. { unfold PClean, rate_ok, cap_ok. repeat split; cbn; try assumption; try lra; try discriminate. }
        split; [reflexivity|]. split; [rewrite C; lra|lra].
      + eexists. split; [reflexivity|]. cbn. split; [reflexivity|]. left.
        split; [lra|]. split; [lra|]. split; [repeat split; cbn; try assumption; now exists r|].
        split; [now left|]. split; reflexivity.
  Qed.

  Lemma clean_spec e s : PClean s -> 0 < s_t s -> let s' := clean p e s in
    s_tbur s' = s_tbur s /\ s_tcol s' = s_tcol s /\ s_cap s' = s_cap s /\
    ((goes s s' /\ PClean s' /\ s_t s' == 0) \/
     (goes s s' /\ e_active e = true /\ PTranE s' /\ s_t s' == s_t s - s_crem s /\ s_crem s <= s_t s) \/
     (e_active e = false /\ PNone s' /\ s_t s' == 0 /\ exists d, 0 <= d /\ d <= s_t s /\ s_log s' = s_log s ++ [(Clean, d)])).
  Proof.
    intros ((F1 & F2 & F3 & F4) & FU & R & [C0 C1] & K) T. cbv zeta. unfold clean.
    destruct GP as (G1 & G2 & G3 & G4 & G5 & G6 & G7).
    assert (TT : Qltb 0 (s_t s) = true) by (apply Qltb_iff; exact T).
    qcase.
    - cbn. split; [reflexivity|]. split; [reflexivity|]. split; [reflexivity|]. left. split.
      { exists Clean, (s_t s). cbn. split; [lra|]. split; [reflexivity|]. split; lra. }
      split; [|reflexivity]. unfold PClean, rate_ok, cap_ok. repeat split; cbn; try assumption; lra.
    - rewrite TT. destruct (e_active e) eqn:A; cbn; (split; [reflexivity|]); (split; [reflexivity|]); (split; [reflexivity|]).
      + right. left. split. { exists Clean, (s_crem s). cbn. split; [lra|]. split; [reflexivity|]. split; lra. }
        split; [reflexivity|]. split; [|split; [reflexivity|lra]].
        unfold PTranE, rate_ok, cap_ok. repeat split; cbn; try assumption.
      + right. right. split; [reflexivity|]. split; [|split; [reflexivity|]].
        * unfold PNone, rate_ok, cap_ok. repeat split; cbn; try assumption.
        * exists (s_crem s). split; [lra|]. split; [lra|reflexivity].
  Qed.

  (** ** Rounds *)

  Definition acct (dt : Q) (s : bst) : Prop := no_negative (s_log s) /\ spent (s_log s) + s_t s == dt /\ 0 <= s_t s.
  Definition Fin (dt : Q) (e : benv) (s : bst) : Prop :=
    no_negative (s_log s) /\ Inv s /\ s_t s == 0 /\ spent (s_log s) <= dt /\ (e_active e = true -> spent (s_log s) == dt).

  Lemma spent_app a b : spent (a ++ b) == spent a + spent b.
  Proof. induction a as [|x a IH]; cbn [app spent fold_right]; [unfold spent; ring|]. fold (spent (a ++ b)) (spent a). rewrite IH. ring. Qed.

  Lemma goes_acct dt s s' : acct dt s -> goes s s' -> acct dt s'.
  Proof.
    intros (N & S & T) (a & d & D & L & E & T'). unfold acct. rewrite L. split; [|split; [|exact T']].
    - apply Forall_app. split; [exact N|]. constructor; [exact D|constructor].
    - rewrite spent_app. cbn [spent fold_right snd]. rewrite E. lra.
  Qed.

  Lemma fin_acct dt e s : acct dt s -> Inv s -> s_t s == 0 -> Fin dt e s.
  Proof. intros (N & S & T) I Z. split; [exact N|]. split; [exact I|]. split; [exact Z|]. split; [lra|]. intros _. lra. Qed.

  Lemma inv_coll s : PColl s -> Inv s. Proof. unfold Inv. tauto. Qed.
  Lemma inv_tranE s : PTranE s -> Inv s. Proof. unfold Inv. tauto. Qed.
  Lemma inv_tranF s : PTranF s -> Inv s. Proof. unfold Inv. tauto. Qed.
  Lemma inv_burn s : PBurn s -> Inv s. Proof. unfold Inv. tauto. Qed.
  Lemma inv_clean s : PClean s -> Inv s. Proof. unfold Inv. tauto. Qed.
  Lemma inv_none s : PNone s -> Inv s. Proof. unfold Inv. tauto. Qed.

  (** Nothing changes but the log, the time and the phase. *)
  Definition same_vol (s s' : bst) : Prop := s_tbur s' = s_tbur s /\ s_tcol s' = s_tcol s /\ s_cap s' = s_cap s.

  Lemma clean_spec0 e s : PClean s -> s_t s == 0 -> let s' := clean p e s in
    same_vol s s' /\ PClean s' /\ s_t s' == 0 /\ (s_log s' = s_log s \/ goes s s').
  Proof.
    intros ((F1 & F2 & F3 & F4) & FU & R & [C0 C1] & K) T. cbv zeta. unfold clean, same_vol.
    assert (TT : Qltb 0 (s_t s) = false) by (apply Qltb_no; lra). rewrite TT.
    qcase; cbn.
    - split; [repeat split|]. split; [unfold PClean, rate_ok, cap_ok; repeat split; cbn; try assumption; lra|].
      split; [reflexivity|]. right. exists Clean, (s_t s). cbn. split; [lra|]. split; [reflexivity|]. split; lra.
    - split; [repeat split|]. split; [unfold PClean, rate_ok, cap_ok; repeat split; cbn; try assumption; lra|].
      split; [exact T|]. now left.
  Qed.

  Lemma acct_same dt s s' : acct dt s -> s_log s' = s_log s -> s_t s' == s_t s -> acct dt s'.
  Proof. intros (N & S & T) L E. unfold acct. rewrite L, E. repeat split; assumption. Qed.

  Lemma after_clean dt e s : PClean s -> acct dt s -> let s' := clean p e s in
    same_vol s s' /\
    (Fin dt e s' \/ (acct dt s' /\ e_active e = true /\ PTranE s' /\ s_t s' == s_t s - s_crem s)).
  Proof.
    intros P A. cbv zeta. pose proof A as (N & S & T).
    destruct (Qlt_le_dec 0 (s_t s)) as [TP|TZ].
    - destruct (clean_spec e s P TP) as (V1 & V2 & V3 & [(G & P' & Z)|[(G & EA & P' & TE & _)|(EA & P' & Z & d & D0 & D1 & L)]]).
      + split; [repeat split; assumption|]. left. apply fin_acct; [now apply goes_acct with s|now apply inv_clean|exact Z].
      + split; [repeat split; assumption|]. right. split; [now apply goes_acct with s|]. split; [exact EA|]. split; [exact P'|exact TE].
      + split; [repeat split; assumption|]. left. unfold Fin. rewrite L.
        split. { apply Forall_app. split; [exact N|]. constructor; [exact D0|constructor]. }
        split; [now apply inv_none|]. split; [exact Z|]. rewrite spent_app. cbn [spent fold_right snd].
        fold (spent (s_log s)). split; [lra|]. intros. congruence.
    - destruct (clean_spec0 e s P) as (V & P' & Z & L); [lra|]. split; [exact V|]. left.
      apply fin_acct; [|now apply inv_clean|exact Z].
      destruct L as [L|G]; [apply acct_same with s; [exact A|exact L|lra]|now apply goes_acct with s].
  Qed.

  Definition vol_step (s s' : bst) : Prop := s_cap s' - s_cap s == s_tbur s' - s_tbur s - (s_tcol s' - s_tcol s).

  Lemma same_vol_step s s' : same_vol s s' -> vol_step s s'.
  Proof. intros (E1 & E2 & E). unfold vol_step. rewrite E1, E2, E. ring. Qed.

  Definition tail_burn (e : benv) (s : bst) : res bst :=
    do s3 <- (if s_burn s then burn p s else Ok s); Ok (if s_clean s3 then clean p e s3 else s3).

  Lemma after_burn dt e s : PBurn s -> acct dt s ->
    exists s', tail_burn e s = Ok s' /\ s_tcol s' = s_tcol s /\ (s_tbur s == 0 -> vol_step s s') /\
      (Fin dt e s' \/ (acct dt s' /\ PTranE s' /\ s_t s' <= s_t s - 3600)).
  Proof.
    intros P A. destruct (burn_spec s P) as (s1 & B & TC & H); [apply A|].
    unfold tail_burn. rewrite (proj1 (proj2 (proj2 (proj1 P)))), B. cbn [bind].
    destruct H as [(T0 & T1 & P1 & L & VB & VC)|[(G & Z & P1 & VB & VC)|(G & P1 & CR & VB & VC)]].
    - assert (K : s_clean s1 = false) by apply P1. rewrite K. exists s1. split; [reflexivity|]. split; [exact TC|].
      split; [intros _; unfold vol_step; rewrite VB, VC, TC; ring|]. left. apply fin_acct; [|now apply inv_burn|exact T1].
      destruct L as [L|G]; [apply acct_same with s; [exact A|exact L|lra]|now apply goes_acct with s].
    - assert (K : s_clean s1 = false) by apply P1. rewrite K. exists s1. split; [reflexivity|]. split; [exact TC|].
      split; [intros _; unfold vol_step; rewrite VB, VC, TC; ring|]. left.
      apply fin_acct; [now apply goes_acct with s|now apply inv_burn|exact Z].
    - assert (K : s_clean s1 = true) by apply P1. rewrite K.
      destruct (after_clean dt e s1 P1 (goes_acct _ _ _ A G)) as ((E1 & E2 & E3) & H).
      eexists. split; [reflexivity|]. split; [congruence|].
      split. { intros B0. unfold vol_step. rewrite E1, E2, E3, VB, VC, TC, B0. destruct P as (_ & _ & C & _). rewrite C. ring. }
      destruct H as [F|(A2 & _ & P2 & TE)]; [now left|]. right. split; [exact A2|]. split; [exact P2|].
      destruct G as (a & d & D & _ & TT & _). lra.
  Qed.

  Lemma tail_idle e s : s_burn s = false -> s_clean s = false -> tail_burn e s = Ok s.
  Proof. intros B K. unfold tail_burn. rewrite B. cbn [bind]. rewrite K. reflexivity. Qed.

  Definition tail_tran (e : benv) (s : bst) : res bst := tail_burn e (if s_tran s then transit s else s).

  Lemma after_tranF dt e s : PTranF s -> acct dt s ->
    exists s', tail_tran e s = Ok s' /\ s_tcol s' = s_tcol s /\ (s_tbur s == 0 -> vol_step s s') /\
      (Fin dt e s' \/ (acct dt s' /\ PTranE s' /\ s_t s' <= s_t s - 3600)).
  Proof.
    intros P A. unfold tail_tran. rewrite (proj1 (proj2 (proj1 P))).
    destruct (Qlt_le_dec 0 (s_t s)) as [TP|TZ].
    - destruct (transit_specF s P TP) as (G & V1 & V2 & V3 & [[P' Z]|P']).
      + rewrite tail_idle by apply P'. eexists. split; [reflexivity|]. split; [exact V2|].
        split; [intros _; apply same_vol_step; now repeat split|]. left.
        apply fin_acct; [now apply goes_acct with s|now apply inv_tranF|exact Z].
      + destruct (after_burn dt e _ P' (goes_acct _ _ _ A G)) as (s' & E & TC & VS & H).
        exists s'. split; [exact E|]. split; [congruence|]. split.
        { intros B0. rewrite V1 in VS. specialize (VS B0). unfold vol_step in *. rewrite V1, V2, V3 in VS. exact VS. }
        destruct H as [F|(A2 & P2 & TE)]; [now left|]. right. split; [exact A2|]. split; [exact P2|].
        destruct G as (a & d & D & _ & TT & _). lra.
    - assert (T0 : s_t s == 0) by (destruct A as (_ & _ & T); lra).
      unfold transit. destruct P as ((F1 & F2 & F3 & F4) & BT & FU & (r & R & RP) & C & O).
      assert (TT : Qltb 0 (s_t s) = false) by (apply Qltb_no; lra). rewrite TT.
      qcase.
      + rewrite tail_idle by (cbn; assumption). eexists. split; [reflexivity|]. cbn. split; [reflexivity|].
        split; [intros _; unfold vol_step; cbn; ring|]. left. apply fin_acct; [|apply inv_tranF|reflexivity].
        * apply goes_acct with s; [exact A|]. exists Transit, (s_t s). cbn. split; [lra|]. split; [reflexivity|]. split; lra.
        * repeat split; cbn; try assumption; try lra. now exists r.
      + rewrite tail_idle by (cbn; assumption). exists s. split; [reflexivity|]. split; [reflexivity|].
        split; [intros _; unfold vol_step; ring|]. left. apply fin_acct; [exact A|apply inv_tranF|exact T0].
        repeat split; try assumption. now exists r.
  Qed.

  Lemma after_tranE dt e s : PTranE s -> 0 < s_t s -> acct dt s ->
    exists s', tail_tran e s = Ok s' /\ same_vol s s' /\
      (Fin dt e s' \/ (acct dt s' /\ PColl s' /\ s_t s' <= s_t s)).
  Proof.
    intros P TP A. unfold tail_tran. rewrite (proj1 (proj2 (proj1 P))).
    destruct (transit_specE s P TP) as (G & V1 & V2 & V3 & [[P' Z]|P']);
      (rewrite tail_idle by apply P'); (eexists; split; [reflexivity|]); (split; [now repeat split|]).
    - left. apply fin_acct; [now apply goes_acct with s|now apply inv_tranE|exact Z].
    - right. split; [now apply goes_acct with s|]. split; [exact P'|]. destruct G as (a & d & D & _ & TT & _). lra.
  Qed.

  Lemma round_tails e s : round p e s =
    let s0 := if negb (s_coll s) && negb (s_tran s) && negb (s_burn s) && negb (s_clean s) && e_active e
              then set_coll s else s in
    do s1 <- (if s_coll s0 then collect p e s0 else Ok s0); tail_tran e s1.
  Proof. reflexivity. Qed.

  Lemma collect_round dt e s : good_slick e -> PColl s -> 0 < s_t s -> acct dt s ->
    exists s', (do s1 <- collect p e s; tail_tran e s1) = Ok s' /\
      (s_tcol s == 0 -> s_tbur s == 0 -> vol_step s s') /\
      (Fin dt e s' \/ (acct dt s' /\ PTranE s' /\ s_t s' <= s_t s - 3600)).
  Proof.
    intros GS P TP A. destruct (collect_spec e s GS P TP) as (s1 & E & G & VB & VC & _ & H). rewrite E. cbn [bind].
    destruct H as [[P1 Z]|P1].
    - unfold tail_tran. rewrite (proj1 (proj2 (proj1 P1))), tail_idle by apply P1.
      exists s1. split; [reflexivity|]. split; [intros C0 B0; unfold vol_step; rewrite VB, VC, C0; ring|].
      left. apply fin_acct; [now apply goes_acct with s|now apply inv_coll|exact Z].
    - destruct (after_tranF dt e s1 P1 (goes_acct _ _ _ A G)) as (s' & E' & TC & VS & F).
      exists s'. split; [exact E'|]. split.
      { intros C0 B0. rewrite VB in VS. specialize (VS B0). unfold vol_step in *. rewrite VB, TC in VS. rewrite TC, C0. lra. }
      destruct F as [F|(A2 & P2 & TE)]; [now left|]. right. split; [exact A2|]. split; [exact P2|].
      destruct G as (a & d & D & _ & TT & _). lra.
  Qed.

  Lemma round_spec dt e s : good_slick e -> Inv s -> 0 < s_t s -> acct dt s -> (PNone s -> e_active e = true) ->
    exists s', round p e s = Ok s' /\ (s_tcol s == 0 -> s_tbur s == 0 -> vol_step s s') /\
    (Fin dt e s' \/
     (acct dt s' /\
      (((PColl s \/ PNone s \/ PTranF s \/ PBurn s) /\ PTranE s' /\ s_t s' <= s_t s - 3600) \/
       (PTranE s /\ PColl s' /\ s_t s' <= s_t s /\ same_vol s s') \/
       (PClean s /\ PTranE s' /\ s_t s' <= s_t s /\ same_vol s s')))).
  Proof.
    intros GS IV TP A ACT. rewrite round_tails. cbv zeta.
    destruct IV as [P|[P|[P|[P|[P|P]]]]]; pose proof (proj1 P) as (F1 & F2 & F3 & F4).
    - rewrite F1. cbn [negb andb]. rewrite F1.
      destruct (collect_round dt e s GS P TP A) as (s' & E & V & H). exists s'. split; [exact E|]. split; [exact V|].
      destruct H as [F|(A2 & P2 & TE)]; [now left|]. right. split; [exact A2|]. left. split; [now left|]. now split.
    - rewrite F1, F2. cbn [negb andb]. rewrite F1. cbn [bind].
      destruct (after_tranE dt e s P TP A) as (s' & E & V & H). exists s'. split; [exact E|].
      split; [intros _ _; now apply same_vol_step|].
      destruct H as [F|(A2 & P2 & TE)]; [now left|]. right. split; [exact A2|]. right. left. split; [exact P|]. split; [exact P2|]. split; [exact TE|exact V].
    - rewrite F1, F2. cbn [negb andb]. rewrite F1. cbn [bind].
      destruct (after_tranF dt e s P A) as (s' & E & TC & V & H). exists s'. split; [exact E|].
      split; [intros _ B0; now apply V|].
      destruct H as [F|(A2 & P2 & TE)]; [now left|]. right. split; [exact A2|]. left. split; [tauto|]. now split.
    - rewrite F1, F2, F3. cbn [negb andb]. rewrite F1. cbn [bind]. unfold tail_tran. rewrite F2.
      destruct (after_burn dt e s P A) as (s' & E & TC & V & H). exists s'. split; [exact E|].
      split; [intros _ B0; now apply V|].
      destruct H as [F|(A2 & P2 & TE)]; [now left|]. right. split; [exact A2|]. left. split; [tauto|]. now split.
    - rewrite F1, F2, F3, F4. cbn [negb andb]. rewrite F1. cbn [bind]. unfold tail_tran. rewrite F2.
      unfold tail_burn. rewrite F3. cbn [bind]. rewrite F4.
      destruct (after_clean dt e s P A) as (V & H). eexists. split; [reflexivity|].
      split; [intros _ _; now apply same_vol_step|].
      destruct H as [F|(A2 & EA & P2 & TE)]; [now left|]. right. split; [exact A2|]. right. right.
      pose proof P as (_ & _ & _ & _ & K). split; [assumption|]. split; [exact P2|]. split; [lra|exact V].
    - rewrite F1, F2, F3, F4, (ACT P). cbn [negb andb set_coll s_coll].
      assert (P' : PColl (set_coll s)).
      { destruct P as (_ & BT & FU & R & C). repeat split; cbn; try assumption; apply C. }
      assert (A' : acct dt (set_coll s)) by exact A.
      destruct (collect_round dt e (set_coll s) GS P' TP A') as (s' & E & V & H). exists s'. split; [exact E|].
      split; [exact V|].
      destruct H as [F|(A2 & P2 & TE)]; [now left|]. right. split; [exact A2|]. left. split; [tauto|]. now split.
  Qed.

  (** ** The loop *)

  Lemma rounds_done n e s : s_t s <= 0 -> rounds n p e s = Some (Ok s).
  Proof. intros T. assert (H : Qltb 0 (s_t s) = false) by (now apply Qltb_no). destruct n; cbn [rounds]; rewrite H; reflexivity. Qed.
  Lemma rounds_more n e s s1 : 0 < s_t s -> round p e s = Ok s1 -> rounds (S n) p e s = rounds n p e s1.
  Proof. intros T E. assert (H : Qltb 0 (s_t s) = true) by (now apply Qltb_iff). cbn [rounds]. rewrite H, E. reflexivity. Qed.

  Lemma rounds_det e : forall n m s x y, rounds n p e s = Some x -> rounds m p e s = Some y -> x = y.
  Proof.
    induction n as [|n IH]; intros m s x y A B.
    - cbn [rounds] in A. destruct (Qltb 0 (s_t s)) eqn:T; [discriminate|].
      apply Qltb_no in T. rewrite rounds_done in B by exact T. congruence.
    - destruct (Qltb 0 (s_t s)) eqn:T.
      + destruct m as [|m]; [cbn [rounds] in B; rewrite T in B; discriminate|].
        cbn [rounds] in A, B. rewrite T in A, B. destruct (round p e s) as [s1|x0]; [now apply IH with m s1|congruence].
      + apply Qltb_no in T. rewrite rounds_done in A, B by exact T. congruence.
  Qed.

  Lemma pcoll_not_none s : PColl s -> PNone s -> False.
  Proof. intros [(A & _) _] [(B & _) _]. congruence. Qed.
  Lemma ptranE_not_none s : PTranE s -> PNone s -> False.
  Proof. intros [(_ & A & _) _] [(_ & B & _) _]. congruence. Qed.

  Lemma round_coll dt e s : good_slick e -> PColl s -> 0 < s_t s -> acct dt s ->
    exists s', round p e s = Ok s' /\ (Fin dt e s' \/ (acct dt s' /\ PTranE s' /\ s_t s' <= s_t s - 3600)).
  Proof.
    intros GS P TP A. rewrite round_tails. cbv zeta. pose proof (proj1 P) as (F1 & F2 & F3 & F4).
    rewrite F1. cbn [negb andb]. rewrite F1.
    destruct (collect_round dt e s GS P TP A) as (s' & E & _ & H). now exists s'.
  Qed.
  Lemma round_tranE dt e s : PTranE s -> 0 < s_t s -> acct dt s ->
    exists s', round p e s = Ok s' /\ (Fin dt e s' \/ (acct dt s' /\ PColl s' /\ s_t s' <= s_t s)).
  Proof.
    intros P TP A. rewrite round_tails. cbv zeta. pose proof (proj1 P) as (F1 & F2 & F3 & F4).
    rewrite F1, F2. cbn [negb andb]. rewrite F1. cbn [bind].
    destruct (after_tranE dt e s P TP A) as (s' & E & _ & H). now exists s'.
  Qed.

  Lemma loop_ends_tran dt e : good_slick e -> forall k s, PTranE s \/ PColl s -> acct dt s -> s_t s <= 3600 * inject_Z (Z.of_nat k) ->
    exists n s', rounds n p e s = Some (Ok s') /\ Fin dt e s'.
  Proof.
    intros GS. induction k as [|k IH]; intros s P A TK.
    - change (inject_Z (Z.of_nat 0)) with 0 in TK. exists 0%nat, s. split; [apply rounds_done; lra|].
      apply fin_acct; [exact A|destruct P; [now apply inv_tranE|now apply inv_coll]|destruct A as (_ & _ & T); lra].
    - assert (KQ : 3600 * inject_Z (Z.of_nat (S k)) == 3600 * inject_Z (Z.of_nat k) + 3600).
      { rewrite Nat2Z.inj_succ. unfold Z.succ. rewrite inject_Z_plus. ring. }
      assert (COLL : forall s, PColl s -> acct dt s -> s_t s <= 3600 * inject_Z (Z.of_nat (S k)) ->
                exists n s', rounds n p e s = Some (Ok s') /\ Fin dt e s').
      { intros s0 P0 A0 T0. destruct (Qlt_le_dec 0 (s_t s0)) as [TP|TZ].
        - destruct (round_coll dt e s0 GS P0 TP A0) as (s1 & E & [F|(A1 & P1 & T1)]).
          + exists 1%nat, s1. rewrite (rounds_more _ _ _ _ TP E), rounds_done by (destruct F as (_ & _ & Z & _); lra). now split.
          + destruct (IH s1 (or_introl P1) A1) as (n & s' & R & F); [lra|].
            exists (S n), s'. rewrite (rounds_more _ _ _ _ TP E). now split.
        - exists 0%nat, s0. rewrite rounds_done by exact TZ. split; [reflexivity|].
          apply fin_acct; [exact A0|now apply inv_coll|destruct A0 as (_ & _ & T); lra]. }
      destruct P as [P|P]; [|now apply COLL].
      destruct (Qlt_le_dec 0 (s_t s)) as [TP|TZ].
      + destruct (round_tranE dt e s P TP A) as (s1 & E & [F|(A1 & P1 & T1)]).
        * exists 1%nat, s1. rewrite (rounds_more _ _ _ _ TP E), rounds_done by (destruct F as (_ & _ & Z & _); lra). now split.
        * destruct (COLL s1 P1 A1) as (n & s' & R & F); [lra|].
          exists (S n), s'. rewrite (rounds_more _ _ _ _ TP E). now split.
      + exists 0%nat, s. rewrite rounds_done by exact TZ. split; [reflexivity|].
        apply fin_acct; [exact A|now apply inv_tranE|destruct A as (_ & _ & T); lra].
  Qed.

  Lemma enough q : exists k, q <= 3600 * inject_Z (Z.of_nat k).
  Proof.
    exists (Z.to_nat (Z.max 0 (Qceiling q))). rewrite Z2Nat.id by lia.
    apply Qle_trans with (inject_Z (Qceiling q)); [apply Qle_ceiling|].
    assert (inject_Z (Qceiling q) <= inject_Z (Z.max 0 (Qceiling q))) by (rewrite <- Zle_Qle; lia).
    assert (0 <= inject_Z (Z.max 0 (Qceiling q))) by (change 0 with (inject_Z 0); rewrite <- Zle_Qle; lia). lra.
  Qed.

  Lemma loop_ends dt e s : good_slick e -> Inv s -> acct dt s -> (PNone s -> e_active e = true) ->
    exists n s', rounds n p e s = Some (Ok s') /\ Fin dt e s'.
  Proof.
    intros GS IV A ACT. destruct (Qlt_le_dec 0 (s_t s)) as [TP|TZ].
    - destruct (round_spec dt e s GS IV TP A ACT) as (s1 & E & _ & [F|(A1 & H)]).
      + exists 1%nat, s1. rewrite (rounds_more _ _ _ _ TP E), rounds_done by (destruct F as (_ & _ & Z & _); lra). now split.
      + destruct (enough (s_t s1)) as [k K].
        destruct (loop_ends_tran dt e GS k s1) as (n & s' & R & F); [tauto|exact A1|exact K|].
        exists (S n), s'. rewrite (rounds_more _ _ _ _ TP E). now split.
    - exists 0%nat, s. rewrite rounds_done by exact TZ. split; [reflexivity|].
      apply fin_acct; [exact A|exact IV|destruct A as (_ & _ & T); lra].
  Qed.

  Lemma loop_vol dt e : good_slick e -> forall n s s', Inv s -> acct dt s -> (PNone s -> e_active e = true) ->
    s_t s <= 3600 -> s_tcol s == 0 -> s_tbur s == 0 -> rounds n p e s = Some (Ok s') -> vol_step s s'.
  Proof.
    intros GS. induction n as [|n IH]; intros s s' IV A ACT T C0 B0 R.
    - cbn [rounds] in R. destruct (Qltb 0 (s_t s)); [discriminate|]. injection R as <-. unfold vol_step. ring.
    - destruct (Qlt_le_dec 0 (s_t s)) as [TP|TZ].
      2:{ rewrite rounds_done in R by exact TZ. injection R as <-. unfold vol_step. ring. }
      destruct (round_spec dt e s GS IV TP A ACT) as (s1 & E & V & H). specialize (V C0 B0).
      rewrite (rounds_more _ _ _ _ TP E) in R.
      assert (DONE : s_t s1 <= 0 -> vol_step s s').
      { intros Z. rewrite rounds_done in R by exact Z. injection R as <-. exact V. }
      assert (MORE : Inv s1 -> (PNone s1 -> e_active e = true) -> acct dt s1 -> s_t s1 <= 3600 -> same_vol s s1 -> vol_step s s').
      { intros I1 N1 A1 T1 (Q1 & Q2 & Q3).
        assert (V2 : vol_step s1 s') by (apply (IH s1 s'); try assumption; [rewrite Q2; exact C0|rewrite Q1; exact B0]).
        unfold vol_step in *. rewrite Q1, Q2, Q3 in V2. exact V2. }
      destruct H as [F|(A1 & [(_ & P1 & T1)|[(_ & P1 & T1 & SV)|(_ & P1 & T1 & SV)]])].
      + apply DONE. destruct F as (_ & _ & Z & _). lra.
      + apply DONE. lra.
      + apply MORE; [now apply inv_coll|intros X; destruct (pcoll_not_none _ P1 X)|exact A1|lra|exact SV].
      + apply MORE; [now apply inv_tranE|intros X; destruct (ptranE_not_none _ P1 X)|exact A1|lra|exact SV].
  Qed.

  (** ** Steps *)

  Lemma inv_new : Inv (burn_new p).
  Proof. apply inv_coll. unfold PColl, rate_ok, cap_ok. pose proof cap_pos. repeat split; cbn; try lra. Qed.

  Lemma inv_start dt s : Inv s -> Inv (start_step dt s).
  Proof.
    intros H. unfold Inv, PColl, PTranE, PTranF, PBurn, PClean, PNone, flags, rate_ok, cap_ok in *. exact H.
  Qed.
  Lemma none_start dt s : PNone (start_step dt s) -> PNone s.
  Proof. intros H. exact H. Qed.

  Lemma burn_step_ok e dt s : good_slick e -> 0 < dt -> Inv s ->
    exists n s', burn_step n p e dt s = Some (Ok s') /\ Inv s' /\
      (step_active e s = true -> Fin dt e s') /\ (step_active e s = false -> s_log s' = [] /\ s_cap s' = s_cap s).
  Proof.
    intros GS DT IV. unfold burn_step. destruct (step_active e s) eqn:SA.
    - destruct (loop_ends dt e (start_step dt s) GS (inv_start dt s IV)) as (n & s' & R & F).
      + split; [constructor|]. split; [cbn; ring|]. cbn. lra.
      + intros N. apply none_start in N. destruct N as [(_ & _ & B & K) _]. unfold step_active in SA. rewrite B, K in SA.
        destruct (e_active e); [reflexivity|discriminate].
      + exists n, s'. split; [exact R|]. split; [apply F|]. split; [intros _; exact F|]. discriminate.
    - eexists 0%nat, _. split; [reflexivity|]. split; [exact IV|]. split; [discriminate|]. intros _. split; reflexivity.
  Qed.

  Lemma burn_step_det n m e dt s x y : burn_step n p e dt s = Some x -> burn_step m p e dt s = Some y -> x = y.
  Proof. unfold burn_step. destruct (step_active e s); [apply rounds_det|congruence]. Qed.

  Lemma reach_inv s : burn_reach p s -> Inv s.
  Proof.
    induction 1 as [|s s' n e dt R IH GS DT E]; [apply inv_new|].
    destruct (burn_step_ok e dt s GS DT IH) as (m & s2 & E2 & IV & _).
    assert (X : Ok s' = Ok s2) by (exact (burn_step_det _ _ _ _ _ _ _ E E2)). injection X as <-. exact IV.
  Qed.

  Lemma inv_cap s : Inv s -> 0 <= s_cap s /\ s_cap s <= p_capmax p.
  Proof.
    pose proof cap_pos. intros [P|[P|[P|[P|[P|P]]]]].
    - apply P.
    - apply P.
    - destruct P as (_ & _ & _ & _ & C & _). lra.
    - destruct P as (_ & _ & C & _). lra.
    - apply P.
    - apply P.
  Qed.
End Burn.

(** ** Accounts *)

Lemma sum_dset k id a b a0 b0 : sys_of k id = (a0, b0) ->
  NoDup (map fst (k_sys k)) ->
  fst (sum_sys (mkBk (k_boomed k) (k_burned k) (dset id (a, b) (k_sys k)))) == fst (sum_sys k) + a - a0 /\
  snd (sum_sys (mkBk (k_boomed k) (k_burned k) (dset id (a, b) (k_sys k)))) == snd (sum_sys k) + b - b0.
Proof.
  unfold sys_of, sum_sys. cbn [k_sys]. generalize (k_sys k). clear k. intros d.
  induction d as [|[i [x y]] r IH]; cbn [dset dget fold_right fst snd map]; intros E ND.
  - injection E as <- <-. split; ring.
  - inversion ND as [|? ? N1 N2]; subst. destruct (Z.eqb_spec id i) as [->|NE].
    + cbn [fold_right fst snd]. rewrite Z.eqb_refl in E || idtac. injection E as <- <-. split; ring.
    + cbn [fold_right fst snd]. destruct (IH E N2) as [H1 H2]. rewrite H1, H2. split; ring.
Qed.

Lemma dset_nodup {V} (d : dict V) k v : NoDup (map fst d) -> NoDup (map fst (dset k v d)).
Proof.
  induction d as [|[i x] r IH]; intros ND; cbn [dset map fst].
  - constructor; [intros []|constructor].
  - inversion ND as [|? ? N1 N2]; subst. destruct (Z.eqb_spec k i) as [->|NE]; cbn [map fst]; [now constructor|].
    constructor; [|now apply IH]. intros H. apply N1. clear -H NE.
    induction r as [|[j y] r IH]; cbn [dset map fst] in H; [cbn in H; intuition congruence|].
    destruct (Z.eqb_spec k j) as [->|NJ]; cbn [map fst] in *; [exact H|]. destruct H as [H|H]; [now left|right; now apply IH].
Qed.

Lemma book_spec k i c a b k' back : book k i c a b = (k', back) -> NoDup (map fst (k_sys k)) -> 0 <= k_boomed k -> 0 <= a ->
  NoDup (map fst (k_sys k')) /\ 0 <= k_boomed k' /\ k_burned k <= k_burned k' /\
  k_boomed k' + k_burned k' == k_boomed k + k_burned k + (if Qltb 0 c then a else 0) /\
  fst (sum_sys k') == fst (sum_sys k) + (if Qltb 0 c then a else 0) /\
  snd (sum_sys k') - snd (sum_sys k) == k_burned k' - k_burned k.
Proof.
  intros E ND B0 A0. unfold book in E.
  set (r1 := if Qltb 0 c then _ else _) in E.
  assert (R1 : exists k1 bk, r1 = (k1, bk) /\ NoDup (map fst (k_sys k1)) /\ 0 <= k_boomed k1 /\ k_burned k1 = k_burned k /\
     k_boomed k1 == k_boomed k + (if Qltb 0 c then a else 0) /\
     fst (sum_sys k1) == fst (sum_sys k) + (if Qltb 0 c then a else 0) /\ snd (sum_sys k1) == snd (sum_sys k)).
  { unfold r1. destruct (Qltb 0 c).
    - destruct (sys_of k i) as [x y] eqn:S. eexists _, _. split; [reflexivity|]. cbn [k_sys k_boomed k_burned].
      split; [now apply dset_nodup|]. split; [lra|]. split; [reflexivity|]. split; [reflexivity|].
      destruct (sum_dset k i (x + a) y x y S ND) as [H1 H2]. unfold sum_sys in *. cbn [k_sys] in *.
      rewrite H1, H2. split; ring.
    - exists k, 0. split; [reflexivity|]. split; [exact ND|]. split; [exact B0|]. split; [reflexivity|].
      split; [ring|]. split; ring. }
  destruct R1 as (k1 & bk & R1 & ND1 & B1 & U1 & M1 & S1 & S2). rewrite R1 in E. clear r1 R1.
  destruct (Qltb 0 b) eqn:B.
  - apply Qltb_iff in B. destruct (sys_of k1 i) as [x y] eqn:S.
    destruct (Qltb (k_boomed k1 - b) 0) eqn:L; [apply Qltb_iff in L|apply Qltb_no in L]; injection E as <- <-; cbn [k_sys k_boomed k_burned].
    + split; [now apply dset_nodup|]. split; [lra|]. split; [rewrite U1; lra|]. split; [rewrite U1; lra|].
      destruct (sum_dset k1 i x (y + b + (k_boomed k1 - b)) x y S ND1) as [H1 H2]. unfold sum_sys in *. cbn [k_sys] in *.
      rewrite H1, H2, U1. split; [rewrite S1; ring|rewrite S2; ring].
    + split; [now apply dset_nodup|]. split; [lra|]. split; [rewrite U1; lra|]. split; [rewrite U1; lra|].
      destruct (sum_dset k1 i x (y + b) x y S ND1) as [H1 H2]. unfold sum_sys in *. cbn [k_sys] in *.
      rewrite H1, H2, U1. split; [rewrite S1; ring|rewrite S2; ring].
  - injection E as <- <-. split; [exact ND1|]. split; [exact B1|]. split; [rewrite U1; lra|].
    split; [rewrite U1; lra|]. split; [exact S1|]. rewrite S2, U1. ring.
Qed.

Lemma book_all_spec : forall h k, Forall fair h -> NoDup (map fst (k_sys k)) -> 0 <= k_boomed k ->
  0 <= k_boomed (book_all k h) /\ k_burned k <= k_burned (book_all k h) /\
  k_boomed (book_all k h) + k_burned (book_all k h) == k_boomed k + k_burned k + taken h /\
  fst (sum_sys (book_all k h)) == fst (sum_sys k) + taken h /\
  snd (sum_sys (book_all k h)) - snd (sum_sys k) == k_burned (book_all k h) - k_burned k.
Proof.
  induction h as [|[[[i c] a] b] h IH]; intros k F ND B.
  - cbn. split; [exact B|]. split; [lra|]. split; [lra|]. split; lra.
  - inversion F as [|? ? F1 F2]; subst. cbn in F1. unfold book_all. cbn [fold_left taken fold_right].
    destruct (book k i c a b) as [k1 back] eqn:E. cbn [fst].
    destruct (book_spec _ _ _ _ _ _ _ E ND B F1) as (ND1 & B1 & U1 & M1 & S1 & S2).
    fold (book_all k1 h) (taken h). destruct (IH k1 F2 ND1 B1) as (H1 & H2 & H3 & H4 & H5).
    split; [exact H1|]. split; [lra|]. split; [lra|]. split; [rewrite H4, S1; lra|]. lra.
Qed.

(** ** Skim *)

Lemma rates_spec q e r : good_skim q -> good_slick e -> 0 < encounter q e -> skim_rates q e = Some r ->
  r_total r <= q_pump q /\ 0 < r_emul r /\ 0 < r_retain r /\ r_emul r + r_kept r == r_retain r /\ r_water r == r_kept r + r_decant r /\
  r_total r == r_emul r + r_water r /\ 0 <= r_kept r /\ 0 <= r_decant r <= q_dpump q /\ r_oil r == r_emul r * (1 - e_fw e).
Proof.
  intros (G1 & G2 & G3 & [G4 G4'] & G5 & G6 & G7 & G8 & G9) [T F] EP.
  unfold skim_rates. set (er := encounter q e) in *. destruct (Qltb 0 (q_recovery q)) eqn:RC; [|discriminate].
  apply Qltb_iff in RC. cbv zeta.
  set (total0 := er * q_throughput q / q_recovery q).
  set (thr := if Qltb (q_pump q) total0 then q_pump q * q_recovery q / er else q_throughput q).
  set (total := if Qltb (q_pump q) total0 then er * thr / q_recovery q else total0).
  destruct (Qltb 0 thr) eqn:TH; [|discriminate]. apply Qltb_iff in TH. intros [= <-]. cbn.
  assert (TT : er * thr == q_recovery q * total /\ total <= q_pump q).
  { unfold total, thr, total0. destruct (Qltb (q_pump q) (er * q_throughput q / q_recovery q)) eqn:C.
    - split; [field; lra|]. apply Qle_lteq. right. field. split; lra.
    - apply Qltb_no in C. split; [field; lra|exact C]. }
  destruct TT as [TE TP].
  assert (EM : 0 < er * thr) by (apply Qmult_lt_0_compat; assumption).
  assert (TPOS : 0 < total) by (destruct (Qlt_le_dec 0 total); [assumption|nra]).
  set (w := (1 - q_recovery q) * total).
  assert (W0 : 0 <= w) by (unfold w; apply Qmult_le_0_compat; lra).
  assert (WE : total - er * thr == w) by (rewrite TE; unfold w; ring).
  assert (D1 : 0 <= q_decant q * w) by (apply Qmult_le_0_compat; lra).
  assert (D2 : q_decant q * w <= w) by nra.
  set (x := if Qltb (q_dpump q) (q_decant q * (total - er * thr)) then q_decant q * (total - er * thr) - q_dpump q else 0).
  assert (X : 0 <= x /\ (q_decant q * w - x <= q_dpump q) /\ x <= q_decant q * w).
  { assert (DW : q_decant q * (total - er * thr) == q_decant q * w) by (rewrite WE; reflexivity).
    set (y := q_decant q * (total - er * thr)) in *. clearbody y.
    unfold x. destruct (Qltb (q_dpump q) y) eqn:C; [apply Qltb_iff in C|apply Qltb_no in C]; (split; [|split]); lra. }
  destruct X as (X0 & X1 & X2).
  assert (K : w * (1 - q_decant q) == w - q_decant q * w) by ring.
  split; [exact TP|]. split; [exact EM|]. split; [rewrite K; lra|]. split; [ring|]. split; [ring|].
  split; [rewrite <- WE; ring|]. split; [rewrite K; lra|]. split; [rewrite K; split; lra|]. reflexivity.
Qed.

Section Skim.
  Variable q : kpar.
  Hypothesis GQ : good_skim q.

  Definition kflags (s : kst) (c t o : bool) : Prop := w_coll s = c /\ w_tran s = t /\ w_offl s = o.
  Definition stor_ok (s : kst) : Prop := 0 <= w_storage s /\ w_storage s <= q_storage q.
  Definition KColl s := kflags s true false false /\ stor_ok s.
  Definition KTran s := kflags s false true false /\ stor_ok s /\ 0 <= w_trem s.
  Definition KOffl s := kflags s false false true /\ stor_ok s /\ 0 <= w_orem s.
  Definition KInv s := KColl s \/ KTran s \/ KOffl s.

  (** The accounts of a step. *)
  Definition kbooks (s : kst) : Prop :=
    w_emul s + w_retained s == w_fluid s /\ w_water s == w_retained s + w_decanted s /\
    0 <= w_decanted s /\ w_decanted s <= q_dpump q * w_time s / 60 /\ w_emul s + w_water s <= q_pump q * w_time s / 60 /\
    0 <= w_emul s /\ 0 <= w_retained s.
  (** [full] : no time is lost without an entry in the log. *)
  Definition kacct (full : Prop) (dt : Q) (s : kst) : Prop :=
    no_negative (w_log s) /\ 0 <= w_t s /\ spent (w_log s) + w_t s <= dt /\ (full -> spent (w_log s) + w_t s == dt) /\
    0 <= w_time s /\ w_time s <= spent (w_log s) /\ kbooks s.

  Definition keeps (s s' : kst) : Prop :=
    w_time s' = w_time s /\ w_fluid s' = w_fluid s /\ w_emul s' = w_emul s /\ w_oil s' = w_oil s /\ w_water s' = w_water s /\
    w_decanted s' = w_decanted s /\ w_retained s' = w_retained s.

  Lemma kacct_log full dt s s' a d : kacct full dt s -> keeps s s' -> w_log s' = w_log s ++ [(a, d)] -> 0 <= d ->
    w_t s' == w_t s - d -> 0 <= w_t s' -> kacct full dt s'.
  Proof.
    intros (N & T & S & F & U & V & B) (E1 & E2 & E3 & E4 & E5 & E6 & E7) L D TE T'.
    unfold kacct, kbooks. rewrite L, E1, E2, E3, E5, E6, E7, spent_app. cbn [spent fold_right snd]. fold (spent (w_log s)).
    split. { apply Forall_app. split; [exact N|]. constructor; [exact D|constructor]. }
    split; [exact T'|]. split; [rewrite TE; lra|]. split; [intros X; rewrite TE; specialize (F X); lra|].
    split; [exact U|]. split; [lra|exact B].
  Qed.

  Definition full_cond (e : benv) : Prop := 0 < q_recovery q /\ 0 < q_throughput q.

  Lemma rates_none_full e : 0 < encounter q e -> full_cond e -> skim_rates q e <> None.
  Proof.
    intros EP [R T]. unfold skim_rates. assert (C : Qltb 0 (q_recovery q) = true) by (now apply Qltb_iff). rewrite C. cbv zeta.
    set (er := encounter q e) in *.
    set (thr := if Qltb (q_pump q) _ then _ else _).
    assert (TP : 0 < thr).
    { clear C. unfold thr. destruct (Qltb (q_pump q) (er * q_throughput q / q_recovery q)); [|exact T]. apply Qlt_shift_div_l; [exact EP|].
      destruct GQ as (_ & _ & G & _). nra. }
    assert (C2 : Qltb 0 thr = true) by (now apply Qltb_iff). rewrite C2. discriminate.
  Qed.

  (** The time that filling an empty tank takes. *)
  Definition Fill (e : benv) : Q := match skim_rates q e with Some r => (7 # 10) * q_storage q / r_retain r * 60 * 60 | None => 0 end.

  Lemma skim_collect_spec dt e s : good_slick e -> KColl s -> 0 <= w_t s -> kacct (full_cond e) dt s ->
    let s' := skim_collect q e s in kacct (full_cond e) dt s' /\
    ((KColl s' /\ w_t s' == 0) \/
     (KTran s' /\ w_storage s' == 0 /\ w_t s' <= w_t s /\ (w_storage s == q_storage q -> w_t s' == w_t s - Fill e /\ 0 < Fill e) /\
      w_fluid s' - w_fluid s == 42 * w_storage s)).
  Proof.
    intros GS ((F1 & F2 & F3) & S0 & S1) T A. cbv zeta. unfold skim_collect.
    destruct GQ as (G1 & G2 & G3 & [G4 G4'] & G5 & G6 & G7 & G8 & G9).
    destruct A as (N & T' & SP & FU & U & V & B).
    destruct (Qltb 0 (encounter q e)) eqn:EP; [apply Qltb_iff in EP|apply Qltb_no in EP].
    - destruct (skim_rates q e) as [r|] eqn:RT.
      + destruct (rates_spec q e r GQ GS EP RT) as (R1 & R2 & R3 & R4 & R5 & R6 & R7 & [R8 R8'] & R9).
        set (fill := (7 # 10) * w_storage s / r_retain r * 60 * 60).
        assert (FP : 0 <= fill).
        { unfold fill. assert (Y : 0 <= (7 # 10) * w_storage s / r_retain r) by (apply Qle_shift_div_l; [exact R3|]; lra).
          set (y := (7 # 10) * w_storage s / r_retain r) in *. lra. }
        destruct B as (B1 & B2 & B3 & B4 & B5 & B6 & B7).
        assert (BK : forall tc, 0 <= tc -> 
          w_emul s + r_emul r * tc / 60 + (w_retained s + r_kept r * tc / 60) == w_fluid s + r_retain r * (tc / 60) /\
          w_water s + r_water r * tc / 60 == w_retained s + r_kept r * tc / 60 + (w_decanted s + r_decant r * tc / 60) /\
          0 <= w_decanted s + r_decant r * tc / 60 /\ w_decanted s + r_decant r * tc / 60 <= q_dpump q * (w_time s + tc) / 60 /\
          w_emul s + r_emul r * tc / 60 + (w_water s + r_water r * tc / 60) <= q_pump q * (w_time s + tc) / 60 /\
          0 <= w_emul s + r_emul r * tc / 60 /\ 0 <= w_retained s + r_kept r * tc / 60).
        { intros tc TC.
          assert (M1 : 0 <= r_decant r * tc) by (apply Qmult_le_0_compat; lra).
          assert (M2 : r_decant r * tc <= q_dpump q * tc) by (apply Qmult_le_compat_r; lra).
          assert (M3 : r_total r * tc <= q_pump q * tc) by (apply Qmult_le_compat_r; lra).
          assert (M4 : 0 <= r_emul r * tc) by (apply Qmult_le_0_compat; lra).
          assert (M5 : 0 <= r_kept r * tc) by (apply Qmult_le_0_compat; lra).
          assert (D : forall x, x / 60 == x * (1 # 60)) by (intros; field).
          split. { rewrite <- R4, <- B1. field. }
          split. { rewrite R5, B2. field. }
          split; [rewrite D; lra|]. rewrite !D in *.
          split. { setoid_replace (q_dpump q * (w_time s + tc)) with (q_dpump q * w_time s + q_dpump q * tc) by ring. lra. }
          split. { setoid_replace (q_pump q * (w_time s + tc)) with (q_pump q * w_time s + q_pump q * tc) by ring.
                   rewrite R6 in M3.
                   setoid_replace ((r_emul r + r_water r) * tc) with (r_emul r * tc + r_water r * tc) in M3 by ring. lra. }
          split; lra. }
        destruct (Qltb (w_t s) fill) eqn:MO; [apply Qltb_iff in MO|apply Qltb_no in MO].
        * set (fl := r_retain r * (w_t s / 60)).
          assert (FL : 0 <= fl) by (unfold fl; apply Qmult_le_0_compat; [lra|]; apply Qle_shift_div_l; [reflexivity|lra]).
          split.
          { unfold kacct, kbooks. cbn. rewrite spent_app. cbn [spent fold_right snd]. fold (spent (w_log s)).
            split. { apply Forall_app. split; [exact N|]. constructor; [exact T|constructor]. }
            split; [lra|]. split; [lra|]. split; [intros X; specialize (FU X); lra|]. split; [lra|]. split; [lra|].
            exact (BK (w_t s) T). }
          left. split; [|reflexivity]. split; [repeat split; assumption|].
          unfold stor_ok. cbn. destruct (Qltb (w_storage s) fl) eqn:L; [apply Qltb_iff in L|apply Qltb_no in L]; split; lra.
        * set (fl := r_retain r * (fill / 60)).
          assert (FE : fl == 42 * w_storage s) by (unfold fl, fill; field; lra).
          split.
          { unfold kacct, kbooks. cbn. rewrite spent_app. cbn [spent fold_right snd]. fold (spent (w_log s)).
            split. { apply Forall_app. split; [exact N|]. constructor; [exact FP|constructor]. }
            split; [lra|]. split; [lra|]. split; [intros X; specialize (FU X); lra|]. split; [lra|]. split; [lra|].
            exact (BK fill FP). }
          right. cbn.
          assert (Z : (if Qltb (w_storage s) fl then 0 else w_storage s - fl) == 0).
          { destruct (Qltb (w_storage s) fl) eqn:L; [reflexivity|]. apply Qltb_no in L. rewrite FE in *. lra. }
          split. { split; [repeat split; assumption|]. split; [|exact G7]. unfold stor_ok. cbn. rewrite Z. split; lra. }
          split; [exact Z|]. split; [lra|]. split.
          { intros ST. unfold Fill. rewrite RT. split; [unfold fill; rewrite ST; reflexivity|].
            assert (Y : 0 < (7 # 10) * q_storage q / r_retain r) by (apply Qlt_shift_div_l; [exact R3|]; lra).
            set (y := (7 # 10) * q_storage q / r_retain r) in *. lra. }
          rewrite FE. ring.
      + assert (NF : ~ full_cond e) by (intros X; exact (rates_none_full e EP X RT)).
        split. { unfold kacct, no_op. cbn [w_log w_t w_time]. split; [exact N|]. split; [lra|]. split; [lra|]. split; [intros X; destruct (NF X)|].
                 split; [exact U|]. split; [exact V|exact B]. }
        left. split; [|reflexivity]. split; [repeat split; assumption|split; assumption].
    - split.
      { unfold kacct. cbn. rewrite spent_app. cbn [spent fold_right snd]. fold (spent (w_log s)).
        split. { apply Forall_app. split; [exact N|]. constructor; [exact T|constructor]. }
        split; [lra|]. split; [lra|]. split; [intros X; specialize (FU X); lra|]. split; [exact U|]. split; [lra|exact B]. }
      left. split; [|reflexivity]. split; [repeat split; assumption|split; assumption].
  Qed.

  Lemma keeps_refl s : keeps s s. Proof. repeat split. Qed.

  Lemma skim_transit_spec full dt s : KTran s -> kacct full dt s -> let s' := skim_transit q s in
    kacct full dt s' /\ w_t s' <= w_t s /\
    ((KTran s' /\ w_t s' == 0) \/ (~ w_storage s == 0 /\ KColl s' /\ w_storage s' = w_storage s) \/ (w_storage s == 0 /\ KOffl s')).
  Proof.
    intros ((F1 & F2 & F3) & S & TR) A. cbv zeta. unfold skim_transit. pose proof A as (_ & T & _).
    destruct GQ as (G1 & G2 & G3 & G4 & G5 & G6 & G7 & G8 & G9).
    destruct (Qle_bool (w_trem s) (w_t s)) eqn:C; [apply Qle_bool_iff in C|apply Qleb_no in C].
    - split. { eapply kacct_log with (s := s) (d := w_trem s); cbn; try reflexivity; try assumption; try lra. repeat split. }
      split; [cbn; lra|]. right.
      destruct (Qeq_bool (w_storage s) 0) eqn:Z; [apply Qeq_bool_iff in Z; right|apply Qeqb_no in Z; left]; (split; [exact Z|]).
      + split; [repeat split; assumption|]. split; [exact S|exact G8].
      + split; [|reflexivity]. split; [repeat split; assumption|exact S].
    - split. { eapply kacct_log with (s := s) (d := w_t s); cbn; try reflexivity; try assumption; try lra. repeat split. }
      split; [cbn; lra|]. left. split; [|reflexivity]. split; [repeat split; assumption|]. split; [exact S|cbn; lra].
  Qed.

  Lemma offload_spec full dt s : KOffl s -> kacct full dt s -> let s' := offload q s in
    kacct full dt s' /\ w_t s' <= w_t s /\
    ((KOffl s' /\ w_t s' == 0) \/ (KTran s' /\ w_storage s' == q_storage q)).
  Proof.
    intros ((F1 & F2 & F3) & S & TR) A. cbv zeta. unfold offload. pose proof A as (_ & T & _).
    destruct GQ as (G1 & G2 & G3 & G4 & G5 & G6 & G7 & G8 & G9).
    destruct (Qle_bool (w_orem s) (w_t s)) eqn:C; [apply Qle_bool_iff in C|apply Qleb_no in C].
    - split. { eapply kacct_log with (s := s) (d := w_orem s); cbn; try reflexivity; try assumption; try lra. repeat split. }
      split; [cbn; lra|]. right. split; [|reflexivity]. split; [repeat split; assumption|]. split; [unfold stor_ok; cbn; lra|exact G7].
    - split. { eapply kacct_log with (s := s) (d := w_t s); cbn; try reflexivity; try assumption; try lra. repeat split. }
      split; [cbn; lra|]. left. split; [|reflexivity]. split; [repeat split; assumption|]. split; [exact S|cbn; lra].
  Qed.

  Definition after_off full dt t0 (s' : kst) : Prop :=
    kacct full dt s' /\ w_t s' <= t0 /\ ((KInv s' /\ w_t s' == 0) \/ (KTran s' /\ w_storage s' == q_storage q)).

  Lemma off_tail full dt s : KOffl s -> kacct full dt s -> after_off full dt (w_t s) (if w_offl s then offload q s else s).
  Proof.
    intros P A. pose proof P as ((_ & _ & F) & _). rewrite F. destruct (offload_spec full dt s P A) as (A' & T & H).
    split; [exact A'|]. split; [exact T|]. destruct H as [[H Z]|H]; [left; split; [right; now right|exact Z]|now right].
  Qed.

  Definition tran_tail (s1 : kst) : kst :=
    let s2 := if w_tran s1 then skim_transit q s1 else s1 in if w_offl s2 then offload q s2 else s2.

  Lemma tran_tail_spec full dt s : KTran s -> kacct full dt s ->
    after_off full dt (w_t s) (tran_tail s) \/
    (~ w_storage s == 0 /\ KColl (tran_tail s) /\ w_storage (tran_tail s) = w_storage s /\ kacct full dt (tran_tail s) /\ w_t (tran_tail s) <= w_t s).
  Proof.
    intros P A. unfold tran_tail. pose proof P as ((_ & F & _) & _). rewrite F.
    destruct (skim_transit_spec full dt s P A) as (A' & T & [[H Z]|[(N & H & E)|[Z H]]]).
    - left. pose proof H as ((_ & _ & F') & _). rewrite F'. split; [exact A'|]. split; [exact T|]. left. split; [right; now left|exact Z].
    - right. pose proof H as ((_ & _ & F') & _). rewrite F'. split; [exact N|]. split; [exact H|]. split; [exact E|]. split; [exact A'|exact T].
    - left. destruct (off_tail full dt _ H A') as (A2 & T2 & H2). split; [exact A2|]. split; [lra|exact H2].
  Qed.

  Lemma round_kcoll dt e s : good_slick e -> KColl s -> kacct (full_cond e) dt s ->
    let s' := skim_round q e s in after_off (full_cond e) dt (w_t s) s' /\
    (~ w_t s' == 0 -> w_storage s == q_storage q -> w_t s' <= w_t s - Fill e /\ 0 < Fill e).
  Proof.
    intros GS P A. cbv zeta. unfold skim_round. pose proof P as ((F & _) & _). rewrite F. pose proof A as (_ & T & _).
    destruct (skim_collect_spec dt e s GS P T A) as (A' & [[H Z]|(H & Z & T1 & HF & _)]).
    - pose proof H as ((_ & F1 & F2) & _). rewrite F1, F2. split.
      + split; [exact A'|]. split; [lra|]. left. split; [now left|exact Z].
      + intros NZ. destruct (NZ Z).
    - fold (tran_tail (skim_collect q e s)). destruct (tran_tail_spec _ dt _ H A') as [(A2 & T2 & H2)|(N & _)].
      + split; [split; [exact A2|]; split; [lra|exact H2]|]. intros _ ST. destruct (HF ST) as [X Y]. split; [lra|exact Y].
      + destruct (N Z).
  Qed.

  Lemma round_ktran full dt e s : KTran s -> kacct full dt s -> let s' := skim_round q e s in
    after_off full dt (w_t s) s' \/
    (~ w_storage s == 0 /\ KColl s' /\ w_storage s' = w_storage s /\ kacct full dt s' /\ w_t s' <= w_t s).
  Proof.
    intros P A. cbv zeta. unfold skim_round. pose proof P as ((F & _) & _). rewrite F. exact (tran_tail_spec full dt s P A).
  Qed.

  Lemma round_koffl full dt e s : KOffl s -> kacct full dt s -> after_off full dt (w_t s) (skim_round q e s).
  Proof.
    intros P A. unfold skim_round. pose proof P as ((F & F1 & _) & _). rewrite F, F1. exact (off_tail full dt s P A).
  Qed.

  Definition KFin (dt : Q) (e : benv) (s : kst) : Prop :=
    KInv s /\ kacct (full_cond e) dt s /\ skim_goes e s = false.

  Lemma kdone e s : skim_goes e s = false -> forall n, skim_rounds n q e s = Some s.
  Proof. intros H n. destruct n; cbn [skim_rounds]; now rewrite H. Qed.
  Lemma kmore e s n : skim_goes e s = true -> skim_rounds (S n) q e s = skim_rounds n q e (skim_round q e s).
  Proof. intros H. cbn [skim_rounds]. now rewrite H. Qed.
  Lemma kgoes_pos e s : skim_goes e s = true -> 0 < w_t s.
  Proof. unfold skim_goes. intros H. apply andb_prop in H as [H _]. now apply Qltb_iff. Qed.
  Lemma kgoes_zero e s : w_t s == 0 -> skim_goes e s = false.
  Proof. intros H. unfold skim_goes. assert (C : Qltb 0 (w_t s) = false) by (apply Qltb_no; lra). now rewrite C. Qed.
  Lemma kgoes_le e s : w_t s <= 0 -> skim_goes e s = false.
  Proof. intros H. unfold skim_goes. assert (C : Qltb 0 (w_t s) = false) by (now apply Qltb_no). now rewrite C. Qed.

  Definition ends dt e s := exists n s', skim_rounds n q e s = Some s' /\ KFin dt e s'.

  Lemma ends_stop dt e s : KInv s -> kacct (full_cond e) dt s -> skim_goes e s = false -> ends dt e s.
  Proof. intros I0 A G. exists 0%nat, s. split; [now apply kdone|]. split; [exact I0|]. split; [exact A|exact G]. Qed.
  Lemma ends_more dt e s : skim_goes e s = true -> ends dt e (skim_round q e s) -> ends dt e s.
  Proof. intros G (n & s' & R & F). exists (S n), s'. rewrite (kmore _ _ _ G). now split. Qed.

  Lemma enough' D x : 0 < D -> exists k, x <= D * inject_Z (Z.of_nat k).
  Proof.
    intros DP. exists (Z.to_nat (Z.max 0 (Qceiling (x / D)))). rewrite Z2Nat.id by lia.
    assert (H : x / D <= inject_Z (Z.max 0 (Qceiling (x / D)))).
    { apply Qle_trans with (inject_Z (Qceiling (x / D))); [apply Qle_ceiling|]. rewrite <- Zle_Qle. lia. }
    set (z := inject_Z _) in *. setoid_replace x with (D * (x / D)) by (field; lra).
    rewrite (Qmult_comm D (x / D)), (Qmult_comm D z). apply Qmult_le_compat_r; lra.
  Qed.

  Lemma loop_full dt e D : good_slick e -> 0 < D -> (0 < Fill e -> D == Fill e) -> forall k s,
    (KTran s \/ KColl s) -> w_storage s == q_storage q -> kacct (full_cond e) dt s ->
    w_t s <= D * inject_Z (Z.of_nat k) -> ends dt e s.
  Proof.
    intros GS DP DF. assert (SP : 0 < q_storage q) by apply GQ.
    induction k as [|k IH]; intros s P ST A TK.
    - change (inject_Z (Z.of_nat 0)) with 0 in TK. apply ends_stop; [unfold KInv; tauto|exact A|apply kgoes_le; lra].
    - assert (KQ : D * inject_Z (Z.of_nat (S k)) == D * inject_Z (Z.of_nat k) + D).
      { rewrite Nat2Z.inj_succ. unfold Z.succ. rewrite inject_Z_plus. ring. }
      assert (COLL : forall s, KColl s -> w_storage s == q_storage q -> kacct (full_cond e) dt s ->
                 w_t s <= D * inject_Z (Z.of_nat (S k)) -> ends dt e s).
      { clear s P ST A TK. intros s P ST A TK. destruct (skim_goes e s) eqn:G; [|apply ends_stop; [now left|exact A|exact G]].
        apply ends_more; [exact G|]. destruct (round_kcoll dt e s GS P A) as ((A1 & T1 & H) & FL).
        destruct H as [[I1 Z]|[P1 ST1]]; [apply ends_stop; [exact I1|exact A1|now apply kgoes_zero]|].
        destruct (Qeq_dec (w_t (skim_round q e s)) 0) as [Z|NZ].
        - apply ends_stop; [right; now left|exact A1|now apply kgoes_zero].
        - destruct (FL NZ ST) as [T2 FP]. specialize (DF FP). apply IH; [now left|exact ST1|exact A1|]. rewrite KQ in TK. lra. }
      destruct P as [P|P]; [|now apply COLL].
      destruct (skim_goes e s) eqn:G; [|apply ends_stop; [right; now left|exact A|exact G]].
      apply ends_more; [exact G|]. pose proof P as ((FC & FT & _) & _).
      destruct (round_ktran (full_cond e) dt e s P A) as [(A1 & T1 & H)|(N & P1 & E1 & A1 & T1)].
      + destruct H as [[I1 Z]|[P1 ST1]]; [apply ends_stop; [exact I1|exact A1|now apply kgoes_zero]|].
        destruct (Qeq_dec (w_t (skim_round q e s)) 0) as [Z|TN]; [apply ends_stop; [right; now left|exact A1|now apply kgoes_zero]|].
        (* a full tank is not empty: this does not happen with time left *)
        exfalso. revert P1 TN. unfold skim_round. rewrite FC, FT. unfold skim_transit.
        assert (NZ : Qeq_bool (w_storage s) 0 = false) by (apply Qeqb_no; lra). rewrite NZ.
        destruct P as ((_ & _ & FO) & _). destruct (Qle_bool (w_trem s) (w_t s)) eqn:C; cbn [w_offl]; rewrite FO; intros P1 TN.
        * destruct P1 as ((P1 & _) & _). cbn in P1. discriminate P1.
        * apply TN. reflexivity.
      + apply COLL; [exact P1|rewrite E1; exact ST|exact A1|lra].
  Qed.

  Lemma loop_from_full dt e s : good_slick e -> (KTran s \/ KColl s) -> w_storage s == q_storage q -> kacct (full_cond e) dt s -> ends dt e s.
  Proof.
    intros GS P ST A. destruct (Qlt_le_dec 0 (Fill e)) as [FP|FN].
    - destruct (enough' (Fill e) (w_t s) FP) as [k K]. apply loop_full with (Fill e) k; try assumption. intros _. reflexivity.
    - destruct (enough' 1 (w_t s) eq_refl) as [k K]. apply loop_full with 1 k; try assumption; [reflexivity|]. intros X. lra.
  Qed.

  Lemma after_ends dt e t0 s : good_slick e -> after_off (full_cond e) dt t0 s -> ends dt e s.
  Proof.
    intros GS (A & T & [[I1 Z]|[P1 ST]]); [apply ends_stop; [exact I1|exact A|now apply kgoes_zero]|].
    apply loop_from_full; [exact GS|now left|exact ST|exact A].
  Qed.

  Lemma kloop_ends dt e s : good_slick e -> KInv s -> kacct (full_cond e) dt s -> ends dt e s.
  Proof.
    intros GS IV A. 
    assert (COLL : forall s, KColl s -> kacct (full_cond e) dt s -> ends dt e s).
    { clear s IV A. intros s P A. destruct (skim_goes e s) eqn:G; [|apply ends_stop; [now left|exact A|exact G]].
      apply ends_more; [exact G|]. destruct (round_kcoll dt e s GS P A) as (H & _). now apply after_ends with (w_t s). }
    destruct (skim_goes e s) eqn:G; [|apply ends_stop; [exact IV|exact A|exact G]].
    destruct IV as [P|[P|P]]; [now apply COLL| |]; (apply ends_more; [exact G|]).
    - destruct (round_ktran (full_cond e) dt e s P A) as [H|(_ & P1 & _ & A1 & _)]; [now apply after_ends with (w_t s)|now apply COLL].
    - apply after_ends with (w_t s); [exact GS|now apply round_koffl].
  Qed.

  Lemma skim_rounds_det e : forall n m s x y, skim_rounds n q e s = Some x -> skim_rounds m q e s = Some y -> x = y.
  Proof.
    induction n as [|n IH]; intros m s x y A B.
    - cbn [skim_rounds] in A. destruct (skim_goes e s) eqn:G; [discriminate|]. rewrite (kdone _ _ G) in B. congruence.
    - destruct (skim_goes e s) eqn:G.
      + destruct m as [|m]; [cbn [skim_rounds] in B; rewrite G in B; discriminate|].
        rewrite (kmore _ _ _ G) in A; rewrite (kmore _ _ _ G) in B. now apply IH with m (skim_round q e s).
      + rewrite (kdone _ _ G) in A; rewrite (kdone _ _ G) in B. congruence.
  Qed.
  Lemma skim_step_det n m e dt s x y : skim_step n q e dt s = Some x -> skim_step m q e dt s = Some y -> x = y.
  Proof. unfold skim_step. destruct (_ || _); [apply skim_rounds_det|congruence]. Qed.

  Lemma kinv_new : KInv (skim_new q).
  Proof. left. assert (SP : 0 < q_storage q) by apply GQ. split; [repeat split|]. unfold stor_ok. cbn. split; lra. Qed.
  Lemma kinv_start dt s : KInv s -> KInv (skim_start dt s).
  Proof. intros H. exact H. Qed.
  Lemma kacct_start full dt s : 0 < dt -> kacct full dt (skim_start dt s).
  Proof.
    intros D. unfold kacct, kbooks, skim_start. cbn [w_log w_t w_time w_emul w_retained w_fluid w_water w_decanted].
    change (spent []) with 0. split; [constructor|]. split; [lra|]. split; [lra|]. split; [intros _; lra|]. split; [lra|]. split; [lra|].
    assert (Z : forall x, x * 0 / 60 == 0) by (intros; field). 
    split; [lra|]. split; [lra|]. split; [lra|]. split; [rewrite Z; lra|]. split; [rewrite Z; lra|]. split; lra.
  Qed.

  Lemma skim_step_ok e dt s : good_slick e -> 0 < dt -> KInv s ->
    exists n s', skim_step n q e dt s = Some s' /\ KInv s' /\
      (e_active e || w_tran s || w_offl s = true -> KFin dt e s').
  Proof.
    intros GS D IV. unfold skim_step. destruct (_ || _) eqn:C.
    - destruct (kloop_ends dt e (skim_start dt s) GS (kinv_start dt s IV) (kacct_start _ dt s D)) as (n & s' & R & F).
      exists n, s'. split; [exact R|]. split; [apply F|]. intros _. exact F.
    - exists 0%nat, s. split; [reflexivity|]. split; [exact IV|]. intros X. discriminate X.
  Qed.
  Lemma skim_reach_inv s : skim_reach q s -> KInv s.
  Proof.
    induction 1 as [|s s' n e dt H IH GS D E]; [apply kinv_new|].
    destruct (skim_step_ok e dt s GS D IH) as (m & s2 & E2 & I2 & _). now rewrite (skim_step_det _ _ _ _ _ _ _ E E2).
  Qed.
  Lemma kinv_storage s : KInv s -> 0 <= w_storage s /\ w_storage s <= q_storage q.
  Proof. intros [(_ & H)|[(_ & H & _)|(_ & H & _)]]; exact H. Qed.
End Skim.

(** ** A second run *)

Definition bsim (s r : bst) : Prop :=
  s_coll s = s_coll r /\ s_tran s = s_tran r /\ s_burn s = s_burn r /\ s_clean s = s_clean r /\ s_full s = s_full r /\
  s_cap s = s_cap r /\ s_btime s = s_btime r /\ s_brate s = s_brate r /\ s_t s = s_t r /\ s_tcol s = s_tcol r /\
  s_tbur s = s_tbur r /\ s_burning s = s_burning r /\ s_log s = s_log r /\
  (s_tran s = true -> s_off s = s_off r) /\ (s_btime s <> None -> s_brem s = s_brem r) /\ (s_clean s = true -> s_crem s = s_crem r).

Definition rsim (x y : res bst) : Prop :=
  match x, y with Ok s, Ok r => bsim s r | Raise a, Raise b => a = b | _, _ => False end.

Ltac bcbn := cbn [s_brate s_cap s_t s_coll s_tran s_burn s_clean s_full s_off s_brem s_crem s_btime s_tcol s_tbur s_burning s_log].
Ltac bsim_start :=
  match goal with H : bsim ?s ?r |- _ =>
    destruct s, r; unfold bsim in H; cbn in H;
    destruct H as (? & ? & ? & ? & ? & ? & ? & ? & ? & ? & ? & ? & ? & H1 & H2 & H3); subst end.
Ltac bsim_done :=
  unfold rsim, bsim; cbn; repeat (split; [first [reflexivity|auto; fail|congruence]|]); first [reflexivity|auto; fail|congruence|idtac].

Lemma bsim_collect p e s r : bsim s r -> rsim (collect p e s) (collect p e r).
Proof.
  intros H. bsim_start. unfold collect. bcbn.
  set (rr := (6313 # 100) * p_swath p * e_thick e * p_speed p * p_throughput p). cbv zeta.
  destruct (Qltb 0 (e_thick e)).
  - destruct (Qeq_bool rr 0).
    + destruct (Qeq_bool s_cap0 0); cbn [bind]; bsim_done.
    + cbn [bind]. destruct (Qle_bool _ _); [bsim_done|]. destruct (Qltb 0 s_t0); bsim_done.
  - cbn [bind]. destruct (Qle_bool _ _); [bsim_done|]. destruct (Qltb 0 s_t0); bsim_done.
Qed.

Lemma bsim_transit s r : bsim s r -> s_tran s = true -> bsim (transit s) (transit r).
Proof.
  intros H T. bsim_start. cbn in T. subst. specialize (H1 eq_refl). subst. unfold transit. bcbn.
  destruct (Qltb _ _); [bsim_done|]. destruct (Qltb 0 _); [bsim_done|bsim_done].
Qed.

Lemma bsim_burn p s r : bsim s r -> rsim (burn p s) (burn p r).
Proof.
  intros H. bsim_start. unfold burn. bcbn.
  destruct s_btime0 as [b|].
  - rewrite H2 by discriminate. cbn [bind]. destruct (Qltb _ _); [bsim_done|]. destruct (Qltb 0 _); bsim_done.
  - destruct s_brate0 as [x|]; [|reflexivity]. destruct (Qeq_bool x 0); [reflexivity|]. cbn [bind].
    destruct (Qltb _ _); [bsim_done|]. destruct (Qltb 0 _); bsim_done.
Qed.

Lemma bsim_clean p e s r : bsim s r -> s_clean s = true -> bsim (clean p e s) (clean p e r).
Proof.
  intros H T. bsim_start. cbn in T. subst. specialize (H3 eq_refl). subst. unfold clean. bcbn.
  destruct (Qltb _ _); [bsim_done|]. destruct (Qltb 0 _); [|bsim_done]. destruct (e_active e); bsim_done.
Qed.

Lemma bsim_set_coll s r : bsim s r -> bsim (set_coll s) (set_coll r).
Proof. intros H. bsim_start. bsim_done. Qed.

Lemma bsim_flags s r : bsim s r -> s_coll s = s_coll r /\ s_tran s = s_tran r /\ s_burn s = s_burn r /\ s_clean s = s_clean r /\ s_t s = s_t r.
Proof. unfold bsim. tauto. Qed.

Lemma bsim_round p e s r : bsim s r -> rsim (round p e s) (round p e r).
Proof.
  intros H. unfold round. pose proof (bsim_flags _ _ H) as (F1 & F2 & F3 & F4 & _). rewrite <- F1, <- F2, <- F3, <- F4. clear F1 F2 F3 F4.
  match goal with |- context [if ?c then set_coll s else s] => set (idle := c) end.
  assert (H0 : bsim (if idle then set_coll s else s) (if idle then set_coll r else r)) by (destruct idle; [now apply bsim_set_coll|exact H]).
  cbv zeta. set (s0 := if idle then set_coll s else s) in *. set (r0 := if idle then set_coll r else r) in *.
  clearbody s0 r0. clear s r H idle.
  assert (H1 : rsim (if s_coll s0 then collect p e s0 else Ok s0) (if s_coll r0 then collect p e r0 else Ok r0)).
  { pose proof (bsim_flags _ _ H0) as (F & _). rewrite <- F. destruct (s_coll s0); [now apply bsim_collect|exact H0]. }
  destruct (if s_coll s0 then _ else _) as [s1|x], (if s_coll r0 then _ else _) as [r1|y]; cbn in H1; try contradiction;
    [|subst; reflexivity].
  cbn [bind].
  assert (H2 : bsim (if s_tran s1 then transit s1 else s1) (if s_tran r1 then transit r1 else r1)).
  { pose proof (bsim_flags _ _ H1) as (_ & F & _). rewrite <- F. destruct (s_tran s1) eqn:T; [now apply bsim_transit|exact H1]. }
  set (s2 := if s_tran s1 then _ else _) in *. set (r2 := if s_tran r1 then _ else _) in *. clearbody s2 r2.
  assert (H3 : rsim (if s_burn s2 then burn p s2 else Ok s2) (if s_burn r2 then burn p r2 else Ok r2)).
  { pose proof (bsim_flags _ _ H2) as (_ & _ & F & _). rewrite <- F. destruct (s_burn s2); [now apply bsim_burn|exact H2]. }
  destruct (if s_burn s2 then _ else _) as [s3|x], (if s_burn r2 then _ else _) as [r3|y]; cbn in H3; try contradiction;
    [|subst; reflexivity].
  cbn [bind rsim]. pose proof (bsim_flags _ _ H3) as (_ & _ & _ & F & _). rewrite <- F.
  destruct (s_clean s3) eqn:T; [now apply bsim_clean|exact H3].
Qed.

Definition osim (x y : option (res bst)) : Prop :=
  match x, y with Some a, Some b => rsim a b | None, None => True | _, _ => False end.

Lemma bsim_rounds p e : forall n s r, bsim s r -> osim (rounds n p e s) (rounds n p e r).
Proof.
  induction n as [|n IH]; intros s r H; cbn [rounds]; pose proof (bsim_flags _ _ H) as (_ & _ & _ & _ & F); rewrite <- F;
    destruct (Qltb 0 (s_t s)); try exact H; [exact Logic.I|].
  pose proof (bsim_round p e s r H) as HR. destruct (round p e s), (round p e r); cbn in HR; try contradiction; [now apply IH|exact HR].
Qed.

(** Equal but for what a step does not read. *)
Definition bsim0 (s r : bst) : Prop :=
  s_coll s = s_coll r /\ s_tran s = s_tran r /\ s_burn s = s_burn r /\ s_clean s = s_clean r /\ s_full s = s_full r /\
  s_cap s = s_cap r /\ s_btime s = s_btime r /\ s_brate s = s_brate r /\ s_burning s = s_burning r /\
  (s_tran s = true -> s_off s = s_off r) /\ (s_btime s <> None -> s_brem s = s_brem r) /\ (s_clean s = true -> s_crem s = s_crem r).

Lemma bsim_weak s r : bsim s r -> bsim0 s r.
Proof. unfold bsim, bsim0. tauto. Qed.
Lemma bsim0_start dt s r : bsim0 s r -> bsim (start_step dt s) (start_step dt r).
Proof. unfold bsim, bsim0, start_step. cbn. intuition. Qed.

Lemma bsim_step n p e dt s r : bsim0 s r -> osim (burn_step n p e dt s) (burn_step n p e dt r) \/
  exists s' r', burn_step n p e dt s = Some (Ok s') /\ burn_step n p e dt r = Some (Ok r') /\ bsim0 s' r' /\
    s_log s' = s_log r' /\ s_tcol s' = s_tcol r' /\ s_tbur s' = s_tbur r'.
Proof.
  intros H. unfold burn_step.
  assert (F : step_active e s = step_active e r) by (unfold step_active; destruct H as (_ & _ & -> & -> & _); reflexivity).
  rewrite <- F. destruct (step_active e s).
  - left. apply bsim_rounds. now apply bsim0_start.
  - right. eexists _, _. split; [reflexivity|]. split; [reflexivity|]. split; [|cbn; auto].
    destruct s, r. unfold bsim0 in *. cbn in *. exact H.
Qed.

Lemma bsim_plans n p : forall ins s r, bsim0 s r -> burn_plans n p ins s = burn_plans n p ins r.
Proof.
  induction ins as [|[e dt] ins IH]; intros s r H; cbn [burn_plans]; [reflexivity|].
  destruct (bsim_step n p e dt s r H) as [HO|(s' & r' & -> & -> & H' & L1 & L2 & L3)].
  - destruct (burn_step n p e dt s) as [[s'|x]|], (burn_step n p e dt r) as [[r'|y]|]; cbn in HO; try contradiction; subst; try reflexivity.
    rewrite (IH s' r' (bsim_weak _ _ HO)). destruct HO as (_ & _ & _ & _ & _ & E1 & _ & _ & _ & E2 & E3 & _ & E4 & _). now rewrite E1, E2, E3, E4.
  - rewrite (IH s' r' H'). destruct H' as (_ & _ & _ & _ & _ & E1 & _). now rewrite E1, L1, L2, L3.
Qed.

Definition ksim (s r : kst) : Prop :=
  w_coll s = w_coll r /\ w_tran s = w_tran r /\ w_offl s = w_offl r /\ w_storage s = w_storage r /\ w_t s = w_t r /\
  w_fills s = w_fills r /\ w_time s = w_time r /\ w_fluid s = w_fluid r /\ w_emul s = w_emul r /\ w_oil s = w_oil r /\
  w_water s = w_water r /\ w_decanted s = w_decanted r /\ w_retained s = w_retained r /\ w_log s = w_log r /\
  (w_tran s = true -> w_trem s = w_trem r) /\ (w_offl s = true -> w_orem s = w_orem r).
Definition ksim0 (s r : kst) : Prop :=
  w_coll s = w_coll r /\ w_tran s = w_tran r /\ w_offl s = w_offl r /\ w_storage s = w_storage r /\
  (w_tran s = true -> w_trem s = w_trem r) /\ (w_offl s = true -> w_orem s = w_orem r).

Ltac ksim_start :=
  match goal with H : ksim ?s ?r |- _ =>
    destruct s, r; unfold ksim in H; cbn in H;
    destruct H as (? & ? & ? & ? & ? & ? & ? & ? & ? & ? & ? & ? & ? & ? & H1 & H2); subst end.
Ltac ksim_done :=
  unfold ksim; cbn; repeat (split; [first [reflexivity|auto; fail|congruence]|]); first [reflexivity|auto; fail|congruence|idtac].
Ltac kcbn := cbn [w_coll w_tran w_offl w_storage w_trem w_orem w_t w_fills w_time w_fluid w_emul w_oil w_water w_decanted w_retained w_log].

Lemma ksim_collect q e s r : ksim s r -> ksim (skim_collect q e s) (skim_collect q e r).
Proof.
  intros H. ksim_start. unfold skim_collect. destruct (Qltb 0 (encounter q e)); [|unfold no_op; kcbn; ksim_done].
  destruct (skim_rates q e) as [x|]; [|unfold no_op; kcbn; ksim_done].
  kcbn. destruct (Qltb w_t0 _); ksim_done.
Qed.
Lemma ksim_transit q s r : ksim s r -> w_tran s = true -> ksim (skim_transit q s) (skim_transit q r).
Proof.
  intros H T. ksim_start. cbn in T. subst. specialize (H1 eq_refl). subst. unfold skim_transit. kcbn.
  destruct (Qle_bool _ _); [|ksim_done]. destruct (Qeq_bool _ _); ksim_done.
Qed.
Lemma ksim_offload q s r : ksim s r -> w_offl s = true -> ksim (offload q s) (offload q r).
Proof.
  intros H T. ksim_start. cbn in T. subst. specialize (H2 eq_refl). subst. unfold offload. kcbn.
  destruct (Qle_bool _ _); ksim_done.
Qed.
Lemma ksim_flags s r : ksim s r -> w_coll s = w_coll r /\ w_tran s = w_tran r /\ w_offl s = w_offl r /\ w_t s = w_t r.
Proof. unfold ksim. tauto. Qed.
Lemma ksim_round q e s r : ksim s r -> ksim (skim_round q e s) (skim_round q e r).
Proof.
  intros H. unfold skim_round. pose proof (ksim_flags _ _ H) as (F & _). rewrite <- F.
  assert (H1 : ksim (if w_coll s then skim_collect q e s else s) (if w_coll s then skim_collect q e r else r)).
  { destruct (w_coll s); [now apply ksim_collect|exact H]. }
  set (s1 := if w_coll s then skim_collect q e s else s) in *. set (r1 := if w_coll s then skim_collect q e r else r) in *. clearbody s1 r1.
  pose proof (ksim_flags _ _ H1) as (_ & F1 & _). rewrite <- F1.
  assert (H2 : ksim (if w_tran s1 then skim_transit q s1 else s1) (if w_tran s1 then skim_transit q r1 else r1)).
  { destruct (w_tran s1) eqn:T; [now apply ksim_transit|exact H1]. }
  set (s2 := if w_tran s1 then skim_transit q s1 else s1) in *. set (r2 := if w_tran s1 then skim_transit q r1 else r1) in *. clearbody s2 r2.
  pose proof (ksim_flags _ _ H2) as (_ & _ & F2 & _). rewrite <- F2. destruct (w_offl s2) eqn:T; [now apply ksim_offload|exact H2].
Qed.
Lemma ksim_rounds q e : forall n s r, ksim s r ->
  match skim_rounds n q e s, skim_rounds n q e r with Some a, Some b => ksim a b | None, None => True | _, _ => False end.
Proof.
  induction n as [|n IH]; intros s r H; cbn [skim_rounds];
    (assert (F : skim_goes e r = skim_goes e s) by (unfold skim_goes; destruct (ksim_flags _ _ H) as (_ & -> & -> & ->); reflexivity));
    rewrite F; destruct (skim_goes e s); try exact H; [exact Logic.I|]. apply IH. now apply ksim_round.
Qed.
Lemma ksim_plans n q : forall ins s r, ksim0 s r -> skim_plans n q ins s = skim_plans n q ins r.
Proof.
  induction ins as [|[e dt] ins IH]; intros s r H; cbn [skim_plans]; [reflexivity|].
  pose proof H as (_ & F1 & F2 & _). unfold skim_step. rewrite <- F1, <- F2. destruct (_ || _) eqn:C.
  - assert (H0 : ksim (skim_start dt s) (skim_start dt r)) by (unfold ksim0, ksim, skim_start in *; cbn; intuition).
    pose proof (ksim_rounds q e n _ _ H0) as HR.
    destruct (skim_rounds n q e (skim_start dt s)) as [s'|], (skim_rounds n q e (skim_start dt r)) as [r'|]; try contradiction; [|reflexivity].
    rewrite (IH s' r'). 2:{ unfold ksim, ksim0 in *. tauto. }
    destruct HR as (_ & _ & _ & _ & _ & _ & _ & -> & -> & -> & -> & -> & _ & -> & _). reflexivity.
  - now rewrite (IH s r H).
Qed.
