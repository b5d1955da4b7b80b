(** * Response options: properties C117 to C123 *)
From Coq Require Import Lqa.
From Verif Require Import Py PyLemmas QLemmas RocModel RocSpec RocProofs.
Open Scope Q_scope.

(** ** C117: the plan of a burn uses up the time step

    From every state that a burn can be in, a step of any length comes to an
    end without an error; no activity takes negative time, together they take no
    more than the step, and exactly the step while the operation is scheduled;
    what still fits in the boom stays between nothing and its capacity. *)
Theorem C117_plan_partial p s e dt : good_burn p -> burn_reach p s -> good_slick e -> 0 < dt ->
  exists n s', burn_step n p e dt s = Some (Ok s') /\
    no_negative (s_log s') /\ spent (s_log s') <= dt /\ (e_active e = true -> spent (s_log s') == dt) /\
    0 <= s_cap s' /\ s_cap s' <= p_capmax p.
Proof.
  intros GP R GS D. pose proof (reach_inv p GP s R) as IV.
  destruct (burn_step_ok p GP e dt s GS D IV) as (n & s' & E & I' & F1 & F2). exists n, s'. split; [exact E|].
  pose proof (inv_cap p GP s' I') as [C1 C2].
  destruct (step_active e s) eqn:SA.
  - destruct (F1 eq_refl) as (N & _ & _ & S1 & S2). split; [exact N|]. split; [exact S1|]. split; [exact S2|]. split; [exact C1|exact C2].
  - destruct (F2 eq_refl) as (L & _). rewrite L. split; [constructor|]. split; [cbn; lra|].
    split; [|split; [exact C1|exact C2]]. intros A. unfold step_active in SA. rewrite A in SA. discriminate SA.
Qed.
Print Assumptions C117_plan_partial.

Definition ex_burn := burn_setup 500 36 (3 # 4) (3 # 4) 3000 (748 # 100).
Definition ex_slick := mkBE (1 # 100) (1 # 5) true.
Example C117_meets : good_burn ex_burn /\ good_slick ex_slick /\
  exists s, burn_step 9 ex_burn ex_slick 3600 (burn_new ex_burn) = Some (Ok s) /\ burn_reach ex_burn s /\
    length (s_log s) = 3%nat /\ s_burn s = true.
Proof.
  assert (G : good_slick ex_slick) by (split; vm_compute; [discriminate|reflexivity]).
  split; [unfold good_burn, ex_burn; vm_compute; repeat split; congruence|]. split; [exact G|].
  destruct (burn_step 9 ex_burn ex_slick 3600 (burn_new ex_burn)) as [[s|]|] eqn:E; [|vm_compute in E; discriminate..].
  exists s. split; [reflexivity|]. split.
  - apply (br_step _ _ _ 9 ex_slick 3600 (br_new _) G eq_refl E).
  - vm_compute in E. injection E as <-. vm_compute. split; reflexivity.
Qed.

(** When the slick has less than was planned, the weathering step gives the
    missing mass (kilograms) back to the boom as room (cubic feet): the burn
    then takes negative time, and the boom is cleaned for longer than the whole
    step leaves. *)
Theorem C117_plan_refuted : exists p e s k s1 n s2, good_burn p /\ good_slick e /\ burn_reach p s /\
  burn_weather s 1 1 500 no_books 1 = (k, s1) /\ 500 < s_tcol s * 1 * 1 /\
  burn_step n p e 3600 s1 = Some (Ok s2) /\ ~ no_negative (s_log s2) /\
  exists d, In (BurnA, d) (s_log s2) /\ d < - (2500).
Proof.
  set (p := mkBP 90 1 (3 # 4) 36 1000 4000 (748 # 100)). set (e := mkBE (1 # 100) 0 true).
  assert (G : good_slick e) by (split; vm_compute; [discriminate|reflexivity]).
  destruct (burn_step 9 p e 900 (burn_new p)) as [[s|]|] eqn:E; [|vm_compute in E; discriminate..].
  destruct (burn_weather s 1 1 500 no_books 1) as [k s1] eqn:W.
  destruct (burn_step 9 p e 3600 s1) as [[s2|]|] eqn:E2.
  2,3: vm_compute in E; injection E as <-; vm_compute in W; injection W as <- <-; vm_compute in E2; discriminate E2.
  exists p, e, s, k, s1, 9%nat, s2.
  split; [unfold good_burn, p; cbn; lra|]. split; [exact G|]. split; [exact (br_step _ _ _ 9 e 900 (br_new _) G eq_refl E)|].
  split; [exact W|]. vm_compute in E. injection E as <-. split; [vm_compute; reflexivity|]. split; [exact E2|].
  vm_compute in W. injection W as <- <-. vm_compute in E2. injection E2 as <-.
  split.
  - intros H. apply Forall_inv_tail, Forall_inv in H. vm_compute in H. apply H. reflexivity.
  - eexists. split; [right; left; reflexivity|]. vm_compute. reflexivity.
Qed.
Print Assumptions C117_plan_refuted.

(** ** C118: what is in the boom is what was collected and not burned

    For steps of an hour at most (cleaning the boom takes an hour, so no second
    boom is filled and burned within the step). *)
Theorem C118_volumes_partial p s e dt n s' : good_burn p -> burn_reach p s -> good_slick e -> 0 < dt -> dt <= 3600 ->
  burn_step n p e dt s = Some (Ok s') -> in_boom p s' == in_boom p s + s_tcol s' - s_tbur s'.
Proof.
  intros GP R GS D H E. pose proof (reach_inv p GP s R) as IV. unfold burn_step in E. unfold in_boom.
  destruct (step_active e s) eqn:SA.
  - assert (V : vol_step (start_step dt s) s').
    { apply (loop_vol p GP dt e GS n (start_step dt s) s'); try exact E; try exact H; try reflexivity.
      - now apply inv_start.
      - split; [constructor|]. split; [cbn; ring|cbn; lra].
      - intros N. apply none_start in N. destruct N as [(_ & _ & B & K) _]. unfold step_active in SA. rewrite B, K in SA.
        destruct (e_active e); [reflexivity|discriminate]. }
    unfold vol_step, start_step in V. cbn [s_cap s_tbur s_tcol] in V. lra.
  - injection E as <-. cbn. lra.
Qed.
Print Assumptions C118_volumes_partial.

Example C118_meets : exists s s', burn_reach ex_burn s /\ burn_step 9 ex_burn ex_slick 3600 s = Some (Ok s') /\
  0 < in_boom ex_burn s /\ 0 < s_tcol s' /\ s_burn s' = true.
Proof.
  assert (G : good_slick ex_slick) by (split; vm_compute; [discriminate|reflexivity]).
  set (thin := mkBE (1 # 1000) (1 # 5) true).
  assert (GT : good_slick thin) by (split; vm_compute; [discriminate|reflexivity]).
  destruct (burn_step 9 ex_burn thin 900 (burn_new ex_burn)) as [[s|]|] eqn:E; [|vm_compute in E; discriminate..].
  destruct (burn_step 9 ex_burn ex_slick 3600 s) as [[s'|]|] eqn:E2.
  2,3: vm_compute in E; injection E as <-; vm_compute in E2; discriminate E2.
  exists s, s'. split; [exact (br_step _ _ _ 9 thin 900 (br_new _) GT eq_refl E)|]. split; [exact E2|].
  vm_compute in E. injection E as <-. vm_compute in E2. injection E2 as <-. vm_compute. repeat split; reflexivity.
Qed.

(** In a long step the second collection replaces the first in the sum of what
    was collected: the boom is full, yet the step reports as much burned as
    collected. *)
Theorem C118_volumes_refuted : exists p e n s', good_burn p /\ good_slick e /\
  burn_step n p e 10000 (burn_new p) = Some (Ok s') /\
  in_boom p (burn_new p) == 0 /\ s_tcol s' == s_tbur s' /\ in_boom p s' == p_capmax p.
Proof.
  set (p := mkBP 90 1 (3 # 4) 36 1000 60 (748 # 100)). set (e := mkBE (1 # 100) 0 true).
  destruct (burn_step 9 p e 10000 (burn_new p)) as [[s|]|] eqn:E; [|vm_compute in E; discriminate..].
  exists p, e, 9%nat, s. split; [unfold good_burn, p; cbn; lra|]. split; [split; vm_compute; [discriminate|reflexivity]|].
  split; [exact E|]. vm_compute in E. injection E as <-. vm_compute. repeat split.
Qed.
Print Assumptions C118_volumes_refuted.

(** ** C119: the accounts of the burns

    After any history of weathering steps of any number of burns, whatever was
    planned and whatever the elements really lost: the mass in the booms is not
    negative, what is in the booms and what is burned together are what was
    taken from the elements, and the accounts of the single burns add up to the
    totals.  With every further step the mass burned does not fall. *)
Theorem C119_accounts h x : Forall fair h -> fair x ->
  let k := book_all no_books h in
  0 <= k_boomed k /\ k_boomed k + k_burned k == taken h /\
  fst (sum_sys k) == taken h /\ snd (sum_sys k) == k_burned k /\
  0 <= k_burned k /\ k_burned k <= k_burned (book_all no_books (h ++ [x])).
Proof.
  intros F FX. cbv zeta. 
  destruct (book_all_spec h no_books F) as (H1 & H2 & H3 & H4 & H5); [constructor|discriminate|].
  cbn [k_boomed k_burned no_books] in *. change (fst (sum_sys no_books)) with 0 in H4. change (snd (sum_sys no_books)) with 0 in H5.
  split; [exact H1|]. split; [lra|]. split; [lra|]. split; [lra|]. split; [exact H2|].
  assert (ND : NoDup (map fst (k_sys (book_all no_books h)))).
  { clear -F. assert (X : forall h k, NoDup (map fst (k_sys k)) -> NoDup (map fst (k_sys (book_all k h)))).
    { clear. induction h as [|[[[i c] a] b] h IH]; intros k ND; [exact ND|]. unfold book_all. cbn [fold_left].
      fold (book_all (fst (book k i c a b)) h). apply IH. unfold book.
      destruct (Qltb 0 c).
      - destruct (sys_of k i) as [x y]. destruct (Qltb 0 b).
        + set (k1 := mkBk _ _ _). assert (N1 : NoDup (map fst (k_sys k1))) by (now apply dset_nodup). clearbody k1.
          destruct (sys_of k1 i) as [x1 y1]. destruct (Qltb (k_boomed k1 - b) 0); cbn; now apply dset_nodup.
        + cbn. now apply dset_nodup.
      - destruct (Qltb 0 b); [|exact ND]. destruct (sys_of k i) as [x y]. destruct (Qltb (k_boomed k - b) 0); cbn; now apply dset_nodup. }
    apply X. constructor. }
  destruct x as [[[i c] a] b]. cbn in FX.
  match goal with |- _ <= k_burned ?z => assert (X : z = fst (book (book_all no_books h) i c a b))
    by (unfold book_all; now rewrite fold_left_app) end.
  rewrite X. clear X. destruct (book (book_all no_books h) i c a b) as [k' bk] eqn:E. cbn [fst].
  destruct (book_spec _ _ _ _ _ _ _ E ND H1 FX) as (_ & _ & U & _). exact U.
Qed.
Print Assumptions C119_accounts.

Example C119_meets : let h : list entry := [(1%Z, 10, 10, 0); (2%Z, 5, 3, 0); (1%Z, 0, 0, 20); (2%Z, 4, 4, 1)] in
  Forall fair h /\ taken h == 17 /\ k_boomed (book_all no_books h) == 3 /\ k_burned (book_all no_books h) == 14.
Proof. cbv zeta. split; [repeat constructor; cbn; lra|]. vm_compute. repeat split. Qed.

(** ** C120: the rates of a skimming system

    Whatever the slick: the pump moves no more than it can, what is recovered is
    emulsion and water, the water is decanted or kept, no more is decanted than
    the decanting pump moves, and what is kept is what fills the tank. *)
Theorem C120_rates q e r : good_skim q -> good_slick e -> 0 < encounter q e -> skim_rates q e = Some r ->
  r_total r <= q_pump q /\ r_total r == r_emul r + r_water r /\ r_water r == r_kept r + r_decant r /\
  r_emul r + r_kept r == r_retain r /\ 0 < r_emul r /\ 0 <= r_kept r /\ 0 <= r_decant r <= q_dpump q /\
  r_oil r == r_emul r * (1 - e_fw e) /\ r_emul r == q_recovery q * r_total r.
Proof.
  intros GQ GS EP E. destruct (rates_spec q e r GQ GS EP E) as (R1 & R2 & R3 & R4 & R5 & R6 & R7 & R8 & R9).
  split; [exact R1|]. split; [exact R6|]. split; [exact R5|]. split; [exact R4|]. split; [exact R2|]. split; [exact R7|].
  split; [exact R8|]. split; [exact R9|].
  unfold skim_rates in E. destruct (Qltb 0 (q_recovery q)) eqn:RC; [|discriminate]. apply Qltb_iff in RC. cbv zeta in E.
  set (er := encounter q e) in *.
  destruct (Qltb (q_pump q) (er * q_throughput q / q_recovery q)).
  - destruct (Qltb 0 (q_pump q * q_recovery q / er)); [|discriminate]. injection E as <-. cbn. field. split; lra.
  - destruct (Qltb 0 (q_throughput q)); [|discriminate]. injection E as <-. cbn. field. lra.
Qed.
Print Assumptions C120_rates.

Definition ex_skim := mkKP 150 1 (3 # 4) 200 (1 # 2) (1 # 2) 20 100 600 1800.
Example C120_meets : good_skim ex_skim /\ good_slick ex_slick /\ 0 < encounter ex_skim ex_slick /\
  exists r, skim_rates ex_skim ex_slick = Some r /\ r_decant r == 20 /\ 0 < r_kept r.
Proof.
  split; [unfold good_skim, ex_skim; cbn; lra|]. split; [split; vm_compute; [discriminate|reflexivity]|].
  split; [vm_compute; reflexivity|].
  destruct (skim_rates ex_skim ex_slick) as [r|] eqn:E; [|vm_compute in E; discriminate E].
  exists r. split; [reflexivity|]. vm_compute in E. injection E as <-. vm_compute. split; reflexivity.
Qed.

(** ** C121: a step of a skimming system

    From every state that a skimming system can be in, a step of any length
    comes to an end; no activity takes negative time; together they take no more
    than the step, and exactly the step while the operation is scheduled and the
    skimmer can recover oil; the room in the tank stays between nothing and the
    size of the tank; the amounts of the step add up, and neither pump moved more
    than it can in the time spent skimming. *)
Theorem C121_step_partial q s e dt : good_skim q -> skim_reach q s -> good_slick e -> 0 < dt ->
  exists n s', skim_step n q e dt s = Some s' /\ 0 <= w_storage s' /\ w_storage s' <= q_storage q /\
    (e_active e || w_tran s || w_offl s = true ->
       no_negative (w_log s') /\ spent (w_log s') <= dt /\
       (e_active e = true -> 0 < q_recovery q -> 0 < q_throughput q -> spent (w_log s') == dt) /\
       w_time s' <= spent (w_log s') /\
       w_emul s' + w_retained s' == w_fluid s' /\ w_water s' == w_retained s' + w_decanted s' /\
       0 <= w_decanted s' /\ w_decanted s' <= q_dpump q * w_time s' / 60 /\
       w_emul s' + w_water s' <= q_pump q * w_time s' / 60).
Proof.
  intros GQ R GS D. pose proof (skim_reach_inv q GQ s R) as IV.
  destruct (skim_step_ok q GQ e dt s GS D IV) as (n & s' & E & I' & F). exists n, s'. split; [exact E|].
  destruct (kinv_storage q s' I') as [S1 S2]. split; [exact S1|]. split; [exact S2|].
  intros AC. destruct (F AC) as (_ & (N & T & SP & FU & U & V & B) & G).
  split; [exact N|]. split; [lra|]. split.
  - intros EA RC TH. specialize (FU (conj RC TH)).
    assert (Z : w_t s' <= 0).
    { unfold skim_goes in G. rewrite EA in G. cbn [orb] in G. rewrite andb_true_r in G. now apply Qltb_no in G. }
    lra.
  - split; [exact V|]. destruct B as (B1 & B2 & B3 & B4 & B5 & _). repeat (split; [assumption|]). assumption.
Qed.
Print Assumptions C121_step_partial.

Example C121_meets : exists s s', skim_reach ex_skim s /\ skim_step 9 ex_skim ex_slick 7200 s = Some s' /\
  (length (w_log s') >= 4)%nat /\ 0 < w_fluid s'.
Proof.
  assert (G : good_slick ex_slick) by (split; vm_compute; [discriminate|reflexivity]).
  destruct (skim_step 9 ex_skim ex_slick 900 (skim_new ex_skim)) as [s|] eqn:E; [|vm_compute in E; discriminate].
  destruct (skim_step 9 ex_skim ex_slick 7200 s) as [s'|] eqn:E2.
  2:{ vm_compute in E. injection E as <-. vm_compute in E2. discriminate E2. }
  exists s, s'. split; [exact (sr_step _ _ _ 9 ex_slick 900 (sr_new _) G eq_refl E)|]. split; [exact E2|].
  vm_compute in E. injection E as <-. vm_compute in E2. injection E2 as <-. split; [cbn; lia|vm_compute; reflexivity].
Qed.

(** What is put in the tank: the time to fill the tank is computed in seconds
    with a rate per minute as if it were per hour, and 70 per cent of it is used,
    so that whenever the tank becomes full the fluid collected is 42 times the
    room there was. *)
Theorem C121_fill_refuted :
  (forall q s e dt, good_skim q -> skim_reach q s -> good_slick e -> 0 < dt -> w_coll s = true ->
     w_tran (skim_collect q e (skim_start dt s)) = true -> w_fluid (skim_collect q e (skim_start dt s)) == 42 * w_storage s) /\
  (exists q e n s', good_skim q /\ good_slick e /\ skim_step n q e 3600 (skim_new q) = Some s' /\
     q_storage q < w_fluid s' /\ w_fills s' == 1).
Proof.
  split.
  - intros q s e dt GQ R GS D C T. pose proof (skim_reach_inv q GQ s R) as IV.
    assert (P : KColl q (skim_start dt s)).
    { destruct IV as [P|[((X & _) & _)|((X & _) & _)]]; [exact P|congruence|congruence]. }
    destruct (skim_collect_spec q GQ dt e (skim_start dt s) GS P) as (_ & [[K _]|(_ & _ & _ & _ & H)]).
    + cbn. lra.
    + now apply kacct_start.
    + destruct K as ((_ & X & _) & _). congruence.
    + change (w_fluid (skim_start dt s)) with 0 in H. change (w_storage (skim_start dt s)) with (w_storage s) in H. lra.
  - set (q := mkKP 10 1 (3 # 4) 100 (1 # 2) (1 # 2) 10 10 600 1800). set (e := mkBE (1 # 100) 0 true).
    destruct (skim_step 9 q e 3600 (skim_new q)) as [s|] eqn:E; [|vm_compute in E; discriminate].
    exists q, e, 9%nat, s. split; [unfold good_skim, q; cbn; lra|]. split; [split; vm_compute; [discriminate|reflexivity]|].
    split; [exact E|]. vm_compute in E. injection E as <-. vm_compute. split; reflexivity.
Qed.
Print Assumptions C121_fill_refuted.

(** ** C122: the schedule of an operation

    For entries that follow one another: [index_of] is the entry that the time
    is in, or -1; the next interval is the first that begins after the time, or
    none if no interval does; the time to the next change is that to the end of
    the current interval, to the begin of the next, or none. *)
Theorem C122_index ts t :
  (index_of ts t = (-1)%Z /\ Forall (fun e => ~ within e t) ts) \/
  (exists k e, index_of ts t = Z.of_nat k /\ nth_error ts k = Some e /\ within e t).
Proof.
  destruct (index_from_spec ts 0 t) as [H|(k & e & H)]; [lia|now left|]. right. exists k, e. exact H.
Qed.
Print Assumptions C122_index.

Lemma orderly_before : forall ts k e, orderly ts -> nth_error ts k = Some e ->
  Forall (fun x => (fst x < snd x /\ snd x <= fst e)%Z) (firstn k ts) /\ (fst e < snd e)%Z.
Proof.
  induction ts as [|[a b] r IH]; intros k e OD N; [destruct k; discriminate|].
  destruct k as [|k].
  - cbn in N. injection N as <-. cbn in *. split; [constructor|lia].
  - cbn [nth_error firstn] in *. destruct (IH k e (orderly_tail _ _ OD) N) as [F L]. split; [|exact L].
    constructor; [|exact F]. pose proof (orderly_after _ _ _ OD) as FA. apply nth_error_In in N.
    rewrite Forall_forall in FA. specialize (FA e N). cbn in OD |- *. lia.
Qed.
Lemma orderly_end ts e : orderly ts -> In e ts -> (fst e < snd e /\ snd e <= snd (last ts (0, 0)))%Z.
Proof.
  induction ts as [|[a b] r IH]; intros OD H; [destruct H|]. destruct H as [<-|H].
  - split; [cbn in OD |- *; lia|]. exact (orderly_last _ _ _ OD).
  - destruct r as [|x r]; [destruct H|]. change (last ((a, b) :: x :: r) (0, 0)%Z) with (last (x :: r) (0, 0)%Z).
    exact (IH (orderly_tail _ _ OD) H).
Qed.
Lemma nth_error_last {A} (l : list A) d : l <> [] -> nth_error l (length l - 1) = Some (last l d).
Proof.
  induction l as [|x l IH]; [congruence|]. intros _. destruct l as [|y l]; [reflexivity|].
  replace (length (x :: y :: l) - 1)%nat with (S (length (y :: l) - 1)) by (cbn; lia). cbn [nth_error].
  rewrite IH by discriminate. reflexivity.
Qed.

Lemma firstn_snoc {A} : forall (l : list A) k e, nth_error l k = Some e -> firstn (S k) l = firstn k l ++ [e].
Proof.
  induction l as [|x l IH]; intros [|k] e N; cbn in N; try discriminate; [now injection N as ->|].
  change (firstn (S (S k)) (x :: l)) with (x :: firstn (S k) l). now rewrite (IH k e N).
Qed.

Theorem C122_next ts t : ts <> [] -> orderly ts ->
  exists r, next_interval_index ts t = Ok r /\
  match r with
  | None => Forall (fun e => fst e <= t)%Z ts
  | Some i => exists k e, i = Z.of_nat k /\ nth_error ts k = Some e /\ (t < fst e)%Z /\
              Forall (fun x => fst x <= t)%Z (firstn k ts)
  end.
Proof.
  intros NE OD. destruct ts as [|[a0 b0] r]; [congruence|]. unfold next_interval_index. set (ts := (a0, b0) :: r) in *.
  destruct (Z.leb_spec (snd (last ts (0, 0)))%Z t) as [L|L].
  { exists None. split; [reflexivity|]. apply Forall_forall. intros e I0. pose proof (orderly_end ts e OD I0). lia. }
  destruct (Z.ltb_spec t a0) as [L0|L0].
  { exists (Some 0%Z). split; [reflexivity|]. exists 0%nat, (a0, b0). repeat split; [exact L0|constructor]. }
  destruct (C122_index ts t) as [[E F]|(k & e & E & N & W)].
  - rewrite E. cbv zeta. change ((-1 <? -1)%Z) with false. cbv iota.
    destruct (gap_spec ts 0 t OD F L0 NE L) as (k & e0 & e1 & G & N0 & N1 & W).
    eexists. split; [now rewrite G|]. exists (S k), e1. split; [lia|]. split; [exact N1|]. split; [lia|].
    destruct (orderly_before ts k e0 OD N0) as [F0 L1].
    assert (SP : firstn (S k) ts = firstn k ts ++ [e0]).
    { now apply firstn_snoc. }
    rewrite SP. apply Forall_app. split; [|constructor; [lia|constructor]].
    eapply Forall_impl; [|exact F0]. cbn. lia.
  - rewrite E. cbv zeta. destruct (Z.ltb_spec (-1) (Z.of_nat k)) as [_|X]; [|lia].
    destruct (orderly_before ts k e OD N) as [F0 L1]. unfold within in W.
    assert (SP : firstn (S k) ts = firstn k ts ++ [e]).
    { now apply firstn_snoc. }
    assert (FS : Forall (fun x => fst x <= t)%Z (firstn (S k) ts)).
    { rewrite SP. apply Forall_app. split; [|constructor; [lia|constructor]]. eapply Forall_impl; [|exact F0]. cbn. lia. }
    destruct (Z.eqb_spec (Z.of_nat k + 1) (Z.of_nat (length ts))) as [EQ|NQ].
    + exists None. split; [reflexivity|]. assert (LE : S k = length ts) by lia. rewrite LE, firstn_all in FS. exact FS.
    + assert (LT : (S k < length ts)%nat). { assert (nth_error ts k <> None) by congruence. apply nth_error_Some in H. lia. }
      destruct (nth_error ts (S k)) as [e2|] eqn:N2; [|apply nth_error_None in N2; lia].
      eexists. split; [reflexivity|]. exists (S k), e2. split; [lia|]. split; [exact N2|]. split; [|exact FS].
      destruct (orderly_before ts (S k) e2 OD N2) as [F2 _]. rewrite SP in F2. apply Forall_app in F2 as [_ F2].
      apply Forall_inv in F2. lia.
Qed.
Print Assumptions C122_next.

Theorem C122_time_to_next ts t : ts <> [] -> orderly ts ->
  exists r, time_to_next ts t = Ok r /\
  match r with
  | None => Forall (fun e => snd e <= t)%Z ts
  | Some d => (0 < d)%Z /\
      ((exists e, In e ts /\ within e t /\ t + d = snd e)%Z \/
       (Forall (fun e => ~ within e t) ts /\ exists e, In e ts /\ t + d = fst e /\ Forall (fun x => fst x <= t \/ fst e <= fst x) ts)%Z)
  end.
Proof.
  intros NE OD. unfold time_to_next. destruct (C122_index ts t) as [[E F]|(k & e & E & N & W)]; rewrite E.
  - change ((-1 =? -1)%Z) with true. cbv iota.
    destruct (C122_next ts t NE OD) as (r & -> & H). cbn [bind]. destruct r as [i|].
    + destruct H as (k & e & -> & N & L & FB). unfold py_get, py_pos.
      assert (LT : (k < length ts)%nat) by (apply nth_error_Some; congruence).
      destruct (Z.ltb_spec (Z.of_nat k) 0); [lia|]. destruct (Z.leb_spec 0 (Z.of_nat k)); [|lia]. cbn [andb].
      destruct (Z.ltb_spec (Z.of_nat k) (Z.of_nat (length ts))); [|lia]. rewrite Nat2Z.id, N. cbn [bind].
      eexists. split; [reflexivity|]. cbv iota. split; [lia|]. right. split; [exact F|]. exists e.
      split; [eapply nth_error_In; exact N|]. split; [lia|].
      rewrite <- (firstn_skipn k ts). apply Forall_app. split.
      * eapply Forall_impl; [|exact FB]. cbn. lia.
      * destruct (orderly_before ts k e OD N) as [_ _].
        assert (O2 : forall l, orderly l -> forall k e, nth_error l k = Some e -> Forall (fun x => t < fst x -> fst e <= fst x)%Z (skipn k l)).
        { clear. induction l as [|[a b] l IH]; intros OD k e N; [destruct k; discriminate|].
          destruct k as [|k]; cbn in N |- *.
          - injection N as <-. constructor; [cbn; lia|]. pose proof (orderly_after _ _ _ OD) as FA.
            eapply Forall_impl; [|exact FA]. cbn in OD |- *. intros. lia.
          - apply IH; [exact (orderly_tail _ _ OD)|exact N]. }
        eapply Forall_impl; [|exact (O2 ts OD k e N)]. cbn. intros x X. destruct (Z_le_gt_dec (fst x) t); [now left|right; apply X; lia].
    + eexists. split; [reflexivity|]. cbv iota. rewrite Forall_forall in *. intros e I0. specialize (F e I0). specialize (H e I0).
      unfold within in F. lia.
  - destruct (Z.eqb_spec (Z.of_nat k) (-1)) as [X|_]; [lia|].
    assert (LT : (k < length ts)%nat) by (apply nth_error_Some; congruence).
    unfold py_get, py_pos.
    destruct (Z.ltb_spec (Z.of_nat k) 0); [lia|]. destruct (Z.leb_spec 0 (Z.of_nat k)); [|lia]. cbn [andb].
    destruct (Z.ltb_spec (Z.of_nat k) (Z.of_nat (length ts))); [|lia]. rewrite Nat2Z.id, N. cbn [bind].
    eexists. split; [reflexivity|]. cbv iota. unfold within in W. split; [lia|]. left. exists e.
    split; [eapply nth_error_In; exact N|]. split; [exact W|lia].
Qed.
Print Assumptions C122_time_to_next.

(** An operation works in the time steps that lie in its schedule: if the
    intervals begin and end on time steps, it is active at a time step exactly
    when the time is in an interval. *)
Theorem C122_active ts now step : (0 < step)%Z ->
  Forall (fun e => (step | fst e - now) /\ (step | snd e - now))%Z ts ->
  is_active ts now step = true <-> exists e, In e ts /\ within e now.
Proof.
  intros SP AL. unfold is_active. rewrite existsb_exists. rewrite Forall_forall in AL. split.
  - intros ([a b] & I0 & C). exists (a, b). split; [exact I0|]. apply andb_prop in C as [C1 C2].
    apply Z.leb_le in C1, C2. unfold within. cbn. lia.
  - intros ([a b] & I0 & W). exists (a, b). split; [exact I0|]. unfold within in W. cbn in W.
    destruct (AL _ I0) as [_ [m M]]. cbn in M. assert (1 <= m)%Z by nia. apply andb_true_intro. split; apply Z.leb_le; nia.
Qed.
Print Assumptions C122_active.

Example C122_meets : let ts := [(0, 3600); (7200, 10800)]%Z in
  orderly ts /\ index_of ts 7500 = 1%Z /\ next_interval_index ts 4000 = Ok (Some 1%Z) /\ time_to_next ts 4000 = Ok (Some 3200%Z) /\
  next_interval_index ts 7500 = Ok None /\ time_to_next ts 20000 = Ok None /\
  Forall (fun e => (900 | fst e - 1800) /\ (900 | snd e - 1800))%Z ts /\ is_active ts 1800 900 = true.
Proof.
  cbv zeta. split; [cbn; lia|]. repeat (split; [reflexivity|]). split; [|reflexivity].
  repeat constructor; cbn; [exists (-2)%Z|exists 2%Z|exists 6%Z|exists 10%Z]; reflexivity.
Qed.

(** Otherwise the last time step of an interval may be left out, and an
    interval shorter than half a step never takes place; asking for the next
    interval of an empty schedule is an error. *)
Theorem C122_active_refuted :
  (forall now, is_active [(0, 400)]%Z now 900 = false) /\ next_interval_index [] 0 = Raise IndexErr.
Proof.
  split; [|reflexivity]. intros now. unfold is_active. cbn [existsb]. rewrite orb_false_r. apply andb_false_iff.
  destruct (Z.leb_spec 0 now); [right|now left]. apply Z.leb_gt. lia.
Qed.
Print Assumptions C122_active_refuted.

(** ** C123: a second run plans the same

    After a run that left no burn under way and no burn rate computed, and after
    a run at whose end the skimmer was neither on its way nor unloading, the next
    run makes the same plans in every step as the first did. *)
Theorem C123_rerun_partial n ins :
  (forall p s, s_btime s = None -> s_brate s = None ->
     burn_plans n p ins (burn_again p s) = burn_plans n p ins (burn_new p)) /\
  (forall q s, w_tran s = false -> w_offl s = false ->
     skim_plans n q ins (skim_again q s) = skim_plans n q ins (skim_new q)).
Proof.
  split.
  - intros p s B R. apply bsim_plans. unfold bsim0, burn_again, burn_new. cbn. rewrite B, R.
    repeat (split; [first [reflexivity|congruence]|]). congruence.
  - intros q s T F. apply ksim_plans. unfold ksim0, skim_again, skim_new. cbn. rewrite T, F.
    repeat (split; [first [reflexivity|congruence]|]). congruence.
Qed.
Print Assumptions C123_rerun_partial.

Example C123_meets : let p := mkBP 90 1 (3 # 4) 36 1000 60 (748 # 100) in let e := mkBE (1 # 100) 0 true in
  exists s, burn_step 9 p e 6000 (burn_new p) = Some (Ok s) /\ s_clean s = true /\ s_btime s = None /\ s_brate s = None /\
  burn_plans 9 p [(e, 900); (e, 20000)] (burn_again p s) = burn_plans 9 p [(e, 900); (e, 20000)] (burn_new p).
Proof.
  cbv zeta. set (p := mkBP _ _ _ _ _ _ _). set (e := mkBE _ _ _).
  destruct (burn_step 9 p e 6000 (burn_new p)) as [[s|]|] eqn:E; [|vm_compute in E; discriminate..].
  assert (F : s_clean s = true /\ s_btime s = None /\ s_brate s = None) by (vm_compute in E; injection E as <-; repeat split).
  clear E. destruct F as (F1 & F2 & F3). exists s. split; [reflexivity|]. split; [exact F1|]. split; [exact F2|]. split; [exact F3|].
  now apply C123_rerun_partial.
Qed.

(** In general it does not: the time that a burn still had to go when the first
    run ended is used for the first burn of the second run, and a skimmer that
    was on its way collects at once, before its operation is scheduled. *)
Theorem C123_rerun_refuted :
  (exists p e s a b d1 d2, good_burn p /\ good_slick e /\ burn_reach p s /\
     burn_step 9 p e 8000 (burn_again p s) = Some (Ok a) /\ burn_step 9 p e 8000 (burn_new p) = Some (Ok b) /\
     nth_error (s_log a) 2 = Some (BurnA, d1) /\ nth_error (s_log b) 2 = Some (BurnA, d2) /\ d1 < d2) /\
  (exists q e s a b, good_skim q /\ good_slick e /\ skim_reach q s /\ e_active e = false /\
     skim_step 9 q e 900 (skim_again q s) = Some a /\ skim_step 9 q e 900 (skim_new q) = Some b /\
     100 < w_fluid a /\ w_fluid b == 0 /\ w_log b = []).
Proof.
  set (e := mkBE (1 # 100) 0 true). assert (G : good_slick e) by (split; vm_compute; [discriminate|reflexivity]).
  split.
  - set (p := mkBP 90 1 (3 # 4) 36 1000 60 (748 # 100)).
    destruct (burn_step 9 p e 900 (burn_new p)) as [[s|]|] eqn:E; [|vm_compute in E; discriminate..].
    destruct (burn_step 9 p e 8000 (burn_new p)) as [[b|]|] eqn:EB; [|vm_compute in EB; discriminate..].
    destruct (burn_step 9 p e 8000 (burn_again p s)) as [[a|]|] eqn:EA.
    2,3: vm_compute in E; injection E as <-; vm_compute in EA; discriminate EA.
    do 7 eexists. split; [|split; [exact G|]]. 2:{ split; [exact (br_step _ _ _ 9 e 900 (br_new _) G eq_refl E)|].
      split; [exact EA|]. split; [exact EB|]. vm_compute in E. injection E as <-. vm_compute in EA. injection EA as <-.
      vm_compute in EB. injection EB as <-. split; [reflexivity|]. split; [reflexivity|]. vm_compute. reflexivity. }
    unfold good_burn, p; cbn; lra.
  - set (q := mkKP 10 1 (3 # 4) 100 (1 # 2) (1 # 2) 10 10 600 1800).
    destruct (skim_step 9 q e 3600 (skim_new q)) as [s|] eqn:E; [|vm_compute in E; discriminate].
    set (off := mkBE (1 # 100) 0 false).
    assert (GO : good_slick off) by (split; vm_compute; [discriminate|reflexivity]).
    destruct (skim_step 9 q off 900 (skim_again q s)) as [a|] eqn:EA.
    2:{ vm_compute in E. injection E as <-. vm_compute in EA. discriminate EA. }
    exists q, off, s, a, (skim_new q). split; [unfold good_skim, q; cbn; lra|]. split; [exact GO|].
    split; [exact (sr_step _ _ _ 9 e 3600 (sr_new _) G eq_refl E)|]. split; [reflexivity|]. split; [exact EA|].
    split; [reflexivity|]. vm_compute in E. injection E as <-. vm_compute in EA. injection EA as <-.
    split; [vm_compute; reflexivity|]. split; reflexivity.
Qed.
Print Assumptions C123_rerun_refuted.
