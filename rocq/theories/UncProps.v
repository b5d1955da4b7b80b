(** * C53: uncertainty records stay with their elements *)
From Verif Require Import Py PyLemmas UncModel UncSpec UncProofs.
From Coq Require Import Sorting.Sorted.
Open Scope Z_scope.

(** A run in which elements are removed only in steps in which the mover is active and
    past its delay does not fail; in each active step past the delay there is exactly one
    record per live element when elements move, and none before. *)
Theorem C53_aligned_partial : forall (Rec : Type) p (m : mover Rec) es e t0, first_active (es ++ [e]) = Some t0 ->
  orderly (p_delay p) t0 (es ++ [e]) -> ev_active e = true ->
  exists s s' s2, run p es (initial m) = Ok s /\ moving p e s = Ok s' /\ run p (es ++ [e]) (initial m) = Ok s2 /\
    s_ids s' = s_ids s ++ ev_before e /\
    (p_delay p <= elapsed t0 e -> length (m_recs (s_mover s')) = length (s_ids s')) /\
    (elapsed t0 e < p_delay p -> m_recs (s_mover s') = []).
Proof.
  intros Rec p m es e t0 F O A. destruct (run_inv p t0 m es [e] F O) as [s [E I]].
  destruct (step_inv p t0 es e s (or_introl F) O I) as [s' [s2 [M [_ [E2 [_ [_ [_ [L1 [L2 [Ids _]]]]]]]]]]].
  exists s, s', s2. split; [exact E|]. split; [exact M|]. split; [rewrite run_snoc, E; exact E2|]. auto.
Qed.
Print Assumptions C53_aligned_partial.

(** From the moment elements move in step [e1] to the same moment of a later step [e2],
    an element that is not removed keeps its record, unless a new draw falls due:
    [p_duration] seconds after the last one. *)
Lemma keeps_gen : forall (Rec : Type) p t0 i (r : Rec) more done s, first_active (done ++ more) = Some t0 -> orderly (p_delay p) t0 (done ++ more) ->
  inv p t0 done s -> record_of s i r ->
  Forall (fun e => ev_gone e i = false /\ (ev_active e = true -> m_tset (s_mover s) <= elapsed t0 e < m_tset (s_mover s) + p_duration p)) more ->
  exists s', run p more s = Ok s' /\ record_of s' i r /\ inv p t0 (done ++ more) s' /\ m_tset (s_mover s') = m_tset (s_mover s).
Proof.
  intros Rec p t0 i r. induction more as [|e more IH]; intros done s F O I R H.
  - exists s. rewrite app_nil_r. auto.
  - inversion H as [|? ? [G T] Hm]; subst.
    assert (O' : orderly (p_delay p) t0 (done ++ [e])).
    { apply (orderly_app _ _ _ more). rewrite <- app_assoc. exact O. }
    destruct (step_inv p t0 done e s (first_active_mid _ _ _ _ F) O' I) as [s' [s2 [_ [_ [E [I2 [T2 [K [_ [_ [_ K2]]]]]]]]]]].
    destruct (K2 i r R) as [R' T']; [destruct (ev_active e); auto|]. specialize (K i r R' G).
    destruct (IH (done ++ [e]) s2) as [s3 [E3 [R3 [I3 T3]]]]; try (rewrite <- app_assoc; assumption); [exact I2|exact K| |].
    + rewrite T2, T'. exact Hm.
    + exists s3. cbn. rewrite E. cbn. rewrite <- app_assoc in I3. split; [exact E3|]. split; [exact R3|]. split; [exact I3|]. congruence.
Qed.

Theorem C53_kept_partial : forall (Rec : Type) p (m : mover Rec) es e1 more e2 t0 s s1 i r,
  let all := es ++ e1 :: more ++ [e2] in
  first_active all = Some t0 -> orderly (p_delay p) t0 all ->
  run p es (initial m) = Ok s -> moving p e1 s = Ok s1 -> record_of s1 i r ->
  Forall (fun e => ev_gone e i = false) (e1 :: more) ->
  Forall (fun e => ev_active e = true -> m_tset (s_mover s1) <= elapsed t0 e < m_tset (s_mover s1) + p_duration p) (more ++ [e2]) ->
  exists s' s2, run p (es ++ e1 :: more) (initial m) = Ok s' /\ moving p e2 s' = Ok s2 /\ record_of s2 i r.
Proof.
  intros Rec p m es e1 more e2 t0 s s1 i r all F O E M R G T. subst all. inversion G as [|? ? G1 G2]; subst.
  destruct (run_inv p t0 m es _ F O) as [sx [Ex I]]. rewrite E in Ex. injection Ex as <-.
  assert (O1 : orderly (p_delay p) t0 (es ++ [e1])).
  { apply (orderly_app _ _ _ (more ++ [e2])). rewrite <- app_assoc. exact O. }
  destruct (step_inv p t0 es e1 s (first_active_mid _ _ _ _ F) O1 I) as [s1' [sa [M' [_ [Ea [Ia [Ta [Ka _]]]]]]]].
  rewrite M in M'. injection M' as <-. specialize (Ka i r R G1). apply Forall_app in T. destruct T as [T1 T2].
  assert (F' : first_active ((es ++ [e1]) ++ more ++ [e2]) = Some t0) by (rewrite <- app_assoc; exact F).
  assert (O' : orderly (p_delay p) t0 ((es ++ [e1]) ++ more ++ [e2])) by (rewrite <- app_assoc; exact O).
  assert (Om : orderly (p_delay p) t0 ((es ++ [e1]) ++ more)) by (apply (orderly_app _ _ _ [e2]); rewrite <- app_assoc; exact O').
  assert (Run : forall sm, run p more sa = Ok sm -> run p (es ++ e1 :: more) (initial m) = Ok sm).
  { intros sm Es. rewrite run_app, E. cbn [bind run]. rewrite Ea. cbn [bind]. exact Es. }
  assert (exists sm, run p more sa = Ok sm /\ record_of sm i r /\ inv p t0 ((es ++ [e1]) ++ more) sm /\ m_tset (s_mover sm) = m_tset (s_mover sa)) as [sm [Em [Rm [Im Tm]]]].
  { destruct (first_active_prefix _ _ _ (eq_trans (f_equal first_active (eq_sym (app_assoc (es ++ [e1]) more [e2]))) F')) as [F1|F1].
    - apply (keeps_gen Rec p t0 i r more (es ++ [e1]) sa F1 Om Ia Ka). rewrite Ta. rewrite Forall_forall in *. intros e He. split; [apply G2|apply T1]; exact He.
    - (* no active step so far: there are no records *)
      exfalso. destruct Ia as [_ [_ [Z0|[e [Ie [Ae _]]]]]].
      + destruct Ka as [k [_ Kk]]. rewrite Z0 in Kk. destruct k; discriminate.
      + assert (existsb ev_active ((es ++ [e1]) ++ more) = true); [|congruence]. apply existsb_exists. exists e. split; [apply in_or_app; left; exact Ie|exact Ae]. }
  rewrite app_assoc in F', O'.
  destruct (step_inv p t0 _ e2 sm (first_active_mid _ _ [] _ F') O' Im) as [s2 [sz [M2 [_ [_ [_ [_ [_ [_ [_ [_ K2]]]]]]]]]]].
  exists sm, s2. split; [apply Run; exact Em|]. split; [exact M2|].
  apply K2; [exact Rm|]. inversion T2 as [|? ? T3 _]; subst. rewrite Tm, Ta. destruct (ev_active e2); auto.
Qed.
Print Assumptions C53_kept_partial.

(** When the draw is due, all records are drawn anew. *)
Theorem C53_renewed : forall (Rec : Type) p (m : mover Rec) es e t0 s s', first_active (es ++ [e]) = Some t0 ->
  orderly (p_delay p) t0 (es ++ [e]) -> ev_active e = true -> p_delay p <= elapsed t0 e ->
  run p es (initial m) = Ok s -> moving p e s = Ok s' -> m_tset (s_mover s) + p_duration p <= elapsed t0 e ->
  (forall k i r, nth_error (s_ids s') k = Some i -> nth_error (m_recs (s_mover s')) k = Some r -> r = d_renew (ev_draws e) k) /\
  (s_ids s' <> [] -> m_tset (s_mover s') = elapsed t0 e).
Proof.
  intros Rec p m es e t0 s s' F O A D E M T. destruct (run_inv p t0 m es [e] F O) as [sx [Ex [Li [St Si]]]].
  rewrite E in Ex. injection Ex as <-.
  assert (Hn : forall (f : nat -> Rec) n k r, nth_error (fill f n) k = Some r -> r = f k).
  { intros f n k r H. unfold fill in H. rewrite nth_error_map in H.
    destruct (nth_error (seq 0 n) k) as [j|] eqn:Q; [|discriminate]. cbn in H.
    assert (k < length (seq 0 n))%nat by (apply nth_error_Some; congruence). rewrite seq_length in *.
    apply (nth_error_nth _ _ 0%nat) in Q. rewrite seq_nth in Q by lia. cbn in Q. congruence. }
  destruct (moving_inv p t0 es e s F A St Li Si) as [[s2 [E2 [Ids Mv]]]|[s2 [E2 [Ids [I0 [B0 [R _]]]]]]].
  - intros d I0 D0. destruct O as [So _]. eapply in_filter_sorted; eauto.
  - rewrite M in E2. injection E2 as <-. rewrite Mv. unfold update_uncertainty. cbn [m_recs m_tset m_first m_start].
    assert ((p_delay p <=? elapsed t0 e) = true) as -> by lia. cbn [negb].
    assert ((m_tset (s_mover s) + p_duration p <=? elapsed t0 e) = true) as -> by lia.
    destruct (_ || _ || _); (split; [intros k i r _; apply Hn|reflexivity]).
  - rewrite M in E2. injection E2 as <-. rewrite R, Ids. split; [intros [|k] i r H; discriminate|congruence].
Qed.
Print Assumptions C53_renewed.

(** Whatever holds of all the records drawn holds of all records at any time of any run:
    for a current mover, that they are within its two scales (see C90). *)
Theorem C53_drawn : forall (Rec : Type) (P : Rec -> Prop) p (m : mover Rec) es e s s',
  (forall ev, In ev (es ++ [e]) -> forall n, P (d_append (ev_draws ev) n) /\ P (d_renew (ev_draws ev) n)) ->
  run p es (initial m) = Ok s -> moving p e s = Ok s' -> forall r, In r (m_recs (s_mover s')) -> P r.
Proof.
  intros Rec P p m es e s s' H E M r. revert r. apply Forall_forall.
  assert (S : forall ev, In ev (es ++ [e]) -> sound P (ev_draws ev)) by (intros ev I; split; intros n; apply (H ev I n)).
  eapply moving_forall; [apply S, in_or_app; right; left; reflexivity| |exact M].
  apply (run_forall P p es (initial m) s); [|constructor|exact E]. apply Forall_forall. intros ev I. apply S, in_or_app. left. exact I.
Qed.
Print Assumptions C53_drawn.

(** ** Concrete runs *)
Definition dr (z : Z) : draws Z := mkDraws (fun n => z + 50 + Z.of_nat n) (fun n => z + Z.of_nat n).
Definition wm : params := mkParams WindMover 0 10800.
Definition new : mover Z := mkMover false None 0 [].
(** Elements 1, 2, 3; element 2 leaves in the second step; 4 and 5 are released. *)
Definition h1 := mkEvent [1; 2; 3] 1000 true true (fun _ => false) [] (dr 100).
Definition h2 := mkEvent [] 1900 true true (fun i => i =? 2) [4] (dr 200).
Definition h3 := mkEvent [5] 2800 true true (fun _ => false) [] (dr 300).
Lemma h_orderly : forall delay, delay <= 0 -> orderly delay 1000 [h1; h2; h3].
Proof.
  intros delay Hd. split.
  - cbn. repeat constructor; cbn; lia.
  - apply Forall_forall. intros e [<-|[<-|[<-|[]]]]; (split; [reflexivity|]); right; (split; [reflexivity|cbn; lia]).
Qed.
Example C53_aligned_meets : first_active ([h1; h2] ++ [h3]) = Some 1000 /\ orderly (p_delay wm) 1000 ([h1; h2] ++ [h3]) /\
  (exists s s', run wm [h1; h2] (initial new) = Ok s /\ moving wm h3 s = Ok s' /\ s_ids s' = [1; 3; 4; 5] /\ m_recs (s_mover s') = [100; 102; 350; 351]).
Proof. split; [reflexivity|]. split; [apply h_orderly; cbn; lia|]. eexists _, _. repeat split. Qed.
Example C53_kept_meets : let all := [] ++ h1 :: [h2] ++ [h3] in first_active all = Some 1000 /\ orderly (p_delay wm) 1000 all /\
  exists s1, moving wm h1 (initial new) = Ok s1 /\ record_of s1 3 102 /\ Forall (fun e => ev_gone e 3 = false) [h1; h2] /\
  Forall (fun e => ev_active e = true -> m_tset (s_mover s1) <= elapsed 1000 e < m_tset (s_mover s1) + p_duration wm) ([h2] ++ [h3]).
Proof.
  split; [reflexivity|]. split; [apply h_orderly; cbn; lia|]. eexists. split; [reflexivity|]. split; [exists 2%nat; split; reflexivity|].
  split; repeat constructor; cbn; lia.
Qed.
Definition wq : params := mkParams CurrentMover 0 1000.
Example C53_renewed_meets : first_active ([h1; h2] ++ [h3]) = Some 1000 /\ orderly (p_delay wq) 1000 ([h1; h2] ++ [h3]) /\
  (exists s s', run wq [h1; h2] (initial new) = Ok s /\ moving wq h3 s = Ok s' /\ m_tset (s_mover s) + p_duration wq <= elapsed 1000 h3 /\
    m_recs (s_mover s') = [300; 301; 302; 303]).
Proof. split; [reflexivity|]. split; [apply h_orderly; cbn; lia|]. eexists _, _. split; [reflexivity|]. split; [reflexivity|]. split; [cbn; lia|reflexivity]. Qed.
Example C53_drawn_meets : (forall ev, In ev ([h1; h2] ++ [h3]) -> forall n, 100 <= d_append (ev_draws ev) n /\ 100 <= d_renew (ev_draws ev) n) /\
  exists s s', run wq [h1; h2] (initial new) = Ok s /\ moving wq h3 s = Ok s'.
Proof. split; [|eexists _, _; split; reflexivity]. intros ev [<-|[<-|[<-|[]]]] n; cbn -[Z.add Z.of_nat]; lia. Qed.

(** ** The condition is needed *)

(** Elements removed in a step in which the mover is not active: another element gets the
    record (here element 3 gets that of element 2, and 4 that of element 3). *)
Theorem C53_inactive_refuted : exists (e1 e2 e3 : event Z) s1 s2 s3 r, ev_active e1 = true /\ ev_active e3 = true /\
  moving wm e1 (initial new) = Ok s1 /\ record_of s1 3 r /\ record_of s1 2 (r - 1) /\
  run wm [e1; e2] (initial new) = Ok s2 /\ moving wm e3 s2 = Ok s3 /\
  m_tset (s_mover s1) + p_duration wm > elapsed (ev_time e1) e3 /\ ev_gone e1 3 = false /\ ev_gone e2 3 = false /\
  record_of s3 3 (r - 1) /\ record_of s3 4 r.
Proof.
  exists h1, (mkEvent [] 1900 false true (fun i => i =? 2) [4] (dr 200)), (mkEvent [] 2800 true true (fun _ => false) [] (dr 300)).
  eexists _, _, _, 102. split; [reflexivity|]. split; [reflexivity|]. split; [reflexivity|].
  split; [exists 2%nat; split; reflexivity|]. split; [exists 1%nat; split; reflexivity|].
  split; [reflexivity|]. split; [reflexivity|]. split; [cbn; lia|]. split; [reflexivity|]. split; [reflexivity|].
  split; [exists 1%nat; split; reflexivity|exists 2%nat; split; reflexivity].
Qed.
Print Assumptions C53_inactive_refuted.

(** An element removed before the delay is over stops the run with IndexError, although the
    mover is active in every step. *)
Theorem C53_delay_refuted : exists p (es : list (event Z)), p_delay p > 0 /\ Forall (fun e => ev_active e = true /\ ev_on e = true) es /\
  run p es (initial new) = Raise IndexErr.
Proof. exists (mkParams WindMover 3600 10800), [h1; h2]. split; [cbn; lia|]. split; [repeat constructor|]. reflexivity. Qed.
Print Assumptions C53_delay_refuted.
