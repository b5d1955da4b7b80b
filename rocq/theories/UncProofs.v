(** * Proofs about the uncertainty records *)
From Verif Require Import Py PyLemmas UncModel UncSpec.
From Coq Require Import Sorting.Sorted.
Open Scope Z_scope.

Section P.
Context {Rec : Type}.
Implicit Types (m : mover Rec) (s : state Rec) (e : event Rec) (es : list (event Rec)).

Lemma fill_length : forall (f : nat -> Rec) n, length (fill f n) = n.
Proof. intros. unfold fill. rewrite map_length, seq_length. reflexivity. Qed.

Lemma run_app : forall p es es' s, run p (es ++ es') s = (do s' <- run p es s; run p es' s').
Proof. induction es as [|e es IH]; intros es' s; cbn; [reflexivity|]. destruct (step p e s); cbn; [apply IH|reflexivity]. Qed.

Lemma run_snoc : forall p es e s, run p (es ++ [e]) s = (do s' <- run p es s; step p e s').
Proof. intros. rewrite run_app. destruct (run p es s); cbn; [|reflexivity]. destruct (step p e a); reflexivity. Qed.

(** Deleting the marked ones of a list that is as long as the marks. *)
Lemma delete_map : forall (A : Type) (g : A -> bool) (ids : list A) (recs : list Rec), length recs = length ids ->
  exists r, delete recs (map g ids) = Ok r /\ length r = length (filter (fun i => negb (g i)) ids) /\
    forall k i x, nth_error ids k = Some i -> nth_error recs k = Some x -> g i = false ->
      exists k', nth_error (filter (fun i => negb (g i)) ids) k' = Some i /\ nth_error r k' = Some x.
Proof.
  intros A g ids. induction ids as [|i ids IH]; intros [|x recs] L; try discriminate.
  - exists []. repeat split. intros [|k]; discriminate.
  - injection L as L. destruct (IH _ L) as [r [E [Lr H]]]. cbn. rewrite E. cbn. destruct (g i) eqn:G; cbn.
    + exists r. repeat split; [exact Lr|]. intros [|k] j y H1 H2 Gj; cbn in *; [congruence|eauto].
    + exists (x :: r). repeat split; [cbn; congruence|]. intros [|k] j y H1 H2 Gj; cbn in *.
      * exists O. cbn. split; congruence.
      * destruct (H k j y H1 H2 Gj) as [k' [? ?]]. exists (S k'). split; assumption.
Qed.

Lemma existsb_map : forall (A : Type) (g : A -> bool) l, existsb (fun b => b) (map g l) = existsb g l.
Proof. induction l as [|a l IH]; cbn; [|rewrite IH]; reflexivity. Qed.

Lemma filter_all : forall (A : Type) (g : A -> bool) l, existsb g l = false -> filter (fun i => negb (g i)) l = l.
Proof. induction l as [|a l IH]; cbn; intros H; [reflexivity|]. apply orb_false_iff in H. destruct H as [-> H]. cbn. rewrite IH; auto. Qed.

(** The update leaves one record per element, whatever the list was, once the delay is over. *)
Lemma update_length : forall p d n el m, p_delay p <= el -> length (m_recs (update_uncertainty p d n el m)) = n.
Proof.
  intros p d n el m H. unfold update_uncertainty. rewrite (proj2 (Z.leb_le _ _) H). cbn [negb].
  destruct (_ || _ || _) eqn:R; [unfold renew; cbn; apply fill_length|].
  apply orb_false_iff in R. destruct R as [R R3]. apply orb_false_iff in R. destruct R as [R1 R2].
  apply Nat.ltb_ge in R3. rewrite R1. cbn [negb]. rewrite andb_true_r.
  destruct (length (m_recs m) <? n)%nat eqn:Q; [apply Nat.ltb_lt in Q|apply Nat.ltb_ge in Q];
  destruct (_ <=? el); unfold renew; cbn [m_recs]; rewrite ?fill_length, ?app_length, ?fill_length; lia.
Qed.

Lemma update_first : forall p d n el m, m_first (update_uncertainty p d n el m) = m_first m /\ m_start (update_uncertainty p d n el m) = m_start m.
Proof. intros. unfold update_uncertainty. destruct (negb _); [auto|]. destruct (_ || _ || _); [auto|]. destruct (_ <=? el); auto. Qed.

(** Records stay in their places when no new draw is due. *)
Lemma update_keeps : forall p d n el m k r, (length (m_recs m) <= n)%nat -> m_tset m <= el < m_tset m + p_duration p ->
  nth_error (m_recs m) k = Some r -> nth_error (m_recs (update_uncertainty p d n el m)) k = Some r /\ m_tset (update_uncertainty p d n el m) = m_tset m.
Proof.
  intros p d n el m k r L E H. unfold update_uncertainty. destruct (negb _); [auto|].
  assert (k < length (m_recs m))%nat by (apply nth_error_Some; congruence).
  assert ((length (m_recs m) =? 0)%nat = false) as -> by (apply Nat.eqb_neq; lia).
  assert ((el <? m_tset m) = false) as -> by lia. assert ((n <? length (m_recs m))%nat = false) as -> by (apply Nat.ltb_ge; lia).
  assert ((m_tset m + p_duration p <=? el) = false) as -> by lia. cbn [orb m_recs m_tset]. split; [|reflexivity].
  destruct (_ && _); [rewrite nth_error_app1 by lia|]; exact H.
Qed.

(** ** The invariant between two steps *)

(** The elements that have a record come first. *)
Definition lined s : Prop := exists old fresh, s_ids s = old ++ fresh /\ length (m_recs (s_mover s)) = length old.

Definition started (t0 : Z) (done : list (event Rec)) m : Prop :=
  m_first m = negb (existsb ev_active done) /\ (m_first m = false -> m_start m = Some t0).

Definition since (delay t0 : Z) (done : list (event Rec)) m : Prop :=
  m_recs m = [] \/ exists e, In e done /\ ev_active e = true /\ delay <= elapsed t0 e.

Lemma find_existsb : forall (A : Type) (f : A -> bool) l, find f l = None <-> existsb f l = false.
Proof.
  induction l as [|a l IH]; cbn; [tauto|]. destruct (f a); cbn; [split; discriminate|exact IH].
Qed.

Lemma find_app : forall (A : Type) (f : A -> bool) l l', find f (l ++ l') = match find f l with Some a => Some a | None => find f l' end.
Proof. induction l as [|a l IH]; intros l'; cbn; [reflexivity|]. destruct (f a); auto. Qed.

Lemma sorted_app : forall (A : Type) (P : A -> A -> Prop) l l', StronglySorted P (l ++ l') ->
  StronglySorted P l /\ StronglySorted P l' /\ forall a b, In a l -> In b l' -> P a b.
Proof.
  induction l as [|x l IH]; intros l' H; cbn in *; [repeat split; [constructor|exact H|intros a b []]|].
  inversion H as [|? ? H1 H2]; subst. destruct (IH _ H1) as [A1 [A2 A3]]. rewrite Forall_forall in H2.
  repeat split; [constructor; [exact A1|apply Forall_forall; intros; apply H2, in_or_app; auto]|exact A2|].
  intros a b [->|I] J; [apply H2, in_or_app; auto|eauto].
Qed.

Lemma moving_inv : forall p t0 done e s, first_active (done ++ [e]) = Some t0 -> ev_active e = true -> started t0 done (s_mover s) -> lined s ->
  since (p_delay p) t0 done (s_mover s) ->
  (forall d, In d done -> ev_active d = true -> elapsed t0 d <= elapsed t0 e) ->
  (exists s', moving p e s = Ok s' /\ s_ids s' = s_ids s ++ ev_before e /\
    s_mover s' = update_uncertainty p (ev_draws e) (length (s_ids s')) (elapsed t0 e)
       (mkMover (m_first (s_mover s)) (Some t0) (m_tset (s_mover s)) (m_recs (s_mover s)))) \/
    exists s', moving p e s = Ok s' /\ s_ids s' = [] /\ s_ids s = [] /\ ev_before e = [] /\ m_recs (s_mover s') = [] /\ m_recs (s_mover s) = [] /\
       m_first (s_mover s') = m_first (s_mover s) /\ m_start (s_mover s') = Some t0 /\ m_tset (s_mover s') = m_tset (s_mover s).
Proof.
  intros p t0 done e s F A [S1 S2] [old [fresh [I L]]] N O. unfold moving, prepare. rewrite A.
  set (m := s_mover s) in *.
  assert (E : (if m_first m then mkMover (m_first m) (Some (ev_time e)) (m_tset m) (m_recs m) else m) =
     mkMover (m_first m) (Some t0) (m_tset m) (m_recs m)).
  { unfold first_active in F. rewrite find_app in F. destruct (m_first m) eqn:Q.
    - symmetry in S1. apply negb_true_iff, find_existsb in S1. rewrite S1 in F. cbn in F. rewrite A in F. congruence.
    - destruct m as [a b c dd]. cbn in *. subst a. rewrite (S2 eq_refl). reflexivity. }
  rewrite E. clear E.
  destruct (match p_kind p with WindMover => _ | CurrentMover => _ end) eqn:Q.
  - right. destruct (p_kind p); [|discriminate]. apply Nat.eqb_eq in Q. rewrite app_length in Q.
    assert (Z1 : s_ids s = []) by (destruct (s_ids s); [reflexivity|cbn in Q; lia]).
    assert (Z2 : ev_before e = []) by (destruct (ev_before e); [reflexivity|cbn in Q; lia]).
    assert (Z3 : m_recs m = []). { rewrite Z1 in I. symmetry in I. apply app_eq_nil in I. destruct I as [-> _]. destruct (m_recs m); [reflexivity|discriminate]. }
    cbn [bind]. eexists. split; [reflexivity|]. cbn. rewrite Z1, Z2. auto 10.
  - left. cbn [bind m_start]. eexists. split; [reflexivity|]. split; reflexivity.
Qed.

Lemma finish_inv : forall p t0 e s, (ev_active e = true -> ev_on e = true) ->
  (no_loss e \/ ev_active e = true /\ p_delay p <= elapsed t0 e) -> lined s ->
  (ev_active e = true -> p_delay p <= elapsed t0 e -> length (m_recs (s_mover s)) = length (s_ids s)) ->
  exists s', finish e s = Ok s' /\ lined s' /\ (m_recs (s_mover s) = [] -> m_recs (s_mover s') = []) /\
    m_first (s_mover s') = (if ev_active e then false else m_first (s_mover s)) /\ m_start (s_mover s') = m_start (s_mover s) /\
    m_tset (s_mover s') = m_tset (s_mover s) /\
    forall i r, record_of s i r -> ev_gone e i = false -> record_of s' i r.
Proof.
  intros p t0 e s HO HL [old [fresh [I L]]] HA. unfold finish, step_is_done.
  destruct (existsb (ev_gone e) (s_ids s)) eqn:G.
  - assert (Hact : ev_active e = true /\ p_delay p <= elapsed t0 e).
    { destruct HL as [N|]; [|assumption]. apply existsb_exists in G. destruct G as [i [_ Gi]]. rewrite N in Gi. discriminate. }
    destruct Hact as [A D]. rewrite A, (HO A), existsb_map, G. cbn [negb orb m_recs].
    destruct (delete_map Z (ev_gone e) (s_ids s) (m_recs (s_mover s)) (HA A D)) as [r [E [Lr K]]]. rewrite E. cbn [bind].
    eexists. split; [reflexivity|]. cbn. split; [eexists _, _; cbn; split; [reflexivity|exact Lr]|].
    split. { intros Z0. rewrite Z0 in E. specialize (HA A D). rewrite Z0 in HA. destruct (s_ids s); [|discriminate HA]. cbn in E. congruence. }
    repeat split; auto. intros i x [k [H1 H2]] Gi. destruct (K k i x H1 H2 Gi) as [k' [K1 K2]]. exists k'. cbn. split; [|exact K2].
    rewrite nth_error_app1; [exact K1|]. apply nth_error_Some. congruence.
  - rewrite existsb_map, G. rewrite (filter_all _ _ _ G).
    set (mm := if negb (ev_active e) || negb (ev_on e) then s_mover s else mkMover false (m_start (s_mover s)) (m_tset (s_mover s)) (m_recs (s_mover s))).
    exists (mkState (s_ids s ++ ev_after e) mm). split; [unfold mm; destruct (_ || _); reflexivity|].
    assert (R : m_recs mm = m_recs (s_mover s)) by (unfold mm; destruct (_ || _); reflexivity).
    cbn. split; [exists old, (fresh ++ ev_after e); cbn; rewrite I, app_assoc, R; auto|]. split; [intros; congruence|].
    split. { unfold mm. destruct (ev_active e); [rewrite (HO eq_refl)|]; reflexivity. }
    split; [unfold mm; destruct (_ || _); reflexivity|]. split; [unfold mm; destruct (_ || _); reflexivity|].
    intros i r [k [H1 H2]] _. exists k. cbn. rewrite R. split; [|exact H2].
    rewrite nth_error_app1; [exact H1|]. apply nth_error_Some. congruence.
Qed.

Lemma in_filter_sorted : forall t0 es e, ev_active e = true ->
  StronglySorted (fun a b => elapsed t0 a <= elapsed t0 b) (filter ev_active (es ++ [e])) ->
  forall d : event Rec, In d es -> ev_active d = true -> elapsed t0 d <= elapsed t0 e.
Proof.
  intros t0 es e A H d I D. rewrite filter_app in H. cbn in H. rewrite A in H. apply sorted_app in H. destruct H as [_ [_ H]].
  apply (H d e); [apply filter_In; auto|left; reflexivity].
Qed.

(** One step, active or not. *)
Lemma moving_any : forall p t0 done e s, first_active (done ++ [e]) = Some t0 \/ ev_active e = false -> started t0 done (s_mover s) -> lined s ->
  since (p_delay p) t0 done (s_mover s) ->
  (forall d, In d done -> ev_active d = true -> ev_active e = true -> elapsed t0 d <= elapsed t0 e) ->
  exists s', moving p e s = Ok s' /\ lined s' /\ s_ids s' = s_ids s ++ ev_before e /\
    (ev_active e = true -> p_delay p <= elapsed t0 e -> length (m_recs (s_mover s')) = length (s_ids s')) /\
    (ev_active e = true -> elapsed t0 e < p_delay p -> m_recs (s_mover s') = []) /\
    m_first (s_mover s') = m_first (s_mover s) /\ (ev_active e = true \/ m_first (s_mover s) = false -> m_start (s_mover s') = Some t0) /\
    since (p_delay p) t0 (done ++ [e]) (s_mover s') /\
    (ev_active e = false -> s_mover s' = s_mover s) /\
    (forall i r, record_of s i r -> m_tset (s_mover s) <= elapsed t0 e < m_tset (s_mover s) + p_duration p \/ ev_active e = false ->
       record_of s' i r /\ m_tset (s_mover s') = m_tset (s_mover s)).
Proof.
  intros p t0 done e s F S Li N O. destruct (ev_active e) eqn:A.
  - assert (F' : first_active (done ++ [e]) = Some t0) by (destruct F; [assumption|discriminate]).
    assert (Rec0 : elapsed t0 e < p_delay p -> m_recs (s_mover s) = []).
    { intros Q. destruct N as [N|[d [I [D K]]]]; [exact N|]. specialize (O d I D eq_refl). lia. }
    destruct (moving_inv p t0 done e s F' A S Li N) as [[s' [E [Ids Mv]]]|[s' [E [Ids [I0 [B0 [R [R0 [Fi [St Ts]]]]]]]]]]; [auto| |].
    + exists s'. split; [exact E|]. destruct Li as [old [fresh [I L]]].
      set (mm := mkMover (m_first (s_mover s)) (Some t0) (m_tset (s_mover s)) (m_recs (s_mover s))) in *.
      assert (Lm : (length (m_recs mm) <= length (s_ids s'))%nat). { cbn. rewrite Ids, I, !app_length. lia. }
      assert (H1 : p_delay p <= elapsed t0 e -> length (m_recs (s_mover s')) = length (s_ids s')). { intros. rewrite Mv. apply update_length. assumption. }
      assert (H2 : elapsed t0 e < p_delay p -> m_recs (s_mover s') = []).
      { intros Q. rewrite Mv. unfold update_uncertainty. assert ((p_delay p <=? elapsed t0 e) = false) as -> by lia. cbn. auto. }
      split. { destruct (Z_le_gt_dec (p_delay p) (elapsed t0 e)) as [Q|Q].
        - exists (s_ids s'), []. rewrite app_nil_r. auto.
        - exists [], (s_ids s'). rewrite H2 by lia. auto. }
      split; [exact Ids|]. split; [auto|]. split; [auto|].
      destruct (update_first p (ev_draws e) (length (s_ids s')) (elapsed t0 e) mm) as [U1 U2].
      split; [rewrite Mv, U1; reflexivity|]. split; [intros _; rewrite Mv, U2; reflexivity|].
      split. { destruct (Z_le_gt_dec (p_delay p) (elapsed t0 e)) as [Q|Q].
        - right. exists e. split; [apply in_or_app; right; left; reflexivity|auto].
        - left. apply H2. lia. }
      split; [discriminate|]. intros i r [k [K1 K2]] [T|]; [|discriminate].
      destruct (update_keeps p (ev_draws e) (length (s_ids s')) (elapsed t0 e) mm k r Lm T K2) as [K3 K4].
      split; [|rewrite Mv, K4; reflexivity]. exists k. split; [|rewrite Mv; exact K3].
      rewrite Ids, nth_error_app1; [exact K1|]. apply nth_error_Some. congruence.
    + exists s'. split; [exact E|]. split; [exists [], []; rewrite R, Ids; auto|]. split; [rewrite Ids, I0, B0; reflexivity|].
      split; [rewrite R, Ids; auto|]. split; [auto|]. split; [exact Fi|]. split; [auto|]. split; [left; exact R|]. split; [discriminate|].
      intros i r [k [K _]]. rewrite I0 in K. destruct k; discriminate.
  - unfold moving, prepare. rewrite A. cbn [bind]. eexists. split; [reflexivity|]. cbn [s_ids s_mover].
    destruct Li as [old [fresh [I L]]].
    split; [exists old, (fresh ++ ev_before e); cbn; rewrite I, app_assoc; auto|].
    split; [reflexivity|]. split; [discriminate|]. split; [discriminate|]. split; [reflexivity|].
    split. { intros [|Q]; [discriminate|]. apply (proj2 S Q). }
    split. { destruct N as [N|[d [Id Hd]]]; [left; exact N|right; exists d; split; [apply in_or_app; auto|exact Hd]]. }
    split; [reflexivity|]. intros i r [k [K1 K2]] _. split; [|reflexivity]. exists k. cbn. split; [|exact K2].
    rewrite nth_error_app1; [exact K1|]. apply nth_error_Some. congruence.
Qed.

Definition inv p t0 done s : Prop := lined s /\ started t0 done (s_mover s) /\ since (p_delay p) t0 done (s_mover s).

Lemma first_active_prefix : forall es es' t0, first_active (es ++ es') = Some t0 -> first_active es = Some t0 \/ existsb (@ev_active Rec) es = false.
Proof.
  intros es es' t0 H. unfold first_active in *. rewrite find_app in H. destruct (find ev_active es) eqn:F; [left; exact H|].
  right. apply find_existsb. exact F.
Qed.

Lemma step_inv : forall p t0 done e s, first_active (done ++ [e]) = Some t0 \/ ev_active e = false -> orderly (p_delay p) t0 (done ++ [e]) ->
  inv p t0 done s -> exists s' s2, moving p e s = Ok s' /\ finish e s' = Ok s2 /\ step p e s = Ok s2 /\ inv p t0 (done ++ [e]) s2 /\
    m_tset (s_mover s2) = m_tset (s_mover s') /\ (forall i r, record_of s' i r -> ev_gone e i = false -> record_of s2 i r) /\
    (ev_active e = true -> p_delay p <= elapsed t0 e -> length (m_recs (s_mover s')) = length (s_ids s')) /\
    (ev_active e = true -> elapsed t0 e < p_delay p -> m_recs (s_mover s') = []) /\ s_ids s' = s_ids s ++ ev_before e /\
    (forall i r, record_of s i r -> m_tset (s_mover s) <= elapsed t0 e < m_tset (s_mover s) + p_duration p \/ ev_active e = false ->
       record_of s' i r /\ m_tset (s_mover s') = m_tset (s_mover s)).
Proof.
  intros p t0 done e s F [So Fo] [Li [St Si]].
  assert (O : forall d, In d done -> ev_active d = true -> ev_active e = true -> elapsed t0 d <= elapsed t0 e).
  { intros d I D A. eapply in_filter_sorted; eauto. }
  destruct (moving_any p t0 done e s F St Li Si O) as [s' [E [Li' [Ids [H1 [H2 [H3 [H4 [H5 [H6 H7]]]]]]]]]].
  rewrite Forall_forall in Fo. destruct (Fo e) as [O1 O2]; [apply in_or_app; right; left; reflexivity|].
  destruct (finish_inv p t0 e s' O1 O2 Li' H1) as [s2 [E2 [Li2 [K1 [K2 [K3 [K4 K5]]]]]]].
  exists s', s2. split; [exact E|]. split; [exact E2|]. split; [unfold step; rewrite E; exact E2|].
  split. { split; [exact Li2|]. split.
    - split.
      + rewrite K2, H3, existsb_app. cbn. rewrite orb_false_r. rewrite (proj1 St). destruct (ev_active e), (existsb ev_active done); reflexivity.
      + rewrite K2, K3. destruct (ev_active e) eqn:A; intros Q; apply H4; [left; reflexivity|right; congruence].
    - destruct H5 as [H5|H5]; [left; auto|right; exact H5]. }
  auto 10.
Qed.

Lemma orderly_app : forall delay t0 (es es' : list (event Rec)), orderly delay t0 (es ++ es') -> orderly delay t0 es.
Proof.
  intros delay t0 es es' [H1 H2]. rewrite filter_app in H1. apply sorted_app in H1. destruct H1 as [H1 _].
  apply Forall_app in H2. destruct H2 as [H2 _]. split; assumption.
Qed.

Lemma first_active_mid : forall (es : list (event Rec)) e es' t0, first_active (es ++ e :: es') = Some t0 ->
  first_active (es ++ [e]) = Some t0 \/ ev_active e = false.
Proof.
  intros es e es' t0 H. unfold first_active in *. rewrite !find_app in *. destruct (find ev_active es); [left; exact H|].
  cbn in *. destruct (ev_active e); [left; exact H|right; reflexivity].
Qed.

Lemma run_inv_gen : forall p t0 more done s, first_active (done ++ more) = Some t0 -> orderly (p_delay p) t0 (done ++ more) -> inv p t0 done s ->
  exists s', run p more s = Ok s' /\ inv p t0 (done ++ more) s'.
Proof.
  intros p t0. induction more as [|e more IH]; intros done s F O I.
  - exists s. rewrite app_nil_r. auto.
  - assert (O' : orderly (p_delay p) t0 (done ++ [e])).
    { apply (orderly_app _ _ _ more). rewrite <- app_assoc. exact O. }
    destruct (step_inv p t0 done e s (first_active_mid _ _ _ _ F) O' I) as [s' [s2 [_ [_ [E [I2 _]]]]]].
    destruct (IH (done ++ [e]) s2) as [s3 [E3 I3]]; try (rewrite <- app_assoc; assumption); [exact I2|].
    exists s3. cbn. rewrite E. cbn. rewrite <- app_assoc in I3. auto.
Qed.

Lemma initial_inv : forall p t0 m, inv p t0 [] (initial m).
Proof.
  intros p t0 m. split; [exists [], []; auto|]. split; [split; [reflexivity|discriminate]|left; reflexivity].
Qed.

Lemma run_inv : forall p t0 m es rest, first_active (es ++ rest) = Some t0 -> orderly (p_delay p) t0 (es ++ rest) ->
  exists s, run p es (initial m) = Ok s /\ inv p t0 es s.
Proof.
  intros p t0 m es rest F O. apply orderly_app in O. destruct (first_active_prefix _ _ _ F) as [F'|F'].
  - apply (run_inv_gen p t0 es [] (initial m) F' O (initial_inv _ _ _)).
  - (* no active event: nothing happens to the mover *)
    clear F. revert O F'. induction es as [|e es IH] using rev_ind; intros O F'.
    + exists (initial m). split; [reflexivity|apply initial_inv].
    + rewrite existsb_app in F'. apply orb_false_iff in F'. destruct F' as [F1 F2]. cbn in F2. rewrite orb_false_r in F2.
      destruct IH as [s [E I]]; [eapply orderly_app; exact O|exact F1|].
      destruct (step_inv p t0 es e s (or_intror F2) O I) as [s' [s2 [_ [_ [E2 [I2 _]]]]]].
      exists s2. rewrite run_snoc, E. cbn. auto.
Qed.

(** ** Every record has been drawn *)
Definition sound (P : Rec -> Prop) (d : draws Rec) : Prop := (forall n, P (d_append d n)) /\ (forall n, P (d_renew d n)).

Lemma fill_forall : forall (P : Rec -> Prop) (f : nat -> Rec) n, (forall n, P (f n)) -> Forall P (fill f n).
Proof. intros P f n H. unfold fill. apply Forall_forall. intros x I. apply in_map_iff in I. destruct I as [k [<- _]]. apply H. Qed.

Lemma update_forall : forall P p d n el m, sound P d -> Forall P (m_recs m) -> Forall P (m_recs (update_uncertainty p d n el m)).
Proof.
  intros P p d n el m [D1 D2] H. unfold update_uncertainty. destruct (negb _); [exact H|].
  destruct (_ || _ || _); [apply fill_forall; exact D2|]. destruct (_ <=? el); [apply fill_forall; exact D2|]. cbn [m_recs].
  destruct (_ && _); [|exact H]. apply Forall_app. split; [exact H|apply fill_forall; exact D1].
Qed.

Lemma prepare_forall : forall P p d a t n m m', sound P d -> Forall P (m_recs m) -> prepare p d a t n m = Ok m' -> Forall P (m_recs m').
Proof.
  intros P p d a t n m m' D H E. unfold prepare in E. destruct a; [|injection E as <-; exact H].
  set (m1 := if m_first m then _ else m) in *. assert (H1 : Forall P (m_recs m1)) by (unfold m1; destruct (m_first m); exact H).
  clearbody m1. destruct (match p_kind p with WindMover => _ | CurrentMover => _ end); [injection E as <-; exact H1|].
  destruct (m_start m1); [|discriminate]. injection E as <-. apply update_forall; assumption.
Qed.

Lemma delete_forall : forall (P : Rec -> Prop) marks l l', Forall P l -> delete l marks = Ok l' -> Forall P l'.
Proof.
  induction marks as [|b marks IH]; intros l l' H E; cbn in E; [injection E as <-; exact H|].
  destruct l as [|x l]; [destruct b; [discriminate|eapply IH; eauto]|]. inversion H; subst.
  destruct b; (destruct (delete l marks) as [r|] eqn:D; [|discriminate]); injection E as <-; [|constructor; [assumption|]]; eapply IH; eauto.
Qed.

Lemma finish_forall : forall P e s s', Forall P (m_recs (s_mover s)) -> finish e s = Ok s' -> Forall P (m_recs (s_mover s')).
Proof.
  intros P e s s' H E. unfold finish, step_is_done in E. destruct (_ || _); [injection E as <-; exact H|].
  destruct (existsb _ _); [|injection E as <-; exact H]. cbn [m_recs] in E.
  destruct (delete _ _) as [r|] eqn:D; [|discriminate]. injection E as <-. cbn. eapply delete_forall; eauto.
Qed.

Lemma moving_forall : forall P p e s s', sound P (ev_draws e) -> Forall P (m_recs (s_mover s)) -> moving p e s = Ok s' -> Forall P (m_recs (s_mover s')).
Proof.
  intros P p e s s' D H E. unfold moving in E. destruct (prepare _ _ _ _ _ _) as [m|] eqn:Q; [|discriminate]. injection E as <-.
  eapply prepare_forall; eauto.
Qed.

Lemma run_forall : forall P p es s s', Forall (fun e => sound P (ev_draws e)) es -> Forall P (m_recs (s_mover s)) -> run p es s = Ok s' -> Forall P (m_recs (s_mover s')).
Proof.
  induction es as [|e es IH]; intros s s' D H E; cbn in E; [injection E as <-; exact H|]. inversion D; subst.
  destruct (step p e s) as [s2|] eqn:Q; [|discriminate]. cbn in E. apply (IH s2); auto. unfold step in Q.
  destruct (moving p e s) as [s1|] eqn:M; [|discriminate]. eapply finish_forall; [|exact Q]. eapply moving_forall; eauto.
Qed.
End P.
