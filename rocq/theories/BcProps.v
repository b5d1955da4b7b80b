(** * C58: model variations *)
From Verif Require Import Py PyLemmas BcModel BcSpec BcProofs.

(** With distinct levels the table addresses the tasks, one for each pair of levels, row by row. *)
Theorem C58_table : forall (T V : Type) (handle : T -> command -> T * option V) t0 ws ss b, NoDup ws -> NoDup ss -> make handle t0 ws ss = Ok b ->
  length (tasks b) = (length ws * length ss)%nat /\
  (forall i j w s, nth_error ws i = Some w -> nth_error ss j = Some s -> lget (w, s) (lookup b) = Some (Z.of_nat (i * length ss + j))) /\
  (forall w s, ~ (In w ws /\ In s ss) -> lget (w, s) (lookup b) = None) /\
  (forall w s w' s' i, lget (w, s) (lookup b) = Some i -> lget (w', s') (lookup b) = Some i -> (w, s) = (w', s')).
Proof.
  intros T V handle t0 ws ss b Hw Hs H. destruct (make_ok handle t0 ws ss b Hw Hs H) as [H1 [H2 _]]. destruct (ports_get ws ss Hw Hs) as [P1 P2].
  rewrite H1. split; [rewrite H2; apply pairs_length|]. split; [intros i j w s Hi Hj; apply P1, pairs_nth; auto|].
  assert (N : forall w s, ~ (In w ws /\ In s ss) -> lget (w, s) (ports ws ss) = None) by (intros w s Hn; apply P2; intros C; apply pairs_In in C; auto).
  split; [exact N|]. intros w s w' s' i E1 E2.
  assert (G : forall k, lget k (ports ws ss) = Some i -> exists p, nth_error (pairs ws ss) p = Some k /\ i = Z.of_nat p).
  { intros k E. destruct (in_dec (fun x y : Z * Z => ltac:(decide equality; apply Z.eq_dec)) k (pairs ws ss)) as [I|I]; [|rewrite P2 in E by auto; discriminate].
    apply In_nth_error in I as [p Hp]. exists p. split; auto. rewrite (P1 _ _ Hp) in E. congruence. }
  destruct (G _ E1) as [p [Hp E3]]. destruct (G _ E2) as [q [Hq E4]]. assert (p = q) by lia. subst q. congruence.
Qed.
Print Assumptions C58_table.
(** The task of a pair is the model with the levels of that pair, and from then on a
    model of its own: after any calls that succeed it is what the calls to it, to its
    position and to all make of it. *)
Theorem C58_history : forall (T V : Type) (handle : T -> command -> T * option V) t0 ws ss b h, NoDup ws -> NoDup ss -> make handle t0 ws ss = Ok b ->
  forallb is_ok (snd (calls handle b h)) = true ->
  forall i j w s, nth_error ws i = Some w -> nth_error ss j = Some s ->
  let p := (i * length ss + j)%nat in
  let n := Z.of_nat (length ws * length ss) in
  nth_error (tasks (fst (calls handle b h))) p = Some (alone handle t0 (prepared (w, s) ++ commands_for n (Z.of_nat p) (w, s) h)).
Proof.
  intros T V handle t0 ws ss b h Hw Hs H Hok i j w s Hi Hj p n. destruct (make_ok handle t0 ws ss b Hw Hs H) as [H1 [H2 H3]].
  destruct (ports_get ws ss Hw Hs) as [P1 P2]. rewrite <- H1 in P1, P2.
  pose proof (pairs_nth ss ws i j w s Hi Hj) as Hp. fold p in Hp.
  destruct (calls_run handle (pairs ws ss) (pairs_nodup ws ss Hw Hs) h b H2 P1 P2 Hok) as [_ [_ R]].
  specialize (R p (w, s) _ Hp (H3 p (w, s) Hp)). rewrite R, alone_app, pairs_length. reflexivity.
Qed.
Print Assumptions C58_history.
(** A call to a pair is answered by the task of that pair, a call to all by all tasks in order. *)
Theorem C58_answers : forall (T V : Type) (handle : T -> command -> T * option V) b c, tasks b <> [] ->
  (forall k i t v, lget k (lookup b) = Some (Z.of_nat i) -> nth_error (tasks b) i = Some t -> snd (handle t c) = Some v ->
     snd (cmd handle b c (Some k) None) = Ok (OOne v)) /\
  (forall vs, map (fun t => snd (handle t c)) (tasks b) = map Some vs -> snd (cmd handle b c None None) = Ok (OAll vs)) /\
  (forall k, lget k (lookup b) = None -> cmd handle b c (Some k) None = (b, Raise KeyErr)).
Proof.
  intros T V handle b c Hne. unfold cmd. destruct (tasks b) as [|t0 ts] eqn:E; [congruence|]. rewrite <- E. clear Hne. split; [|split].
  - intros k i t v Hk Ht Hv. rewrite Hk. unfold send, py_get, py_set. assert (L : (i < length (tasks b))%nat) by (apply nth_error_Some; congruence).
    rewrite py_pos_nonneg by lia. rewrite Nat2Z.id, Ht. destruct (handle t c) as [t' r]. cbn [snd] in Hv. subst r. reflexivity.
  - intros vs Hv.
    assert (G : forall l ws, map (fun t => snd (handle t c)) l = map Some ws ->
      mapM (fun r : T * option V => match snd r with Some v => Ok v | None => Raise TypeErr end) (map (fun t => handle t c) l) = Ok ws).
    { clear. induction l as [|x l IH]; intros [|v ws] H; try discriminate; [reflexivity|]. cbn [map] in *. injection H as H1 H2. cbn [mapM]. rewrite H1. cbn [bind]. rewrite (IH ws H2). reflexivity. }
    rewrite (G _ _ Hv). reflexivity.
  - intros k Hk. rewrite Hk. reflexivity.
Qed.
Print Assumptions C58_answers.
(** The constructor succeeds if no model refuses its settings. *)
Theorem C58_makes : forall (T V : Type) (handle : T -> command -> T * option V) t0 ws ss, NoDup ws -> NoDup ss ->
  (forall t c, snd (handle t c) <> None) -> exists b, make handle t0 ws ss = Ok b.
Proof.
  intros T V handle t0 ws ss Hw Hs Hh. destruct (ports_get ws ss Hw Hs) as [P1 _]. unfold make.
  destruct (setup_list (pairs ws ss) (ports ws ss) P1) as [l1 [E1 E2]]. rewrite E1. cbn [bind]. rewrite E2.
  set (b0 := mkB (map (fun _ => t0) (pairs ws ss)) (ports ws ss)).
  assert (L0 : length (tasks b0) = length (pairs ws ss)) by (cbn [b0 tasks]; apply map_length).
  destruct (send_all_total handle (flat_map (fun ik => map (fun c => (fst ik, c)) (setup_of (snd ik))) (combine (zseq 0 (length (pairs ws ss))) (pairs ws ss))) Hh b0) as [b1 [S1 S2]].
  - intros x Hx. apply in_flat_map in Hx as [[i k] [Hi Hx]]. apply in_map_iff in Hx as [c [<- _]]. cbn [fst]. apply in_combine_l in Hi. apply zseq_In in Hi. rewrite L0. lia.
  - rewrite S1. cbn [bind]. destruct (send_all_total handle (flat_map finish (zseq 0 (length (tasks b1)))) Hh b1) as [b2 [S3 _]].
    + intros x Hx. apply in_flat_map in Hx as [i [Hi Hx]]. apply zseq_In in Hi. destruct Hx as [<-|[<-|[<-|[]]]]; cbn [fst]; lia.
    + exists b2. exact S3.
Qed.
Print Assumptions C58_makes.
(** An exception in any model stops all of them: the call raises TypeError and later calls return None. *)
Theorem C58_failure : forall (T V : Type) (handle : T -> command -> T * option V) b c uv, tasks b <> [] ->
  (uv = None -> exists t, In t (tasks b) /\ snd (handle t c) = None) ->
  (forall k, uv = Some k -> exists i t, lget k (lookup b) = Some (Z.of_nat i) /\ nth_error (tasks b) i = Some t /\ snd (handle t c) = None) ->
  cmd handle b c uv None = (stop, Raise TypeErr) /\
  forall c' uv' idx', cmd handle (stop : bc T) c' uv' idx' = (stop, Ok ONone).
Proof.
  intros T V handle b c uv Hne H1 H2. split; [|reflexivity]. unfold cmd. destruct (tasks b) as [|t0 ts] eqn:E; [congruence|]. rewrite <- E in *. destruct uv as [k|].
  - destruct (H2 k eq_refl) as [i [t [A [B C]]]]. rewrite A. unfold send, py_get, py_set. assert (L : (i < length (tasks b))%nat) by (apply nth_error_Some; congruence).
    rewrite py_pos_nonneg by lia. rewrite Nat2Z.id, B. destruct (handle t c) as [t' r]. cbn [snd] in C. subst r. reflexivity.
  - destruct (H1 eq_refl) as [t [A B]]. clear E Hne H1 H2.
    assert (G : mapM (fun r : T * option V => match snd r with Some v => Ok v | None => Raise TypeErr end) (map (fun t => handle t c) (tasks b)) = Raise TypeErr).
    { induction (tasks b) as [|x l IH]; [contradiction|]. cbn [map mapM]. destruct A as [->|A]; [rewrite B; reflexivity|].
      destruct (snd (handle x c)); [|reflexivity]. cbn [bind]. rewrite IH by auto. reflexivity. }
    rewrite G. reflexivity.
Qed.
Print Assumptions C58_failure.
(** Models that remember the commands they got and answer with their number. *)
Definition memo (t : list command) (c : command) : list command * option Z := (t ++ [c], Some (Z.of_nat (length t))).
Example C58_meets : exists b, make memo [] [1; 2] [7; 8; 9] = Ok b /\ length (tasks b) = 6%nat /\
  nth_error (tasks (fst (calls memo b [(Call 5, Some (2, 7), None); (Call 6, None, Some (-3)); (Call 4, Some (1, 7), None)]))) 3 =
  Some [SetContainer false; SetWind 2; SetSpill 7; NewCache; CacheEnabled false; WeatheringOnly; Call 5; Call 6].
Proof. eexists. split; [vm_compute; reflexivity|]. split; vm_compute; reflexivity. Qed.
(** If a level is given twice, the tasks of the first occurrence never get their
    levels and cannot be addressed by a pair. *)
Theorem C58_duplicate_refuted : exists b, make memo [] [1; 1] [7] = Ok b /\
  nth_error (tasks b) 0 = Some [NewCache; CacheEnabled false; WeatheringOnly] /\ (forall k, lget k (lookup b) <> Some 0).
Proof.
  eexists. split; [vm_compute; reflexivity|]. split; [reflexivity|]. intros k. cbn [lookup lget]. destruct (pair_eqb k (1, 7)); discriminate.
Qed.
Print Assumptions C58_duplicate_refuted.
