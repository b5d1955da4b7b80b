(** * Properties of broadcasting commands to copies of a model *)

From Coq Require Import ZArith List Bool Lia.
From Verif Require Import Py PyLemmas BrdModel BrdSpec BrdProofs.
Import ListNotations.
Open Scope Z_scope.

(** ** C209: one copy of the model for each pair of uncertainties *)

(** For values without repetition: the children are the pairs in order, each has been given its own uncertainties and
    nothing else, and a pair leads to its child. *)
Theorem C209_pairs_partial : forall ans late ws ss, well ans -> (forall n, in_time (late n)) -> NoDup ws -> NoDup ss ->
  exists b, broadcaster ans late ws ss = Ok b /\ logs b = map setup (list_prod ws ss) /\ free b /\
    (forall t, In t (b_tasks b) -> t_timeout t = 10000) /\
    (forall j k, nth_error (list_prod ws ss) j = Some k -> kget k (b_lookup b) = Some (Z.of_nat j)) /\
    (forall k, ~ In k (list_prod ws ss) -> kget k (b_lookup b) = None).
Proof.
  intros ans late ws ss A L N1 N2. eexists. split; [exact (broadcaster_ok ans late ws ss (conj A L) N1 N2) |]. cbn [b_tasks b_lookup]. split; [| split; [| split; [| split]]].
  - unfold logs. cbn [b_tasks]. rewrite map_map. reflexivity.
  - intros t I. cbn [b_tasks] in I. apply in_map_iff in I. destruct I as (k & E & _). subst t. reflexivity.
  - intros t I. apply in_map_iff in I. destruct I as (k & E & _). subst t. reflexivity.
  - intros j k J. exact (lookups_nth _ 0 [] j k (prod_nodup ws ss N1 N2) J).
  - intros k K. exact (lookups_keep _ 0 [] k K).
Qed.

(** Refuted: of a pair that is there twice the first child gets no uncertainty, and the second gets it twice. *)
Theorem C209_twice_refuted : forall ans late w s, well ans -> (forall n, in_time (late n)) ->
  exists b, broadcaster ans late [w; w] [s] = Ok b /\
    logs b = [[NewCache; NoCache; OnlyWeathering];
              [SetContainer; SetWind w; SetAmount s; SetContainer; SetWind w; SetAmount s; NewCache; NoCache; OnlyWeathering]].
Proof.
  intros ans late w s A L. assert (K : kget (w, s) (lookups 0 [(w, s); (w, s)] []) = Some 1).
  { cbn [lookups kset]. rewrite (proj2 (key_eqb_true (w, s) (w, s)) eq_refl). cbn [kget]. rewrite (proj2 (key_eqb_true (w, s) (w, s)) eq_refl). reflexivity. }
  pose proof (conj A L) as H. unfold broadcaster, pairs. cbn [list_prod map app List.length flat_map zseq uncertain settle]. cbn [fst snd].
  set (lk := lookups 0 [(w, s); (w, s)] []) in *.
  rewrite (commands_three ans late 0 _ _ _ _ _ _ _ [Task [] false 10000] (Task [] false 10000) [] lk H eq_refl)
    by (intros x I; right; exists (w, s); split; [cbn [In] in I; intuition congruence | exact K]).
  rewrite (commands_three ans late _ _ _ _ _ _ _ _ [Task [] false 10000] (ran (SetAmount s) (ran (SetWind w) (ran SetContainer (Task [] false 10000)))) [] lk H eq_refl)
    by (intros x I; right; exists (w, s); split; [cbn [In] in I; intuition congruence | exact K]).
  set (u := ran (SetAmount s) _).
  rewrite (commands_three ans late _ _ _ _ _ _ _ _ [] (Task [] false 10000) [u] lk H eq_refl)
    by (intros x I; left; simpl in I |- *; intuition congruence).
  cbn [app]. set (u0 := ran OnlyWeathering _).
  rewrite (commands_three ans late _ _ _ _ _ _ _ [] [u0] u [] lk H eq_refl) by (intros x I; left; simpl in I |- *; intuition congruence).
  eexists. split; reflexivity.
Qed.

Definition says (v : Z) : answers := fun k l c => Out (v + Z.of_nat k).
Example C209_meets : well (says 5) /\ (forall n : nat, in_time ((fun _ _ => false) n)) /\ NoDup [-1; 0; 1] /\
  List.length (list_prod [-1; 0; 1] [0; 1]) = 6%nat.
Proof.
  split; [intros k l c; eexists; reflexivity |]. split; [intros n k; reflexivity |]. split; [| reflexivity].
  repeat (constructor; [cbn [In]; lia |]). constructor.
Qed.
Print Assumptions C209_pairs_partial.
Print Assumptions C209_twice_refuted.

(** ** C210: a command is run once by every child it is for *)

(** To all: the answers of all children in their order, in parallel or not; every child has run the command once; the
    timeouts are as before. *)
Theorem C210_all : forall ans late p z c b, well ans -> in_time late -> free b -> running b ->
  exists vs, command ans late (All p z) c b = (Ok (Some vs), Bc (map (ran c) (b_tasks b)) (b_lookup b)) /\ answered ans c b vs.
Proof.
  intros ans late p z c b A L F R. destruct (values_well ans c (b_tasks b) 0 A) as (vs & V & LN & N). exists vs. split; [| split; [exact LN | exact N]].
  unfold command. destruct (b_tasks b) as [| t0 ts] eqn:T; [contradiction (R T) |]. rewrite <- T in *. rewrite (to_all_ok ans late p z c b L F).
  unfold handled. rewrite V. reflexivity.
Qed.

(** In parallel or one after the other is the same. *)
Theorem C210_same : forall ans late z1 z2 c b, in_time late -> free b ->
  command ans late (All true z1) c b = command ans late (All false z2) c b.
Proof.
  intros ans late z1 z2 c b L F. unfold command. destruct (b_tasks b) as [| t0 ts]; [reflexivity |].
  rewrite (to_all_ok ans late true z1 c b L F), (to_all_ok ans late false z2 c b L F). reflexivity.
Qed.

(** To one, by its number or its uncertainties: its answer; the others are as they were.  A number that is not there is
    refused, and so are uncertainties. *)
Theorem C210_one : forall ans late k t c b, well ans -> in_time late -> free b -> nth_error (b_tasks b) k = Some t ->
  exists v l r, ans k (t_log t) c = Out v /\ b_tasks b = l ++ t :: r /\ List.length l = k /\
    command ans late (Index (Z.of_nat k)) c b = (Ok (Some [v]), Bc (l ++ ran c t :: r) (b_lookup b)) /\
    (forall u, kget u (b_lookup b) = Some (Z.of_nat k) -> command ans late (Values u) c b = command ans late (Index (Z.of_nat k)) c b).
Proof.
  intros ans late k t c b A L F N. destruct (A k (t_log t) c) as (v & V). destruct (nth_error_split _ _ N) as (l & r & E & LN). exists v, l, r.
  assert (K : (k < List.length (b_tasks b))%nat) by (apply nth_error_Some; congruence).
  pose proof (to_one_ok ans late (Z.of_nat k) k c b t v (pos_nat _ _ K) N (F t (nth_error_In _ _ N)) (L k) V) as T.
  split; [exact V |]. split; [exact E |]. split; [exact LN |].
  assert (C : forall w, (w = Index (Z.of_nat k) \/ exists u, w = Values u /\ kget u (b_lookup b) = Some (Z.of_nat k)) ->
    command ans late w c b = to_one ans late (Z.of_nat k) c b).
  { intros w W. unfold command. destruct (b_tasks b) as [| t0 ts]; [cbn [List.length] in K; lia |]. destruct W as [W | (u & W & U)]; subst w; [reflexivity |]. rewrite U. reflexivity. }
  split.
  - rewrite C by (left; reflexivity). rewrite T. do 2 f_equal. rewrite E, <- LN. apply put_app.
  - intros u U. rewrite !C; [reflexivity | left; reflexivity | right; exists u; auto].
Qed.
Theorem C210_refused : forall ans late i u c b, running b ->
  (i < - Z.of_nat (List.length (b_tasks b)) \/ Z.of_nat (List.length (b_tasks b)) <= i -> command ans late (Index i) c b = (Raise IndexErr, b)) /\
  (kget u (b_lookup b) = None -> command ans late (Values u) c b = (Raise KeyErr, b)).
Proof.
  intros ans late i u c b R. split; intro H; unfold command; (destruct (b_tasks b) as [| t0 ts] eqn:T; [contradiction (R T) |]; try rewrite <- T in * ).
  - unfold to_one. destruct (py_pos (List.length (b_tasks b)) i) as [k |] eqn:P; [| reflexivity]. apply pos_spec in P. lia.
  - rewrite H. reflexivity.
Qed.

(** Over any script of commands: every child has run what was for it, in order. *)
Theorem C210_history : forall ans late script b b1, well ans -> (forall n, in_time (late n)) -> free b -> running b ->
  commands ans late 0 script b = Ok b1 ->
  b_lookup b1 = b_lookup b /\ List.length (b_tasks b1) = List.length (b_tasks b) /\
  forall k l, nth_error (logs b) k = Some l ->
    nth_error (logs b1) k = Some (l ++ addressed (b_lookup b) (List.length (b_tasks b)) k script).
Proof.
  intros ans late script b b1 A L F R E. destruct (commands_history ans late script 0 b b1 (conj A L) F R E) as (X & Y & _ & Q). auto.
Qed.

Definition two : bc := Bc [Task [] false 10000; Task [NoCache] false 7] [((1, 2), 0); ((1, 3), 1)].
Example C210_meets : free two /\ running two /\
  fst (command (says 5) (fun _ => false) (All false (Some 3)) NewCache two) = Ok (Some [5; 6]) /\
  (exists b1, commands (says 5) (fun _ _ => false) 0 [(All true None, Other 1); (Values (1, 3), Other 2); (Index (-2), Other 3)] two = Ok b1 /\
     logs b1 = [[Other 1; Other 3]; [NoCache; Other 1; Other 2]]).
Proof.
  split; [intros t [I | [I | []]]; subst t; reflexivity |]. split; [discriminate |]. split; [reflexivity |]. eexists. split; reflexivity.
Qed.
Print Assumptions C210_all.
Print Assumptions C210_same.
Print Assumptions C210_one.
Print Assumptions C210_refused.
Print Assumptions C210_history.

(** ** C211: a broadcaster that fails *)

(** Whatever happens: after any commands with any outcome the broadcaster is stopped or has all its children, which have
    run nothing but what was sent, in order. *)
Theorem C211_kept : forall ans l b, stopped (after ans l b) \/
  (b_lookup (after ans l b) = b_lookup b /\
   Forall2 (fun t t' => exists s, t_log t' = t_log t ++ s /\ forall c, In c s -> In c (map snd l)) (b_tasks b) (b_tasks (after ans l b))).
Proof.
  intros ans l. induction l as [| ((late, w), c) l IH]; intro b.
  - right. split; [reflexivity |]. unfold after. cbn [fold_left]. generalize (b_tasks b) as ts. induction ts; constructor; [exists []; rewrite app_nil_r; split; [reflexivity | intros c []] | assumption].
  - unfold after in *. cbn [fold_left]. destruct (IH (snd (command ans late w c b))) as [H | (H1 & H2)]; [left; exact H |].
    destruct (command_kept ans late w c b) as [K | (K1 & K2)].
    + left. unfold stopped in *. rewrite K in H2. inversion H2. reflexivity.
    + right. split; [congruence |]. revert H2. generalize (b_tasks (fold_left (fun b x => let '(late0, w0, c0) := x in snd (command ans late0 w0 c0 b)) l (snd (command ans late w c b)))) as ts2.
      clear - K2. induction K2 as [| t t1 ts ts1 E K2 IHK]; intros ts2 H2; inversion H2 as [| ? t2 ? ts2' (s & S1 & S2) H3]; subst; constructor; [| exact (IHK _ H3)].
      destruct E as [E | E]; rewrite E in S1.
      * exists s. split; [exact S1 |]. intros d D. right. exact (S2 d D).
      * exists (c :: s). split; [rewrite S1, <- app_assoc; reflexivity |]. intros d [D | D]; [left; exact D | right; exact (S2 d D)].
Qed.

(** Stopped, it answers None to everything and does nothing. *)
Theorem C211_stopped : forall ans late w c b, stopped b -> command ans late w c b = (Ok None, b).
Proof. intros ans late w c b S. unfold command. rewrite S. reflexivity. Qed.

(** A command in parallel that is not answered in time by all stops it and answers None. *)
Theorem C211_late : forall ans late z c b k, free b -> (k < List.length (b_tasks b))%nat -> late k = true ->
  exists b1, command ans late (All true z) c b = (Ok None, b1) /\ stopped b1.
Proof.
  intros ans late z c b k F K L. unfold command. destruct (b_tasks b) as [| t0 ts] eqn:T; [cbn [List.length] in K; lia |]. rewrite <- T in *. unfold to_all. cbv zeta.
  rewrite send_all_free by (destruct z; [apply timed_free |]; exact F). rewrite (recv_all_late ans late c _ 0 k K L).
  eexists. split; [reflexivity |]. unfold stopped, stop. cbn [b_tasks]. destruct (map _ _); reflexivity.
Qed.

(** Refuted: the exception of a child is not the one raised.  Whatever it is the caller gets a TypeError and the
    broadcaster is stopped; to one child, or to all. *)
Theorem C211_exception_refuted : forall ans late w c b k t e, in_time late -> free b -> nth_error (b_tasks b) k = Some t -> ans k (t_log t) c = Exc e ->
  w = Index (Z.of_nat k) \/ (exists p z, w = All p z) ->
  exists b1, command ans late w c b = (Raise TypeErr, b1) /\ stopped b1.
Proof.
  intros ans late w c b k t e L F N E W. assert (K : (k < List.length (b_tasks b))%nat) by (apply nth_error_Some; congruence).
  assert (H : exists b1, (match w with Index i => to_one ans late i c b | All p z => to_all ans late p z c b | Values _ => (Ok None, b) end) = (Raise TypeErr, b1) /\ stopped b1).
  { destruct W as [W | (p & z & W)]; subst w.
    - unfold to_one. rewrite (pos_nat _ _ K), N. unfold send. rewrite (F t (nth_error_In _ _ N)), (L k), E. unfold handled. cbn [values].
      eexists. split; [reflexivity |]. unfold stopped, stop. cbn [b_tasks]. destruct (put _ _ _); reflexivity.
    - rewrite (to_all_ok ans late p z c b L F). unfold handled. rewrite (values_exc ans c _ 0 k t e N E). eexists. split; [reflexivity |].
      unfold stopped, stop. cbn [b_tasks]. destruct (map _ _); reflexivity. }
  unfold command. destruct (b_tasks b) as [| t0 ts]; [cbn [List.length] in K; lia |]. destruct W as [W | (p & z & W)]; subst w; exact H.
Qed.

(** Refuted: a command to one child that is not answered in time raises and leaves the broadcaster running; from then on
    every command to that child and every command to all raises, whatever the children do. *)
Theorem C211_lost_refuted : forall ans late k t c b, free b -> nth_error (b_tasks b) k = Some t -> late k = true ->
  exists b1, command ans late (Index (Z.of_nat k)) c b = (Raise OSErr, b1) /\ running b1 /\
  forall ans2 late2 d z, command ans2 late2 (Index (Z.of_nat k)) d b1 = (Raise RuntimeErr, b1) /\
    fst (command ans2 late2 (All true z) d b1) = Raise RuntimeErr.
Proof.
  intros ans late k t c b F N L. assert (K : (k < List.length (b_tasks b))%nat) by (apply nth_error_Some; congruence).
  set (t1 := Task (t_log t ++ [c]) true (t_timeout t)). set (b1 := Bc (put k t1 (b_tasks b)) (b_lookup b)).
  assert (N1 : nth_error (b_tasks b1) k = Some t1) by (unfold b1; cbn [b_tasks]; rewrite put_nth, Nat.eqb_refl, N; reflexivity).
  assert (K1 : (k < List.length (b_tasks b1))%nat) by (apply nth_error_Some; congruence).
  exists b1. split; [| split].
  - unfold command. destruct (b_tasks b) as [| t0 ts] eqn:T; [cbn [List.length] in K; lia |]. rewrite <- T in *.
    unfold to_one. rewrite (pos_nat _ _ K), N. unfold send. rewrite (F t (nth_error_In _ _ N)), L. unfold b1. rewrite T. reflexivity.
  - intro S. rewrite S in K1. cbn [List.length] in K1. lia.
  - intros ans2 late2 d z. unfold command. destruct (b_tasks b1) as [| t0 ts] eqn:T; [cbn [List.length] in K1; lia |]. rewrite <- T in *. split.
    + unfold to_one. rewrite (pos_nat _ _ K1), N1. reflexivity.
    + unfold to_all. cbv zeta. set (l0 := match z with Some _ => _ | None => _ end).
      assert (B : snd (send_all d l0) = false).
      { apply send_all_busy. unfold l0. destruct z as [z |].
        - exists (timed (z * 1000) t1). split; [apply in_map; exact (nth_error_In _ _ N1) | reflexivity].
        - exists t1. split; [exact (nth_error_In _ _ N1) | reflexivity]. }
      destruct (send_all d l0) as (l1, ok). cbn [snd] in B. subst ok. reflexivity.
Qed.

(** Refuted: one after the other, an answer that is late raises; the children up to it have run the command and the ones
    after it have not; from then on every command to that child and every command to all raises. *)
Lemma in_turn_late : forall ans late c l m k t, (forall x, In x l -> t_wait x = false) -> (forall i, (i < k)%nat -> late (m + i)%nat = false) -> late (m + k)%nat = true ->
  nth_error l k = Some t ->
  in_turn ans late m c l = (map (ran c) (firstn k l) ++ Task (t_log t ++ [c]) true (t_timeout t) :: skipn (S k) l, Raise OSErr).
Proof.
  intros ans late c. induction l as [| x r IH]; intros m k t F E L N; [destruct k; discriminate |]. cbn [in_turn]. unfold send. rewrite (F x (or_introl eq_refl)).
  destruct k as [| k].
  - rewrite Nat.add_0_r in L. rewrite L. cbn [nth_error] in N. injection N as ->. reflexivity.
  - assert (E0 := E O (Nat.lt_0_succ k)). rewrite Nat.add_0_r in E0. rewrite E0. cbn [nth_error] in N.
    rewrite (IH (S m) k t (fun y Y => F y (or_intror Y))); [reflexivity | | | exact N].
    + intros i I. rewrite <- (E (S i)) by lia. f_equal. lia.
    + rewrite <- L. f_equal. lia.
Qed.

Theorem C211_turn_refuted : forall ans late k t c z b, free b -> nth_error (b_tasks b) k = Some t -> late k = true ->
  (forall i, (i < k)%nat -> late i = false) ->
  exists b1, command ans late (All false z) c b = (Raise OSErr, b1) /\
  logs b1 = map (fun x => t_log x ++ [c]) (firstn (S k) (b_tasks b)) ++ map t_log (skipn (S k) (b_tasks b)) /\
  forall ans2 late2 d z2, fst (command ans2 late2 (Index (Z.of_nat k)) d b1) = Raise RuntimeErr /\
    fst (command ans2 late2 (All true z2) d b1) = Raise RuntimeErr.
Proof.
  intros ans late k t c z b F N L E. assert (K : (k < List.length (b_tasks b))%nat) by (apply nth_error_Some; congruence).
  assert (CM : command ans late (All false z) c b = to_all ans late false z c b).
  { unfold command. destruct (b_tasks b); [cbn [List.length] in K; lia | reflexivity]. }
  set (l0 := match z with Some y => map (timed (y * 1000)) (b_tasks b) | None => b_tasks b end).
  assert (F0 : forall x, In x l0 -> t_wait x = false).
  { intros x I. unfold l0 in I. destruct z; [| exact (F x I)]. apply in_map_iff in I. destruct I as (y & <- & I). exact (F y I). }
  assert (N0 : exists t0, nth_error l0 k = Some t0 /\ t_log t0 = t_log t).
  { unfold l0. destruct z; [| exists t; auto]. exists (timed (z * 1000) t). rewrite nth_error_map, N. auto. }
  destruct N0 as (t0 & N0 & LG). set (tw := Task (t_log t0 ++ [c]) true (t_timeout t0)).
  set (l1 := map (ran c) (firstn k l0) ++ tw :: skipn (S k) l0).
  assert (LL : map t_log l0 = map t_log (b_tasks b)) by (unfold l0; destruct z; [rewrite map_map |]; reflexivity).
  assert (LE : List.length l0 = List.length (b_tasks b)) by (unfold l0; destruct z; [rewrite map_length |]; reflexivity).
  assert (N1 : nth_error l1 k = Some tw).
  { unfold l1. assert (Q : List.length (map (ran c) (firstn k l0)) = k) by (rewrite map_length, firstn_length; lia).
    rewrite nth_error_app2 by lia. rewrite Q, Nat.sub_diag. reflexivity. }
  assert (K1 : (k < List.length l1)%nat) by (apply nth_error_Some; congruence).
  exists (Bc l1 (b_lookup b)). split; [| split].
  - rewrite CM. unfold to_all. cbv zeta iota. fold l0. rewrite (in_turn_late ans late c l0 0 k t0 F0 E L N0). reflexivity.
  - unfold logs, l1. cbn [b_tasks]. rewrite map_app. cbn [map t_log tw]. rewrite map_map.
    assert (SP : forall (l : list task) j x, nth_error l j = Some x -> firstn (S j) l = firstn j l ++ [x]).
    { induction l as [| y l IHl]; intros j x X; [destruct j; discriminate |]. destruct j as [| j]; cbn [nth_error] in X; [injection X as ->; reflexivity |].
      cbn [firstn app]. f_equal. exact (IHl j x X). }
    rewrite (SP _ _ _ N), map_app, <- app_assoc. cbn [map app]. rewrite LG.
    assert (M1 : map (fun x => t_log (ran c x)) (firstn k l0) = map (fun x => t_log x ++ [c]) (firstn k (b_tasks b))).
    { change (fun x => t_log (ran c x)) with (fun x => (fun y => y ++ [c]) (t_log x)). rewrite <- (map_map t_log (fun y => y ++ [c])), <- (map_map t_log (fun y => y ++ [c]) (firstn k (b_tasks b))).
      rewrite <- !firstn_map, LL. reflexivity. }
    rewrite M1. rewrite <- !skipn_map, LL. reflexivity.
  - clearbody l1. intros ans2 late2 d z2. unfold command. cbn [b_tasks b_lookup]. destruct l1 as [| a r] eqn:T; [cbn [List.length] in K1; lia |]. rewrite <- T in *. split.
    + unfold to_one. cbn [b_tasks]. rewrite (pos_nat _ _ K1), N1. reflexivity.
    + unfold to_all. cbv zeta. cbn [b_tasks]. set (l2 := match z2 with Some _ => _ | None => _ end).
      assert (B : snd (send_all d l2) = false).
      { apply send_all_busy. unfold l2. destruct z2 as [z2 |].
        - exists (timed (z2 * 1000) tw). split; [apply in_map; exact (nth_error_In _ _ N1) | reflexivity].
        - exists tw. split; [exact (nth_error_In _ _ N1) | reflexivity]. }
      destruct (send_all d l2) as (l3, ok). cbn [snd] in B. subst ok. reflexivity.
Qed.
Print Assumptions C211_turn_refuted.

(** Refuted: one after the other with a timeout, an answer that is late leaves the new timeout for good. *)
Theorem C211_timeout_refuted : forall ans, exists b1,
  command ans (fun k => (k =? 0)%nat) (All false (Some 1)) NewCache two = (Raise OSErr, b1) /\
  map t_timeout (b_tasks b1) = [1000; 1000] /\ map t_timeout (b_tasks two) = [10000; 7] /\ logs b1 = [[NewCache]; [NoCache]].
Proof. intro ans. eexists. split; [reflexivity |]. repeat split. Qed.

Example C211_meets : exists (ans : answers) late, in_time late /\ nth_error (b_tasks two) 1 = Some (Task [NoCache] false 7) /\
  ans 1%nat [NoCache] NewCache = Exc ValueErr /\ fst (command ans late (All true None) NewCache two) = Raise TypeErr /\
  stopped (snd (command ans (fun k => (k =? 1)%nat) (All true None) NewCache two)).
Proof.
  exists (fun k l c => if (k =? 1)%nat then Exc ValueErr else Out 3), (fun _ => false). split; [intro k; reflexivity |]. repeat split.
Qed.
Print Assumptions C211_kept.
Print Assumptions C211_stopped.
Print Assumptions C211_late.
Print Assumptions C211_exception_refuted.
Print Assumptions C211_lost_refuted.
Print Assumptions C211_timeout_refuted.
