From Coq Require Import ZArith List Bool Lia.
From Verif Require Import Py PyLemmas BrdModel BrdSpec.
Import ListNotations.
Open Scope Z_scope.

Lemma key_eqb_true : forall a b, key_eqb a b = true <-> a = b.
Proof.
  intros (a1, a2) (b1, b2). unfold key_eqb. cbn [fst snd]. rewrite andb_true_iff, !Z.eqb_eq. split; [intros (A & B); subst; reflexivity | intro E; injection E; auto].
Qed.
Lemma kget_kset_same : forall k v d, kget k (kset k v d) = Some v.
Proof.
  intros k v d. induction d as [| (k', v') t IH]; cbn [kset kget].
  - rewrite (proj2 (key_eqb_true k k) eq_refl). reflexivity.
  - destruct (key_eqb k k') eqn:E; cbn [kget].
    + rewrite (proj2 (key_eqb_true k k) eq_refl). reflexivity.
    + rewrite E. exact IH.
Qed.
Lemma kget_kset_other : forall k k2 v d, k <> k2 -> kget k (kset k2 v d) = kget k d.
Proof.
  intros k k2 v d N. assert (E2 : key_eqb k k2 = false) by (destruct (key_eqb k k2) eqn:E; [apply key_eqb_true in E; contradiction | reflexivity]).
  induction d as [| (k', v') t IH]; cbn [kset kget].
  - rewrite E2. reflexivity.
  - destruct (key_eqb k2 k') eqn:E; cbn [kget].
    + apply key_eqb_true in E. subst k'. rewrite E2. reflexivity.
    + rewrite IH. reflexivity.
Qed.

Lemma lookups_keep : forall ks n d k, ~ In k ks -> kget k (lookups n ks d) = kget k d.
Proof.
  induction ks as [| x t IH]; intros n d k N; [reflexivity |]. cbn [lookups]. rewrite IH by (intro I; apply N; right; exact I).
  apply kget_kset_other. intro E. apply N. left. symmetry. exact E.
Qed.
Lemma lookups_nth : forall ks n d j k, NoDup ks -> nth_error ks j = Some k -> kget k (lookups n ks d) = Some (n + Z.of_nat j).
Proof.
  induction ks as [| x t IH]; intros n d j k N E; [destruct j; discriminate E |]. inversion N as [| ? ? N1 N2]; subst. destruct j as [| j]; cbn [nth_error lookups] in *.
  - injection E as E. subst x. rewrite lookups_keep by exact N1. rewrite kget_kset_same. f_equal. lia.
  - rewrite (IH (n + 1) _ j k N2 E). f_equal. lia.
Qed.

(** ** Tasks *)

Lemma put_app : forall a t x r, put (List.length a) x (a ++ t :: r) = a ++ x :: r.
Proof. induction a as [| y a IH]; intros t x r; cbn [List.length app put]; [reflexivity | rewrite IH; reflexivity]. Qed.
Lemma put_length : forall l k x, List.length (put k x l) = List.length l.
Proof. induction l as [| y l IH]; intros [| k] x; cbn [put List.length]; try reflexivity. rewrite IH. reflexivity. Qed.
Lemma put_nth : forall l k x j, nth_error (put k x l) j = if (j =? k)%nat then match nth_error l j with Some _ => Some x | None => None end else nth_error l j.
Proof.
  induction l as [| y l IH]; intros k x j.
  - cbn [put]. destruct j; cbn [nth_error]; destruct (_ =? k)%nat; reflexivity.
  - destruct k as [| k], j as [| j]; cbn [put nth_error Nat.eqb]; try reflexivity. apply IH.
Qed.

Lemma pos_nat : forall n k, (k < n)%nat -> py_pos n (Z.of_nat k) = Some k.
Proof.
  intros n k L. unfold py_pos. replace (0 <=? Z.of_nat k) with true by (symmetry; apply Z.leb_le; lia).
  replace (Z.of_nat k <? Z.of_nat n) with true by (symmetry; apply Z.ltb_lt; lia). rewrite Nat2Z.id. reflexivity.
Qed.
Lemma pos_spec : forall n i k, py_pos n i = Some k -> (k < n)%nat /\ (i = Z.of_nat k \/ i = Z.of_nat k - Z.of_nat n).
Proof.
  intros n i k H. unfold py_pos in H. destruct (0 <=? i) eqn:A.
  - destruct (i <? Z.of_nat n) eqn:B; [| discriminate H]. injection H as H. apply Z.leb_le in A. apply Z.ltb_lt in B. lia.
  - destruct (- Z.of_nat n <=? i) eqn:B; [| discriminate H]. injection H as H. apply Z.leb_gt in A. apply Z.leb_le in B. lia.
Qed.

Lemma to_one_ok : forall ans late i k c b t v, py_pos (List.length (b_tasks b)) i = Some k -> nth_error (b_tasks b) k = Some t -> t_wait t = false ->
  late k = false -> ans k (t_log t) c = Out v -> to_one ans late i c b = (Ok (Some [v]), Bc (put k (ran c t) (b_tasks b)) (b_lookup b)).
Proof.
  intros ans late i k c b t v P E W L A. unfold to_one. rewrite P, E. unfold send. rewrite W, L, A. reflexivity.
Qed.

(** ** The constructor *)

Definition has_all (ans : answers) (late : nat -> times) : Prop := well ans /\ forall n, in_time (late n).

Lemma command_nth : forall ans late w c a t r lk, well ans -> in_time late -> t_wait t = false ->
  (w = Index (Z.of_nat (List.length a)) \/ exists p, w = Values p /\ kget p lk = Some (Z.of_nat (List.length a))) ->
  exists o, command ans late w c (Bc (a ++ t :: r) lk) = (Ok o, Bc (a ++ ran c t :: r) lk).
Proof.
  intros ans late w c a t r lk A L W H. destruct (A (List.length a) (t_log t) c) as (v & V). exists (Some [v]).
  assert (N : nth_error (a ++ t :: r) (List.length a) = Some t) by (rewrite nth_error_app2, Nat.sub_diag by lia; reflexivity).
  assert (P : py_pos (List.length (a ++ t :: r)) (Z.of_nat (List.length a)) = Some (List.length a)) by (apply pos_nat; rewrite app_length; cbn [List.length]; lia).
  pose proof (to_one_ok ans late _ (List.length a) c (Bc (a ++ t :: r) lk) t v P N W (L _) V) as T. cbn [b_tasks b_lookup] in T. rewrite put_app in T.
  unfold command. cbn [b_tasks b_lookup]. destruct (a ++ t :: r) eqn:Q; [destruct a; discriminate Q |]. destruct H as [H | (p & H & K)]; subst w; [exact T |]. rewrite K. exact T.
Qed.

Lemma commands_three : forall ans late n w1 c1 w2 c2 w3 c3 rest a t r lk, has_all ans late -> t_wait t = false ->
  (forall w, In w [w1; w2; w3] -> w = Index (Z.of_nat (List.length a)) \/ exists p, w = Values p /\ kget p lk = Some (Z.of_nat (List.length a))) ->
  commands ans late n ((w1, c1) :: (w2, c2) :: (w3, c3) :: rest) (Bc (a ++ t :: r) lk) =
  commands ans late (S (S (S n))) rest (Bc (a ++ ran c3 (ran c2 (ran c1 t)) :: r) lk).
Proof.
  intros ans late n w1 c1 w2 c2 w3 c3 rest a t r lk (A & L) W H. cbn [commands].
  destruct (command_nth ans (late n) w1 c1 a t r lk A (L n) W (H w1 (or_introl eq_refl))) as (o1 & E1). rewrite E1.
  destruct (command_nth ans (late (S n)) w2 c2 a (ran c1 t) r lk A (L _) eq_refl (H w2 (or_intror (or_introl eq_refl)))) as (o2 & E2). rewrite E2.
  destruct (command_nth ans (late (S (S n))) w3 c3 a (ran c2 (ran c1 t)) r lk A (L _) eq_refl (H w3 (or_intror (or_intror (or_introl eq_refl))))) as (o3 & E3). rewrite E3.
  reflexivity.
Qed.

Definition fresh : task := Task [] false 10000.
Definition half (k : Z * Z) : task := Task [SetContainer; SetWind (fst k); SetAmount (snd k)] false 10000.
Definition whole (k : Z * Z) : task := Task (setup k) false 10000.

Lemma setup_first : forall ans late lk rest, has_all ans late -> forall todo a n,
  (forall j k, nth_error todo j = Some k -> kget k lk = Some (Z.of_nat (List.length a + j))) ->
  exists m, commands ans late n (flat_map uncertain todo ++ rest) (Bc (a ++ map (fun _ => fresh) todo) lk) =
            commands ans late m rest (Bc (a ++ map half todo) lk).
Proof.
  intros ans late lk rest H. induction todo as [| k t IH]; intros a n K; cbn [flat_map map app]; [exists n; reflexivity |].
  unfold uncertain at 1. cbn [app].
  rewrite (commands_three ans late n (Values k) SetContainer (Values k) (SetWind (fst k)) (Values k) (SetAmount (snd k)) _ a fresh _ lk H eq_refl).
  - change (ran (SetAmount (snd k)) (ran (SetWind (fst k)) (ran SetContainer fresh))) with (half k).
    destruct (IH (a ++ [half k]) (S (S (S n)))) as (m & M).
    + intros j k' J. rewrite app_length. cbn [List.length]. rewrite (K (S j) k' J). do 2 f_equal. lia.
    + exists m. rewrite <- !app_assoc in M. cbn [app] in M. exact M.
  - intros w I. right. exists k. pose proof (K 0%nat k eq_refl) as K0. rewrite Nat.add_0_r in K0. split; [| exact K0]. cbn [In] in I. intuition congruence.
Qed.

Lemma setup_second : forall ans late lk, has_all ans late -> forall todo a n,
  commands ans late n (flat_map settle (zseq (Z.of_nat (List.length a)) (List.length todo))) (Bc (a ++ map half todo) lk) = Ok (Bc (a ++ map whole todo) lk).
Proof.
  intros ans late lk H. induction todo as [| k t IH]; intros a n; cbn [List.length zseq flat_map map app]; [reflexivity |].
  unfold settle at 1. cbn [app].
  rewrite (commands_three ans late n _ NewCache _ NoCache _ OnlyWeathering _ a (half k) _ lk H eq_refl).
  - change (ran OnlyWeathering (ran NoCache (ran NewCache (half k)))) with (whole k).
    specialize (IH (a ++ [whole k]) (S (S (S n)))). rewrite app_length in IH. cbn [List.length] in IH. rewrite <- !app_assoc in IH. cbn [app] in IH.
    replace (Z.of_nat (List.length a) + 1) with (Z.of_nat (List.length a + 1)) by lia. exact IH.
  - intros w I. left. cbn [In] in I. intuition congruence.
Qed.

Lemma prod_nodup : forall (ws ss : list Z), NoDup ws -> NoDup ss -> NoDup (list_prod ws ss).
Proof.
  induction ws as [| w t IH]; intros ss N1 N2; cbn [list_prod]; [constructor |]. inversion N1 as [| ? ? M1 M2]; subst.
  assert (D : forall l m : list (Z * Z), NoDup l -> NoDup m -> (forall x, In x l -> ~ In x m) -> NoDup (l ++ m)).
  { induction l as [| x l IHl]; intros m A B C; [exact B |]. inversion A as [| ? ? A1 A2]; subst. cbn [app]. constructor.
    - intro I. apply in_app_or in I. destruct I as [I | I]; [contradiction | exact (C x (or_introl eq_refl) I)].
    - apply IHl; [exact A2 | exact B |]. intros y Y. apply C. right. exact Y. }
  apply D; [| exact (IH ss M2 N2) |].
  - clear - N2. induction N2 as [| s ss S1 S2 IHs]; cbn [map]; constructor; [| exact IHs]. intro I. apply in_map_iff in I. destruct I as (y & Y1 & Y2). injection Y1 as Y1. subst. contradiction.
  - intros (x, y) X I. apply in_map_iff in X. destruct X as (z & Z1 & Z2). injection Z1 as Z1 Z3. subst. apply in_prod_iff in I. destruct I as (I & _). contradiction.
Qed.

Lemma broadcaster_ok : forall ans late ws ss, has_all ans late -> NoDup ws -> NoDup ss ->
  broadcaster ans late ws ss = Ok (Bc (map whole (list_prod ws ss)) (lookups 0 (list_prod ws ss) [])).
Proof.
  intros ans late ws ss H N1 N2. unfold broadcaster, pairs. set (ks := list_prod ws ss). assert (N : NoDup ks) by (apply prod_nodup; assumption).
  destruct (setup_first ans late (lookups 0 ks []) (flat_map settle (zseq 0 (List.length ks))) H ks [] 0) as (m & M).
  - intros j k J. rewrite (lookups_nth ks 0 [] j k N J). f_equal.
  - cbn [app] in M. change (Task [] false 10000) with fresh. rewrite M. exact (setup_second ans late (lookups 0 ks []) H ks [] m).
Qed.

(** ** To all *)

Lemma send_all_free : forall c l, (forall t, In t l -> t_wait t = false) -> send_all c l = (map (fun t => Task (t_log t ++ [c]) true (t_timeout t)) l, true).
Proof.
  intros c l. induction l as [| t r IH]; intro F; [reflexivity |]. cbn [send_all map]. unfold send. rewrite (F t (or_introl eq_refl)).
  rewrite IH by (intros x X; apply F; right; exact X). reflexivity.
Qed.
Lemma send_all_busy : forall c l, (exists t, In t l /\ t_wait t = true) -> snd (send_all c l) = false.
Proof.
  intros c l. induction l as [| t r IH]; intros (x & I & W); [destruct I |]. cbn [send_all]. unfold send. destruct (t_wait t) eqn:T; [reflexivity |].
  destruct I as [I | I]; [subst; congruence |]. specialize (IH (ex_intro _ x (conj I W))). destruct (send_all c r) as (r1, ok). exact IH.
Qed.
Definition outs (ans : answers) (k : nat) (c : cmd) (l : list task) : list answer := map (fun p => ans (fst p) (t_log (snd p)) c) (combine (seq k (List.length l)) l).
Lemma recv_all_time : forall ans late c l k, in_time late -> recv_all ans late k c l = Some (outs ans k c l).
Proof.
  intros ans late c. induction l as [| t r IH]; intros k L; [reflexivity |]. cbn [recv_all]. rewrite (L k), (IH (S k) L). reflexivity.
Qed.
Lemma recv_all_late : forall ans late c l k j, (j < List.length l)%nat -> late (k + j)%nat = true -> recv_all ans late k c l = None.
Proof.
  intros ans late c. induction l as [| t r IH]; intros k j J L; cbn [List.length] in J; [lia |]. cbn [recv_all]. destruct (late k) eqn:LK; [reflexivity |].
  destruct j as [| j]; [rewrite Nat.add_0_r in L; congruence |]. rewrite (IH (S k) j) by (try lia; rewrite <- L; f_equal; lia). reflexivity.
Qed.
Lemma in_turn_ok : forall ans late c l k, in_time late -> (forall t, In t l -> t_wait t = false) -> in_turn ans late k c l = (map (ran c) l, Ok (outs ans k c l)).
Proof.
  intros ans late c. induction l as [| t r IH]; intros k L F; [reflexivity |]. cbn [in_turn]. unfold send. rewrite (F t (or_introl eq_refl)), (L k).
  rewrite (IH (S k) L) by (intros x X; apply F; right; exact X). reflexivity.
Qed.

Lemma restore_timed : forall c z l, restore l (map (ran c) (map (timed z) l)) = map (ran c) l.
Proof. intros c z l. induction l as [| t r IH]; [reflexivity |]. cbn [map restore]. rewrite IH. reflexivity. Qed.
Lemma timed_free : forall z l, (forall t, In t l -> t_wait t = false) -> forall t, In t (map (timed z) l) -> t_wait t = false.
Proof. intros z l F t I. apply in_map_iff in I. destruct I as (x & X & I). subst t. exact (F x I). Qed.
Lemma outs_timed : forall ans c z l k, outs ans k c (map (timed z) l) = outs ans k c l.
Proof.
  intros ans c z. unfold outs. induction l as [| t r IH]; intro k; [reflexivity |]. cbn [map List.length seq combine fst snd]. rewrite IH. reflexivity.
Qed.
Lemma received_sent : forall c l, map received (map (fun t => Task (t_log t ++ [c]) true (t_timeout t)) l) = map (ran c) l.
Proof. intros c l. rewrite map_map. reflexivity. Qed.

Lemma to_all_ok : forall ans late p z c b, in_time late -> free b ->
  to_all ans late p z c b = handled (outs ans 0 c (b_tasks b)) (Bc (map (ran c) (b_tasks b)) (b_lookup b)).
Proof.
  intros ans late p z c b L F. unfold to_all. cbv zeta. destruct z as [z |].
  - destruct p.
    + rewrite send_all_free by (apply timed_free; exact F). rewrite recv_all_time by exact L. rewrite received_sent, restore_timed. reflexivity.
    + rewrite in_turn_ok by (try exact L; apply timed_free; exact F). rewrite restore_timed, outs_timed. reflexivity.
  - destruct p.
    + rewrite send_all_free by exact F. rewrite recv_all_time by exact L. rewrite received_sent. reflexivity.
    + rewrite in_turn_ok by (try exact L; exact F). reflexivity.
Qed.

Lemma values_well : forall ans c l k, well ans -> exists vs, values (outs ans k c l) = Some vs /\ List.length vs = List.length l /\
  forall j t, nth_error l j = Some t -> exists v, nth_error vs j = Some v /\ ans (k + j)%nat (t_log t) c = Out v.
Proof.
  intros ans c l k A. revert k. induction l as [| t r IH]; intro k.
  - exists []. repeat split. intros [| j] t E; discriminate E.
  - destruct (IH (S k)) as (vs & V & LN & N). destruct (A k (t_log t) c) as (v & E). exists (v :: vs). unfold outs in *. cbn [List.length seq combine map fst snd values].
    rewrite E, V. split; [reflexivity |]. split; [cbn [List.length]; congruence |]. intros [| j] t' Q; cbn [nth_error] in *.
    + injection Q as Q. subst t'. exists v. rewrite Nat.add_0_r. auto.
    + destruct (N j t' Q) as (w & W1 & W2). exists w. split; [exact W1 |]. rewrite <- W2. f_equal. lia.
Qed.
Lemma values_exc : forall ans c l k j t e, nth_error l j = Some t -> ans (k + j)%nat (t_log t) c = Exc e -> values (outs ans k c l) = None.
Proof.
  intros ans c. induction l as [| t r IH]; intros k j t' e N E; [destruct j; discriminate N |]. unfold outs in *. cbn [List.length seq combine map fst snd values].
  destruct j as [| j]; cbn [nth_error] in N.
  - injection N as N. subst t'. rewrite Nat.add_0_r in E. rewrite E. reflexivity.
  - rewrite (IH (S k) j t' e N) by (rewrite <- E; f_equal; lia). destruct (ans k (t_log t) c); reflexivity.
Qed.

(** ** Scripts *)

Lemma one_child : forall n i k k0, py_pos n i = Some k0 -> (k < n)%nat -> ((i =? Z.of_nat k) || (i =? Z.of_nat k - Z.of_nat n)) = (k =? k0)%nat.
Proof.
  intros n i k k0 P K. apply pos_spec in P. destruct P as (P1 & P2). destruct (k =? k0)%nat eqn:E.
  - apply Nat.eqb_eq in E. subst k0. apply orb_true_iff. rewrite !Z.eqb_eq. lia.
  - apply Nat.eqb_neq in E. apply orb_false_iff. rewrite !Z.eqb_neq. lia.
Qed.

Lemma to_one_step : forall ans late i c b o b1, well ans -> in_time late -> free b -> to_one ans late i c b = (Ok o, b1) ->
  b_lookup b1 = b_lookup b /\ List.length (b_tasks b1) = List.length (b_tasks b) /\ free b1 /\
  forall k t, nth_error (b_tasks b) k = Some t ->
    nth_error (b_tasks b1) k = Some (if (i =? Z.of_nat k) || (i =? Z.of_nat k - Z.of_nat (List.length (b_tasks b))) then ran c t else t).
Proof.
  intros ans late i c b o b1 A L F E. destruct (py_pos (List.length (b_tasks b)) i) as [k0 |] eqn:P; [| unfold to_one in E; rewrite P in E; discriminate E].
  destruct (nth_error (b_tasks b) k0) as [t0 |] eqn:N; [| unfold to_one in E; rewrite P, N in E; discriminate E].
  destruct (A k0 (t_log t0) c) as (v & V).
  rewrite (to_one_ok ans late i k0 c b t0 v P N (F t0 (nth_error_In _ _ N)) (L k0) V) in E. injection E as _ E. subst b1. cbn [b_lookup b_tasks].
  split; [reflexivity |]. split; [apply put_length |]. split.
  - intros t I. cbn [b_tasks] in I. apply In_nth_error in I. destruct I as (j & J). rewrite put_nth in J. destruct (j =? k0)%nat.
    + destruct (nth_error (b_tasks b) j); [injection J as J; subst t; reflexivity | discriminate J].
    + exact (F t (nth_error_In _ _ J)).
  - intros k t K. assert (KL : (k < List.length (b_tasks b))%nat) by (apply nth_error_Some; congruence).
    rewrite (one_child _ i k k0 P KL), put_nth. destruct (k =? k0)%nat eqn:Q; [| exact K]. apply Nat.eqb_eq in Q. subst k0. rewrite K. congruence.
Qed.

Lemma command_step : forall ans late w c b o b1, well ans -> in_time late -> free b -> running b -> command ans late w c b = (Ok o, b1) ->
  b_lookup b1 = b_lookup b /\ List.length (b_tasks b1) = List.length (b_tasks b) /\ free b1 /\
  forall k t, nth_error (b_tasks b) k = Some t ->
    nth_error (b_tasks b1) k = Some (if for_child (b_lookup b) (List.length (b_tasks b)) k w then ran c t else t).
Proof.
  intros ans late w c b o b1 A L F R E. unfold command in E. destruct (b_tasks b) as [| t0 ts] eqn:T; [contradiction (R T) |]. rewrite <- T in *. clear T t0 ts.
  destruct w as [i | p | pa z].
  - exact (to_one_step ans late i c b o b1 A L F E).
  - cbn [for_child]. destruct (kget p (b_lookup b)) as [i |]; [| discriminate E]. exact (to_one_step ans late i c b o b1 A L F E).
  - rewrite (to_all_ok ans late pa z c b L F) in E. destruct (values_well ans c (b_tasks b) 0 A) as (vs & V & _). unfold handled in E. rewrite V in E.
    injection E as _ E. subst b1. cbn [b_lookup b_tasks for_child]. split; [reflexivity |]. split; [apply map_length |]. split.
    + intros t I. cbn [b_tasks] in I. apply in_map_iff in I. destruct I as (x & X & _). subst t. reflexivity.
    + intros k t K. apply map_nth_error. exact K.
Qed.

Lemma commands_history : forall ans late script n b b1, has_all ans late -> free b -> running b -> commands ans late n script b = Ok b1 ->
  b_lookup b1 = b_lookup b /\ List.length (b_tasks b1) = List.length (b_tasks b) /\ free b1 /\
  forall k l, nth_error (logs b) k = Some l ->
    nth_error (logs b1) k = Some (l ++ addressed (b_lookup b) (List.length (b_tasks b)) k script).
Proof.
  intros ans late. induction script as [| (w, c) t IH]; intros n b b1 H F R E.
  - injection E as E. subst b1. repeat split; try assumption. intros k l K. unfold addressed. cbn [filter map]. rewrite app_nil_r. exact K.
  - cbn [commands] in E. destruct (command ans (late n) w c b) as (o, b2) eqn:Q. destruct o as [o | x]; [| discriminate E].
    destruct (command_step ans (late n) w c b o b2 (proj1 H) (proj2 H n) F R Q) as (C1 & C2 & C3 & C4).
    assert (R2 : running b2). { intro S. rewrite S in C2. cbn [List.length] in C2. apply R. destruct (b_tasks b); [reflexivity | discriminate C2]. }
    destruct (IH (S n) b2 b1 H C3 R2 E) as (D1 & D2 & D3 & D4). split; [congruence |]. split; [congruence |]. split; [exact D3 |].
    intros k l K. unfold logs in K. destruct (nth_error (b_tasks b) k) as [t0 |] eqn:N.
    + rewrite (map_nth_error t_log k _ N) in K. injection K as K. subst l. pose proof (C4 k t0 N) as C. unfold logs in D4 |- *.
      specialize (D4 k _ (map_nth_error t_log k _ C)). rewrite D4. rewrite C1, C2. f_equal. unfold addressed. cbn [filter fst].
      destruct (for_child (b_lookup b) (List.length (b_tasks b)) k w); cbn [map snd]; [| reflexivity]. unfold ran. cbn [t_log]. rewrite <- app_assoc. reflexivity.
    + apply nth_error_None in N. assert (K2 : nth_error (map t_log (b_tasks b)) k = None) by (apply nth_error_None; rewrite map_length; exact N). congruence.
Qed.

(** ** Whatever happens *)

Lemma Forall2_refl_log : forall c l, Forall2 (same_or_sent c) l l.
Proof. intros c l. induction l; constructor; [left; reflexivity | assumption]. Qed.
Lemma put_log : forall c l k t t', nth_error l k = Some t -> t_log t' = t_log t ++ [c] -> Forall2 (same_or_sent c) l (put k t' l).
Proof.
  intros c. induction l as [| x l IH]; intros k t t' N E; [destruct k; discriminate N |]. destruct k as [| k]; cbn [put nth_error] in *.
  - injection N as N. subst x. constructor; [right; exact E | apply Forall2_refl_log].
  - constructor; [left; reflexivity | exact (IH k t t' N E)].
Qed.
Lemma send_all_log : forall c old l, Forall2 (fun o t => t_log t = t_log o) old l -> Forall2 (same_or_sent c) old (fst (send_all c l)).
Proof.
  intros c old l F. induction F as [| o t old l E F IH]; cbn [send_all fst]; [constructor |]. unfold send. destruct (t_wait t).
  - cbn [fst]. constructor; [left; exact E |]. clear - F. induction F as [| o t old l E F IH]; constructor; [left; exact E | exact IH].
  - destruct (send_all c l) as (r1, ok). cbn [fst] in *. constructor; [right; cbn [t_log]; rewrite E; reflexivity | exact IH].
Qed.
Lemma in_turn_log : forall ans late c old l k, Forall2 (fun o t => t_log t = t_log o) old l -> Forall2 (same_or_sent c) old (fst (in_turn ans late k c l)).
Proof.
  intros ans late c old l k F. revert k. induction F as [| o t old l E F IH]; intro k; cbn [in_turn fst]; [constructor |].
  assert (R : Forall2 (same_or_sent c) old l) by (clear - F; induction F as [| o t old l E F IH]; constructor; [left; exact E | exact IH]).
  unfold send. destruct (t_wait t); cbn [fst].
  - constructor; [left; exact E | exact R].
  - destruct (late k); cbn [fst].
    + constructor; [right; cbn [t_log]; rewrite E; reflexivity | exact R].
    + specialize (IH (S k)). destruct (in_turn ans late (S k) c l) as (r1, o1). cbn [fst] in *. constructor; [right; cbn [t_log received]; rewrite E; reflexivity | exact IH].
Qed.
Lemma timed_log : forall z l, Forall2 (fun o t => t_log t = t_log o) l (map (timed z) l).
Proof. intros z l. induction l; cbn [map]; constructor; [reflexivity | assumption]. Qed.
Lemma same_log : forall l : list task, Forall2 (fun o t => t_log t = t_log o) l l.
Proof. intro l. induction l; constructor; [reflexivity | assumption]. Qed.
Lemma received_log : forall c old l, Forall2 (same_or_sent c) old l -> Forall2 (same_or_sent c) old (map received l).
Proof. intros c old l F. induction F; cbn [map]; constructor; assumption. Qed.
Lemma restore_log : forall c old l old0, Forall2 (same_or_sent c) old l -> Forall2 (same_or_sent c) old (restore old0 l).
Proof.
  intros c old l old0 F. revert old0. induction F as [| o t old l E F IH]; intros [| q qs]; cbn [restore]; try constructor; try assumption. apply IH.
Qed.

Definition kept (c : cmd) (b b1 : bc) : Prop := stopped b1 \/ (b_lookup b1 = b_lookup b /\ Forall2 (same_or_sent c) (b_tasks b) (b_tasks b1)).
Lemma handled_kept : forall out c b b1, b_lookup b1 = b_lookup b -> Forall2 (same_or_sent c) (b_tasks b) (b_tasks b1) -> kept c b (snd (handled out b1)).
Proof.
  intros out c b b1 L F. unfold handled. destruct (values out); cbn [snd]; [right; auto |]. left. unfold stopped, stop. destruct (b_tasks b1) eqn:E; [exact E | reflexivity].
Qed.
Lemma to_one_kept : forall ans late i c b, kept c b (snd (to_one ans late i c b)).
Proof.
  intros ans late i c b. unfold to_one. destruct (py_pos _ i) as [k |]; [| right; split; [reflexivity | apply Forall2_refl_log]].
  destruct (nth_error (b_tasks b) k) as [t |] eqn:N; [| right; split; [reflexivity | apply Forall2_refl_log]].
  unfold send. destruct (t_wait t); [right; split; [reflexivity | apply Forall2_refl_log] |].
  destruct (late k); [right; split; [reflexivity | cbn [snd b_tasks]; apply (put_log c _ k t _ N); reflexivity] |].
  apply handled_kept; [reflexivity | cbn [b_tasks]; apply (put_log c _ k t _ N); reflexivity].
Qed.
Lemma command_kept : forall ans late w c b, kept c b (snd (command ans late w c b)).
Proof.
  intros ans late w c b. unfold command. destruct (b_tasks b) as [| t0 ts] eqn:T; [left; exact T |]. clear T t0 ts. destruct w as [i | p | pa z].
  - apply to_one_kept.
  - destruct (kget p (b_lookup b)); [apply to_one_kept | right; split; [reflexivity | apply Forall2_refl_log]].
  - unfold to_all. cbv zeta. set (l0 := match z with Some z0 => map (timed (z0 * 1000)) (b_tasks b) | None => b_tasks b end).
    assert (L0 : Forall2 (fun o t => t_log t = t_log o) (b_tasks b) l0) by (unfold l0; destruct z; [apply timed_log | apply same_log]).
    destruct pa.
    + pose proof (send_all_log c _ _ L0) as S. destruct (send_all c l0) as (l1, [|]); cbn [fst] in S.
      * destruct (recv_all ans late 0 c (b_tasks b)) as [out |].
        -- apply handled_kept; [reflexivity |]. cbn [b_tasks]. destruct z; [apply restore_log |]; apply received_log; exact S.
        -- left. unfold stopped, stop. cbn [snd b_tasks]. destruct l1; reflexivity.
      * right. split; [reflexivity | exact S].
    + pose proof (in_turn_log ans late c _ _ 0 L0) as S. destruct (in_turn ans late 0 c l0) as (l1, [out | e]); cbn [fst] in S.
      * apply handled_kept; [reflexivity |]. cbn [b_tasks]. destruct z; [apply restore_log |]; exact S.
      * right. split; [reflexivity | exact S].
Qed.
