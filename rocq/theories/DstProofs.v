(** * Proofs about the distributions *)
From Coq Require Import QArith Qreals Reals Lqa Lra Lia.
From Verif Require Import Py DstModel DstSpec.

Lemma Qltb_spec a b : if Qltb a b then (a < b)%Q else (b <= a)%Q.
Proof.
  unfold Qltb. destruct (Qle_bool b a) eqn:E; simpl.
  - now apply Qle_bool_iff.
  - apply Qnot_le_lt. intros H. apply Qle_bool_iff in H. congruence.
Qed.

Lemma again_within w x : again w x = false <-> within (w_min w) (w_max w) x.
Proof.
  unfold again, within.
  destruct (w_min w) as [a|], (w_max w) as [b|].
  - pose proof (Qltb_spec x a) as H1. pose proof (Qltb_spec b x) as H2.
    destruct (Qltb x a), (Qltb b x); simpl; split; intros; try discriminate; try tauto; exfalso; destruct H; Lqa.lra.
  - pose proof (Qltb_spec x a) as H1. destruct (Qltb x a); split; intros; try discriminate; try tauto; exfalso; destruct H; Lqa.lra.
  - pose proof (Qltb_spec b x) as H1. destruct (Qltb b x); split; intros; try discriminate; try tauto; exfalso; destruct H; Lqa.lra.
  - tauto.
Qed.

Lemma again_withinb w x : again w x = negb (withinb (w_min w) (w_max w) x).
Proof.
  unfold again, withinb, Qltb. destruct (w_min w), (w_max w); simpl; rewrite ?andb_true_r, ?negb_andb; reflexivity.
Qed.

(** ** One number *)
Lemma redraw_some : forall fuel w d k x y k', redraw fuel w d k x = Some (y, k') ->
  within (w_min w) (w_max w) y /\ (k <= k')%nat /\
  ((y = x /\ k' = k) \/ (again w x = true /\ (k < k')%nat /\ y = (w_lambda w * d (k' - 1)%nat)%Q)) /\
  (forall j, (k <= j < k' - 1)%nat -> ~ within (w_min w) (w_max w) (w_lambda w * d j)%Q).
Proof.
  induction fuel as [|n IH]; intros w d k x y k' H; simpl in H; destruct (again w x) eqn:E; try discriminate.
  - injection H as <- <-. split; [now apply again_within|]. split; [lia|]. split; [now left|]. intros; lia.
  - destruct (IH _ _ _ _ _ _ H) as (A & B & C & D). split; [exact A|]. split; [lia|]. split.
    + right. split; [reflexivity|]. destruct C as [[-> ->]|(_ & C & ->)].
      * split; [lia|]. now replace (S k - 1)%nat with k by lia.
      * split; [lia|reflexivity].
    + intros j Hj. destruct (Nat.eq_dec j k) as [->|N].
      * destruct C as [[_ C]|(C & _ & _)]; [lia|]. intros W. apply again_within in W. congruence.
      * apply D. lia.
  - injection H as <- <-. split; [now apply again_within|]. split; [lia|]. split; [now left|]. intros; lia.
Qed.

Lemma redraw_ends : forall m w d k x, again w x = false \/ (exists j, (k <= j < k + m)%nat /\ within (w_min w) (w_max w) (w_lambda w * d j)%Q) ->
  exists r, redraw m w d k x = Some r.
Proof.
  induction m as [|m IH]; intros w d k x H; simpl.
  - destruct H as [->|(j & Hj & _)]; [eauto|lia].
  - destruct (again w x) eqn:E; [|eauto]. destruct H as [H|(j & Hj & W)]; [discriminate|].
    apply IH. destruct (Nat.eq_dec j k) as [->|N].
    + left. now apply again_within.
    + right. exists j. split; [lia|exact W].
Qed.

Lemma redraw_never : forall m w d k x, (forall y, ~ within (w_min w) (w_max w) y) -> redraw m w d k x = None.
Proof.
  induction m as [|m IH]; intros w d k x H; simpl.
  - destruct (again w x) eqn:E; [reflexivity|]. apply again_within in E. now apply H in E.
  - destruct (again w x) eqn:E; [now apply IH|]. apply again_within in E. now apply H in E.
Qed.

(** ** The array *)
Lemma Forall2_impl' {A B} (P P' : A -> B -> Prop) l l' : (forall a b, P a b -> P' a b) -> Forall2 P l l' -> Forall2 P' l l'.
Proof. intros H F. induction F; constructor; auto. Qed.
Lemma redraw_all_some : forall l fuel w d k ys k', redraw_all fuel w d k l = Some (ys, k') ->
  (k <= k')%nat /\
  Forall2 (fun x y => within (w_min w) (w_max w) y /\ (within (w_min w) (w_max w) x -> y = x) /\
     (y = x \/ exists j, (k <= j < k')%nat /\ y = (w_lambda w * d j)%Q)) l ys.
Proof.
  induction l as [|x l IH]; intros fuel w d k ys k' H; simpl in H.
  - injection H as <- <-. split; [lia|constructor].
  - destruct (redraw fuel w d k x) as [[y k1]|] eqn:E; [|discriminate].
    destruct (redraw_all fuel w d k1 l) as [[zs k2]|] eqn:E2; [|discriminate]. injection H as <- <-.
    destruct (redraw_some _ _ _ _ _ _ _ E) as (A & B & C & _). destruct (IH _ _ _ _ _ _ E2) as (D & F).
    split; [lia|]. constructor.
    + split; [exact A|]. split.
      * intros W. apply again_within in W. destruct C as [[C _]|(C & _ & _)]; congruence.
      * destruct C as [[-> _]|(_ & C & ->)]; [now left|right]. exists (k1 - 1)%nat. split; [lia|reflexivity].
    + eapply Forall2_impl'; [|exact F]. intros a b (P1 & P2 & P3). split; [exact P1|]. split; [exact P2|].
      destruct P3 as [P3|(j & Hj & P3)]; [now left|right; exists j; split; [lia|exact P3]].
Qed.

(** The numbers that replace others are the next usable draws, in order. *)
Fixpoint replaced (w : weibull) (l ys : list Q) : list Q :=
  match l, ys with
  | x :: l', y :: ys' => if again w x then y :: replaced w l' ys' else replaced w l' ys'
  | _, _ => []
  end.
Lemma picked_mono f : forall ys k k', (k <= k')%nat -> picked f k' ys -> picked f k ys.
Proof. intros ys k k' H P. inversion P; subst; [constructor|]. econstructor; [|reflexivity|eassumption]. lia. Qed.
Lemma redraw_all_picked : forall l fuel w d k ys k', redraw_all fuel w d k l = Some (ys, k') ->
  picked (fun j => (w_lambda w * d j)%Q) k (replaced w l ys).
Proof.
  induction l as [|x l IH]; intros fuel w d k ys k' H; simpl in H.
  - injection H as <- <-. constructor.
  - destruct (redraw fuel w d k x) as [[y k1]|] eqn:E; [|discriminate].
    destruct (redraw_all fuel w d k1 l) as [[zs k2]|] eqn:E2; [|discriminate]. injection H as <- <-.
    destruct (redraw_some _ _ _ _ _ _ _ E) as (A & B & C & _). simpl.
    pose proof (IH _ _ _ _ _ _ E2) as P.
    destruct C as [[-> ->]|(-> & C & ->)].
    + apply again_within in A. rewrite A. exact P.
    + apply (picked_cons _ _ (k1 - 1)%nat); [lia|reflexivity|]. now replace (S (k1 - 1)) with k1 by lia.
Qed.

Lemma redraw_step : forall fuel w d k x y k' , redraw fuel w d k x = Some (y, k') -> (k' <= k + fuel)%nat.
Proof.
  induction fuel as [|n IH]; intros w d k x y k' H; simpl in H; destruct (again w x); try discriminate.
  - injection H as <- <-. lia.
  - apply IH in H. lia.
  - injection H as <- <-. lia.
Qed.

(** If usable numbers keep coming, the loops end. *)
Lemma redraw_all_ends : forall l w d gap k,
  (forall i, exists j, (i <= j < i + gap)%nat /\ within (w_min w) (w_max w) (w_lambda w * d j)%Q) ->
  exists r, redraw_all gap w d k l = Some r.
Proof.
  induction l as [|x l IH]; intros w d gap k H; simpl; [eauto|].
  destruct (redraw_ends gap w d k x) as [[y k1] E]; [right; apply H|]. rewrite E.
  destruct (IH w d gap k1 H) as [[ys k2] E2]. rewrite E2. eauto.
Qed.

(** ** Fractions *)
Lemma Rpower_lt_base a x y : (0 < a -> 0 < x -> x < y -> Rpower x a < Rpower y a)%R.
Proof.
  intros Ha Hx H. unfold Rpower. apply exp_increasing. apply Rmult_lt_compat_l; [exact Ha|]. now apply ln_increasing.
Qed.
Lemma fraction_pos d a l : (0 < d -> 0 < l -> fraction_below d a l = weibull_below a l d)%R.
Proof.
  intros Hd Hl. unfold fraction_below, weibull_below, power.
  destruct (Rlt_dec 0 (d / l)) as [_|N]; [reflexivity|]. exfalso. apply N. now apply Rdiv_lt_0_compat.
Qed.
Lemma fraction_zero a l : (0 < l -> fraction_below 0 a l = 0)%R.
Proof.
  intros Hl. unfold fraction_below, power. replace (0 / l)%R with 0%R by (unfold Rdiv; ring).
  destruct (Rlt_dec 0 0) as [H|_]; [exfalso; lra|]. rewrite Ropp_0, exp_0. lra.
Qed.
Lemma fraction_lt a l x y : (0 < a -> 0 < l -> 0 <= x -> x < y -> fraction_below x a l < fraction_below y a l)%R.
Proof.
  intros Ha Hl Hx H. unfold fraction_below.
  enough (power (x / l) a < power (y / l) a)%R as P.
  { apply Ropp_lt_contravar in P. apply exp_increasing in P. lra. }
  assert (0 < y / l)%R by (apply Rdiv_lt_0_compat; lra).
  unfold power. destruct (Rlt_dec 0 (y / l)) as [_|N]; [|contradiction].
  destruct (Rlt_dec 0 (x / l)) as [P|N].
  - apply Rpower_lt_base; [exact Ha|exact P|]. unfold Rdiv. apply Rmult_lt_compat_r; [now apply Rinv_0_lt_compat|exact H].
  - unfold Rpower. apply exp_pos.
Qed.
Lemma fraction_range a l x : (0 <= fraction_below x a l < 1)%R.
Proof.
  unfold fraction_below. assert (0 <= power (x / l) a)%R as P.
  { unfold power. destruct (Rlt_dec 0 (x / l)); [|lra]. unfold Rpower. left. apply exp_pos. }
  pose proof (exp_pos (- power (x / l) a)). split; [|lra].
  destruct P as [P|<-].
  - assert (exp (- power (x / l) a) < exp 0)%R by (apply exp_increasing; lra). rewrite exp_0 in *. lra.
  - rewrite Ropp_0, exp_0. lra.
Qed.

Lemma Q2R_0' : Q2R 0 = 0%R. Proof. unfold Q2R. simpl. lra. Qed.
Lemma new_weibull_ok : forall al l mn mx w, new_weibull (Some al) l mn mx = Ok w ->
  w = Weibull (Some al) l mn mx /\
  (forall m, mn = Some m -> (0 <= Q2R m)%R /\ (fraction_below (Q2R m) al (Q2R l) <= 999 / 1000)%R) /\
  (forall m, mx = Some m -> (0 < Q2R m)%R /\ (1 / 1000 <= fraction_below (Q2R m) al (Q2R l))%R /\ (5 / 100000 <= Q2R m)%R /\
     forall x, mn = Some x -> (Q2R x <= Q2R m)%R).
Proof.
  intros al l mn mx w H. unfold new_weibull in H.
  destruct (match mn with Some m => check_min al (Q2R l) m | None => None end) eqn:E1; [discriminate|].
  destruct (match mx with Some m => check_max al (Q2R l) mn m | None => None end) eqn:E2; [discriminate|].
  injection H as <-. split; [reflexivity|]. split.
  - intros m ->. unfold check_min in E1. destruct (Rlt_dec (Q2R m) 0); [discriminate|].
    destruct (Rlt_dec (999 / 1000) (fraction_below (Q2R m) al (Q2R l))); [discriminate|]. split; lra.
  - intros m ->. unfold check_max in E2. destruct (Rle_dec (Q2R m) 0); [discriminate|].
    destruct (Rlt_dec (fraction_below (Q2R m) al (Q2R l)) (1 / 1000)); [discriminate|].
    destruct mn as [x|].
    + destruct (Rlt_dec (Q2R m) (Q2R x)); [discriminate|]. destruct (Rlt_dec (Q2R m) (5 / 100000)); [discriminate|].
      split; [lra|]. split; [lra|]. split; [lra|]. intros y Hy. injection Hy as <-. lra.
    + destruct (Rlt_dec (Q2R m) (5 / 100000)); [discriminate|]. split; [lra|]. split; [lra|]. split; [lra|]. intros y Hy. discriminate.
Qed.

Lemma new_weibull_yes : forall al l mn mx,
  (forall m, mn = Some m -> (0 <= Q2R m)%R /\ (fraction_below (Q2R m) al (Q2R l) <= 999 / 1000)%R) ->
  (forall m, mx = Some m -> (0 < Q2R m)%R /\ (1 / 1000 <= fraction_below (Q2R m) al (Q2R l))%R /\ (5 / 100000 <= Q2R m)%R /\
     forall x, mn = Some x -> (Q2R x <= Q2R m)%R) ->
  new_weibull (Some al) l mn mx = Ok (Weibull (Some al) l mn mx).
Proof.
  intros al l mn mx H1 H2. unfold new_weibull.
  assert (match mn with Some m => check_min al (Q2R l) m | None => None end = None) as ->.
  { destruct mn as [m|]; [|reflexivity]. destruct (H1 m eq_refl). unfold check_min.
    destruct (Rlt_dec (Q2R m) 0); [lra|]. destruct (Rlt_dec (999 / 1000) (fraction_below (Q2R m) al (Q2R l))); [lra|reflexivity]. }
  assert (match mx with Some m => check_max al (Q2R l) mn m | None => None end = None) as ->.
  { destruct mx as [m|]; [|reflexivity]. destruct (H2 m eq_refl) as (A & B & C & D). unfold check_max.
    destruct (Rle_dec (Q2R m) 0); [lra|]. destruct (Rlt_dec (fraction_below (Q2R m) al (Q2R l)) (1 / 1000)); [lra|].
    destruct mn as [x|].
    - pose proof (D x eq_refl). destruct (Rlt_dec (Q2R m) (Q2R x)); [lra|]. destruct (Rlt_dec (Q2R m) (5 / 100000)); [lra|reflexivity].
    - destruct (Rlt_dec (Q2R m) (5 / 100000)); [lra|reflexivity]. }
  reflexivity.
Qed.
Lemma new_weibull_no : forall al l mn mx e, new_weibull (Some al) l mn mx = Raise e -> e = ValueErr.
Proof.
  intros al l mn mx e H. unfold new_weibull in H.
  destruct (match mn with Some m => check_min al (Q2R l) m | None => None end) eqn:E1.
  - injection H as <-. destruct mn as [m|]; [|discriminate]. unfold check_min in E1.
    destruct (Rlt_dec (Q2R m) 0); [congruence|]. destruct (Rlt_dec _ _); congruence.
  - destruct (match mx with Some m => check_max al (Q2R l) mn m | None => None end) eqn:E2; [|discriminate].
    injection H as <-. destruct mx as [m|]; [|discriminate]. unfold check_max in E2.
    destruct (Rle_dec (Q2R m) 0); [congruence|]. destruct (Rlt_dec _ _); [congruence|].
    destruct mn; [destruct (Rlt_dec _ _); [congruence|]|]; destruct (Rlt_dec _ _); congruence.
Qed.

(** ** Rayleigh *)
Lemma rayleigh_arg x s : (0 < s -> - 1 / 2 * (x * x / (s * s)) = - ((x / s) * (x / s) / 2))%R.
Proof. intros. field. lra. Qed.
Lemma cdf_incr s x y : (0 < s -> 0 <= x -> x < y -> cdf x s < cdf y s)%R.
Proof.
  intros Hs Hx H. unfold cdf. rewrite !rayleigh_arg by exact Hs.
  assert (x / s < y / s)%R by (unfold Rdiv; apply Rmult_lt_compat_r; [now apply Rinv_0_lt_compat|exact H]).
  assert (0 <= x / s)%R by (unfold Rdiv; apply Rmult_le_pos; [exact Hx|left; now apply Rinv_0_lt_compat]).
  assert ((x / s) * (x / s) < (y / s) * (y / s))%R by nra.
  assert (exp (- ((y / s) * (y / s) / 2)) < exp (- ((x / s) * (x / s) / 2)))%R by (apply exp_increasing; lra). lra.
Qed.
Lemma cdf_0 s : cdf 0 s = 0%R.
Proof. unfold cdf. replace (- 1 / 2 * (0 * 0 / (s * s)))%R with 0%R by (unfold Rdiv; ring). rewrite exp_0. lra. Qed.
