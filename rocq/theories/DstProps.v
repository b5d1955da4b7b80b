(** * Properties C172 to C174: distributions of sizes and winds *)
From Coq Require Import QArith Qreals Reals Lqa Lra Lia Ranalysis.
From Verif Require Import Py WxModel WindModel DstModel DstSpec DstProofs.

(** ** C172: sizes are within the limits *)

(** If an array of [n] sizes is filled, all are within the limits; those of the first
    [n] draws that were within them are kept at their places, and the others are
    replaced, in order, by later draws. *)
Theorem C172_within : forall fuel w draws n ys k, set_values fuel w draws n = Some (ys, k) ->
  length ys = n /\ Forall (within (w_min w) (w_max w)) ys /\
  (forall i, (i < n)%nat -> within (w_min w) (w_max w) (w_lambda w * draws i)%Q -> nth_error ys i = Some (w_lambda w * draws i)%Q) /\
  picked (fun j => (w_lambda w * draws j)%Q) n
    (map snd (filter (fun p => negb (withinb (w_min w) (w_max w) (fst p))) (combine (map (fun i => (w_lambda w * draws i)%Q) (seq 0 n)) ys))).
Proof.
  intros fuel w draws n ys k H. unfold set_values in H.
  set (l := map (fun i => (w_lambda w * draws i)%Q) (seq 0 n)) in *.
  destruct (redraw_all_some _ _ _ _ _ _ _ H) as (_ & F).
  assert (length l = n) as Ln by (unfold l; now rewrite map_length, seq_length).
  assert (length ys = n) as Ly by (rewrite <- Ln; symmetry; clear -F; induction F; simpl; congruence).
  split; [exact Ly|]. split; [|split].
  - clear -F. induction F as [|x y l ys (A & _) F IH]; constructor; auto.
  - intros i Hi W.
    assert (nth_error l i = Some (w_lambda w * draws i)%Q) as E.
    { unfold l. rewrite nth_error_map, (nth_error_nth' _ O) by (now rewrite seq_length). rewrite seq_nth by exact Hi. reflexivity. }
    clear -F E W. revert E W. generalize (w_lambda w * draws i)%Q as z. intros z. revert z i.
    induction F as [|x y l ys (_ & B & _) F IH]; intros z i E W; destruct i as [|i]; simpl in *; try discriminate.
    + injection E as ->. now rewrite B.
    + apply (IH _ i E W).
  - pose proof (redraw_all_picked _ _ _ _ _ _ _ H) as P.
    replace (map snd (filter (fun p => negb (withinb (w_min w) (w_max w) (fst p))) (combine l ys))) with (replaced w l ys); [exact P|].
    clear. revert ys. induction l as [|x l IH]; intros [|y ys]; simpl; try reflexivity.
    rewrite again_withinb. destruct (withinb (w_min w) (w_max w) x); simpl; now rewrite IH.
Qed.
Print Assumptions C172_within.

(** If among any [gap] draws one after the other there is one within the limits, the
    array is filled. *)
Theorem C172_ends : forall w draws n gap,
  (forall i, exists j, (i <= j < i + gap)%nat /\ within (w_min w) (w_max w) (w_lambda w * draws j)%Q) ->
  exists ys k, set_values gap w draws n = Some (ys, k).
Proof.
  intros w draws n gap H. unfold set_values.
  destruct (redraw_all_ends (map (fun k => (w_lambda w * draws k)%Q) (seq 0 n)) w draws gap n H) as [[ys k] E]. eauto.
Qed.
Print Assumptions C172_ends.

Definition ex_w : weibull := Weibull (Some 1%R) (2 # 1) (Some (1 # 1)) (Some (3 # 1)).
Definition ex_draws (k : nat) : Q := match k with 0%nat => 1 # 1 | 1%nat => 5 # 1 | 2%nat => 1 # 4 | 3%nat => 3 # 2 | _ => 3 # 4 end.
Example C172_within_meets : exists ys, set_values 5 ex_w ex_draws 3 = Some (ys, 5%nat) /\ Forall2 Qeq ys [2 # 1; 3 # 1; 3 # 2].
Proof. eexists. split; [vm_compute; reflexivity|]. repeat (constructor; [reflexivity|]). constructor. Qed.
Example C172_ends_meets : forall i, exists j, (i <= j < i + 5)%nat /\ within (w_min ex_w) (w_max ex_w) (w_lambda ex_w * ex_draws j)%Q.
Proof.
  intros i. exists (i + 4)%nat. split; [lia|]. replace (ex_draws (i + 4)) with (3 # 4)%Q.
  - split; vm_compute; discriminate.
  - replace (i + 4)%nat with (S (S (S (S i)))) by lia. reflexivity.
Qed.

(** The limits are attributes that can be set and are not looked at again: with a
    minimum above the maximum no array of at least one size is ever filled, whatever is
    drawn. *)
Theorem C172_endless_refuted : forall w a b, w_min w = Some a -> w_max w = Some b -> (b < a)%Q ->
  forall fuel draws n, (0 < n)%nat -> set_values fuel w draws n = None.
Proof.
  intros w a b Ha Hb H fuel draws n Hn. unfold set_values. destruct n as [|n]; [lia|]. simpl.
  rewrite redraw_never; [reflexivity|]. intros y [W1 W2]. rewrite Ha in W1. rewrite Hb in W2. Lqa.lra.
Qed.
Print Assumptions C172_endless_refuted.
Example C172_endless_meets : (1 # 1 < 2 # 1)%Q.
Proof. reflexivity. Qed.

(** The sign of lambda_ is not looked at either: without limits, a negative one is
    accepted and gives negative sizes. *)
Theorem C172_sign_refuted : exists w, new_weibull (Some 1%R) (-1 # 1) None None = Ok w /\
  forall draws n, (forall k, (0 < draws k)%Q) -> exists ys k, set_values 0 w draws n = Some (ys, k) /\ length ys = n /\ Forall (fun y => (y < 0)%Q) ys.
Proof.
  eexists. split; [reflexivity|]. intros draws n H.
  assert (forall l k, redraw_all 0 (Weibull (Some 1%R) (-1 # 1) None None) draws k l = Some (l, k)) as E.
  { induction l as [|x l IH]; intros k; [reflexivity|]. cbn [redraw_all redraw again w_min w_max]. now rewrite IH. }
  unfold set_values. rewrite E. do 2 eexists. split; [reflexivity|]. split; [now rewrite map_length, seq_length|].
  apply Forall_forall. intros y Hy. apply in_map_iff in Hy. destruct Hy as (k & <- & _). simpl. specialize (H k). Lqa.lra.
Qed.
Print Assumptions C172_sign_refuted.

(** ** C173: the limits that are accepted leave sizes to draw *)

(** What is accepted, for positive parameters. *)
Theorem C173_accepted : forall a l mn mx, (0 < a)%R -> (0 < Q2R l)%R ->
  ((exists w, new_weibull (Some a) l mn mx = Ok w) <->
   (forall m, mn = Some m -> (0 <= m)%Q /\ ((0 < m)%Q -> (weibull_below a (Q2R l) (Q2R m) <= 999 / 1000)%R)) /\
   (forall m, mx = Some m -> (5 # 100000 <= m)%Q /\ (1 / 1000 <= weibull_below a (Q2R l) (Q2R m))%R /\
      forall x, mn = Some x -> (x <= m)%Q)).
Proof.
  intros a l mn mx Ha Hl.
  assert (Q2R (5 # 100000) = 5 / 100000)%R as E5 by (unfold Q2R; simpl; lra).
  split.
  - intros [w H]. destruct (new_weibull_ok _ _ _ _ _ H) as (_ & H1 & H2). split.
    + intros m Hm. destruct (H1 m Hm) as [A B]. split.
      * apply Rle_Qle. now rewrite Q2R_0'.
      * intros P. apply Qlt_Rlt in P. rewrite Q2R_0' in P. rewrite fraction_pos in B by lra. exact B.
    + intros m Hm. destruct (H2 m Hm) as (A & B & C & D). rewrite fraction_pos in B by lra.
      split; [apply Rle_Qle; lra|]. split; [exact B|]. intros x Hx. apply Rle_Qle. now apply D.
  - intros [H1 H2]. eexists. apply new_weibull_yes.
    + intros m Hm. destruct (H1 m Hm) as [A B]. apply Qle_Rle in A as A'. rewrite Q2R_0' in A'. split; [exact A'|].
      destruct A' as [P|P].
      * rewrite fraction_pos by lra. apply B. apply Rlt_Qlt. now rewrite Q2R_0'.
      * rewrite <- P, fraction_zero by exact Hl. lra.
    + intros m Hm. destruct (H2 m Hm) as (A & B & C). apply Qle_Rle in A. rewrite E5 in A.
      split; [lra|]. split; [rewrite fraction_pos by lra; exact B|]. split; [exact A|].
      intros x Hx. apply Qle_Rle. now apply C.
Qed.
Print Assumptions C173_accepted.

(** A missing alpha is a TypeError, everything else that is refused a ValueError. *)
Theorem C173_errors : forall a l mn mx, match new_weibull a l mn mx with
  | Ok w => w = Weibull a l mn mx /\ a <> None
  | Raise e => e = match a with None => TypeErr | Some _ => ValueErr end end.
Proof.
  intros [a|] l mn mx; [|reflexivity]. destruct (new_weibull (Some a) l mn mx) eqn:E.
  - destruct (new_weibull_ok _ _ _ _ _ E) as (-> & _). split; [reflexivity|discriminate].
  - now apply new_weibull_no in E.
Qed.
Print Assumptions C173_errors.

(** With one limit at least a thousandth of the sizes that are drawn can be used; with two
    different ones the share that can be used is positive. *)
Theorem C173_share_partial : forall a l mn mx w, (0 < a)%R -> (0 < Q2R l)%R -> new_weibull (Some a) l mn mx = Ok w ->
  (forall m, mn = Some m -> mx = None -> (0 < m)%Q -> (1 / 1000 <= 1 - weibull_below a (Q2R l) (Q2R m))%R) /\
  (forall m, mx = Some m -> mn = None -> (1 / 1000 <= weibull_below a (Q2R l) (Q2R m))%R) /\
  (forall x y, mn = Some x -> mx = Some y -> (0 < x)%Q -> (x < y)%Q ->
     (0 < weibull_below a (Q2R l) (Q2R y) - weibull_below a (Q2R l) (Q2R x))%R).
Proof.
  intros a l mn mx w Ha Hl H.
  destruct (proj1 (C173_accepted a l mn mx Ha Hl) (ex_intro _ w H)) as [H1 H2]. split; [|split].
  - intros m Hm _ P. destruct (H1 m Hm) as [_ B]. specialize (B P). lra.
  - intros m Hm _. destruct (H2 m Hm) as (_ & B & _). exact B.
  - intros x y Hx Hy P Q. apply Qlt_Rlt in P, Q. rewrite Q2R_0' in P.
    pose proof (fraction_lt a (Q2R l) (Q2R x) (Q2R y) Ha Hl (Rlt_le _ _ P) Q) as L.
    rewrite !fraction_pos in L by lra. lra.
Qed.
Print Assumptions C173_share_partial.

(** A size to the power of one; used for the examples. *)
Lemma below_one l x : (0 < x / l)%R -> weibull_below 1 l x = (1 - exp (- (x / l)))%R.
Proof. intros H. unfold weibull_below. now rewrite Rpower_1. Qed.
Lemma ex_one_bounds : (1 / 1000 <= weibull_below 1 (Q2R 1%Q) (Q2R 1%Q) <= 999 / 1000)%R.
Proof.
  assert (Q2R 1 = 1)%R as E by (unfold Q2R; simpl; lra). rewrite E, below_one by lra.
  replace (1 / 1)%R with 1%R by lra.
  assert (exp (Ropp 1) * exp 1 = 1)%R as P by (rewrite <- exp_plus; replace (Ropp 1 + 1)%R with 0%R by lra; apply exp_0).
  pose proof exp_le_3 as B. pose proof (exp_ineq1 1 ltac:(lra)) as A. pose proof (exp_pos (Ropp 1)) as C.
  revert P A B C. generalize (exp (Ropp 1)) (exp 1). intros c e P A B C.
  assert (c * 2 <= c * e)%R by (apply Rmult_le_compat_l; lra).
  assert (c * e <= c * 3)%R by (apply Rmult_le_compat_l; lra).
  split; lra.
Qed.
Example C173_accepted_meets : exists w, new_weibull (Some 1%R) 1%Q (Some 0%Q) (Some 1%Q) = Ok w.
Proof.
  assert (Q2R 1 = 1)%R as E by (unfold Q2R; simpl; lra).
  apply C173_accepted; [lra|rewrite E; lra|]. pose proof ex_one_bounds as B. split.
  - intros m Hm. injection Hm as <-. split; [apply Qle_refl|]. intros P. now apply Qlt_irrefl in P.
  - intros m Hm. injection Hm as <-. split; [vm_compute; discriminate|]. split; [lra|].
    intros x Hx. injection Hx as <-. vm_compute. discriminate.
Qed.

(** Equal limits are accepted although the message asks for a maximum above the minimum;
    then the share of the sizes that can be used is 0, and the loop ends only if exactly
    that size is drawn. *)
Theorem C173_equal_refuted : exists w, new_weibull (Some 1%R) 1%Q (Some 1%Q) (Some 1%Q) = Ok w /\
  (weibull_below 1 (Q2R 1%Q) (Q2R 1%Q) - weibull_below 1 (Q2R 1%Q) (Q2R 1%Q) = 0)%R /\
  forall fuel draws n, (0 < n)%nat -> (forall k, ~ (draws k == 1)%Q) -> set_values fuel w draws n = None.
Proof.
  assert (Q2R 1 = 1)%R as E by (unfold Q2R; simpl; lra).
  assert (exists w, new_weibull (Some 1%R) 1%Q (Some 1%Q) (Some 1%Q) = Ok w) as [w Hw].
  { apply C173_accepted; [lra|rewrite E; lra|]. pose proof ex_one_bounds as B. split.
    - intros m Hm. injection Hm as <-. split; [vm_compute; discriminate|]. intros _. lra.
    - intros m Hm. injection Hm as <-. split; [vm_compute; discriminate|]. split; [lra|].
      intros x Hx. injection Hx as <-. apply Qle_refl. }
  exists w. split; [exact Hw|]. split; [lra|]. destruct (new_weibull_ok _ _ _ _ _ Hw) as (-> & _).
  intros fuel draws n Hn H. destruct (set_values fuel (Weibull (Some 1%R) 1%Q (Some 1%Q) (Some 1%Q)) draws n) as [[ys k]|] eqn:S; [exfalso|reflexivity].
  unfold set_values in S. destruct (redraw_all_some _ _ _ _ _ _ _ S) as (_ & F).
  destruct n as [|n]; [lia|]. simpl in F. inversion F as [|x y l l' (W & _ & D) _ e1 e2]; subst. simpl in W, D.
  destruct W as [W1 W2]. destruct D as [D|(j & _ & D)]; subst y.
  - apply (H O). apply Qle_antisym; Lqa.lra.
  - apply (H j). apply Qle_antisym; Lqa.lra.
Qed.
Print Assumptions C173_equal_refuted.

(** ** C174: the Rayleigh distribution of winds *)

(** The quantile of a fraction f, and what it is. *)
Lemma quantile_is f s : (f < 1)%R -> quantile f s = Some (s * sqrt (-2 * ln (1 - f)))%R.
Proof.
  intros H. unfold quantile. assert (0 < (1 - f) * (1 - f))%R by nra.
  unfold Rltb. destruct (Rlt_dec 0 ((1 - f) * (1 - f))) as [_|N]; [|contradiction].
  f_equal. f_equal. f_equal. rewrite ln_mult by lra. ring.
Qed.
Lemma ln_le_0 y : (0 < y <= 1)%R -> (ln y <= 0)%R.
Proof. intros [A [B|B]]; [|subst; rewrite ln_1; lra]. left. rewrite <- ln_1. now apply ln_increasing. Qed.

(** quantile and cdf are inverse to each other: below the quantile of f lies the
    fraction f, and the quantile of the fraction below a speed is that speed. *)
Theorem C174_inverse : forall s, (0 < s)%R ->
  (forall f, (0 <= f < 1)%R -> exists x, quantile f s = Some x /\ (0 <= x)%R /\ cdf x s = f) /\
  (forall x, (0 <= x)%R -> (0 <= cdf x s < 1)%R /\ quantile (cdf x s) s = Some x).
Proof.
  intros s Hs. split.
  - intros f Hf. rewrite quantile_is by lra. eexists. split; [reflexivity|].
    pose proof (ln_le_0 (1 - f) ltac:(lra)) as L. pose proof (sqrt_pos (-2 * ln (1 - f))) as P.
    split; [apply Rmult_le_pos; lra|].
    unfold cdf. rewrite rayleigh_arg by exact Hs.
    replace (s * sqrt (-2 * ln (1 - f)) / s)%R with (sqrt (-2 * ln (1 - f))) by (field; lra).
    rewrite sqrt_sqrt by lra. replace (- (-2 * ln (1 - f) / 2))%R with (ln (1 - f)) by field. rewrite exp_ln by lra. ring.
  - intros x Hx. pose proof (exp_pos (- 1 / 2 * (x * x / (s * s)))) as P.
    assert (cdf x s < 1)%R as L by (unfold cdf; lra).
    split.
    + split; [|exact L]. destruct Hx as [Hx|<-]; [|rewrite cdf_0; lra].
      pose proof (cdf_incr s 0 x Hs (Rle_refl 0) Hx). rewrite cdf_0 in *. lra.
    + rewrite quantile_is by exact L. f_equal. unfold cdf. rewrite rayleigh_arg by exact Hs.
      replace (1 - (1 - exp (- (x / s * (x / s) / 2))))%R with (exp (- (x / s * (x / s) / 2))) by ring.
      rewrite ln_exp. replace (-2 * - (x / s * (x / s) / 2))%R with ((x / s) * (x / s))%R by (field; lra).
      rewrite sqrt_square; [field; lra|]. unfold Rdiv. apply Rmult_le_pos; [exact Hx|]. left. now apply Rinv_0_lt_compat.
Qed.
Print Assumptions C174_inverse.

(** cdf grows, and pdf is its derivative. *)
Theorem C174_density : forall s, (0 < s)%R ->
  (forall x y, (0 <= x)%R -> (x < y)%R -> (cdf x s < cdf y s)%R) /\
  (forall x, derivable_pt_lim (fun t => cdf t s) x (pdf x s)).
Proof.
  intros s Hs. split; [intros; now apply cdf_incr|]. intros x.
  assert (derivable_pt_lim (fun t => (- 1 / 2 * / (s * s)) * (t * t)) x ((- 1 / 2 * / (s * s)) * (1 * x + x * 1)))%R as D1.
  { apply (derivable_pt_lim_scal (fun t => t * t)%R). apply (derivable_pt_lim_mult id id); apply derivable_pt_lim_id. }
  assert (derivable_pt_lim (fun t => exp ((- 1 / 2 * / (s * s)) * (t * t))) x
    (exp ((- 1 / 2 * / (s * s)) * (x * x)) * ((- 1 / 2 * / (s * s)) * (1 * x + x * 1))))%R as D2.
  { apply (derivable_pt_lim_comp (fun t => (- 1 / 2 * / (s * s)) * (t * t))%R exp); [exact D1|apply derivable_pt_lim_exp]. }
  pose proof (derivable_pt_lim_minus _ _ x _ _ (derivable_pt_lim_const 1 x) D2) as D3.
  assert (pdf x s = 0 - exp ((- 1 / 2 * / (s * s)) * (x * x)) * ((- 1 / 2 * / (s * s)) * (1 * x + x * 1)))%R as ->.
  { unfold pdf. replace (- 1 / 2 * (x * x / (s * s)))%R with (- 1 / 2 * / (s * s) * (x * x))%R by (field; lra). field. lra. }
  intros eps He. destruct (D3 eps He) as [d Hd]. exists d. intros h Hh0 Hh. specialize (Hd h Hh0 Hh).
  unfold minus_fct, fct_cte in Hd. unfold cdf.
  replace (- 1 / 2 * ((x + h) * (x + h) / (s * s)))%R with (- 1 / 2 * / (s * s) * ((x + h) * (x + h)))%R by (field; lra).
  replace (- 1 / 2 * (x * x / (s * s)))%R with (- 1 / 2 * / (s * s) * (x * x))%R by (field; lra). exact Hd.
Qed.
Print Assumptions C174_density.

(** The scale of a wind: the mean of a Rayleigh distribution is its scale times the root
    of pi/2, and sigma_from_wind is the scale with the given mean. *)
Theorem C174_mean : forall avg, (sigma_from_wind avg * sqrt (PI / 2) = avg)%R.
Proof.
  intros avg. unfold sigma_from_wind. pose proof PI_RGT_0 as P.
  replace (sqrt (2 / PI) * avg * sqrt (PI / 2))%R with (avg * (sqrt (2 / PI) * sqrt (PI / 2)))%R by ring.
  rewrite <- sqrt_mult; [|left; apply Rdiv_lt_0_compat; lra|lra].
  replace (2 / PI * (PI / 2))%R with 1%R by (field; lra). rewrite sqrt_1. ring.
Qed.
Print Assumptions C174_mean.

Example C174_inverse_meets : (0 < 3)%R /\ (0 <= 1 / 2 < 1)%R /\ (0 <= 5)%R.
Proof. lra. Qed.

(** Fractions that are none are not refused: a negative one has the quantile 0, and one
    above 1 the quantile of as much below it. *)
Theorem C174_range_refuted : forall s, 
  (forall f, (f < 0)%R -> quantile f s = Some 0%R) /\ (forall f, quantile (2 - f) s = quantile f s).
Proof.
  intros s. split.
  - intros f H. rewrite quantile_is by lra. f_equal. rewrite sqrt_neg_0; [ring|].
    assert (0 < ln (1 - f))%R by (rewrite <- ln_1; apply ln_increasing; lra). lra.
  - intros f. unfold quantile. replace ((1 - (2 - f)) * (1 - (2 - f)))%R with ((1 - f) * (1 - f))%R by ring. reflexivity.
Qed.
Print Assumptions C174_range_refuted.
