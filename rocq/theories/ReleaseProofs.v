From Verif Require Import Py PyLemmas QLemmas TimeModel ReleaseModel ReleaseSpec.
Open Scope Z_scope.

(** ** Python lists *)
Lemma get_nth : forall A (l : list A) k d, (k < length l)%nat -> py_get l (Z.of_nat k) = Ok (nth k l d).
Proof.
  intros A l k d H. unfold py_get. rewrite py_pos_nonneg by lia. rewrite Nat2Z.id.
  rewrite (nth_error_nth' l d H). reflexivity.
Qed.
Lemma get_last : forall A (l : list A) d, l <> [] -> py_get l (-1) = Ok (nth (length l - 1) l d).
Proof.
  intros A l d H. unfold py_get. destruct l as [|a l]; [congruence|].
  rewrite py_pos_neg by (cbn [length]; lia).
  replace (Z.to_nat _) with (length (a :: l) - 1)%nat by (cbn [length]; lia).
  rewrite (nth_error_nth' _ d) by (cbn [length]; lia). reflexivity.
Qed.

Lemma get_0 : forall A (l : list A) d, (0 < length l)%nat -> py_get l 0 = Ok (nth 0 l d).
Proof. intros A l d H. apply (get_nth A l 0 d H). Qed.

(** ** Ascending times *)
Lemma ascending_S : forall l k d, ascending l = true -> (S k < length l)%nat -> nth k l d < nth (S k) l d.
Proof.
  induction l as [|a [|b l] IH]; intros k d H L; cbn in L; try lia.
  cbn [ascending] in H. apply andb_true_iff in H as [H1 H2]. destruct k.
  - cbn. apply Z.ltb_lt; auto.
  - change (nth k (b :: l) d < nth (S k) (b :: l) d). apply IH; auto. cbn; lia.
Qed.
Lemma ascending_lt : forall l i j d, ascending l = true -> (i < j)%nat -> (j < length l)%nat -> nth i l d < nth j l d.
Proof.
  intros l i j d H Hij. induction Hij as [|j Hij IH]; intros L; [apply ascending_S; auto|].
  pose proof (ascending_S l j d H L). specialize (IH ltac:(lia)). lia.
Qed.
Lemma ascending_intro : forall l d, (forall k, (S k < length l)%nat -> nth k l d < nth (S k) l d) -> ascending l = true.
Proof.
  induction l as [|a [|b l] IH]; intros d H; try reflexivity.
  cbn [ascending]. apply andb_true_iff. split.
  - apply Z.ltb_lt. apply (H 0%nat). cbn; lia.
  - apply (IH d). intros k L. apply (H (S k)). cbn in *; lia.
Qed.

Lemma index_of_spec : forall l t d, ascending l = true ->
  (index_of l t <= length l)%nat /\
  (forall k, (k < index_of l t)%nat -> nth k l d < t) /\
  ((index_of l t < length l)%nat -> t <= nth (index_of l t) l d).
Proof.
  induction l as [|a l IH]; intros t d H; cbn.
  - repeat split; intros; lia.
  - assert (ascending l = true) as H' by (destruct l; [reflexivity|cbn [ascending] in H; apply andb_true_iff in H; tauto]).
    destruct (Z.ltb_spec a t).
    + destruct (IH t d H') as (A & B & C). split; [lia|]. split.
      * intros [|k] L; [auto|]. apply B. lia.
      * intros L. apply C. lia.
    + repeat split; intros; try lia.
Qed.

(** ** Interpolation *)
Definition nondec (D : list Q) : Prop := forall i j, (i <= j)%nat -> (j < length D)%nat -> (nth i D 0 <= nth j D 0)%Q.

Lemma at_inner : forall T D t, ascending T = true -> length D = length T -> (2 <= length T)%nat ->
  nth 0 T 0 < t -> t <= nth (length T - 1) T 0 ->
  exists i, (S i < length T)%nat /\ nth i T 0 < t <= nth (S i) T 0 /\
    at_time (T, D) t = Ok (nth i D 0 + (nth (S i) D 0 - nth i D 0) *
       (inject_Z (t - nth i T 0%Z) / inject_Z (nth (S i) T 0%Z - nth i T 0%Z)))%Q.
Proof.
  intros T D t HA HL H2 H0 H1.
  destruct (index_of_spec T t 0 HA) as (A & B & C).
  assert (index_of T t <> 0)%nat as N0. { intros E. rewrite E in C. specialize (C ltac:(lia)). lia. }
  assert (index_of T t < length T)%nat as NL.
  { destruct (Nat.eq_dec (index_of T t) (length T)) as [E|]; [|lia].
    specialize (B (length T - 1)%nat ltac:(lia)). lia. }
  destruct (index_of T t) as [|i] eqn:Ei; [congruence|]. exists i. split; [auto|].
  split; [split; [apply B; lia|apply C; auto]|].
  unfold at_time. destruct T as [|a [|b T]]; cbn [length] in H2; try lia.
  set (T0 := a :: b :: T) in *.
  rewrite (get_last _ T0 0) by discriminate. rewrite (get_0 _ T0 0) by (subst T0; cbn; lia). cbn [bind].
  destruct (Z.leb_spec t (nth 0 T0 0)); [lia|]. destruct (Z.ltb_spec (nth (length T0 - 1) T0 0) t); [lia|].
  rewrite Ei. replace (Z.of_nat (S i) - 1) with (Z.of_nat i) by lia. rewrite Z.max_l by lia.
  rewrite (get_nth _ T0 i 0) by lia. rewrite (get_nth _ T0 (S i) 0) by lia.
  rewrite (get_nth _ D i 0%Q) by lia. rewrite (get_nth _ D (S i) 0%Q) by lia. reflexivity.
Qed.

Lemma at_before : forall T D t, length D = length T -> (2 <= length T)%nat -> t <= nth 0 T 0 ->
  at_time (T, D) t = Ok (nth 0 D 0%Q).
Proof.
  intros T D t HL H2 H. unfold at_time. destruct T as [|a [|b T]]; cbn [length] in H2; try lia.
  set (T0 := a :: b :: T) in *.
  rewrite (get_last _ T0 0) by discriminate. rewrite (get_0 _ T0 0) by (subst T0; cbn; lia). cbn [bind].
  destruct (Z.leb_spec t (nth 0 T0 0)); [|lia]. apply (get_0 _ D). rewrite HL. subst T0. cbn. lia.
Qed.
Lemma at_after : forall T D t, ascending T = true -> length D = length T -> (2 <= length T)%nat -> nth (length T - 1) T 0 < t ->
  at_time (T, D) t = Ok (nth (length D - 1) D 0%Q).
Proof.
  intros T D t HA HL H2 H. pose proof (ascending_lt T 0 (length T - 1) 0 HA ltac:(lia) ltac:(lia)) as H0.
  unfold at_time. destruct T as [|a [|b T]]; cbn [length] in H2; try lia.
  set (T0 := a :: b :: T) in *.
  rewrite (get_last _ T0 0) by discriminate. rewrite (get_0 _ T0 0) by (subst T0; cbn; lia). cbn [bind].
  destruct (Z.leb_spec t (nth 0 T0 0)); [lia|].
  destruct (Z.ltb_spec (nth (length T0 - 1) T0 0) t); [|lia].
  apply get_last. intros ->. subst T0. cbn in HL. lia.
Qed.

Lemma frac_bounds : forall t a b, a < t -> t <= b ->
  (0 < inject_Z (t - a) / inject_Z (b - a) <= 1)%Q.
Proof.
  intros t a b H1 H2. assert (0 < inject_Z (b - a))%Q as P by (change 0%Q with (inject_Z 0); rewrite <- Zlt_Qlt; lia).
  split.
  - apply Qlt_shift_div_l; auto. rewrite Qmult_0_l. change 0%Q with (inject_Z 0). rewrite <- Zlt_Qlt. lia.
  - apply Qle_shift_div_r; auto. rewrite Qmult_1_l. rewrite <- Zle_Qle. lia.
Qed.
Lemma frac_one : forall a b, a < b -> (inject_Z (b - a) / inject_Z (b - a) == 1)%Q.
Proof.
  intros. field. intros E. assert (0 < inject_Z (b - a))%Q by (change 0%Q with (inject_Z 0); rewrite <- Zlt_Qlt; lia). lra.
Qed.
Lemma frac_mono : forall t t' a b, a < b -> t <= t' ->
  (inject_Z (t - a) / inject_Z (b - a) <= inject_Z (t' - a) / inject_Z (b - a))%Q.
Proof.
  intros t t' a b H1 H2. assert (0 < inject_Z (b - a))%Q as P by (change 0%Q with (inject_Z 0); rewrite <- Zlt_Qlt; lia).
  apply Qle_shift_div_l; auto. unfold Qdiv. rewrite <- Qmult_assoc, (Qmult_comm (/ _)), Qmult_inv_r, Qmult_1_r by lra.
  rewrite <- Zle_Qle. lia.
Qed.

Lemma mul_bound : forall x f, (0 <= x)%Q -> (0 <= f <= 1)%Q -> (0 <= x * f <= x)%Q.
Proof.
  intros x f Hx [H0 H1]. split; [apply Qmul_nonneg; auto|].
  assert (0 <= x * (1 - f))%Q by (apply Qmul_nonneg; lra). lra.
Qed.
Lemma mul_mono : forall x f g, (0 <= x)%Q -> (f <= g)%Q -> (x * f <= x * g)%Q.
Proof. intros x f g Hx H. assert (0 <= x * (g - f))%Q by (apply Qmul_nonneg; lra). lra. Qed.

(** Value, range and monotony of an interpolated series. *)
Section interp.
Variables (T : list Z) (D : list Q).
Hypothesis HA : ascending T = true.
Hypothesis HL : length D = length T.
Hypothesis H2 : (2 <= length T)%nat.

Lemma at_ok : forall t, exists q, at_time (T, D) t = Ok q.
Proof.
  intros t. destruct (Z.le_gt_cases t (nth 0 T 0)).
  - eexists. apply at_before; auto.
  - destruct (Z.le_gt_cases t (nth (length T - 1) T 0)).
    + destruct (at_inner T D t) as (i & _ & _ & E); auto. eauto.
    + eexists. apply at_after; auto.
Qed.

(** The four ways a value can arise. *)
Lemma at_cases : forall t q, at_time (T, D) t = Ok q ->
  (t <= nth 0 T 0 /\ q = nth 0 D 0%Q) \/
  (nth (length T - 1) T 0 < t /\ q = nth (length T - 1) D 0%Q) \/
  (exists i, (S i < length T)%nat /\ nth i T 0 < t <= nth (S i) T 0 /\
    q = (nth i D 0 + (nth (S i) D 0 - nth i D 0) *
       (inject_Z (t - nth i T 0%Z) / inject_Z (nth (S i) T 0%Z - nth i T 0%Z)))%Q).
Proof.
  intros t q E. destruct (Z.le_gt_cases t (nth 0 T 0)).
  - left. rewrite at_before in E by auto. inversion E; auto.
  - right. destruct (Z.le_gt_cases t (nth (length T - 1) T 0)).
    + right. destruct (at_inner T D t) as (i & A & B & C); auto. exists i. split; auto. split; auto.
      rewrite C in E. inversion E. reflexivity.
    + left. rewrite at_after in E by auto. inversion E. rewrite HL. auto.
Qed.

Lemma at_grid : forall k q, (k < length T)%nat -> at_time (T, D) (nth k T 0) = Ok q -> (q == nth k D 0)%Q.
Proof.
  intros k q Hk E. apply at_cases in E as [[A ->]|[[A ->]|(i & A & B & ->)]].
  - destruct k; [reflexivity|]. pose proof (ascending_lt T 0 (S k) 0 HA). lia.
  - destruct (Nat.eq_dec k (length T - 1)) as [->|]; [lia|].
    pose proof (ascending_lt T k (length T - 1) 0 HA ltac:(lia) ltac:(lia)). lia.
  - assert (k = S i) as ->.
    { destruct (Nat.lt_trichotomy k (S i)) as [L|[L|L]]; auto.
      - assert (k <= i)%nat as L' by lia. destruct (Nat.eq_dec k i) as [->|]; [lia|].
        pose proof (ascending_lt T k i 0 HA ltac:(lia) ltac:(lia)). lia.
      - pose proof (ascending_lt T (S i) k 0 HA ltac:(lia) ltac:(lia)). lia. }
    rewrite (frac_one (nth i T 0) (nth (S i) T 0)) by lia. lra.
Qed.

Hypothesis HN : nondec D.

Lemma at_between : forall t q i, at_time (T, D) t = Ok q -> (S i < length T)%nat ->
  nth i T 0 < t <= nth (S i) T 0 -> (nth i D 0 <= q <= nth (S i) D 0)%Q.
Proof.
  intros t q i E Hi Ht. apply at_cases in E as [[A ->]|[[A ->]|(j & A & B & ->)]].
  - pose proof (ascending_lt T 0 (S i) 0 HA ltac:(lia) ltac:(lia)).
    destruct i; [lia|]. pose proof (ascending_lt T 0 (S i) 0 HA ltac:(lia) ltac:(lia)). lia.
  - destruct (Nat.eq_dec (S i) (length T - 1)) as [Ee|].
    + rewrite Ee in Ht. lia.
    + pose proof (ascending_lt T (S i) (length T - 1) 0 HA ltac:(lia) ltac:(lia)). lia.
  - assert (j = i) as ->.
    { destruct (Nat.lt_trichotomy j i) as [L|[L|L]]; auto; exfalso.
      - destruct (Nat.eq_dec (S j) i) as [<-|]; [lia|]. pose proof (ascending_lt T (S j) i 0 HA ltac:(lia) ltac:(lia)). lia.
      - destruct (Nat.eq_dec (S i) j) as [<-|]; [lia|]. pose proof (ascending_lt T (S i) j 0 HA ltac:(lia) ltac:(lia)). lia. }
    pose proof (HN i (S i) ltac:(lia) ltac:(lia)).
    pose proof (mul_bound (nth (S i) D 0 - nth i D 0)%Q _ ltac:(lra)
                  (conj (Qlt_le_weak _ _ (proj1 (frac_bounds t (nth i T 0) (nth (S i) T 0) ltac:(lia) ltac:(lia))))
                        (proj2 (frac_bounds t (nth i T 0) (nth (S i) T 0) ltac:(lia) ltac:(lia))))). lra.
Qed.

Lemma at_range : forall t q, at_time (T, D) t = Ok q -> (nth 0 D 0 <= q <= nth (length T - 1) D 0)%Q.
Proof.
  intros t q E. pose proof E as E0. apply at_cases in E as [[A ->]|[[A ->]|(j & A & B & Eq)]].
  - split; [lra|]. apply HN; lia.
  - split; [|lra]. apply HN; lia.
  - pose proof (at_between t q j E0 A B).
    pose proof (HN O j ltac:(lia) ltac:(lia)). pose proof (HN (S j) (length T - 1)%nat ltac:(lia) ltac:(lia)). lra.
Qed.

Lemma at_mono : forall t t' q q', t <= t' -> at_time (T, D) t = Ok q -> at_time (T, D) t' = Ok q' -> (q <= q')%Q.
Proof.
  intros t t' q q' Ht E E'. pose proof (at_range t q E) as R. pose proof (at_range t' q' E') as R'.
  pose proof E as E0. pose proof E' as E0'.
  apply at_cases in E as [[A ->]|[[A ->]|(i & A & B & Eq)]]; [lra| |].
  - rewrite at_after in E' by (auto; lia). inversion E'; subst. rewrite HL in *. lra.
  - apply at_cases in E' as [[A' ->]|[[A' ->]|(j & A' & B' & Eq')]].
    + destruct i; [cbn in *; lia|]. pose proof (ascending_lt T 0 (S i) 0 HA ltac:(lia) ltac:(lia)). lia.
    + lra.
    + destruct (Nat.lt_trichotomy i j) as [L|[L|L]].
      * pose proof (at_between t q i E0 A B). pose proof (at_between t' q' j E0' A' B').
        pose proof (HN (S i) j ltac:(lia) ltac:(lia)). lra.
      * subst j. subst q q'. pose proof (HN i (S i) ltac:(lia) ltac:(lia)).
        pose proof (mul_mono (nth (S i) D 0 - nth i D 0)%Q _ _ ltac:(lra)
           (frac_mono t t' (nth i T 0) (nth (S i) T 0) ltac:(lia) Ht)). lra.
      * destruct (Nat.eq_dec (S j) i) as [<-|]; [lia|].
        pose proof (ascending_lt T (S j) i 0 HA ltac:(lia) ltac:(lia)). lia.
Qed.
End interp.

(** ** Ceilings and floors *)
Lemma Qceil_bounds : forall q, (q <= inject_Z (Qceil q))%Q /\ (inject_Z (Qceil q) < q + 1)%Q.
Proof.
  intros q. unfold Qceil. pose proof (Qfloor_bounds (- q)). rewrite inject_Z_opp. lra.
Qed.
Lemma Qceil_mono : forall a b, (a <= b)%Q -> Qceil a <= Qceil b.
Proof.
  intros a b H. unfold Qceil. pose proof (Qfloor_resp_le (- b) (- a) ltac:(lra)). lia.
Qed.
Lemma Qceil_Z : forall q z, (q == inject_Z z)%Q -> Qceil q = z.
Proof.
  intros q z H. unfold Qceil. rewrite H. rewrite <- inject_Z_opp, Qfloor_Z. lia.
Qed.
Lemma inj_pos : forall z, 0 < z -> (0 < inject_Z z)%Q.
Proof. intros z H. change 0%Q with (inject_Z 0). rewrite <- Zlt_Qlt. exact H. Qed.
Lemma inj_nonneg : forall z, 0 <= z -> (0 <= inject_Z z)%Q.
Proof. intros z H. change 0%Q with (inject_Z 0). rewrite <- Zle_Qle. exact H. Qed.

Lemma zseq_nth_d : forall n a k d, (k < n)%nat -> nth k (zseq a n) d = a + Z.of_nat k.
Proof. intros n a k d H. apply nth_error_nth. apply zseq_nth; auto. Qed.

Lemma nth_map_d : forall A B (f : A -> B) l k d d', (k < length l)%nat -> nth k (map f l) d = f (nth k l d').
Proof. intros A B f l. induction l as [|a l IH]; intros [|k] d d' H; cbn in *; try lia; auto. apply IH. lia. Qed.

Lemma linspace_length : forall a b n, length (linspace a b n) = n.
Proof. intros a b [|[|n]]; try reflexivity. unfold linspace. rewrite map_length, zseq_length. reflexivity. Qed.
Lemma linspace_nth : forall a b n k, (2 <= n)%nat -> (k < n)%nat ->
  nth k (linspace a b n) 0%Q = (a + inject_Z (Z.of_nat k) * ((b - a) / inject_Z (Z.of_nat n - 1)))%Q.
Proof.
  intros a b n k H2 Hk. destruct n as [|[|n]]; try lia. unfold linspace.
  rewrite (nth_map_d _ _ _ _ k _ 0) by (rewrite zseq_length; lia). rewrite zseq_nth_d by lia. reflexivity.
Qed.

(** ** The table of a prepared release *)
Lemma ceil_div_spec : forall d ts k, 0 < ts -> 0 < d -> ceil_div d ts = k -> 1 <= k /\ (k - 1) * ts < d <= k * ts.
Proof.
  intros d ts k H1 H2 <-. unfold ceil_div. pose proof (Z.div_mod (- d) ts ltac:(lia)).
  pose proof (Z.mod_pos_bound (- d) ts H1). nia.
Qed.
Lemma num_steps_spec : forall r ts k, 0 <= duration r -> (duration r <> 0 -> 0 < ts) -> num_steps r ts = Ok k ->
  steps_for (duration r) ts k.
Proof.
  intros r ts k H0 H1 E. unfold num_steps in E. destruct (Z.eqb_spec ts 0); [discriminate|]. inversion E; subst; clear E.
  destruct (Z.eq_dec (duration r) 0) as [D|D].
  - rewrite D. unfold ceil_div. rewrite Z.div_0_l by auto. cbn. split; [lia|auto].
  - pose proof (ceil_div_spec (duration r) ts _ (H1 D) ltac:(lia) eq_refl) as [A B].
    destruct (Z.eqb_spec (ceil_div (duration r) ts) 0); [lia|]. split; [lia|]. right. split; [lia|exact B].
Qed.

(** What the table of a continuous release looks like. *)
Definition cont_times (r : release) (n ts : Z) : list Z :=
  set_nth (Z.to_nat n) (end_time r) (map (fun k => r_time r + ts * k) (zseq 0 (Z.to_nat (n + 1)))).
Definition cont_data (n max : Z) : list Q :=
  map (fun q => inject_Z (Qfloor q)) (linspace 0 (inject_Z max) (Z.to_nat (n + 1))).

Lemma grid_nth : forall r ts n k, (k < n)%nat -> nth k (map (fun k => r_time r + ts * k) (zseq 0 n)) 0 = r_time r + ts * Z.of_nat k.
Proof.
  intros r ts n k H. rewrite (nth_map_d _ _ _ _ k _ 0) by (rewrite zseq_length; lia).
  rewrite zseq_nth_d by lia. reflexivity.
Qed.
Lemma set_nth_nth : forall A k (x : A) l j d, nth j (set_nth k x l) d =
  if (j =? k)%nat && (k <? length l)%nat then x else nth j l d.
Proof.
  intros A k x l. revert k. induction l as [|a l IH]; intros [|k] [|j] d; cbn; try reflexivity.
  - rewrite andb_false_r. reflexivity.
  - rewrite IH. reflexivity.
Qed.

Lemma cont_times_nth : forall r n ts k, 1 <= n -> (k <= Z.to_nat n)%nat ->
  nth k (cont_times r n ts) 0 = if (k =? Z.to_nat n)%nat then end_time r else r_time r + ts * Z.of_nat k.
Proof.
  intros r n ts k Hn Hk. unfold cont_times. rewrite set_nth_nth, map_length, zseq_length.
  destruct (Nat.ltb_spec (Z.to_nat n) (Z.to_nat (n + 1))); [|lia]. rewrite andb_true_r.
  destruct (k =? Z.to_nat n)%nat; [reflexivity|]. apply grid_nth. lia.
Qed.
Lemma cont_times_length : forall r n ts, 0 <= n -> length (cont_times r n ts) = S (Z.to_nat n).
Proof. intros. unfold cont_times. rewrite set_nth_length, map_length, zseq_length. lia. Qed.
Lemma cont_times_asc : forall r n ts, 1 <= n -> 0 < ts -> (n - 1) * ts < duration r -> ascending (cont_times r n ts) = true.
Proof.
  intros r n ts Hn Ht Hd. apply (ascending_intro _ 0). intros k L. rewrite cont_times_length in L by lia.
  rewrite !cont_times_nth by lia.
  destruct (Nat.eqb_spec k (Z.to_nat n)); [lia|]. destruct (Nat.eqb_spec (S k) (Z.to_nat n)).
  - unfold duration in Hd. assert (Z.of_nat k = n - 1) by lia. nia.
  - nia.
Qed.
Lemma cont_data_length : forall n max, 0 <= n -> length (cont_data n max) = S (Z.to_nat n).
Proof. intros. unfold cont_data. rewrite map_length, linspace_length. lia. Qed.
Lemma cont_data_nth : forall n max k, 1 <= n -> (k <= Z.to_nat n)%nat ->
  nth k (cont_data n max) 0%Q = inject_Z (max * Z.of_nat k / n).
Proof.
  intros n max k Hn Hk. unfold cont_data.
  rewrite (nth_map_d _ _ _ _ k _ 0%Q) by (rewrite linspace_length; lia). f_equal.
  rewrite linspace_nth by lia. apply Qfloor_unique.
  - rewrite Qplus_0_l. unfold Qminus. rewrite Qplus_0_r.
    assert (inject_Z (Z.of_nat k) * (inject_Z max / inject_Z (Z.of_nat (Z.to_nat (n + 1)) - 1)) == inject_Z (max * Z.of_nat k) / inject_Z n)%Q as ->.
    { replace (Z.of_nat (Z.to_nat (n + 1)) - 1) with n by lia. rewrite inject_Z_mult. field. pose proof (inj_pos n ltac:(lia)). lra. }
    apply Qle_shift_div_l; [apply inj_pos; lia|]. rewrite <- inject_Z_mult, <- Zle_Qle. 
    pose proof (Z.div_mod (max * Z.of_nat k) n ltac:(lia)). pose proof (Z.mod_pos_bound (max * Z.of_nat k) n ltac:(lia)). lia.
  - rewrite Qplus_0_l. unfold Qminus. rewrite Qplus_0_r.
    assert (inject_Z (Z.of_nat k) * (inject_Z max / inject_Z (Z.of_nat (Z.to_nat (n + 1)) - 1)) == inject_Z (max * Z.of_nat k) / inject_Z n)%Q as ->.
    { replace (Z.of_nat (Z.to_nat (n + 1)) - 1) with n by lia. rewrite inject_Z_mult. field. pose proof (inj_pos n ltac:(lia)). lra. }
    apply Qlt_shift_div_r; [apply inj_pos; lia|]. change 1%Q with (inject_Z 1). rewrite <- inject_Z_plus, <- inject_Z_mult, <- Zlt_Qlt.
    pose proof (Z.div_mod (max * Z.of_nat k) n ltac:(lia)). pose proof (Z.mod_pos_bound (max * Z.of_nat k) n ltac:(lia)). lia.
Qed.

Lemma table_cont : forall r n max ts, 0 < duration r -> steps_for (duration r) ts n -> 0 < ts ->
  table r n max ts = Ok (cont_times r n ts, cont_data n max).
Proof.
  intros r n max ts Hd (Hn & [[D _]|(_ & Hk)]) Ht; [lia|]. unfold table.
  destruct (Z.eqb_spec (duration r) 0); [lia|].
  assert ((if n =? 1 then mk_time [r_time r; end_time r]
           else do l <- mk_time (map (fun k => r_time r + ts * k) (zseq 0 (Z.to_nat (n + 1))));
             py_set l (-1) (end_time r)) = Ok (cont_times r n ts)) as ->.
  { destruct (Z.eqb_spec n 1) as [->|].
    - unfold mk_time. cbn [ascending]. unfold duration in Hd. destruct (Z.ltb_spec (r_time r) (end_time r)); [|lia].
      unfold cont_times. change (Z.to_nat (1 + 1)) with 2%nat. change (Z.to_nat 1) with 1%nat. cbn [zseq map set_nth]. rewrite Z.mul_0_r, Z.add_0_r. reflexivity.
    - unfold mk_time. rewrite (ascending_intro _ 0).
      + cbn [bind]. unfold py_set. rewrite map_length, zseq_length. rewrite py_pos_neg by lia. unfold cont_times.
        do 3 f_equal. lia.
      + intros k L. rewrite map_length, zseq_length in L. rewrite !grid_nth by lia. nia. }
  cbn [bind]. unfold mk_series. rewrite cont_times_length by lia.
  fold (cont_data n max). rewrite cont_data_length by lia. rewrite Nat.eqb_refl. reflexivity.
Qed.
Lemma table_inst : forall r n max ts, duration r = 0 -> n = 1 ->
  table r n max ts = Ok ([r_time r; r_time r + sec_us], [inject_Z max; inject_Z max]).
Proof.
  intros r n max ts Hd ->. unfold table. rewrite Hd. cbn [Z.eqb Pos.eqb]. unfold duration in Hd.
  replace (end_time r) with (r_time r) by lia. unfold mk_time. cbn [ascending].
  destruct (Z.ltb_spec (r_time r) (r_time r + sec_us)); [|unfold sec_us in *; lia]. reflexivity.
Qed.

(** Everything [prepare] establishes. *)
Definition good_table (r : release) (ts n max : Z) (tb : series) : Prop :=
  (duration r = 0 /\ tb = ([r_time r; r_time r + sec_us], [inject_Z max; inject_Z max])) \/
  (0 < duration r /\ 0 < ts /\ tb = (cont_times r n ts, cont_data n max)).

Lemma rewind_fields : forall r, 
  r_time (rewind_release r) = r_time r /\ end_time (rewind_release r) = end_time r /\
  duration (rewind_release r) = duration r /\ r_num (rewind_release r) = r_num r /\ r_per (rewind_release r) = r_per r /\
  r_mass (rewind_release r) = r_mass r /\ r_start_pos (rewind_release r) = r_start_pos r /\
  end_pos (rewind_release r) = end_pos r /\ r_line (rewind_release r) = r_line r.
Proof. intros []; repeat split. Qed.

Definition same_rel (a b : release) : Prop :=
  r_line a = r_line b /\ r_time a = r_time b /\ r_end a = r_end b /\ r_num a = r_num b /\ r_per a = r_per b /\ r_mass a = r_mass b /\
  r_start_pos a = r_start_pos b /\ r_end_pos a = r_end_pos b.

Lemma ratio_steps : forall r ts n k, r_num r = Some n -> num_steps r ts = Ok k -> 1 <= k ->
  forall q, ratio r ts = Ok q -> Qle_bool 1 q = true -> k <= n.
Proof.
  intros r ts n k En Ek Hk q Eq Hq. unfold ratio in Eq. rewrite En, Ek in Eq. cbn in Eq. inversion Eq; subst.
  apply Qle_bool_iff in Hq. pose proof (inj_pos k ltac:(lia)) as P.
  rewrite Zle_Qle. setoid_replace (inject_Z n) with (inject_Z n / inject_Z k * inject_Z k)%Q by (field; lra).
  setoid_replace (inject_Z k) with (1 * inject_Z k)%Q at 1 by ring.
  apply Qmult_le_compat_r; lra.
Qed.

Lemma prepare_spec : forall r ts r', wf r -> prepare r ts = Ok r' ->
  exists n max tb pt, steps_for (duration r) ts n /\ intended r ts max /\ n <= max /\ 1 <= max /\
    (0 < duration r -> sec_us <= ts) /\
    good_table r ts n max tb /\ pos_table r n (fst tb) = Ok pt /\ same_rel r' r /\
    r_prep r' = Some (mkPrep tb (r_mass r / inject_Z max)%Q pt).
Proof.
  intros r ts r' (W1 & W2 & W3) E. unfold prepare in E. cbv zeta in E.
  set (r0 := match r_prep r with Some _ => rewind_release r | None => r end) in *.
  assert (same_rel r0 r /\ duration r0 = duration r /\ end_time r0 = end_time r) as (S0 & D0 & E0).
  { subst r0. destruct (r_prep r); repeat split. }
  destruct S0 as (F0 & F1 & F2 & F3 & F4 & F5 & F6 & F7).
  clearbody r0. destruct ((ts <? sec_us) && negb (end_time r0 =? r_time r0)) eqn:G; [discriminate|].
  destruct (ratio r0 ts) as [q|] eqn:Eq; [|discriminate]. cbn [bind] in E.
  destruct (Qle_bool 1 q) eqn:Hq; [|discriminate]. cbn [negb] in E.
  destruct (num_steps r0 ts) as [n|] eqn:En; [|discriminate]. cbn [bind] in E.
  assert (0 <= duration r) as Hd by (unfold duration; lia).
  assert (duration r <> 0 -> sec_us <= ts) as Hts.
  { intros K. destruct (Z.ltb_spec ts sec_us); [|lia]. destruct (Z.eqb_spec (end_time r0) (r_time r0)); [|discriminate].
    unfold duration in *. lia. }
  assert (steps_for (duration r) ts n) as Hn.
  { rewrite <- D0. apply num_steps_spec; auto; rewrite D0; auto. intros K. specialize (Hts K). unfold sec_us in *. lia. }
  pose proof (proj1 Hn) as Hn1.
  match type of E with bind ?x _ = _ => destruct x as [max|] eqn:Em; [|discriminate] end. cbn [bind] in E.
  assert (intended r ts max /\ n <= max) as [Hi Hm].
  { rewrite F4, F3 in Em. unfold intended. destruct (r_per r) as [p|] eqn:Ep.
    - inversion Em; subst. split; [exists n; auto|].
      unfold ratio in Eq. rewrite F3, F4 in Eq. destruct (r_num r) as [k|]; [contradiction|]. inversion Eq; subst.
      apply Qle_bool_iff in Hq. change 1%Q with (inject_Z 1) in Hq. rewrite <- Zle_Qle in Hq. nia.
    - destruct (r_num r) as [k|] eqn:Ek; [|discriminate]. inversion Em; subst. split; auto.
      apply (ratio_steps r0 ts max n F3 En ltac:(lia) q Eq Hq). }
  assert (exists tb, table r0 n max ts = Ok tb /\ good_table r ts n max tb) as (tb & Et & Ht).
  { destruct (Z.eq_dec (duration r) 0) as [D|D].
    - eexists. split; [apply table_inst; [congruence|destruct Hn as [_ [[_ K]|[K _]]]; lia]|].
      left. rewrite F1. auto.
    - eexists. split; [apply table_cont; rewrite ?D0; auto; try lia; specialize (Hts D); unfold sec_us in *; lia|].
      right. split; [lia|]. split; [specialize (Hts D); unfold sec_us in *; lia|].
      unfold cont_times. rewrite F1, E0. reflexivity. }
  rewrite Et in E. cbn [bind] in E. destruct (pos_table r0 n (fst tb)) as [pt|] eqn:Ept; [|discriminate]. cbn [bind] in E.
  destruct (Z.eqb_spec max 0); [lia|]. inversion E; subst; clear E. cbn.
  exists n, max, tb, pt. rewrite F5 in *. split; [exact Hn|]. split; [exact Hi|]. split; [exact Hm|]. split; [lia|].
  split; [intros K; apply Hts; lia|]. split; [exact Ht|]. split.
  { unfold pos_table in *. rewrite F0, F6 in Ept. unfold end_pos in *. rewrite F7, F6 in Ept. exact Ept. }
  split; [repeat split; cbn; assumption|reflexivity].
Qed.

(** ** The number of elements after a time *)
Lemma cont_nondec : forall n max, 1 <= n -> 0 <= max -> nondec (cont_data n max).
Proof.
  intros n max Hn Hm i j Hij Hj. rewrite cont_data_length in Hj by lia. rewrite !cont_data_nth by lia.
  rewrite <- Zle_Qle. apply Z.div_le_mono; nia.
Qed.

Lemma end_is : forall r, end_time r = r_time r + duration r.
Proof. intros. unfold duration. lia. Qed.

Lemma at_or_after : forall T D t q, ascending T = true -> length D = length T -> (2 <= length T)%nat ->
  at_time (T, D) t = Ok q -> nth (length T - 1) T 0 <= t -> (q == nth (length T - 1) D 0)%Q.
Proof.
  intros T D t q HA HL H2 E L. destruct (Z.eq_dec t (nth (length T - 1) T 0)) as [->|].
  - apply (at_grid T D HA HL H2 (length T - 1)%nat q); auto. lia.
  - rewrite at_after in E by (auto; lia). inversion E. rewrite HL. reflexivity.
Qed.

Definition count_facts (r : release) (ts n max : Z) (c : Z -> Z) : Prop :=
  (forall t, 0 <= c t <= max) /\ (forall t, t < r_time r -> c t = 0) /\ (forall t, end_time r <= t -> c t = max) /\
  (forall t t', t <= t' -> c t <= c t') /\ (forall t, r_time r < t -> 1 <= c t) /\
  (0 < duration r -> forall k, 0 <= k -> k * ts < duration r -> c (r_time r + k * ts) = max * k / n).

Lemma after_spec : forall r ts n max tb r' m pt, wf r -> 1 <= max -> n <= max -> steps_for (duration r) ts n -> good_table r ts n max tb ->
  same_rel r' r -> r_prep r' = Some (mkPrep tb m pt) ->
  exists c, (forall t, after_time r' t = Ok (c t)) /\ count_facts r ts n max c.
Proof.
  intros r ts n max tb r' m pt (W1 & _) Hm Hnm Hs Hg (_ & Fr & _) Ep. unfold after_time. rewrite Ep, Fr. cbn [p_table].
  pose proof (proj1 Hs) as Hn.
  destruct Hg as [[D ->]|(D & Hts & ->)].
  - set (T := [r_time r; r_time r + sec_us]). set (V := [inject_Z max; inject_Z max]).
    assert (ascending T = true) as HA by (apply (ascending_intro _ 0); intros [|k] L; cbn in *; unfold sec_us; lia).
    assert (forall t, exists q, at_time (T, V) t = Ok q /\ (q == inject_Z max)%Q) as HQ.
    { intros t. destruct (at_ok T V HA eq_refl ltac:(cbn; lia) t) as (q & E). exists q. split; auto.
      assert (nondec V) as HV. { intros [|[|i]] [|[|j]] L1 L2; cbn in *; try lia; apply Qle_refl. }
      pose proof (at_range T V HA eq_refl ltac:(cbn; lia) HV t q E) as [X Y]. cbn in X, Y. lra. }
    exists (fun t => if t <? r_time r then 0 else max). split.
    + intros t. destruct (t <? r_time r); [reflexivity|]. destruct (HQ t) as (q & -> & E). cbn [bind].
      rewrite (Qceil_Z q max E). reflexivity.
    + unfold duration in D. unfold count_facts. repeat apply conj; intros;
        repeat match goal with |- context [?a <? ?b] => destruct (Z.ltb_spec a b) end; unfold duration in *; try lia.
  - destruct Hs as (_ & [[D0 _]|(_ & Hk)]); [lia|].
    set (T := cont_times r n ts). set (V := cont_data n max).
    assert (ascending T = true) as HA by (apply cont_times_asc; lia).
    assert (length T = S (Z.to_nat n)) as LT by (apply cont_times_length; lia).
    assert (length V = length T) as LV by (rewrite LT; apply cont_data_length; lia).
    assert (2 <= length T)%nat as L2 by lia.
    assert (nondec V) as HV by (apply cont_nondec; lia).
    assert (nth 0 T 0 = r_time r) as T0.
    { subst T. rewrite cont_times_nth by lia. destruct (Nat.eqb_spec 0 (Z.to_nat n)); lia. }
    assert (nth (length T - 1) T 0 = end_time r) as TN.
    { replace (length T - 1)%nat with (Z.to_nat n) by lia. subst T. rewrite cont_times_nth by lia. rewrite Nat.eqb_refl. reflexivity. }
    assert (nth 0 V 0%Q = 0%Q) as V0.
    { subst V. rewrite cont_data_nth by lia. rewrite Z.mul_0_r. reflexivity. }
    assert (nth (length T - 1) V 0%Q = inject_Z max) as VN.
    { replace (length T - 1)%nat with (Z.to_nat n) by lia. subst V. rewrite cont_data_nth by lia. f_equal.
      rewrite Z2Nat.id by lia. apply Z.div_mul. lia. }
    exists (fun t => if t <? r_time r then 0 else match at_time (T, V) t with Ok q => Qceil q | Raise _ => 0 end).
    split.
    { intros t. destruct (t <? r_time r); [reflexivity|].
      destruct (at_ok T V HA LV L2 t) as (q & ->). reflexivity. }
    assert (forall t, exists q, at_time (T, V) t = Ok q /\ (0 <= q <= inject_Z max)%Q) as HR.
    { intros t. destruct (at_ok T V HA LV L2 t) as (q & E). exists q. split; auto.
      pose proof (at_range T V HA LV L2 HV t q E). rewrite V0, VN in H. exact H. }
    assert (forall q, (0 <= q <= inject_Z max)%Q -> 0 <= Qceil q <= max) as HC.
    { intros q [A B]. apply Qceil_mono in A, B. rewrite (Qceil_Z (inject_Z max) max) in B by reflexivity.
      rewrite (Qceil_Z 0%Q 0) in A by reflexivity. lia. }
    repeat apply conj.
    + intros t. destruct (t <? r_time r); [lia|]. destruct (HR t) as (q & -> & A). auto.
    + intros t A. destruct (Z.ltb_spec t (r_time r)); [auto|lia].
    + intros t A. destruct (Z.ltb_spec t (r_time r)); [lia|]. destruct (at_ok T V HA LV L2 t) as (q & E). rewrite E.
      apply Qceil_Z. rewrite <- VN. apply (at_or_after T V t q HA LV L2 E). lia.
    + intros t t' A. destruct (Z.ltb_spec t (r_time r)); destruct (Z.ltb_spec t' (r_time r)); try lia.
      * destruct (HR t') as (q & -> & B). apply HC in B. lia.
      * destruct (HR t) as (q & E & _), (HR t') as (q' & E' & _). rewrite E, E'.
        apply Qceil_mono. apply (at_mono T V HA LV L2 HV t t' q q' A E E').
    + intros t A. destruct (Z.ltb_spec t (r_time r)); [lia|]. destruct (at_ok T V HA LV L2 t) as (q & E). rewrite E.
      assert (0 < q)%Q as Hq.
      { assert (1 <= max * Z.of_nat 1 / n) as X1 by (apply Z.div_le_lower_bound; lia).
        assert (nth 1 V 0 == inject_Z (max * Z.of_nat 1 / n))%Q as X2 by (subst V; rewrite cont_data_nth by lia; reflexivity).
        pose proof E as E0. apply at_cases in E as [[B ->]|[[B ->]|(i & B & C & Eq)]]; auto; try lia.
        - rewrite VN. apply inj_pos. lia.
        - destruct i.
          + subst q. rewrite V0, X2.
            pose proof (frac_bounds t (nth 0 T 0) (nth 1 T 0) ltac:(lia) ltac:(lia)) as [F _].
            pose proof (inj_pos (max * Z.of_nat 1 / n) ltac:(lia)).
            pose proof (Qmul_pos (inject_Z (max * Z.of_nat 1 / n)) _ ltac:(lra) F). unfold Qminus in *. lra.
          + pose proof (at_between T V HA LV L2 HV t q (S i) E0 B C) as [G _].
            pose proof (HV 1%nat (S i) ltac:(lia) ltac:(lia)) as G'. rewrite X2 in G'.
            pose proof (inj_pos (max * Z.of_nat 1 / n) ltac:(lia)). lra. }
      pose proof (Qceil_bounds q) as [X _]. assert (0 < inject_Z (Qceil q))%Q as Y by lra.
      change 0%Q with (inject_Z 0) in Y. rewrite <- Zlt_Qlt in Y. lia.
    + intros _ k K0 K1. destruct (Z.ltb_spec (r_time r + k * ts) (r_time r)); [nia|].
      assert (k < n) as Kn by nia.
      assert (nth (Z.to_nat k) T 0 = r_time r + k * ts) as TK.
      { subst T. rewrite cont_times_nth by lia. destruct (Nat.eqb_spec (Z.to_nat k) (Z.to_nat n)); [lia|].
        rewrite Z2Nat.id by lia. lia. }
      rewrite <- TK. destruct (at_ok T V HA LV L2 (nth (Z.to_nat k) T 0)) as (q & E). rewrite E.
      apply Qceil_Z. rewrite (at_grid T V HA LV L2 (Z.to_nat k) q) by (auto; lia).
      subst V. rewrite cont_data_nth by lia. rewrite Z2Nat.id by lia. reflexivity.
Qed.

Lemma steps_unique : forall d ts k k', 0 < ts \/ d = 0 -> steps_for d ts k -> steps_for d ts k' -> k = k'.
Proof. intros d ts k k' H (A & B) (A' & B'). nia. Qed.

(** ** C13 *)
Theorem count_thm : forall r ts r', wf r -> prepare r ts = Ok r' ->
  exists k n, steps_for (duration r) ts k /\ intended r ts n /\ k <= n /\
    exists c, (forall t, after_time r' t = Ok (c t)) /\
      (forall t, 0 <= c t <= n) /\
      (forall t, t < r_time r -> c t = 0) /\
      (forall t, r_time r < t -> 1 <= c t) /\
      (forall t, end_time r <= t -> c t = n) /\
      (forall t t', t <= t' -> c t <= c t') /\
      (0 < duration r -> forall j, 0 <= j -> j * ts < duration r -> c (r_time r + j * ts) = n * j / k).
Proof.
  intros r ts r' W E. destruct (prepare_spec r ts r' W E) as (k & n & tb & pt & A & B & C & D & F & G & H & I & J).
  exists k, n. split; auto. split; auto. split; auto.
  destruct (after_spec r ts k n tb r' _ pt W D C A G I J) as (c & X & (Y1 & Y2 & Y3 & Y4 & Y5 & Y6)).
  exists c. tauto.
Qed.

Theorem prepare_ok : forall r ts k n, wf r -> ts <> 0 -> (r_time r < end_time r -> sec_us <= ts) ->
  steps_for (duration r) ts k -> intended r ts n -> k <= n -> exists r', prepare r ts = Ok r'.
Proof.
  intros r ts k n (W1 & W2 & W3) Ht Hs Hk Hi Hkn. unfold prepare. cbv zeta.
  set (r0 := match r_prep r with Some _ => rewind_release r | None => r end) in *.
  assert (same_rel r0 r /\ duration r0 = duration r /\ end_time r0 = end_time r /\ end_pos r0 = end_pos r) as (S0 & D0 & E0 & P0).
  { subst r0. destruct (r_prep r); repeat split. }
  destruct S0 as (F0 & F1 & F2 & F3 & F4 & F5 & F6 & F7). clearbody r0.
  assert ((ts <? sec_us) && negb (end_time r0 =? r_time r0) = false) as ->.
  { destruct (Z.ltb_spec ts sec_us); [|reflexivity]. destruct (Z.eqb_spec (end_time r0) (r_time r0)); [reflexivity|].
    rewrite E0, F1 in *. specialize (Hs ltac:(lia)). lia. }
  assert (0 <= duration r) as Hd by (unfold duration; lia).
  assert (num_steps r0 ts = Ok k) as En.
  { unfold num_steps. destruct (Z.eqb_spec ts 0); [lia|]. f_equal. rewrite D0.
    assert (num_steps r ts = Ok (if ceil_div (duration r) ts =? 0 then 1 else ceil_div (duration r) ts)) as X.
    { unfold num_steps. destruct (Z.eqb_spec ts 0); [lia|reflexivity]. }
    apply num_steps_spec in X; [|auto|].
    - eapply steps_unique; [|exact X|exact Hk]. destruct (Z.eq_dec (duration r) 0); [auto|left].
      unfold duration, sec_us in *. specialize (Hs ltac:(lia)). lia.
    - intros K. unfold duration, sec_us in *. specialize (Hs ltac:(lia)). lia. }
  assert (1 <= k) as K1 by apply Hk.
  assert (exists q, ratio r0 ts = Ok q /\ Qle_bool 1 q = true) as (q & Eq & Hq).
  { unfold ratio. rewrite F3, F4, En. unfold intended in Hi. destruct (r_num r) as [m|], (r_per r) as [p|]; try contradiction.
    - inversion Hi; subst. cbn. eexists. split; [reflexivity|]. apply Qle_bool_iff.
      pose proof (inj_pos k ltac:(lia)). apply Qle_shift_div_l; auto. rewrite Qmult_1_l, <- Zle_Qle. exact Hkn.
    - destruct Hi as (k' & Hk' & ->). eexists. split; [reflexivity|]. apply Qle_bool_iff.
      change 1%Q with (inject_Z 1). rewrite <- Zle_Qle. destruct Hk' as [? _]. nia. }
  rewrite Eq. cbn [bind]. rewrite Hq. cbn [negb]. rewrite En. cbn [bind].
  assert (match r_per r0, r_num r0 with Some p, _ => Ok (p * k) | None, Some m => Ok m | None, None => Raise TypeErr end = Ok n) as ->.
  { rewrite F3, F4. unfold intended in Hi. destruct (r_per r) as [p|].
    - destruct Hi as (k' & Hk' & ->). do 2 f_equal. eapply steps_unique; [|exact Hk|exact Hk'].
      destruct (Z.eq_dec (duration r) 0); [auto|left]. unfold duration, sec_us in *. specialize (Hs ltac:(lia)). lia.
    - rewrite Hi. reflexivity. }
  cbn [bind].
  assert (exists tb, table r0 k n ts = Ok tb /\ length (fst tb) = Z.to_nat (k + 1)) as (tb & -> & LT).
  { destruct (Z.eq_dec (duration r) 0) as [D|D].
    - assert (k = 1) as -> by (destruct Hk as [_ [[_ K]|[K _]]]; lia).
      eexists. split; [apply table_inst; congruence|reflexivity].
    - assert (sec_us <= ts) by (apply Hs; unfold duration in *; lia).
      eexists. split; [apply table_cont; rewrite ?D0; auto; unfold sec_us in *; lia|].
      cbn [fst]. rewrite cont_times_length by lia. lia. }
  cbn [bind].
  assert (exists pt, pos_table r0 k (fst tb) = Ok pt) as (pt & ->).
  { unfold pos_table. destruct (r_line r0); [|eauto]. eexists. apply (mapM_ok _ (fun p => (fst tb, linspace (fst p) (snd p) (Z.to_nat (k + 1))))). intros [a b] _.
    unfold mk_series. rewrite linspace_length, LT, Nat.eqb_refl. reflexivity. }
  cbn [bind]. destruct (Z.eqb_spec n 0); [lia|]. eauto.
Qed.

(** ** Positions *)
Lemma idx_unique : forall T t i j, ascending T = true -> (S i < length T)%nat -> (S j < length T)%nat ->
  nth i T 0 < t <= nth (S i) T 0 -> nth j T 0 < t <= nth (S j) T 0 -> i = j.
Proof.
  intros T t i j HA Hi Hj Bi Bj. destruct (Nat.lt_trichotomy i j) as [L|[L|L]]; auto; exfalso.
  - destruct (Nat.eq_dec (S i) j) as [<-|]; [lia|]. pose proof (ascending_lt T (S i) j 0 HA ltac:(lia) ltac:(lia)). lia.
  - destruct (Nat.eq_dec (S j) i) as [<-|]; [lia|]. pose proof (ascending_lt T (S j) i 0 HA ltac:(lia) ltac:(lia)). lia.
Qed.

Definition val (s : series) (t : Z) : Q := match at_time s t with Ok q => q | Raise _ => 0%Q end.
Definition frac (T : list Z) (t : Z) : Q := val (T, linspace 0 1 (length T)) t.

Lemma linspace_frac : forall a b n k, (2 <= n)%nat -> (k < n)%nat ->
  (nth k (linspace a b n) 0 == a + nth k (linspace 0 1 n) 0 * (b - a))%Q.
Proof.
  intros a b n k H2 Hk. rewrite !linspace_nth by lia.
  assert (~ inject_Z (Z.of_nat n - 1) == 0)%Q by (pose proof (inj_pos (Z.of_nat n - 1) ltac:(lia)); lra).
  field. auto.
Qed.
Lemma linspace_01 : forall n k, (2 <= n)%nat -> (k < n)%nat -> (0 <= nth k (linspace 0 1 n) 0 <= 1)%Q.
Proof.
  intros n k H2 Hk. rewrite !linspace_nth by lia. pose proof (inj_pos (Z.of_nat n - 1) ltac:(lia)) as P.
  setoid_replace (0 + inject_Z (Z.of_nat k) * ((1 - 0) / inject_Z (Z.of_nat n - 1)))%Q
    with (inject_Z (Z.of_nat k) / inject_Z (Z.of_nat n - 1))%Q by (field; lra).
  split.
  - apply Qle_shift_div_l; auto. rewrite Qmult_0_l. apply inj_nonneg. lia.
  - apply Qle_shift_div_r; auto. rewrite Qmult_1_l, <- Zle_Qle. lia.
Qed.
Lemma linspace_nondec : forall n, (2 <= n)%nat -> nondec (linspace 0 1 n).
Proof.
  intros n H2 i j Hij Hj. rewrite linspace_length in Hj. rewrite !linspace_nth by lia.
  pose proof (inj_pos (Z.of_nat n - 1) ltac:(lia)) as P.
  assert (0 <= (1 - 0) / inject_Z (Z.of_nat n - 1))%Q as P' by (apply Qle_shift_div_l; auto; lra).
  assert (inject_Z (Z.of_nat i) <= inject_Z (Z.of_nat j))%Q as Q' by (rewrite <- Zle_Qle; lia).
  pose proof (mul_mono _ _ _ P' Q'). lra.
Qed.

Section pos.
Variable T : list Z.
Hypothesis HA : ascending T = true.
Hypothesis H2 : (2 <= length T)%nat.
Let L01 := linspace 0 1 (length T).

Lemma at_line : forall a b t, exists v,
  at_time (T, linspace a b (length T)) t = Ok v /\ (v == a + frac T t * (b - a))%Q.
Proof.
  intros a b t. unfold frac, val.
  pose proof (linspace_length a b (length T)) as LD. pose proof (linspace_length 0 1 (length T)) as L0.
  destruct (Z.le_gt_cases t (nth 0 T 0)) as [A|A].
  - rewrite !at_before by auto. eexists. split; [reflexivity|]. apply linspace_frac; lia.
  - destruct (Z.le_gt_cases t (nth (length T - 1) T 0)) as [B|B].
    + destruct (at_inner T (linspace a b (length T)) t HA LD H2 A B) as (i & I1 & I2 & ->).
      destruct (at_inner T (linspace 0 1 (length T)) t HA L0 H2 A B) as (j & J1 & J2 & ->).
      assert (i = j) as <- by (apply (idx_unique T t); auto).
      eexists. split; [reflexivity|].
      rewrite (linspace_frac a b (length T) i), (linspace_frac a b (length T) (S i)) by lia. ring.
    + rewrite !at_after by auto. eexists. split; [reflexivity|]. rewrite LD, L0. apply linspace_frac; lia.
Qed.
Lemma frac_01 : forall t, (0 <= frac T t <= 1)%Q.
Proof.
  intros t. unfold frac, val. pose proof (linspace_length 0 1 (length T)) as L0.
  destruct (at_ok T _ HA L0 H2 t) as (q & E). rewrite E.
  pose proof (at_range T _ HA L0 H2 (linspace_nondec _ H2) t q E) as [X Y].
  pose proof (linspace_01 (length T) 0 H2 ltac:(lia)). pose proof (linspace_01 (length T) (length T - 1) H2 ltac:(lia)). lra.
Qed.
End pos.

Lemma rows_spec : forall A (F : A -> list Q) (ps : list A) n, (forall p, In p ps -> length (F p) = n) ->
  rows n (map F ps) = map (fun i => map (fun p => nth i (F p) 0%Q) ps) (seq 0 n).
Proof.
  intros A F ps n. revert F. induction n as [|n IH]; intros F H; [reflexivity|]. cbn [rows seq map]. f_equal.
  - rewrite map_map. apply map_ext. intros p. destruct (F p); reflexivity.
  - rewrite map_map. rewrite (IH (fun p => tl (F p))).
    + rewrite <- seq_shift, map_map. apply map_ext_in. intros i Hi. apply map_ext_in. intros p Hp.
      specialize (H p Hp). destruct (F p); [discriminate|reflexivity].
    + intros p Hp. specialize (H p Hp). destruct (F p); cbn in *; lia.
Qed.

Lemma Forall2_map_r : forall A B (R : A -> B -> Prop) f l, (forall x, In x l -> R x (f x)) -> Forall2 R l (map f l).
Proof. intros A B R f l. induction l; intros H; cbn; constructor; [apply H; left; auto|apply IHl; intros; apply H; right; auto]. Qed.

(** Where a point of a sub-segment lies on the segment. *)
Lemma linspace_seg : forall a b g0 g1 x y n k, (0 <= g0 <= 1)%Q -> (0 <= g1 <= 1)%Q -> (k < n)%nat ->
  (x == a + g0 * (b - a))%Q -> (y == a + g1 * (b - a))%Q ->
  (nth k (linspace x y n) 0 ==
     a + (g0 + (if (n =? 1)%nat then 0 else inject_Z (Z.of_nat k) / inject_Z (Z.of_nat n - 1)) * (g1 - g0)) * (b - a))%Q.
Proof.
  intros a b g0 g1 x y n k H0 H1 Hk Hx Hy. destruct (Nat.eqb_spec n 1) as [->|N].
  - assert (k = O) as -> by lia. cbn. rewrite Hx. ring.
  - rewrite linspace_nth by lia. rewrite Hx, Hy. field. pose proof (inj_pos (Z.of_nat n - 1) ltac:(lia)). lra.
Qed.

Lemma table_shape : forall r ts n max tb, wf r -> steps_for (duration r) ts n -> good_table r ts n max tb ->
  ascending (fst tb) = true /\ length (fst tb) = Z.to_nat (n + 1) /\ (2 <= length (fst tb))%nat.
Proof.
  intros r ts n max tb W Hs [[D ->]|(D & Ht & ->)]; cbn [fst].
  - assert (n = 1) as -> by (destruct Hs as [_ [[_ K]|[K _]]]; lia). split; [|split; [reflexivity|cbn; lia]].
    apply (ascending_intro _ 0). intros [|k] L; cbn in *; unfold sec_us; lia.
  - destruct Hs as (Hn & [[D0 _]|(_ & Hk)]); [lia|]. rewrite cont_times_length by lia.
    split; [apply cont_times_asc; lia|lia].
Qed.

Lemma init_spec : forall r ts k max tb pt r' m n t0 t1, wf r -> r_line r = true -> steps_for (duration r) ts k ->
  good_table r ts k max tb -> pos_table r k (fst tb) = Ok pt -> same_rel r' r -> r_prep r' = Some (mkPrep tb m pt) -> 0 <= n ->
  exists l, init_pointline r' n t0 t1 = Ok l /\ length l = Z.to_nat n /\
    Forall (fun e => e_mass e = m /\ e_init e = m /\ on_segment (r_start_pos r) (end_pos r) (e_pos e)) l.
Proof.
  intros r ts k max tb pt r' m n t0 t1 W HL Hs Hg Hp (_ & _ & _ & _ & _ & _ & _) Ep Hn.
  destruct (table_shape r ts k max tb W Hs Hg) as (HA & HT & H2).
  unfold init_pointline. rewrite Ep.
  match goal with |- context [if ?b then (?x, ?y) else (t0, t1)] => destruct (if b then (x, y) else (t0, t1)) as [u0 v1] end.
  cbv zeta.
  set (u1 := if u0 =? v1 then v1 + sec_us else v1). clearbody u1. clear v1. cbn [p_pos p_mass].
  assert (pt = map (fun p => (fst tb, linspace (fst p) (snd p) (length (fst tb)))) (combine (r_start_pos r) (end_pos r))) as ->.
  { unfold pos_table in Hp. rewrite HL in Hp.
    rewrite (mapM_ok _ (fun p => (fst tb, linspace (fst p) (snd p) (length (fst tb))))) in Hp; [congruence|].
    intros [a b] _. unfold mk_series. rewrite linspace_length, HT, Nat.eqb_refl. reflexivity. }
  set (ps := combine (r_start_pos r) (end_pos r)). set (T := fst tb) in *.
  set (ser := fun p : Q * Q => (T, linspace (fst p) (snd p) (length T))).
  assert (forall t, mapM (fun s => at_time s t) (map ser ps) = Ok (map (fun p => val (ser p) t) ps)) as HM.
  { intros t. rewrite <- (map_map ser (fun s => val s t)). apply mapM_ok. intros s Hin. apply in_map_iff in Hin as (p & <- & _).
    unfold val. destruct (at_line T HA H2 (fst p) (snd p) t) as (v & E & _). unfold ser. rewrite E. reflexivity. }
  rewrite !HM. cbn [bind].
  set (F := fun p => linspace (val (ser p) u0) (val (ser p) u1) (Z.to_nat n)).
  assert (map (fun '(x, y) => linspace x y (Z.to_nat n)) (combine (map (fun p => val (ser p) u0) ps) (map (fun p => val (ser p) u1) ps)) = map F ps) as ->.
  { clear. induction ps as [|p ps IH]; cbn; [reflexivity|]. rewrite IH. reflexivity. }
  rewrite (rows_spec _ F ps (Z.to_nat n)) by (intros p _; apply linspace_length).
  eexists. split; [reflexivity|]. split; [rewrite !map_length, seq_length; reflexivity|].
  apply Forall_forall. intros e He. apply in_map_iff in He as (x & <- & Hx). apply in_map_iff in Hx as (i & <- & Hi).
  apply in_seq in Hi. cbn. split; [reflexivity|]. split; [reflexivity|].
  pose proof (frac_01 T HA H2 u0) as [A0 A1]. pose proof (frac_01 T HA H2 u1) as [B0 B1].
  set (w := (if (Z.to_nat n =? 1)%nat then 0 else inject_Z (Z.of_nat i) / inject_Z (Z.of_nat (Z.to_nat n) - 1))%Q).
  assert (0 <= w <= 1)%Q as [W0 W1].
  { subst w. destruct (Nat.eqb_spec (Z.to_nat n) 1); [lra|].
    pose proof (inj_pos (Z.of_nat (Z.to_nat n) - 1) ltac:(lia)) as P. split.
    - apply Qle_shift_div_l; auto. rewrite Qmult_0_l. apply inj_nonneg. lia.
    - apply Qle_shift_div_r; auto. rewrite Qmult_1_l, <- Zle_Qle. lia. }
  exists (frac T u0 + w * (frac T u1 - frac T u0))%Q. split.
  - pose proof (mul_bound (frac T u0) (1 - w) A0 ltac:(lra)). pose proof (mul_bound (frac T u1) w B0 ltac:(lra)).
    pose proof (mul_bound (1 - frac T u0) (1 - w) ltac:(lra) ltac:(lra)). pose proof (mul_bound (1 - frac T u1) w ltac:(lra) ltac:(lra)).
    split; lra.
  - apply Forall2_map_r. intros [a b] Hin. cbn [fst snd]. unfold F, ser. cbn [fst snd].
    unfold val. destruct (at_line T HA H2 a b u0) as (x & -> & Ex). destruct (at_line T HA H2 a b u1) as (y & -> & Ey).
    apply (linspace_seg a b _ _ x y (Z.to_nat n) i); auto; lia.
Qed.

(** ** C14, C15, C67: a spill's releases *)
Lemma calls_spec : forall r' (c : Z -> Z) (P : elem -> Prop),
  (forall t, after_time r' t = Ok (c t)) -> (forall t t', t <= t' -> c t <= c t') ->
  (forall n t0 t1, 0 <= n -> exists l, init_pointline r' n t0 t1 = Ok l /\ length l = Z.to_nat n /\ Forall P l) ->
  forall calls s, s_rel s = r' -> exists s' l, release_calls s calls = Ok (s', l) /\ s_rel s' = r' /\
    s_count s' = Z.max (s_count s) (match latest calls with Some t => c t | None => s_count s end) /\
    Z.of_nat (length l) = s_count s' - s_count s /\ Forall P l.
Proof.
  intros r' c P HC HM HI calls. induction calls as [|[[on t0] t1] calls IH]; intros s Hs.
  - exists s, []. cbn. repeat split; auto; lia.
  - cbn [release_calls]. unfold release_step at 1. cbn [s_on s_rel s_count].
    destruct on; cbn [negb].
    + rewrite Hs, HC. cbn [bind]. destruct (Z.leb_spec (c t1 - s_count s) 0).
      * cbn [bind]. destruct (IH (mkSpill true r' (s_count s)) eq_refl) as (s' & l & E & A & B & C & D).
        rewrite E. cbn [bind]. exists s', l. split; [reflexivity|]. split; auto. cbn [s_count] in *.
        split; [|split; auto].
        rewrite B. cbn [latest]. destruct (latest calls) as [t|]; [|lia].
        destruct (Z.max_spec t1 t) as [[Hm ->]|[Hm ->]]; 
          [pose proof (HM t1 t ltac:(lia))|pose proof (HM t t1 ltac:(lia))]; lia.
      * destruct (HI (c t1 - s_count s) t0 t1 ltac:(lia)) as (l1 & E1 & L1 & P1). rewrite E1. cbn [bind].
        destruct (IH (mkSpill true r' (s_count s + (c t1 - s_count s))) eq_refl) as (s' & l & E & A & B & C & D).
        rewrite E. cbn [bind]. cbn [s_count] in *. exists s', (l1 ++ l). split; [reflexivity|]. split; auto.
        split; [|split; [rewrite app_length; lia|apply Forall_app; auto]].
        rewrite B. cbn [latest]. destruct (latest calls) as [t|]; [|lia].
        destruct (Z.max_spec t1 t) as [[Hm ->]|[Hm ->]];
          [pose proof (HM t1 t ltac:(lia))|pose proof (HM t t1 ltac:(lia))]; lia.
    + cbn [bind]. destruct (IH (mkSpill false (s_rel s) (s_count s)) Hs) as (s' & l & E & A & B & C & D).
      rewrite E. cbn [bind]. exists s', l. split; [reflexivity|]. split; auto. cbn [s_count] in *. split; [|split; auto].
      rewrite B. cbn [latest]. destruct (latest calls); reflexivity.
Qed.

Lemma masses_const : forall l m, Forall (fun e => e_init e = m) l -> (masses l == m * inject_Z (Z.of_nat (length l)))%Q.
Proof.
  induction 1 as [|e l E H IH].
  - cbn. ring.
  - cbn [length]. rewrite inject_Z_nat_S. unfold masses in *. cbn [map fold_right]. rewrite IH, E. ring.
Qed.

Theorem calls_thm : forall r ts r', wf r -> r_line r = true -> prepare r ts = Ok r' ->
  exists n, intended r ts n /\ 1 <= n /\
  forall on calls, exists s l, release_calls (mkSpill on r' 0) calls = Ok (s, l) /\
    Z.of_nat (length l) = s_count s /\ 0 <= s_count s <= n /\
    (match latest calls with
     | None => s_count s = 0
     | Some t => after_time r' t = Ok (s_count s) /\ (end_time r <= t -> s_count s = n)
     end) /\
    Forall (fun e => e_mass e = (r_mass r / inject_Z n)%Q /\ e_init e = (r_mass r / inject_Z n)%Q /\
                     on_segment (r_start_pos r) (end_pos r) (e_pos e)) l /\
    (masses l == r_mass r * (inject_Z (s_count s) / inject_Z n))%Q.
Proof.
  intros r ts r' W HL E. destruct (prepare_spec r ts r' W E) as (k & n & tb & pt & A & B & C & D & F & G & H & I & J).
  destruct (after_spec r ts k n tb r' _ pt W D C A G I J) as (c & X & (Y1 & Y2 & Y3 & Y4 & Y5 & Y6)).
  exists n. split; auto. split; auto. intros on calls.
  destruct (calls_spec r' c _ X Y4 (fun q t0 t1 Hq => init_spec r ts k n tb pt r' _ q t0 t1 W HL A G H I J Hq) calls
     (mkSpill on r' 0) eq_refl) as (s & l & E1 & E2 & E3 & E4 & E5).
  exists s, l. cbn [s_count] in *. split; auto. split; [lia|].
  assert (0 <= s_count s <= n) as HR. { destruct (latest calls) as [t|]; [pose proof (Y1 t)|]; lia. }
  split; auto. split.
  - destruct (latest calls) as [t|]; [|lia]. pose proof (Y1 t). rewrite X. split; [f_equal; lia|].
    intros K. rewrite E3, (Y3 t K). lia.
  - split; auto. rewrite (masses_const l (r_mass r / inject_Z n)%Q).
    + replace (Z.of_nat (length l)) with (s_count s) by lia. field. pose proof (inj_pos n ltac:(lia)). lra.
    + eapply Forall_impl; [|exact E5]. cbn. tauto.
Qed.

(** ** Custom positions *)
Lemma Ok_inj : forall A (x y : A), Ok x = Ok y -> x = y.
Proof. intros A x y H. inversion H. reflexivity. Qed.

Lemma count_occ_concat_repeat : forall A (dec : forall x y : A, {x = y} + {x <> y}) l k x,
  count_occ dec (concat (repeat l k)) x = (k * count_occ dec l x)%nat.
Proof. intros A dec l k x. induction k; cbn; [reflexivity|]. rewrite count_occ_app, IHk. reflexivity. Qed.
Lemma concat_repeat_length : forall A (l : list A) k, length (concat (repeat l k)) = (k * length l)%nat.
Proof. intros. induction k; cbn; [reflexivity|]. rewrite app_length, IHk. reflexivity. Qed.
Lemma count_occ_le : forall A (dec : forall x y : A, {x = y} + {x <> y}) l x, (count_occ dec l x <= length l)%nat.
Proof. intros. induction l; cbn; [lia|]. destruct (dec a x); lia. Qed.

Lemma mapM_In : forall A B (f : A -> res B) l l', mapM f l = Ok l' -> length l' = length l /\ forall y, In y l' -> exists x, In x l /\ f x = Ok y.
Proof.
  intros A B f l. induction l as [|x l IH]; intros l' H; cbn in H.
  - inversion H; subst. split; auto. intros y [].
  - destruct (f x) as [y|] eqn:E; [|discriminate]. cbn in H. destruct (mapM f l) as [l2|]; [|discriminate]. inversion H; subst.
    destruct (IH l2 eq_refl) as [L I]. split; [cbn; lia|]. intros z [<-|Hz]; [exists x; split; [left|]; auto|].
    destruct (I z Hz) as (w & Hw & Ew). exists w. split; [right|]; auto.
Qed.
Lemma py_get_In : forall A (l : list A) i x, py_get l i = Ok x -> In x l.
Proof.
  intros A l i x H. unfold py_get in H. destruct (py_pos _ _) as [k|]; [|discriminate].
  destruct (nth_error l k) eqn:E; [|discriminate]. inversion H; subst. eapply nth_error_In; eauto.
Qed.

Theorem custom_thm : forall mass pos rand n l, 0 <= n -> init_custom mass pos rand n = Ok l ->
  Z.of_nat (length l) = n /\
  (forall e, In e l -> In (e_pos e) pos /\ e_mass e = mass /\ e_init e = mass) /\
  (forall dec p, let k := Z.of_nat (length pos) in
     let uses := Z.of_nat (count_occ dec (map e_pos l) p) in let given := Z.of_nat (count_occ dec pos p) in
     n / k * given <= uses <= n / k * given + n mod k).
Proof.
  intros mass pos rand n l Hn E. unfold init_custom in E. destruct pos as [|p0 pos]; [discriminate|].
  set (ps := p0 :: pos) in *. cbv zeta in E.
  destruct (mapM _ _) as [ex|] eqn:Em; [|discriminate]. cbn [bind] in E.
  destruct (Nat.eqb_spec (length (concat (repeat ps (Z.to_nat (n / Z.of_nat (length ps)))) ++ ex)) (Z.to_nat n)) as [L|]; [|discriminate].
  apply Ok_inj in E. subst l. rewrite map_length, L. apply mapM_In in Em as [Lx Ix].
  assert (1 <= Z.of_nat (length ps)) as K by (subst ps; cbn [length]; lia). set (k := Z.of_nat (length ps)) in *.
  pose proof (Z.div_pos n k Hn ltac:(lia)). pose proof (Z.mod_pos_bound n k ltac:(lia)). pose proof (Z.div_mod n k ltac:(lia)).
  split; [lia|]. split.
  - intros e He. apply in_map_iff in He as (x & <- & Hx). cbn [e_pos e_mass e_init]. split; [|auto]. apply in_app_iff in Hx as [Hx|Hx].
    + apply in_concat in Hx as (l0 & Hl & Hx). apply repeat_spec in Hl. subst l0. auto.
    + destruct (Ix x Hx) as (i & _ & Hi). exact (py_get_In _ ps _ _ Hi).
  - intros dec p. cbv zeta. rewrite map_map. cbn [e_pos]. rewrite map_id, count_occ_app, count_occ_concat_repeat.
    pose proof (count_occ_le _ dec ex p). rewrite app_length, concat_repeat_length in L.
    assert (length ex <= Z.to_nat (n mod k))%nat by (rewrite Lx, firstn_length; lia). nia.
Qed.

(** ** Rewind *)
Lemma do_rop_same : forall r o, same_rel (do_rop r o) r.
Proof.
  intros r [ts|v t1|]; cbn; [|repeat split|repeat split].
  destruct (prepare r ts) as [r'|] eqn:E; [|repeat split]. unfold prepare in E. cbv zeta in E.
  set (r0 := match r_prep r with Some _ => rewind_release r | None => r end) in *.
  assert (same_rel r0 r) as S0 by (subst r0; destruct (r_prep r); repeat split). clearbody r0.
  destruct (_ && _); [discriminate|]. destruct (ratio r0 ts); [|discriminate]. cbn [bind] in E.
  destruct (negb _); [discriminate|]. destruct (num_steps r0 ts) as [n|]; [|discriminate]. cbn [bind] in E.
  match type of E with bind ?x _ = _ => destruct x as [max|]; [|discriminate] end. cbn [bind] in E.
  destruct (table r0 n max ts) as [tb|]; [|discriminate]. cbn [bind] in E.
  destruct (pos_table r0 n (fst tb)); [|discriminate]. cbn [bind] in E.
  destruct (max =? 0); [discriminate|]. inversion E; subst. exact S0.
Qed.
Lemma same_trans : forall a b c, same_rel a b -> same_rel b c -> same_rel a c.
Proof. unfold same_rel. intros a b c H1 H2. decompose [and] H1. decompose [and] H2. repeat split; congruence. Qed.
Lemma ops_same : forall ops r, same_rel (fold_left do_rop ops r) r.
Proof.
  induction ops as [|o ops IH]; intros r; cbn; [repeat split|].
  eapply same_trans; [apply IH|apply do_rop_same].
Qed.
Theorem rewind_base : forall ops r, r_line r = false -> rewind_release (fold_left do_rop ops r) = rewind_release r.
Proof.
  intros ops r H. destruct (ops_same ops r) as (A & B & C & D & E & F & G & I). unfold rewind_release.
  rewrite A, B, C, D, E, F, G, I, H. reflexivity.
Qed.
Theorem rewind_counts : forall ops r ts t0 t1,
  let a := rewind_release (fold_left do_rop ops r) in let b := rewind_release r in
  (forall ra, prepare a ts = Ok ra -> exists rb, prepare b ts = Ok rb /\
     after_time ra t1 = after_time rb t1 /\ forall n, init_pointline ra n t0 t1 = init_pointline rb n t0 t1) /\
  (forall e, prepare a ts = Raise e -> prepare b ts = Raise e).
Proof.
  intros ops r ts t0 t1. cbv zeta. destruct (ops_same ops r) as (A & B & C & D & E & F & G & I).
  unfold rewind_release. rewrite A, B, C, D, E, F, G, I.
  generalize (if r_line r then r_prev (fold_left do_rop ops r) else 0%Q) as p.
  generalize (if r_line r then r_prev r else 0%Q) as p'. intros p' p. clear.
  set (ra := mkRel _ _ _ _ _ _ _ _ p None). set (rb := mkRel _ _ _ _ _ _ _ _ p' None).
  unfold prepare. cbv zeta. cbn [r_prep ra rb].
  change (end_time ra) with (end_time rb). change (r_time ra) with (r_time rb).
  destruct (_ && _); [split; congruence|].
  change (ratio ra ts) with (ratio rb ts). destruct (ratio rb ts); cbn [bind]; [|split; congruence].
  destruct (negb _); [split; congruence|].
  change (num_steps ra ts) with (num_steps rb ts). destruct (num_steps rb ts) as [n|]; cbn [bind]; [|split; congruence].
  change (r_per ra) with (r_per rb). change (r_num ra) with (r_num rb).
  match goal with |- context [bind ?x _] => destruct x as [max|] end; cbn [bind]; [|split; congruence].
  change (table ra n max ts) with (table rb n max ts). destruct (table rb n max ts) as [tb|]; cbn [bind]; [|split; congruence].
  change (pos_table ra n (fst tb)) with (pos_table rb n (fst tb)). destruct (pos_table rb n (fst tb)); cbn [bind]; [|split; congruence].
  destruct (max =? 0); [split; congruence|]. split; [|congruence].
  intros x Hx. inversion Hx; subst. eexists. split; [reflexivity|]. split; reflexivity.
Qed.

(** ** num_per_timestep *)
Theorem per_step_thm : forall r ts r' p, wf r -> r_per r = Some p -> 0 < duration r -> prepare r ts = Ok r' ->
  forall j, 0 <= j -> (j + 1) * ts <= duration r ->
  exists a b, after_time r' (r_time r + j * ts) = Ok a /\ after_time r' (r_time r + (j + 1) * ts) = Ok b /\ b - a = p.
Proof.
  intros r ts r' p W Ep D E j Hj Hd. destruct (count_thm r ts r' W E) as (k & n & A & B & C & c & X & Y1 & Y2 & Y3 & Y4 & Y5 & Y6).
  unfold intended in B. rewrite Ep in B. destruct B as (k' & Hk' & ->).
  destruct (prepare_spec r ts r' W E) as (_ & _ & _ & _ & _ & _ & _ & _ & Ht & _). specialize (Ht D). unfold sec_us in Ht.
  assert (k' = k) as -> by (apply (steps_unique (duration r) ts); [left; lia|exact Hk'|exact A]).
  destruct A as (K1 & [[D0 _]|(_ & Hk)]); [lia|].
  do 2 eexists. split; [apply X|]. split; [apply X|].
  rewrite (Y6 D j Hj) by lia.
  assert (p * k * j / k = p * j) as -> by (replace (p * k * j) with (p * j * k) by ring; apply Z.div_mul; lia).
  destruct (Z.eq_dec ((j + 1) * ts) (duration r)) as [Ee|Ne].
  - rewrite Y4 by (rewrite end_is; lia). assert (k = j + 1) by nia. subst k. ring.
  - rewrite (Y6 D (j + 1)) by lia.
    replace (p * k * (j + 1)) with (p * (j + 1) * k) by ring. rewrite Z.div_mul by lia. ring.
Qed.

(** ** Construction *)
Theorem new_wf : forall line rt num per e mass sp ep r, new_release line rt num per e mass sp ep = Ok r ->
  (match ep with Some p => length p = length sp | None => True end) -> wf r /\ (0 <= r_mass r)%Q.
Proof.
  intros line rt num per e mass sp ep r E L. unfold new_release in E. cbv zeta in E.
  assert (forall n p, match n, p with Some _, Some _ => False | _, _ => True end ->
     (do (a, b) <- set_num n p; do e <- check_end rt e; Ok (mkRel line rt e a b (clip_mass mass) sp ep 0 None)) = Ok r -> wf r /\ (0 <= r_mass r)%Q) as K.
  { intros n p Hnp H. unfold set_num in H.
    assert (exists a b, (do e <- check_end rt e; Ok (mkRel line rt e a b (clip_mass mass) sp ep 0 None)) = Ok r /\
       match a, b with Some n, None => 0 <= n | None, Some _ => True | _, _ => False end) as (a & b & H' & Hab).
    { destruct n as [n|].
      - destruct (Z.ltb_spec n 0); [discriminate|]. exists (Some n), None. auto.
      - exists None, (match p with Some _ => p | None => Some 1 end). destruct p; auto. }
    destruct (check_end rt e) as [e'|] eqn:Ec; [|discriminate]. inversion H'; subst; clear H'.
    unfold wf, end_time, end_pos. cbn. split.
    - split; [|split; [destruct ep; auto|auto]].
      unfold check_end in Ec. destruct e as [v|]; [|inversion Ec; lia].
      destruct (Z.ltb_spec v rt); inversion Ec; subst. lia.
    - unfold clip_mass. destruct (Qle_bool 0 mass) eqn:Q0; [apply Qle_bool_iff; auto|lra]. }
  destruct num as [n|], per as [p|]; try discriminate; apply (K _ _) in E; auto.
Qed.

(** ** Whole spills *)

Lemma release_calls_same : forall ra rb,
  (forall t, after_time ra t = after_time rb t) ->
  (forall n t0 t1, init_pointline ra n t0 t1 = init_pointline rb n t0 t1) ->
  forall calls oa ob k,
  match release_calls (mkSpill oa ra k) calls, release_calls (mkSpill ob rb k) calls with
  | Ok (_, a), Ok (_, b) => a = b
  | Raise e, Raise e' => e = e'
  | _, _ => False
  end.
Proof.
  intros ra rb H1 H2. induction calls as [|[[on t0] t1] r IH]; intros oa ob k; cbn [release_calls]; [reflexivity|].
  cbn [s_rel s_count]. unfold release_step. cbn [s_on s_rel s_count].
  assert (Q : forall (oa ob : bool) k (l : list elem),
    match (do (s2, l2) <- release_calls (mkSpill oa ra k) r; Ok (s2, l ++ l2)),
          (do (s2, l2) <- release_calls (mkSpill ob rb k) r; Ok (s2, l ++ l2)) with
    | Ok (_, a), Ok (_, b) => a = b
    | Raise e, Raise e' => e = e'
    | _, _ => False
    end).
  { intros a b k' l. specialize (IH a b k').
    destruct (release_calls (mkSpill a ra k') r) as [[? ?]|]; destruct (release_calls (mkSpill b rb k') r) as [[? ?]|]; cbn; try contradiction; congruence. }
  destruct on; cbn [negb].
  - rewrite H1. destruct (after_time rb t1) as [e|]; cbn [bind]; [|reflexivity].
    destruct (e - k <=? 0); cbn [bind]; [apply (Q true true)|].
    rewrite H2. destruct (init_pointline rb (e - k) t0 t1) as [new|]; cbn [bind]; [|reflexivity]. apply Q.
  - cbn [bind]. apply (Q false false).
Qed.

Lemma rewind_spill : forall ops on k r ts calls sa sb,
  spill_prepare (spill_rewind (mkSpill on (fold_left do_rop ops r) k)) ts = Ok sa ->
  spill_prepare (mkSpill true (rewind_release r) 0) ts = Ok sb ->
  match release_calls sa calls, release_calls sb calls with
  | Ok (_, a), Ok (_, b) => a = b
  | Raise e, Raise e' => e = e'
  | _, _ => False
  end.
Proof.
  intros ops on k r ts calls sa sb. unfold spill_prepare, spill_rewind. cbn [s_rel s_on s_count].
  destruct (prepare (rewind_release (fold_left do_rop ops r)) ts) as [ra|] eqn:Ea; cbn [bind]; [|discriminate].
  destruct (prepare (rewind_release r) ts) as [rb|] eqn:Eb; cbn [bind]; [|discriminate].
  intros [= <-] [= <-]. apply release_calls_same.
  - intros t. destruct (rewind_counts ops r ts t t) as [Q _]. destruct (Q ra Ea) as [rb' [E [Q1 _]]]. congruence.
  - intros n t0 t1. destruct (rewind_counts ops r ts t0 t1) as [Q _]. destruct (Q ra Ea) as [rb' [E [_ Q1]]].
    rewrite Eb in E. injection E as <-. apply Q1.
Qed.

Lemma bulk_same r v t : let r' := fst (bulk_volume r v t) in
  r_time r' = r_time r /\ r_end r' = r_end r.
Proof. split; reflexivity. Qed.

Lemma bulk_exact : forall calls r vols t1, 0 < duration r ->
  (snd (bulk_volume (fold_left (fun r c => fst (bulk_volume r (fst c) (snd c))) calls r) vols t1)
   == r_prev r + early_volume r (calls ++ [(vols, t1)]))%Q.
Proof.
  induction calls as [|[v t] rest IH]; intros r vols t1 Hd.
  - unfold bulk_volume. cbn [fold_left app early_volume fold_right fst snd].
    destruct (Z.ltb_spec 0 (duration r)); [|lia].
    unfold early_volume, twelve_hours, sec_us; cbn [fold_right fst snd]. destruct (t1 <=? _); ring.
  - cbn [fold_left fst snd]. rewrite IH by exact Hd.
    unfold early_volume; cbn [app fold_right fst snd].
    unfold bulk_volume at 1; cbn [fst r_prev]. change (r_time (fst (bulk_volume r v t))) with (r_time r).
    unfold twelve_hours, sec_us. destruct (t <=? _); ring.
Qed.
