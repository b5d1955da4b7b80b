(** * Facts about the Python built-ins of Py.v *)
From Verif Require Import Py.
From Coq Require Import Sorting.Sorted Sorting.Permutation.

Ltac Zify.zify_post_hook ::= Z.div_mod_to_equations.

Lemma py_pos_nonneg n i : 0 <= i < Z.of_nat n -> py_pos n i = Some (Z.to_nat i).
Proof.
  intros H. unfold py_pos.
  destruct (Z.leb_spec 0 i); [|lia]. destruct (Z.ltb_spec i (Z.of_nat n)); [reflexivity|lia].
Qed.

Lemma py_pos_neg n i : - Z.of_nat n <= i < 0 -> py_pos n i = Some (Z.to_nat (i + Z.of_nat n)).
Proof.
  intros H. unfold py_pos.
  destruct (Z.leb_spec 0 i); [lia|]. destruct (Z.leb_spec (- Z.of_nat n) i); [reflexivity|lia].
Qed.

Lemma py_pos_out n i : i < - Z.of_nat n \/ Z.of_nat n <= i -> py_pos n i = None.
Proof.
  intros H. unfold py_pos.
  destruct (Z.leb_spec 0 i); [destruct (Z.ltb_spec i (Z.of_nat n)); [lia|reflexivity]|].
  destruct (Z.leb_spec (- Z.of_nat n) i); [lia|reflexivity].
Qed.

Lemma py_pos_lt n i k : py_pos n i = Some k -> (k < n)%nat.
Proof.
  unfold py_pos. destruct (Z.leb_spec 0 i).
  - destruct (Z.ltb_spec i (Z.of_nat n)); [intros [= <-]; lia|discriminate].
  - destruct (Z.leb_spec (- Z.of_nat n) i); [intros [= <-]; lia|discriminate].
Qed.

Lemma set_nth_length {A} k (x : A) l : length (set_nth k x l) = length l.
Proof. revert k; induction l as [|y r IH]; intros [|k]; cbn; auto. Qed.

Lemma nth_error_set_nth_eq {A} k (x : A) l :
  (k < length l)%nat -> nth_error (set_nth k x l) k = Some x.
Proof.
  revert k; induction l as [|y r IH]; intros [|k] H; cbn in *; auto; try lia.
  apply IH; lia.
Qed.

Lemma nth_error_set_nth_ne {A} k j (x : A) l :
  j <> k -> nth_error (set_nth k x l) j = nth_error l j.
Proof.
  revert k j; induction l as [|y r IH]; intros [|k] [|j] H; cbn in *; auto; try lia.
Qed.

Lemma set_nth_app_l {A} k (x : A) l1 l2 :
  (k < length l1)%nat -> set_nth k x (l1 ++ l2) = set_nth k x l1 ++ l2.
Proof.
  revert k; induction l1 as [|y r IH]; intros [|k] H; cbn in *; try lia; auto.
  f_equal. apply IH. lia.
Qed.

(** sorting *)
Lemma zinsert_perm x l : Permutation (zinsert x l) (x :: l).
Proof.
  induction l as [|y r IH]; cbn [zinsert]; auto.
  destruct (x <=? y); auto.
  rewrite IH. constructor.
Qed.

Lemma zsort_perm l : Permutation (zsort l) l.
Proof.
  induction l as [|x r IH]; cbn [zsort]; auto.
  rewrite zinsert_perm. constructor. exact IH.
Qed.

Lemma zinsert_sorted x l : StronglySorted Z.le l -> StronglySorted Z.le (zinsert x l).
Proof.
  induction 1 as [|y r Hs IH Hf]; cbn [zinsert].
  - repeat constructor.
  - destruct (Z.leb_spec x y).
    + constructor; [constructor; assumption|].
      constructor; [assumption|].
      rewrite Forall_forall in *. intros z Hz. specialize (Hf z Hz). lia.
    + constructor; [assumption|].
      rewrite Forall_forall in *. intros z Hz.
      apply (Permutation_in z (zinsert_perm x r)) in Hz.
      destruct Hz as [<-|Hz]; [lia|auto].
Qed.

Lemma zsort_sorted l : StronglySorted Z.le (zsort l).
Proof. induction l; cbn [zsort]; [constructor|apply zinsert_sorted; assumption]. Qed.

Lemma zsort_In x l : In x (zsort l) <-> In x l.
Proof.
  split; apply Permutation_in; [|symmetry]; apply zsort_perm.
Qed.

Lemma zsort_NoDup l : NoDup l -> NoDup (zsort l).
Proof. intros H. apply (Permutation_NoDup (Permutation_sym (zsort_perm l)) H). Qed.

Lemma zsort_length l : length (zsort l) = length l.
Proof. apply Permutation_length, zsort_perm. Qed.

(** Two strictly increasing lists with the same elements are equal. *)
Lemma sorted_lt_ext l1 l2 :
  StronglySorted Z.lt l1 -> StronglySorted Z.lt l2 ->
  (forall x, In x l1 <-> In x l2) -> l1 = l2.
Proof.
  intros H1. revert l2. induction H1 as [|x r1 Hs1 IH Hf1]; intros l2 H2 Hext.
  - destruct l2 as [|y r2]; auto. destruct (proj2 (Hext y)); left; auto.
  - destruct H2 as [|y r2 Hs2 Hf2].
    { destruct (proj1 (Hext x)); left; auto. }
    rewrite Forall_forall in *.
    assert (x = y) as ->.
    { pose proof (proj1 (Hext x) (or_introl eq_refl)) as [Ex|Ex]; auto.
      pose proof (proj2 (Hext y) (or_introl eq_refl)) as [Ey|Ey]; auto.
      specialize (Hf1 _ Ey). specialize (Hf2 _ Ex). lia. }
    f_equal. apply IH; [assumption|].
    intros z. split; intros Hz.
    + pose proof (proj1 (Hext z) (or_intror Hz)) as [->|]; auto.
      specialize (Hf1 _ Hz). lia.
    + pose proof (proj2 (Hext z) (or_intror Hz)) as [->|]; auto.
      specialize (Hf2 _ Hz). lia.
Qed.

Lemma sorted_le_lt l : StronglySorted Z.le l -> NoDup l -> StronglySorted Z.lt l.
Proof.
  induction 1 as [|x r Hs IH Hf]; intros Hn; constructor.
  - apply IH. inversion Hn; assumption.
  - inversion Hn; subst. rewrite Forall_forall in *.
    intros z Hz. specialize (Hf z Hz). assert (x <> z) by (intros ->; auto). lia.
Qed.

Lemma zsort_lt l : NoDup l -> StronglySorted Z.lt (zsort l).
Proof. intros H. apply sorted_le_lt; [apply zsort_sorted|apply zsort_NoDup, H]. Qed.

(** zseq *)
Lemma zseq_In x a n : In x (zseq a n) <-> a <= x < a + Z.of_nat n.
Proof.
  revert a; induction n as [|n IH]; intros a; cbn [zseq In].
  - lia.
  - rewrite IH. lia.
Qed.

Lemma zseq_length a n : length (zseq a n) = n.
Proof. revert a; induction n; intros; cbn; auto. Qed.

Lemma zseq_sorted a n : StronglySorted Z.lt (zseq a n).
Proof.
  revert a; induction n as [|n IH]; intros a; cbn [zseq]; constructor; auto.
  rewrite Forall_forall. intros x Hx. apply zseq_In in Hx. lia.
Qed.

Lemma zseq_snoc a n : zseq a (S n) = zseq a n ++ [a + Z.of_nat n].
Proof.
  revert a; induction n as [|n IH]; intros a.
  - cbn. f_equal. lia.
  - change (zseq a (S (S n))) with (a :: zseq (a+1) (S n)). rewrite IH.
    cbn [zseq app]. do 3 f_equal. lia.
Qed.

Lemma zseq_nth a n k : (k < n)%nat -> nth_error (zseq a n) k = Some (a + Z.of_nat k).
Proof.
  revert a k; induction n as [|n IH]; intros a [|k] H; cbn [zseq nth_error]; try lia.
  - f_equal; lia.
  - rewrite IH by lia. f_equal; lia.
Qed.

Lemma filter_sorted_lt f l : StronglySorted Z.lt l -> StronglySorted Z.lt (filter f l).
Proof.
  induction 1 as [|x r Hs IH Hf]; cbn [filter]; [constructor|].
  destruct (f x); auto. constructor; auto.
  rewrite Forall_forall in *. intros z Hz. apply filter_In in Hz. apply Hf, Hz.
Qed.

Lemma filter_all {A} (f : A -> bool) l : (forall x, In x l -> f x = true) -> filter f l = l.
Proof.
  induction l as [|x r IH]; intros H; cbn [filter]; auto.
  rewrite (H x (or_introl eq_refl)). f_equal. apply IH. intros y Hy. apply H. right; auto.
Qed.

Lemma filter_none {A} (f : A -> bool) l : (forall x, In x l -> f x = false) -> filter f l = [].
Proof.
  induction l as [|x r IH]; intros H; cbn [filter]; auto.
  rewrite (H x (or_introl eq_refl)). apply IH. intros y Hy. apply H. right; auto.
Qed.

Lemma filter_map_comm {A B} (f : A -> B) g (l : list A) :
  filter g (map f l) = map f (filter (fun x => g (f x)) l).
Proof.
  induction l as [|x r IH]; cbn [map filter]; auto.
  destruct (g (f x)); cbn [map]; rewrite IH; auto.
Qed.

Lemma filter_filter {A} (f g : A -> bool) l :
  filter f (filter g l) = filter (fun x => g x && f x) l.
Proof.
  induction l as [|x r IH]; cbn [filter]; auto.
  destruct (g x) eqn:E; cbn [filter andb]; destruct (f x); rewrite ?IH; auto.
Qed.

Lemma filter_ext_in' {A} (f g : A -> bool) l :
  (forall x, In x l -> f x = g x) -> filter f l = filter g l.
Proof.
  induction l as [|x r IH]; intros H; cbn [filter]; auto.
  rewrite (H x (or_introl eq_refl)). rewrite IH; auto. intros y Hy. apply H. right; auto.
Qed.

Lemma zmem_In x l : zmem x l = true <-> In x l.
Proof.
  unfold zmem. rewrite existsb_exists. split.
  - intros [y [Hy E]]. apply Z.eqb_eq in E. subst; auto.
  - intros H. exists x. split; auto. apply Z.eqb_refl.
Qed.

Lemma zfind_Some x l k : zfind x l = Some k -> nth_error l k = Some x.
Proof.
  revert k; induction l as [|y r IH]; intros k; cbn [zfind]; [discriminate|].
  destruct (Z.eqb_spec x y) as [->|].
  - intros [= <-]. reflexivity.
  - destruct (zfind x r) as [j|]; [|discriminate]. intros [= <-]. cbn. apply IH; auto.
Qed.

Lemma zfind_In x l : In x l -> exists k, zfind x l = Some k.
Proof.
  induction l as [|y r IH]; intros H; [destruct H|]. cbn [zfind].
  destruct (Z.eqb_spec x y); [eexists; reflexivity|].
  destruct H as [->|H]; [congruence|]. destruct (IH H) as [k ->]. eexists; reflexivity.
Qed.

Lemma zfind_nth l k x : NoDup l -> nth_error l k = Some x -> zfind x l = Some k.
Proof.
  revert k; induction l as [|y r IH]; intros [|k] Hn H; cbn in *; try discriminate.
  - injection H as ->. rewrite Z.eqb_refl. reflexivity.
  - inversion Hn; subst. destruct (Z.eqb_spec x y) as [->|].
    + apply nth_error_In in H. contradiction.
    + rewrite (IH _ H3 H). reflexivity.
Qed.

(** dictionaries *)
Section DictLemmas.
  Context {V : Type}.
  Implicit Type d : dict V.

  Lemma dget_In k v d : dget k d = Some v -> In (k, v) d.
  Proof.
    induction d as [|[k' v'] r IH]; cbn [dget]; [discriminate|].
    destruct (Z.eqb_spec k k') as [->|]; [intros [= ->]; left; auto|right; auto].
  Qed.

  Lemma dget_None k d : dget k d = None <-> ~ In k (dkeys d).
  Proof.
    induction d as [|[k' v'] r IH]; cbn; [tauto|].
    destruct (Z.eqb_spec k k') as [->|]; [split; [discriminate|tauto]|].
    rewrite IH. intuition congruence.
  Qed.

  Lemma In_dget k v d : NoDup (dkeys d) -> In (k, v) d -> dget k d = Some v.
  Proof.
    induction d as [|[k' v'] r IH]; cbn; [tauto|].
    intros Hn [E|H]; inversion Hn; subst.
    - injection E as -> ->. rewrite Z.eqb_refl. reflexivity.
    - destruct (Z.eqb_spec k k') as [->|]; [|auto].
      exfalso. apply H2. apply (in_map fst) in H. exact H.
  Qed.

  Lemma dmem_In k d : dmem k d = true <-> In k (dkeys d).
  Proof.
    unfold dmem. destruct (dget k d) eqn:E.
    - split; auto. intros _. apply dget_In in E. apply (in_map fst) in E. exact E.
    - apply dget_None in E. split; [discriminate|contradiction].
  Qed.

  Lemma dget_dset k k' v d : dget k (dset k' v d) = if k =? k' then Some v else dget k d.
  Proof.
    induction d as [|[k1 v1] r IH]; cbn [dset dget].
    - destruct (k =? k'); auto.
    - destruct (Z.eqb_spec k' k1) as [->|]; cbn [dget].
      + destruct (k =? k1); auto.
      + destruct (Z.eqb_spec k k1) as [->|].
        * destruct (Z.eqb_spec k1 k'); [congruence|auto].
        * exact IH.
  Qed.

  Lemma dkeys_dset k v d :
    dkeys (dset k v d) = if dmem k d then dkeys d else dkeys d ++ [k].
  Proof.
    unfold dmem. induction d as [|[k1 v1] r IH]; cbn [dset dget dkeys map fst app]; auto.
    destruct (Z.eqb_spec k k1) as [->|]; cbn [map fst]; auto.
    unfold dkeys in IH. rewrite IH. destruct (dget k r); auto.
  Qed.

  Lemma dset_NoDup k v d : NoDup (dkeys d) -> NoDup (dkeys (dset k v d)).
  Proof.
    rewrite dkeys_dset. destruct (dmem k d) eqn:E; auto.
    intros Hn. apply NoDup_rev in Hn. rewrite <- (rev_involutive (dkeys d ++ [k])).
    apply NoDup_rev. rewrite rev_app_distr. cbn. constructor; auto.
    rewrite <- in_rev. intros Hin. apply dmem_In in Hin. congruence.
  Qed.

  Lemma dget_ddel k k' d : dget k (ddel k' d) = if k =? k' then None else dget k d.
  Proof.
    unfold ddel. induction d as [|[k1 v1] r IH]; cbn [filter dget fst].
    - destruct (k =? k'); auto.
    - destruct (Z.eqb_spec k' k1) as [->|]; cbn [negb dget].
      + rewrite IH. destruct (Z.eqb_spec k k1); auto.
      + rewrite IH. destruct (Z.eqb_spec k k1) as [->|]; auto.
        destruct (Z.eqb_spec k1 k'); [congruence|auto].
  Qed.

  Lemma ddel_NoDup k d : NoDup (dkeys d) -> NoDup (dkeys (ddel k d)).
  Proof.
    unfold ddel, dkeys. induction d as [|[k1 v1] r IH]; cbn; auto.
    intros Hn. inversion Hn; subst. destruct (negb (k =? k1)); cbn; auto.
    constructor; auto. intros Hin. apply H1.
    apply in_map_iff in Hin. destruct Hin as [[a b] [E Hin]]. apply filter_In in Hin.
    cbn in E; subst. exact (in_map fst _ _ (proj1 Hin)).
  Qed.
End DictLemmas.

Lemma mapM_ok {A B} (f : A -> res B) (g : A -> B) l :
  (forall x, In x l -> f x = Ok (g x)) -> mapM f l = Ok (map g l).
Proof.
  induction l as [|x r IH]; intros H; cbn [mapM map]; auto.
  rewrite (H x (or_introl eq_refl)). cbn [bind].
  rewrite IH by (intros y Hy; apply H; right; auto). reflexivity.
Qed.

(** Forall2 (missing from the 8.16 library) *)
Lemma Forall2_length {A B} (P : A -> B -> Prop) l1 l2 : Forall2 P l1 l2 -> length l1 = length l2.
Proof. induction 1; cbn; auto. Qed.

Lemma Forall2_impl {A B} (P Q : A -> B -> Prop) l1 l2 :
  (forall a b, P a b -> Q a b) -> Forall2 P l1 l2 -> Forall2 Q l1 l2.
Proof. intros H F. induction F; constructor; auto. Qed.

Lemma Forall2_filter {A B} (P : A -> B -> Prop) f g l1 l2 :
  (forall a b, In a l1 -> In b l2 -> P a b -> f a = g b) ->
  Forall2 P l1 l2 -> Forall2 P (filter f l1) (filter g l2).
Proof.
  intros Hfg H. induction H as [|a b r1 r2 Hab Hr IH]; cbn [filter]; auto.
  rewrite (Hfg a b) by (auto; left; auto).
  assert (Forall2 P (filter f r1) (filter g r2)) by (apply IH; intros; apply Hfg; auto; right; auto).
  destruct (g b); auto.
Qed.

Lemma Forall2_map_r {A B C} (P : A -> B -> Prop) (f : C -> B) l1 l2 :
  Forall2 (fun a c => P a (f c)) l1 l2 -> Forall2 P l1 (map f l2).
Proof. induction 1; cbn; auto. Qed.

Lemma Forall2_impl_in {A B} (P Q : A -> B -> Prop) l1 l2 :
  (forall a b, In a l1 -> In b l2 -> P a b -> Q a b) -> Forall2 P l1 l2 -> Forall2 Q l1 l2.
Proof.
  intros H F. induction F; constructor.
  - apply H; auto; left; auto.
  - apply IHF. intros; apply H; auto; right; auto.
Qed.

Lemma Forall2_nth {A B} (P : A -> B -> Prop) l1 l2 k :
  Forall2 P l1 l2 ->
  match nth_error l1 k, nth_error l2 k with
  | Some a, Some b => P a b
  | None, None => True
  | _, _ => False
  end.
Proof.
  intros F. revert k. induction F; intros [|k]; cbn; auto. apply IHF.
Qed.
