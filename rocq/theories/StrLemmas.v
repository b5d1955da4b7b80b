(** * Lemmas on the string functions *)
From Coq Require Import String Ascii.
From Coq Require Decimal DecimalNat Nat.
From Verif Require Import Py StrModel.
Open Scope Z_scope.

Lemma seqb_iff : forall a b, seqb a b = true <-> a = b.
Proof. intros. unfold seqb. destruct (str_eq_dec a b); split; congruence. Qed.
Lemma seqb_refl : forall a, seqb a a = true.
Proof. intros. apply seqb_iff. reflexivity. Qed.
Lemma seqb_neq : forall a b, a <> b -> seqb a b = false.
Proof. intros. unfold seqb. destruct (str_eq_dec a b); congruence. Qed.
Lemma smem_iff : forall x l, smem x l = true <-> In x l.
Proof.
  intros. unfold smem. rewrite existsb_exists. split.
  - intros [y [I E]]. apply seqb_iff in E. subst. exact I.
  - intros I. exists x. split; [exact I|apply seqb_refl].
Qed.

Lemma startswith_iff : forall p s, startswith p s = true <-> exists t, s = p ++ t.
Proof.
  induction p as [|c p IH]; intros s; cbn.
  - split; [intros _; exists s; reflexivity|reflexivity].
  - destruct s as [|d s].
    + split; [discriminate|intros [t H]; discriminate].
    + rewrite andb_true_iff, Z.eqb_eq, IH. split.
      * intros [-> [t ->]]. exists t. reflexivity.
      * intros [t H]. injection H as -> ->. split; [reflexivity|exists t; reflexivity].
Qed.
Lemma endswith_iff : forall p s, endswith p s = true <-> exists t, s = t ++ p.
Proof.
  intros p s. unfold endswith. rewrite startswith_iff. split.
  - intros [t H]. exists (rev t). rewrite <- (rev_involutive s), H, rev_app_distr, rev_involutive. reflexivity.
  - intros [t ->]. exists (rev t). apply rev_app_distr.
Qed.
Lemma endswith1 : forall c s, endswith [c] (s ++ [c]) = true.
Proof. intros. apply endswith_iff. exists s. reflexivity. Qed.

Lemma find_from_ge : forall p s i, find_from i p s = -1 \/ i <= find_from i p s.
Proof.
  intros p s. induction s as [|x s IH]; intros i; cbn; destruct (startswith p _); try lia.
  destruct (IH (i + 1)); lia.
Qed.
Lemma find0_iff : forall p s, py_find p s = 0 <-> exists t, s = p ++ t.
Proof.
  intros p s. rewrite <- startswith_iff. unfold py_find. destruct s as [|x s]; cbn; destruct (startswith p _) eqn:E; try (split; congruence).
  split; [|discriminate]. pose proof (find_from_ge p s 1). lia.
Qed.
Lemma find_none_iff : forall p s i, 0 <= i -> find_from i p s = -1 <-> ~ exists a b, s = a ++ p ++ b.
Proof.
  intros p s. induction s as [|x s IH]; intros i Hi; cbn; destruct (startswith p _) eqn:E.
  - split; [lia|]. intros H. exfalso. apply H. apply startswith_iff in E. destruct E as [t E]. exists [], t. exact E.
  - split; [|reflexivity]. intros _ [a [b H]]. destruct a; [|discriminate]. cbn in H.
    assert (startswith p [] = true) by (apply startswith_iff; exists b; exact H). congruence.
  - split; [lia|]. intros H. exfalso. apply H. apply startswith_iff in E. destruct E as [t E]. exists [], t. exact E.
  - rewrite (IH (i + 1)) by lia. split; intros H [a [b G]]; apply H.
    + destruct a as [|y a]; cbn in G.
      * assert (startswith p (x :: s) = true) by (apply startswith_iff; exists b; exact G). congruence.
      * injection G as -> ->. exists a, b. reflexivity.
    + exists (x :: a), b. cbn. rewrite G. reflexivity.
Qed.
Lemma str_in_iff : forall p s, str_in p s = true <-> exists a b, s = a ++ p ++ b.
Proof.
  intros p s. unfold str_in, py_find. pose proof (find_none_iff p s 0 ltac:(lia)) as H.
  destruct (find_from 0 p s =? -1) eqn:E; cbn.
  - apply Z.eqb_eq in E. apply H in E. split; [discriminate|contradiction].
  - split; [|reflexivity]. intros _. apply Z.eqb_neq in E.
    destruct (find_from_ge p s 0) as [G|G]; [contradiction|]. clear H.
    assert (K : forall s i, 0 <= i -> find_from i p s <> -1 -> exists a b, s = a ++ p ++ b).
    { clear. induction s as [|x s IH]; intros i Hi N; cbn in N; destruct (startswith p _) eqn:S;
        try (apply startswith_iff in S; destruct S as [t S]; exists [], t; exact S).
      - contradiction.
      - destruct (IH (i + 1) ltac:(lia) N) as [a [b ->]]. exists (x :: a), b. reflexivity. }
    apply (K s 0); [lia|exact E].
Qed.

Lemma rcut_spec : forall c s, match rcut c s with
  | (Some a, b) => s = a ++ c :: b /\ ~ In c b
  | (None, b) => s = b /\ ~ In c b
  end.
Proof.
  intros c s. induction s as [|x s IH]; cbn; [split; [reflexivity|tauto]|].
  destruct (rcut c s) as [[a|] b]; destruct IH as [-> N].
  - split; [reflexivity|exact N].
  - destruct (x =? c) eqn:E; [apply Z.eqb_eq in E; subst; split; [reflexivity|exact N]|].
    apply Z.eqb_neq in E. split; [reflexivity|]. intros [H|H]; [congruence|contradiction].
Qed.
Lemma rcut_app : forall c a b, ~ In c b -> rcut c (a ++ c :: b) = (Some a, b).
Proof.
  intros c a b N. induction a as [|x a IH]; cbn.
  - pose proof (rcut_spec c b) as H. destruct (rcut c b) as [[a|] b']; destruct H as [-> M].
    + exfalso. apply N. apply in_or_app. right. left. reflexivity.
    + rewrite Z.eqb_refl. reflexivity.
  - rewrite IH. reflexivity.
Qed.
Lemma rcut_none : forall c b, ~ In c b -> rcut c b = (None, b).
Proof.
  intros c b N. pose proof (rcut_spec c b) as H. destruct (rcut c b) as [[a|] b']; destruct H as [-> M]; [|reflexivity].
  exfalso. apply N. apply in_or_app. right. left. reflexivity.
Qed.
Lemma basename_no_slash : forall p, ~ In slash (basename p).
Proof. intros p. unfold basename. pose proof (rcut_spec slash p). destruct (rcut slash p) as [[a|] b]; cbn; apply H. Qed.
Lemma basename_app : forall d b, ~ In slash b -> basename (d ++ slash :: b) = b.
Proof. intros. unfold basename. rewrite rcut_app by assumption. reflexivity. Qed.
Lemma basename_none : forall b, ~ In slash b -> basename b = b.
Proof. intros. unfold basename. rewrite rcut_none by assumption. reflexivity. Qed.

Lemma split_ne : forall c s, split_on c s <> [].
Proof. intros c s. induction s as [|x s IH]; cbn; [discriminate|]. destruct (x =? c); [discriminate|]. destruct (split_on c s); [contradiction|discriminate]. Qed.
Lemma split_app : forall c a b, split_on c (a ++ c :: b) = split_on c a ++ split_on c b.
Proof.
  intros c a b. induction a as [|x a IH]; cbn; [rewrite Z.eqb_refl; reflexivity|]. rewrite IH.
  destruct (x =? c); [reflexivity|]. pose proof (split_ne c a). destruct (split_on c a); [contradiction|reflexivity].
Qed.
Lemma split_none : forall c b, ~ In c b -> split_on c b = [b].
Proof.
  intros c b N. induction b as [|x b IH]; cbn; [reflexivity|]. cbn in N. rewrite IH by tauto.
  destruct (x =? c) eqn:E; [apply Z.eqb_eq in E; tauto|reflexivity].
Qed.

(** Decimal numerals. *)
Lemma digits_range : forall d c, In c (digits d) -> 48 <= c <= 57.
Proof. induction d; cbn; intros c H; try contradiction; destruct H as [<-|H]; try lia; apply IHd; exact H. Qed.
Lemma digits_inj : forall a b, digits a = digits b -> a = b.
Proof. induction a; destruct b; cbn; intros H; try discriminate; try reflexivity; injection H as H; f_equal; apply IHa; exact H. Qed.
Lemma str_nat_inj : forall a b, str_nat a = str_nat b -> a = b.
Proof. intros a b H. apply digits_inj in H. apply DecimalNat.Unsigned.to_uint_inj. exact H. Qed.
Lemma str_nat_range : forall n c, In c (str_nat n) -> 48 <= c <= 57.
Proof. intros. eapply digits_range. eassumption. Qed.

(** Dictionaries. *)
Section D.
  Context {V : Type}.
  Implicit Types d : list (str * V).
  Lemma sget_sset : forall k v d k', sget k' (sset k v d) = if seqb k' k then Some v else sget k' d.
  Proof.
    intros k v d k'. induction d as [|[a x] d IH]; cbn; [reflexivity|].
    destruct (seqb k a) eqn:E.
    - apply seqb_iff in E. subst a. cbn. destruct (seqb k' k); reflexivity.
    - cbn. rewrite IH. destruct (seqb k' a) eqn:F; [|reflexivity]. apply seqb_iff in F. subst a.
      destruct (seqb k' k) eqn:G; [|reflexivity]. apply seqb_iff in G. subst. rewrite seqb_refl in E. discriminate.
  Qed.
  Lemma sget_In : forall k v d, sget k d = Some v -> In (k, v) d.
  Proof.
    intros k v d. induction d as [|[a x] d IH]; cbn; [discriminate|]. destruct (seqb k a) eqn:E.
    - apply seqb_iff in E. intros H. injection H as ->. subst. left. reflexivity.
    - intros H. right. apply IH. exact H.
  Qed.
  Lemma sget_none : forall k d, sget k d = None <-> ~ In k (map fst d).
  Proof.
    intros k d. induction d as [|[a x] d IH]; cbn; [tauto|]. destruct (seqb k a) eqn:E.
    - apply seqb_iff in E. subst. split; [discriminate|]. intros H. exfalso. apply H. left. reflexivity.
    - rewrite IH. split; intros H.
      + intros [G|G]; [subst; rewrite seqb_refl in E; discriminate|contradiction].
      + intros G. apply H. right. exact G.
  Qed.
  Lemma sset_new : forall k v d, sget k d = None -> sset k v d = d ++ [(k, v)].
  Proof.
    intros k v d. induction d as [|[a x] d IH]; cbn; [reflexivity|]. destruct (seqb k a); [discriminate|].
    intros H. rewrite IH by exact H. reflexivity.
  Qed.
  Lemma In_sget : forall k v d, NoDup (map fst d) -> In (k, v) d -> sget k d = Some v.
  Proof.
    intros k v d. induction d as [|[a x] d IH]; cbn; [contradiction|]. intros N [H|H].
    - injection H as -> ->. rewrite seqb_refl. reflexivity.
    - inversion N as [|? ? N1 N2]; subst. destruct (seqb k a) eqn:E; [|apply IH; assumption].
      apply seqb_iff in E. subst. exfalso. apply N1. apply in_map_iff. exists (a, v). split; [reflexivity|exact H].
  Qed.
End D.
