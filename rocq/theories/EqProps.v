(** * C142 to C145: when objects are equal *)
From Coq Require Import QArith Qabs Lia Lqa.
From Verif Require Import Py PyLemmas EqModel EqSpec EqProofs.
Local Open Scope Z_scope.

(** The tolerances of the program, and example classes: class 0 has a float
    'lat' (1), an int or list 'n' (2), an array 'pts' (3), a name that is not
    compared (4) and the id (5); class 1 has other attributes. *)
Definition rt0 : Q := 1 # 100000.
Definition at0 : Q := 1 # 100000000000000000000000000000000000000.
Definition cls0 (i : Z) : Z := if i <? 10 then 0 else 1.
Definition schema0 (c : Z) : list (Z * bool) :=
  if c =? 0 then [(5, true); (4, false); (1, true); (2, true); (3, true)] else [(5, true); (7, true)].
Definition obj0 (i : Z) (lat : val) (n : val) (pts : list fl) : val :=
  VO i [(5, VX i); (4, VX (100 + i)); (1, lat); (2, n); (3, VA 2 1 pts)].
Definition eq0 := py_eq rt0 at0 cls0 schema0 5.
Definition obj1 (i : Z) (v : val) : val := VO i [(5, VX i); (7, v)].

Ltac names := intros k; unfold counts, schema0; simpl; intros [? ?];
  repeat match goal with H : _ \/ _ |- _ => destruct H end;
  try contradiction;
  repeat match goal with H : (_, _) = (_, _) |- _ => inversion H; subst; clear H end;
  try lia.

(** C142.  [a == b] is True exactly when the objects are of one class and
    every attribute that counts matches: floats and arrays of one size within
    the tolerance, everything else equal in turn. *)
Theorem C142_equal : forall rtol atol cls schema id_name a b,
  py_eq rtol atol cls schema id_name a b = Ok true <-> equal rtol atol cls schema id_name a b.
Proof. intros. apply eq_iff. Qed.
Print Assumptions C142_equal.

Example C142_equal_meets :
  eq0 (obj0 1 (VF (Fin 20)) (VL [VI 3; VF (Fin 2)]) [Fin 1; Fin 2])
      (obj0 2 (VI 20) (VL [VF (Fin 3); VI 2]) [Fin 1; Fin (200001 # 100000)]) = Ok true.
Proof. vm_compute. reflexivity. Qed.

(** The same for [_diff]: no differences. *)
Theorem C145_empty : forall rtol atol cls schema id_name early i fs b,
  obj_diff rtol atol cls schema id_name early (VO i fs) b = Ok [] <-> equal rtol atol cls schema id_name (VO i fs) b.
Proof.
  intros. rewrite <- eq_iff. simpl.
  assert (P : forall early, diff rtol atol cls schema id_name early i
      (map (fun kv => (fst kv, (snd kv, py_eq rtol atol cls schema id_name (snd kv)))) fs) b = Ok [] <->
    diff rtol atol cls schema id_name true i
      (map (fun kv => (fst kv, (snd kv, py_eq rtol atol cls schema id_name (snd kv)))) fs) b = Ok []).
  { intros e. rewrite !diff_nil. tauto. }
  rewrite P. destruct (diff rtol atol cls schema id_name true i _ b) as [[|]|]; simpl; split; congruence.
Qed.
Print Assumptions C145_empty.

Example C145_empty_meets :
  obj_diff rt0 at0 cls0 schema0 5 false (obj0 1 (VF (Fin 20)) (VI 3) [Fin 1; PInf]) (obj0 2 (VI 20) (VI 3) [Fin 1; PInf]) = Ok [].
Proof. vm_compute. reflexivity. Qed.

(** Objects of the same make are compared without an exception, and the
    answer is False when they are not equal. *)
Theorem C142_no_error_partial : forall rtol atol cls schema id_name mixed a b,
  comparable cls schema id_name mixed a b -> ~ an_array a ->
  (exists r, py_eq rtol atol cls schema id_name a b = Ok r) /\
  (py_eq rtol atol cls schema id_name a b = Ok false <-> ~ equal rtol atol cls schema id_name a b).
Proof.
  intros rtol atol cls schema id_name mixed a b C N.
  destruct (eq_fine rtol atol cls schema id_name mixed a b N C) as [r E]. split; [eauto|].
  rewrite <- eq_iff, E. destruct r; split; congruence.
Qed.
Print Assumptions C142_no_error_partial.

Example C142_no_error_meets : forall mixed,
  comparable cls0 schema0 5 mixed (obj0 1 (VF (Fin 20)) (VX 0) [Fin 1; NaN]) (obj0 2 (VF (Fin 30)) (VI 3) [Fin 1; Fin 2]).
Proof.
  intros mixed. apply comp_obj; [reflexivity|lia|]. names.
  - do 2 eexists. split; [reflexivity|]. split; [reflexivity|]. eapply comp_num; [constructor|constructor|].
    right. unfold a_float. split; eauto.
  - do 2 eexists. split; [reflexivity|]. split; [reflexivity|].
    apply comp_other; [ left; eauto | | | | ]; try (intros (? & ? & ? & ?); discriminate); intros (? & ?); discriminate.
  - do 2 eexists. split; [reflexivity|]. split; [reflexivity|]. apply comp_array.
Qed.

(** It is not so for all objects of a class: a float against None raises
    TypeError, and arrays with as many entries but another shape raise
    ValueError. *)
Theorem C142_no_error_refuted :
  eq0 (obj0 1 (VF (Fin 20)) (VI 3) []) (obj0 2 (VX 0) (VI 3) []) = Raise TypeErr /\
  py_eq rt0 at0 cls0 schema0 5 (obj1 11 (VA 2 3 (map Fin [1; 2; 3; 4; 5; 6]%Q))) (obj1 12 (VA 3 2 (map Fin [1; 2; 3; 4; 5; 6]%Q))) = Raise ValueErr.
Proof. split; vm_compute; reflexivity. Qed.
Print Assumptions C142_no_error_refuted.

(** C143.  A copy is equal to the original, whatever its identity, its id and
    its attributes that are not compared, when no number is missing (NaN). *)
Theorem C143_copy_partial : forall rtol atol cls schema id_name a b, (0 <= rtol)%Q -> (0 <= atol)%Q ->
  ~ an_array a -> copy cls schema id_name a b -> py_eq rtol atol cls schema id_name a b = Ok true.
Proof. intros. apply eq_iff. apply copy_equal; assumption. Qed.
Print Assumptions C143_copy_partial.

Example C143_copy_meets :
  copy cls0 schema0 5 (obj0 1 (VF PInf) (VC [VI 3; obj1 11 (VX 4)]) [Fin 1; Fin 2]) (obj0 2 (VF PInf) (VC [VI 3; obj1 12 (VX 4)]) [Fin 1; Fin 2]).
Proof.
  apply copy_obj; [reflexivity|]. names.
  - do 2 eexists. split; [reflexivity|]. split; [reflexivity|]. constructor. discriminate.
  - do 2 eexists. split; [reflexivity|]. split; [reflexivity|].
    apply copy_coll. apply copies_cons; [ intros (? & ? & ? & ?); discriminate | constructor | ].
    apply copies_cons; [ intros (? & ? & ? & ?); discriminate | | constructor ].
    apply copy_obj; [reflexivity|]. names.
    do 2 eexists. split; [reflexivity|]. split; [reflexivity|]. constructor.
  - do 2 eexists. split; [reflexivity|]. split; [reflexivity|]. constructor; [reflexivity|].
    simpl. intros [E|[E|[]]]; discriminate.
Qed.

(** With a NaN an object is not even equal to itself. *)
Theorem C143_nan_refuted : forall a, a = obj0 1 (VF NaN) (VI 3) [] \/ a = obj0 1 (VF (Fin 1)) (VI 3) [Fin 1; NaN] -> eq0 a a = Ok false.
Proof. intros a [->| ->]; vm_compute; reflexivity. Qed.
Print Assumptions C143_nan_refuted.

(** C144.  Equality is not symmetric and not transitive: the tolerance is
    relative to the object on the right. *)
Theorem C144_symmetric_refuted : exists a b, eq0 a b = Ok true /\ eq0 b a = Ok false.
Proof.
  exists (obj0 1 (VF (Fin 99999)) (VI 3) [Fin 0; Fin 0]), (obj0 2 (VF (Fin 100000)) (VI 3) [Fin 0; Fin 0]).
  split; vm_compute; reflexivity.
Qed.
Print Assumptions C144_symmetric_refuted.

Theorem C144_transitive_refuted : exists a b c, eq0 a b = Ok true /\ eq0 b c = Ok true /\ eq0 a c = Ok false.
Proof.
  exists (obj0 1 (VF (Fin 99999)) (VI 3) [Fin 0; Fin 0]), (obj0 2 (VF (Fin 100000)) (VI 3) [Fin 0; Fin 0]),
    (obj0 3 (VF (Fin 100001)) (VI 3) [Fin 0; Fin 0]).
  repeat split; vm_compute; reflexivity.
Qed.
Print Assumptions C144_transitive_refuted.

(** Swapping the sides needs only a slightly larger tolerance. *)
Theorem C144_symmetric_partial : forall rtol atol cls schema id_name a b, (0 <= rtol)%Q -> (rtol < 1)%Q -> (0 <= atol)%Q ->
  py_eq rtol atol cls schema id_name a b = Ok true ->
  py_eq (rtol / (1 - rtol)) (atol / (1 - rtol)) cls schema id_name b a = Ok true.
Proof.
  intros rtol atol cls schema id_name a b R0 R1 A H. apply eq_iff. apply eq_iff in H. revert H.
  apply equal_flip. apply close_flip; assumption.
Qed.
Print Assumptions C144_symmetric_partial.

Example C144_symmetric_meets :
  eq0 (obj0 1 (VF (Fin 99999)) (VI 3) [Fin 0; Fin 0]) (obj0 2 (VF (Fin 100000)) (VI 3) [Fin 0; Fin 0]) = Ok true.
Proof. vm_compute. reflexivity. Qed.

(** In a chain the tolerances add up, for objects of the same make. *)
Theorem C144_transitive_partial : forall rt at_ rt' at_' cls schema id_name a b c,
  (0 <= rt)%Q -> (0 <= at_)%Q -> (0 <= rt')%Q -> (0 <= at_')%Q ->
  comparable cls schema id_name false a b -> comparable cls schema id_name false b c ->
  py_eq rt at_ cls schema id_name a b = Ok true -> py_eq rt' at_' cls schema id_name b c = Ok true ->
  py_eq (rt + rt' + rt * rt') (at_ + at_' + rt * at_') cls schema id_name a c = Ok true.
Proof.
  intros rt at_ rt' at_' cls schema id_name a b c R A R' A' C D H K. apply eq_iff. apply eq_iff in H. apply eq_iff in K.
  exact (equal_trans rt at_ rt' at_' cls schema id_name R A R' A' a b c C D H K).
Qed.
Print Assumptions C144_transitive_partial.

Lemma comparable0 : forall i j f g z z' p q, cls0 i = cls0 j -> i <> j -> cls0 i = 0 ->
  comparable cls0 schema0 5 false (obj0 i (VF f) (VI z) p) (obj0 j (VF g) (VI z') q).
Proof.
  intros i j f g z z' p q C N Z. apply comp_obj; [assumption|congruence|]. rewrite Z. names.
  - do 2 eexists. split; [reflexivity|]. split; [reflexivity|]. eapply comp_num; [constructor|constructor|].
    right. unfold a_float. split; eauto.
  - do 2 eexists. split; [reflexivity|]. split; [reflexivity|]. eapply comp_num; [constructor|constructor|].
    right. split; intros (? & ?); discriminate.
  - do 2 eexists. split; [reflexivity|]. split; [reflexivity|]. apply comp_array.
Qed.
Example C144_transitive_meets : exists a b c,
  comparable cls0 schema0 5 false a b /\ comparable cls0 schema0 5 false b c /\
  py_eq rt0 at0 cls0 schema0 5 a b = Ok true /\ py_eq rt0 at0 cls0 schema0 5 b c = Ok true /\
  py_eq rt0 at0 cls0 schema0 5 a c = Ok false.
Proof.
  exists (obj0 1 (VF (Fin 99999)) (VI 3) [Fin 0; Fin 0]), (obj0 2 (VF (Fin 100000)) (VI 3) [Fin 0; Fin 0]),
    (obj0 3 (VF (Fin 100001)) (VI 3) [Fin 0; Fin 0]).
  split; [apply comparable0; [reflexivity|lia|reflexivity]|]. split; [apply comparable0; [reflexivity|lia|reflexivity]|].
  repeat split; vm_compute; reflexivity.
Qed.

(** Among objects without floats and arrays equality is symmetric and
    transitive as it is. *)
Theorem C144_exact_partial : forall rtol atol cls schema id_name, (0 <= rtol)%Q -> (rtol < 1)%Q -> (0 <= atol)%Q ->
  (forall a b, exact cls schema id_name a -> exact cls schema id_name b ->
    py_eq rtol atol cls schema id_name a b = Ok true -> py_eq rtol atol cls schema id_name b a = Ok true) /\
  (forall a b c, exact cls schema id_name a -> exact cls schema id_name b -> exact cls schema id_name c ->
    comparable cls schema id_name false a b -> comparable cls schema id_name false b c ->
    py_eq rtol atol cls schema id_name a b = Ok true -> py_eq rtol atol cls schema id_name b c = Ok true ->
    py_eq rtol atol cls schema id_name a c = Ok true).
Proof.
  intros rtol atol cls schema id_name R0 R1 A. split.
  - intros a b X Y H. apply eq_iff. eapply equal_exact; [exact Y|exact X|]. apply eq_iff.
    exact (C144_symmetric_partial rtol atol cls schema id_name a b R0 R1 A H).
  - intros a b c X Y Z C D H K. apply eq_iff. eapply equal_exact; [exact X|exact Z|]. apply eq_iff.
    exact (C144_transitive_partial _ _ _ _ cls schema id_name a b c R0 A R0 A C D H K).
Qed.
Print Assumptions C144_exact_partial.

Example C144_exact_meets :
  exact cls0 schema0 5 (obj1 11 (VL [VI 3; VF (Fin 2)])) /\ exact cls0 schema0 5 (obj1 12 (VL [VI 3; VF (Fin 2)])) /\
  exact cls0 schema0 5 (obj1 13 (VL [VI 3; VF (Fin 2)])) /\
  comparable cls0 schema0 5 false (obj1 11 (VL [VI 3; VF (Fin 2)])) (obj1 12 (VL [VI 3; VF (Fin 2)])) /\
  comparable cls0 schema0 5 false (obj1 12 (VL [VI 3; VF (Fin 2)])) (obj1 13 (VL [VI 3; VF (Fin 2)])) /\
  eq0 (obj1 11 (VL [VI 3; VF (Fin 2)])) (obj1 12 (VL [VI 3; VF (Fin 2)])) = Ok true.
Proof.
  assert (X : forall i, cls0 i = 1 -> exact cls0 schema0 5 (obj1 i (VL [VI 3; VF (Fin 2)]))).
  { intros i E. constructor. rewrite E. intros k v K G.
    assert (K7 : k = 7) by (revert k K G; names; intros _; reflexivity). subst k. simpl in G. inversion G; subst.
    split; [intros (? & ?); discriminate|]. split; [intros (? & ? & ? & ?); discriminate|]. repeat constructor. }
  assert (Y : forall i j, cls0 i = cls0 j -> i <> j -> cls0 i = 1 ->
    comparable cls0 schema0 5 false (obj1 i (VL [VI 3; VF (Fin 2)])) (obj1 j (VL [VI 3; VF (Fin 2)]))).
  { intros i j C N E. apply comp_obj; [assumption|congruence|]. rewrite E. names.
    do 2 eexists. split; [reflexivity|]. split; [reflexivity|]. apply comp_list.
    apply comps_cons; [intros (? & ? & ? & ?); discriminate|intros (? & ? & ? & ?); discriminate| | ].
    - eapply comp_num; [constructor|constructor|]. right. tauto.
    - apply comps_cons; [intros (? & ? & ? & ?); discriminate|intros (? & ? & ? & ?); discriminate| |constructor].
      eapply comp_num; [constructor|constructor|]. right. tauto. }
  repeat (split; [first [apply X; reflexivity | apply Y; [reflexivity|lia|reflexivity]]|]).
  vm_compute. reflexivity.
Qed.

(** C145.  The list of differences between objects of one class names exactly
    the attributes that do not match, each once; stopping early gives the
    first of them. *)
Theorem C145_lists : forall rtol atol cls schema id_name i fs i' fs' d, cls i = cls i' ->
  obj_diff rtol atol cls schema id_name false (VO i fs) (VO i' fs') = Ok d ->
  (forall m, In m d <-> exists k v w, m = Some k /\ counts schema id_name (cls i) k /\ dget k fs = Some v /\ dget k fs' = Some w /\
     ~ matches rtol atol cls schema id_name v w) /\
  (NoDup (map fst (schema (cls i))) -> NoDup d) /\
  obj_diff rtol atol cls schema id_name true (VO i fs) (VO i' fs') = Ok (firstn 1 d).
Proof.
  intros rtol atol cls schema id_name i fs i' fs' d C H. unfold obj_diff in *.
  rewrite diff_same_class in * by exact C.
  set (self := map _ fs) in *.
  destruct (diffs rtol atol false (compared schema id_name (cls i)) self fs') as [e|] eqn:D; simpl in H; [|discriminate].
  inversion H; subst d. split; [|split].
  - intros m. rewrite in_map_iff. split.
    + intros (k & <- & I). apply (diffs_in rtol atol cls schema id_name _ _ _ _ D) in I. destruct I as (I & v & py & w & G1 & G2 & N).
      apply compared_iff in I. unfold self in G1. rewrite dget_pairs with (g := fun v => (v, py_eq rtol atol cls schema id_name v)) in G1.
      destruct (dget k fs) as [v'|] eqn:G; [|discriminate]. simpl in G1. inversion G1; subst.
      exists k, v, w. repeat (split; [first [reflexivity|assumption]|]). rewrite <- attr_iff. exact N.
    + intros (k & v & w & -> & I & G1 & G2 & N). exists k. split; [reflexivity|]. apply (diffs_in rtol atol cls schema id_name _ _ _ _ D).
      split; [apply compared_iff, I|]. exists v, (py_eq rtol atol cls schema id_name v), w. split.
      { unfold self. rewrite dget_pairs with (g := fun v => (v, py_eq rtol atol cls schema id_name v)), G1. reflexivity. }
      split; [exact G2|]. rewrite attr_iff. exact N.
  - intros N. apply FinFun.Injective_map_NoDup; [ intros x y E; congruence | ].
    exact (diffs_nodup rtol atol cls schema id_name _ _ _ _ (compared_nodup cls schema id_name (cls i) N) D).
  - rewrite (diffs_early rtol atol _ _ _ _ D). simpl. destruct e; reflexivity.
Qed.
Print Assumptions C145_lists.

Example C145_lists_meets :
  obj_diff rt0 at0 cls0 schema0 5 false (obj0 1 (VF (Fin 20)) (VI 3) [Fin 1; Fin 2]) (obj0 2 (VF (Fin 21)) (VI 3) [Fin 2; Fin 2]) = Ok [Some 1; Some 3]
  /\ NoDup (map fst (schema0 (cls0 1))).
Proof. split; [vm_compute; reflexivity|]. cbv. repeat constructor; simpl; intuition discriminate. Qed.

(** The list is there whenever the two objects are of one class and make. *)
Theorem C145_list_given_partial : forall rtol atol cls schema id_name mixed i fs i' fs',
  cls i = cls i' -> comparable cls schema id_name mixed (VO i fs) (VO i' fs') ->
  exists d, obj_diff rtol atol cls schema id_name false (VO i fs) (VO i' fs') = Ok d.
Proof.
  intros rtol atol cls schema id_name mixed i fs i' fs' C H. unfold obj_diff.
  apply (obj_fine rtol atol cls schema id_name mixed); try assumption.
  apply Forall_forall. intros kv _. apply eq_fine.
Qed.
Print Assumptions C145_list_given_partial.

Example C145_list_given_meets :
  comparable cls0 schema0 5 false (obj0 1 (VF (Fin 20)) (VI 3) [Fin 1; Fin 2]) (obj0 2 (VF (Fin 21)) (VI 3) [Fin 2; Fin 2]).
Proof. apply comparable0; [reflexivity|lia|reflexivity]. Qed.

(** For an object of another class only the early form tells the difference;
    the full list raises AttributeError. *)
Theorem C145_other_class_refuted : exists a b,
  obj_diff rt0 at0 cls0 schema0 5 true a b = Ok [None] /\ eq0 a b = Ok false /\
  obj_diff rt0 at0 cls0 schema0 5 false a b = Raise AttrErr.
Proof. exists (obj0 1 (VF (Fin 20)) (VI 3) [Fin 1]), (obj1 11 (VI 3)). repeat split; vm_compute; reflexivity. Qed.
Print Assumptions C145_other_class_refuted.
