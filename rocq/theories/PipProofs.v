(** * Proofs about points in polygons *)
From Coq Require Import Setoid Morphisms.
From Verif Require Import Py PyLemmas QLemmas PipModel PipSpec.
Open Scope Q_scope.

(** ** Parities along a path *)

Section Path.
  Context {A : Type}.
  Variable f : A -> A -> bool.

  Fixpoint path (l : list A) : bool :=
    match l with
    | a :: r => match r with b :: _ => xorb (f a b) (path r) | [] => false end
    | [] => false
    end.
  Definition cyc (l : list A) : bool := match l with [] => false | v :: _ => path (l ++ [v]) end.

  Lemma path_app l : forall a m, path (l ++ a :: m) = xorb (path (l ++ [a])) (path (a :: m)).
  Proof.
    induction l as [|x r IH]; intros a m; [change ([] ++ a :: m) with (a :: m); change (path ([] ++ [a])) with false; rewrite xorb_false_l; reflexivity|].
    destruct r as [|y r]; [cbn [app path]; rewrite xorb_false_r; reflexivity|].
    change ((x :: y :: r) ++ a :: m) with (x :: y :: r ++ a :: m).
    change ((x :: y :: r) ++ [a]) with (x :: y :: r ++ [a]).
    change (xorb (f x y) (path ((y :: r) ++ a :: m)) = xorb (xorb (f x y) (path ((y :: r) ++ [a]))) (path (a :: m))).
    rewrite IH, xorb_assoc. reflexivity.
  Qed.
  Lemma path_snoc l v a : l <> [] -> path (l ++ [a]) = xorb (path l) (f (last l v) a).
  Proof.
    intros H. induction l as [|x r IH]; [congruence|]. destruct r as [|y r].
    - cbn. destruct (f x a); reflexivity.
    - change ((x :: y :: r) ++ [a]) with (x :: (y :: r) ++ [a]).
      change (path (x :: (y :: r) ++ [a])) with (xorb (f x y) (path ((y :: r) ++ [a]))).
      rewrite IH by discriminate. change (path (x :: y :: r)) with (xorb (f x y) (path (y :: r))).
      change (last (x :: y :: r) v) with (last (y :: r) v). rewrite xorb_assoc. reflexivity.
  Qed.
  Lemma cyc_last v r : path (last (v :: r) v :: v :: r) = cyc (v :: r).
  Proof.
    unfold cyc. rewrite (path_snoc (v :: r) v v) by discriminate. cbn [path]. apply xorb_comm.
  Qed.

  Lemma cyc_rot1 x l : cyc (x :: l) = cyc (l ++ [x]).
  Proof.
    destruct l as [|y m]; [reflexivity|].
    change (cyc (x :: y :: m)) with (xorb (f x y) (path (y :: m ++ [x]))).
    change (cyc ((y :: m) ++ [x])) with (path ((y :: m ++ [x]) ++ [y])).
    rewrite (path_snoc (y :: m ++ [x]) y y) by discriminate.
    assert (E : last (y :: m ++ [x]) y = x).
    { change (y :: m ++ [x]) with ((y :: m) ++ [x]). apply last_last. }
    rewrite E. apply xorb_comm.
  Qed.
  Lemma cyc_rot l1 : forall l2, cyc (l1 ++ l2) = cyc (l2 ++ l1).
  Proof.
    induction l1 as [|x r IH]; intros l2; [rewrite app_nil_r; reflexivity|].
    change ((x :: r) ++ l2) with (x :: r ++ l2). rewrite cyc_rot1, <- app_assoc, IH, <- app_assoc. reflexivity.
  Qed.

  Hypothesis fsym : forall a b, f a b = f b a.
  Lemma path_rev l : path (rev l) = path l.
  Proof.
    induction l as [|x r IH]; [reflexivity|]. cbn [rev].
    destruct r as [|y r]; [reflexivity|].
    rewrite (path_snoc (rev (y :: r)) y x).
    - rewrite IH. cbn [rev]. rewrite last_last. rewrite xorb_comm, (fsym y x). reflexivity.
    - cbn. destruct (rev r); discriminate.
  Qed.
  Lemma cyc_rev l : cyc (rev l) = cyc l.
  Proof.
    destruct l as [|v r]; [reflexivity|].
    rewrite (cyc_rot1 v r). rewrite <- (rev_involutive (v :: r)) at 1.
    rewrite rev_involutive. cbn [rev].
    destruct (rev r ++ [v]) as [|z m] eqn:E; [destruct (rev r); discriminate|].
    unfold cyc at 1. rewrite <- path_rev, rev_app_distr. cbn [rev app].
    assert (E2 : rev (z :: m) = v :: r). { rewrite <- E, rev_app_distr. cbn. rewrite rev_involutive. reflexivity. }
    cbn [rev] in E2. rewrite E2. assert (E3 : last (v :: r) v = z).
    { rewrite <- E2. apply last_last. }
    rewrite <- E3, cyc_last. apply cyc_rot1.
  Qed.
  Lemma cyc_chord a b l1 l2 :
    cyc (a :: l1 ++ b :: l2) = xorb (cyc (a :: l1 ++ [b])) (cyc (b :: l2 ++ [a])).
  Proof.
    unfold cyc. cbn [app].
    assert (E1 : path (a :: (l1 ++ b :: l2) ++ [a]) = xorb (path (a :: l1 ++ [b])) (path (b :: l2 ++ [a]))).
    { rewrite <- app_assoc. cbn [app]. change (a :: l1 ++ b :: l2 ++ [a]) with ((a :: l1) ++ b :: l2 ++ [a]).
      apply path_app. }
    rewrite E1.
    change (a :: (l1 ++ [b]) ++ [a]) with ((a :: l1 ++ [b]) ++ [a]).
    change (b :: (l2 ++ [a]) ++ [b]) with ((b :: l2 ++ [a]) ++ [b]).
    rewrite (path_snoc (a :: l1 ++ [b]) a a), (path_snoc (b :: l2 ++ [a]) b b) by discriminate.
    assert (E2 : last (a :: l1 ++ [b]) a = b) by (change (a :: l1 ++ [b]) with ((a :: l1) ++ [b]); apply last_last).
    assert (E3 : last (b :: l2 ++ [a]) b = a) by (change (b :: l2 ++ [a]) with ((b :: l2) ++ [a]); apply last_last).
    rewrite E2, E3, (fsym a b).
    destruct (path (a :: l1 ++ [b])), (path (b :: l2 ++ [a])), (f b a); reflexivity.
  Qed.

  Hypothesis fid : forall a, f a a = false.
  Lemma cyc_dup l1 v l2 : cyc (l1 ++ v :: v :: l2) = cyc (l1 ++ v :: l2).
  Proof.
    rewrite cyc_rot. rewrite (cyc_rot l1). cbn [app]. unfold cyc. cbn [app].
    change (path (v :: v :: (l2 ++ l1) ++ [v])) with (xorb (f v v) (path (v :: (l2 ++ l1) ++ [v]))).
    rewrite fid. apply xorb_false_l.
  Qed.
  Lemma cyc_close v r : cyc ((v :: r) ++ [v]) = cyc (v :: r).
  Proof.
    rewrite cyc_rot. cbn [app]. apply (cyc_dup [] v r).
  Qed.
End Path.

Lemma path_ext {A} (f g : A -> A -> bool) l :
  (forall a b, f a b = g a b) -> path f l = path g l.
Proof. intros H. induction l as [|x [|y r] IH]; auto. cbn [path] in *. rewrite H, IH. reflexivity. Qed.
Lemma cyc_ext {A} (f g : A -> A -> bool) l : (forall a b, f a b = g a b) -> cyc f l = cyc g l.
Proof. intros H. destruct l; auto. unfold cyc. apply path_ext, H. Qed.

Definition consec {A} (a b : A) (l : list A) : Prop := exists l1 l2, l = l1 ++ a :: b :: l2.
Lemma path_ext_in {A} (f g : A -> A -> bool) l :
  (forall a b, consec a b l -> f a b = g a b) -> path f l = path g l.
Proof.
  induction l as [|x r IH]; intros H; auto. destruct r as [|y r]; auto.
  change (xorb (f x y) (path f (y :: r)) = xorb (g x y) (path g (y :: r))).
  rewrite IH, (H x y); auto.
  - exists [], r. reflexivity.
  - intros a b [l1 [l2 E]]. apply H. exists (x :: l1), l2. rewrite E. reflexivity.
Qed.
Lemma path_xor {A} (f g : A -> A -> bool) l : path (fun a b => xorb (f a b) (g a b)) l = xorb (path f l) (path g l).
Proof.
  induction l as [|x r IH]; auto. destruct r as [|y r]; auto.
  change (xorb (xorb (f x y) (g x y)) (path (fun a b => xorb (f a b) (g a b)) (y :: r)) =
    xorb (xorb (f x y) (path f (y :: r))) (xorb (g x y) (path g (y :: r)))).
  rewrite IH. destruct (f x y), (g x y), (path f (y :: r)), (path g (y :: r)); reflexivity.
Qed.
(** Differences of a potential cancel on a cycle. *)
Lemma path_pot {A} (h : A -> bool) v l w : path (fun a b => xorb (h a) (h b)) (v :: l ++ [w]) = xorb (h v) (h w).
Proof.
  revert v. induction l as [|x r IH]; intros v.
  - cbn. apply xorb_false_r.
  - change (xorb (xorb (h v) (h x)) (path (fun a b => xorb (h a) (h b)) (x :: r ++ [w])) = xorb (h v) (h w)).
    rewrite IH. destruct (h v), (h x), (h w); reflexivity.
Qed.
Lemma cyc_pot {A} (h : A -> bool) l : cyc (fun a b => xorb (h a) (h b)) l = false.
Proof. destruct l as [|v r]; auto. unfold cyc. cbn [app]. rewrite path_pot. destruct (h v); reflexivity. Qed.
Lemma cyc_xor {A} (f g : A -> A -> bool) l : cyc (fun a b => xorb (f a b) (g a b)) l = xorb (cyc f l) (cyc g l).
Proof. destruct l; auto. unfold cyc. apply path_xor. Qed.
Lemma path_map {A B} (u : A -> B) (f : B -> B -> bool) l : path f (map u l) = path (fun a b => f (u a) (u b)) l.
Proof.
  induction l as [|x r IH]; auto. destruct r as [|y r]; auto.
  cbn [map] in *. change (xorb (f (u x) (u y)) (path f (u y :: map u r)) = xorb (f (u x) (u y)) (path (fun a b => f (u a) (u b)) (y :: r))).
  rewrite IH. reflexivity.
Qed.
Lemma cyc_map {A B} (u : A -> B) (f : B -> B -> bool) l : cyc f (map u l) = cyc (fun a b => f (u a) (u b)) l.
Proof.
  destruct l as [|v r]; auto. unfold cyc. rewrite <- (path_map u f). rewrite map_app. reflexivity.
Qed.
Lemma consec_edges {A} (v : A) r a b : consec a b ((v :: r) ++ [v]) -> In (a, b) (combine (v :: r) (r ++ [v])).
Proof.
  intros [l1 [l2 E]]. revert v r E. 
  assert (G : forall l1 (v : A) r z, v :: r ++ [z] = l1 ++ a :: b :: l2 -> In (a, b) (combine (v :: r) (r ++ [z]))).
  { intros m. induction m as [|x m IH]; intros v r z E.
    - cbn [app] in E. destruct r as [|y r]; cbn [app] in E |- *.
      + injection E as -> -> _. cbn. auto.
      + injection E as -> -> _. cbn. auto.
    - cbn [app] in E. injection E as -> E. destruct r as [|y r].
      + cbn in E. destruct m as [|? [|? ?]]; discriminate.
      + cbn [app] in *. cbn [combine]. right. apply IH. exact E. }
  intros v r E. apply (G l1). exact E.
Qed.

(** ** The C test *)

Lemma Qltb_iff a b : Qltb a b = true <-> a < b.
Proof. unfold Qltb. rewrite negb_true_iff. apply Qle_bool_false. Qed.
Lemma Qltb_spec a b : BoolSpec (a < b) (b <= a) (Qltb a b).
Proof. unfold Qltb. destruct (Qle_bool_spec b a); constructor; auto. Qed.

Lemma c_loop_path p l : forall v c, c_loop p v l c = xorb c (path (fun a b => c_edge p b a) (v :: l)).
Proof.
  induction l as [|x r IH]; intros v c; [cbn; rewrite xorb_false_r; reflexivity|].
  cbn [c_loop]. rewrite IH. change (path (fun a b => c_edge p b a) (v :: x :: r)) with
    (xorb (c_edge p x v) (path (fun a b => c_edge p b a) (x :: r))).
  destruct (c_edge p x v), c, (path _ (x :: r)); reflexivity.
Qed.

Definition xint (p a b : pt) : Q := (fst b - fst a) * (snd p - snd a) / (snd b - snd a) + fst a.
Lemma xint_sym p a b : ~ snd a == snd b -> xint p a b == xint p b a.
Proof. intros H. unfold xint. field. split; lra. Qed.

#[export] Instance Qltb_comp : Proper (Qeq ==> Qeq ==> eq) Qltb.
Proof. intros a b E c d F. unfold Qltb. rewrite E, F. reflexivity. Qed.

Lemma c_edge_sym p a b : c_edge p a b = c_edge p b a.
Proof.
  unfold c_edge. destruct (Qltb_spec (snd p) (snd a)), (Qltb_spec (snd p) (snd b)); cbn [Bool.eqb negb andb]; auto;
    fold (xint p a b); fold (xint p b a); rewrite xint_sym; auto; lra.
Qed.
Lemma c_edge_id p a : c_edge p a a = false.
Proof. unfold c_edge. destruct (Qltb _ _); reflexivity. Qed.

Lemma c_cyc l p : c_point_in_poly l p = cyc (c_edge p) l.
Proof.
  destruct l as [|v r]; auto. unfold c_point_in_poly. rewrite c_loop_path, xorb_false_l, cyc_last.
  apply cyc_ext. intros. apply c_edge_sym.
Qed.

(** ** The Python test *)

Lemma py_loop_path p l : forall v c, py_loop p v l c = xorb c (path (py_edge p) (v :: l)).
Proof.
  induction l as [|x r IH]; intros v c; [cbn; rewrite xorb_false_r; reflexivity|].
  cbn [py_loop]. rewrite IH. change (path (py_edge p) (v :: x :: r)) with
    (xorb (py_edge p v x) (path (py_edge p) (x :: r))).
  destruct (py_edge p v x), c, (path _ (x :: r)); reflexivity.
Qed.

(** The intersection is between the ends. *)
Lemma convex t x y : 0 <= t <= 1 -> (x <= y -> x <= x + t * (y - x) <= y) /\ (y <= x -> y <= x + t * (y - x) <= x).
Proof.
  intros [H0 H1]. split; intros H.
  - pose proof (Qmul_nonneg t (y - x) H0 ltac:(lra)). pose proof (Qmul_nonneg (1 - t) (y - x) ltac:(lra) ltac:(lra)).
    split; [lra|]. assert ((1 - t) * (y - x) == y - (x + t * (y - x))) by ring. lra.
  - pose proof (Qmul_nonneg t (x - y) H0 ltac:(lra)). pose proof (Qmul_nonneg (1 - t) (x - y) ltac:(lra) ltac:(lra)).
    assert (t * (x - y) == - (t * (y - x))) by ring.
    assert ((1 - t) * (x - y) == (x + t * (y - x)) - y) by ring. lra.
Qed.
Lemma frac01 a b : 0 < b -> 0 <= a <= b -> 0 <= a / b <= 1.
Proof.
  intros Hb [H0 H1]. split.
  - apply Qle_shift_div_l; auto. lra.
  - apply Qle_shift_div_r; auto. lra.
Qed.
Lemma xint_t p a b : ~ snd a == snd b ->
  let t := (snd p - snd a) / (snd b - snd a) in
  xint p a b == fst a + t * (fst b - fst a) /\ snd p == snd a + t * (snd b - snd a).
Proof. intros H. cbn. unfold xint. split; field; lra. Qed.
Lemma t01 (p a b : pt) : ~ snd a == snd b ->
  (snd a <= snd p <= snd b \/ snd b <= snd p <= snd a) ->
  0 <= (snd p - snd a) / (snd b - snd a) <= 1.
Proof.
  intros Hn [H|H].
  - apply frac01; lra.
  - setoid_replace ((snd p - snd a) / (snd b - snd a)) with ((snd a - snd p) / (snd a - snd b)) by (field; lra).
    apply frac01; lra.
Qed.
Lemma xint_between p a b : ~ snd a == snd b ->
  (snd a <= snd p <= snd b \/ snd b <= snd p <= snd a) ->
  (fst a <= fst b -> fst a <= xint p a b <= fst b) /\ (fst b <= fst a -> fst b <= xint p a b <= fst a).
Proof.
  intros Hn Hb. destruct (xint_t p a b Hn) as [E _]. rewrite E.
  apply convex, t01; auto.
Qed.

(** The shortcuts of the Python test do not matter. *)
Definition py_edge' (p a b : pt) : bool :=
  xorb (Qle_bool (snd p) (snd a)) (Qle_bool (snd p) (snd b)) && Qle_bool (fst p) (xint p a b).
Lemma py_edge_eq p a b : py_edge p a b = py_edge' p a b.
Proof.
  unfold py_edge, py_edge'.
  destruct (Qle_bool_spec (snd p) (snd a)) as [Ha|Ha], (Qle_bool_spec (snd p) (snd b)) as [Hb|Hb];
    cbn [Bool.eqb negb xorb andb]; auto.
  - assert (Hn : ~ snd a == snd b) by lra.
    destruct (xint_between p a b Hn ltac:(lra)) as [B1 B2].
    destruct (Qle_bool_spec (fst p) (fst a)), (Qle_bool_spec (fst p) (fst b)); cbn [Bool.eqb].
    + destruct (Qle_bool_spec (fst p) (xint p a b)); auto. exfalso. destruct (Qlt_le_dec (fst b) (fst a)); [apply Qlt_le_weak in q; specialize (B2 q)|specialize (B1 q)]; lra.
    + apply Qleb_comp; [reflexivity|]. unfold xint. field. lra.
    + apply Qleb_comp; [reflexivity|]. unfold xint. field. lra.
    + destruct (Qle_bool_spec (fst p) (xint p a b)); auto. exfalso. destruct (Qlt_le_dec (fst b) (fst a)); [apply Qlt_le_weak in q; specialize (B2 q)|specialize (B1 q)]; lra.
  - assert (Hn : ~ snd a == snd b) by lra.
    destruct (xint_between p a b Hn ltac:(lra)) as [B1 B2].
    destruct (Qle_bool_spec (fst p) (fst a)), (Qle_bool_spec (fst p) (fst b)); cbn [Bool.eqb].
    + destruct (Qle_bool_spec (fst p) (xint p a b)); auto. exfalso. destruct (Qlt_le_dec (fst b) (fst a)); [apply Qlt_le_weak in q; specialize (B2 q)|specialize (B1 q)]; lra.
    + apply Qleb_comp; [reflexivity|]. unfold xint. field. lra.
    + apply Qleb_comp; [reflexivity|]. unfold xint. field. lra.
    + destruct (Qle_bool_spec (fst p) (xint p a b)); auto. exfalso. destruct (Qlt_le_dec (fst b) (fst a)); [apply Qlt_le_weak in q; specialize (B2 q)|specialize (B1 q)]; lra.
Qed.

Definition pt_eq (a b : pt) : Prop := fst a == fst b /\ snd a == snd b.
Lemma py_edge'_comp p a b b' : pt_eq b b' -> py_edge' p a b = py_edge' p a b'.
Proof.
  intros [E1 E2]. unfold py_edge', xint. rewrite E1, E2. reflexivity.
Qed.
Lemma py_edge'_sym p a b : py_edge' p a b = py_edge' p b a.
Proof.
  unfold py_edge'. destruct (Qle_bool_spec (snd p) (snd a)), (Qle_bool_spec (snd p) (snd b)); cbn [xorb andb]; auto;
    rewrite xint_sym; auto; lra.
Qed.
Lemma py_edge'_id p a b : pt_eq a b -> py_edge' p a b = false.
Proof. intros [E1 E2]. unfold py_edge'. rewrite E2, xorb_nilpotent. reflexivity. Qed.

Lemma last_default {A} (u : list A) x d : u <> [] -> last u x = last u d.
Proof.
  induction u as [|a u IH]; [congruence|]. intros _. destruct u; auto. apply IH. discriminate.
Qed.
Lemma py_cyc l p : l <> [] -> crossings_test l p = Ok (cyc (py_edge' p) l).
Proof.
  intros Hl. destruct l as [|v r]; [congruence|]. unfold crossings_test. f_equal.
  assert (G : forall w d, py_loop p (last w d) w false = cyc (py_edge' p) w).
  { intros [|x s] d; [reflexivity|]. rewrite py_loop_path, xorb_false_l.
    replace (last (x :: s) d) with (last (x :: s) x).
    - rewrite cyc_last. apply cyc_ext. apply py_edge_eq.
    - apply last_default. discriminate. }
  destruct (pt_eqb v (last (v :: r) v)) eqn:E.
  - assert (Hq : pt_eq v (last (v :: r) v)).
    { unfold pt_eqb in E. apply andb_prop in E as [E1 E2]. apply Qeq_bool_iff in E1, E2. split; auto. }
    set (z := last (v :: r) v) in *. pose proof (app_removelast_last v (l := v :: r) ltac:(discriminate)) as Er.
    fold z in Er. set (w := removelast (v :: r)) in *.
    specialize (G w z). destruct w as [|x s] eqn:Ew.
    + rewrite G. cbn [app] in Er. rewrite Er. unfold cyc. cbn [app path].
      rewrite xorb_false_r. symmetry. apply py_edge'_id. split; reflexivity.
    + rewrite G. rewrite Er. cbn [app] in Er. injection Er as <- Er.
      unfold cyc. cbn [app].
      change (v :: (s ++ [z]) ++ [v]) with ((v :: s ++ [z]) ++ [v]).
      rewrite (path_snoc (py_edge' p) (v :: s ++ [z]) v v) by discriminate.
      assert (El : last (v :: s ++ [z]) v = z) by (change (v :: s ++ [z]) with ((v :: s) ++ [z]); apply last_last).
      rewrite El, (py_edge'_id p z v), xorb_false_r.
      2:{ destruct Hq. split; symmetry; auto. }
      change (v :: s ++ [v]) with ((v :: s) ++ [v]). change (v :: s ++ [z]) with ((v :: s) ++ [z]).
      rewrite !(path_snoc (py_edge' p) (v :: s) v) by discriminate. f_equal. apply py_edge'_comp, Hq.
  - apply (G (v :: r)).
Qed.

(** ** Outside the bounding box *)

Lemma path_ext_mem {A} (f g : A -> A -> bool) l :
  (forall a b, In a l -> In b l -> f a b = g a b) -> path f l = path g l.
Proof.
  intros H. apply path_ext_in. intros a b [l1 [l2 E]].
  apply H; rewrite E; apply in_or_app; right; cbn; auto.
Qed.
Lemma cyc_ext_mem {A} (f g : A -> A -> bool) l :
  (forall a b, In a l -> In b l -> f a b = g a b) -> cyc f l = cyc g l.
Proof.
  intros H. destruct l as [|v r]; auto. unfold cyc. apply path_ext_mem.
  intros a b Ha Hb. apply H; [clear Hb; rename Ha into Hb|]; apply in_app_or in Hb as [?|[<-|[]]]; auto; left; auto.
Qed.
Lemma cyc_false {A} l : cyc (fun _ _ : A => false) l = false.
Proof. apply (cyc_pot (fun _ => false)). Qed.

Lemma xint_bounds p a b lo hi : ~ snd a == snd b ->
  (snd a <= snd p <= snd b \/ snd b <= snd p <= snd a) ->
  (lo < fst a -> lo < fst b -> lo < xint p a b) /\ (fst a < hi -> fst b < hi -> xint p a b < hi).
Proof.
  intros Hn Hb. destruct (xint_between p a b Hn Hb) as [B1 B2].
  destruct (Qlt_le_dec (fst b) (fst a)); [apply Qlt_le_weak in q; specialize (B2 q)|specialize (B1 q)]; lra.
Qed.

Lemma c_beside l p : beside l p -> cyc (c_edge p) l = false.
Proof.
  intros [H|[H|[H|H]]].
  - rewrite <- (cyc_pot (fun v => Qltb (snd p) (snd v)) l). apply cyc_ext_mem. intros a b Ha Hb.
    specialize (H a Ha) as H1. specialize (H b Hb) as H2. unfold c_edge. fold (xint p a b).
    destruct (Qltb_spec (snd p) (snd a)), (Qltb_spec (snd p) (snd b)); cbn [Bool.eqb negb andb xorb]; auto;
      apply Qltb_iff; apply (xint_bounds p a b (fst p) 0); auto; lra.
  - rewrite <- (cyc_false l). apply cyc_ext_mem. intros a b Ha Hb.
    specialize (H a Ha) as H1. specialize (H b Hb) as H2. unfold c_edge. fold (xint p a b).
    destruct (Qltb_spec (snd p) (snd a)), (Qltb_spec (snd p) (snd b)); cbn [Bool.eqb negb andb xorb]; auto;
      (assert (Hx : xint p a b < fst p) by (apply (xint_bounds p a b 0 (fst p)); auto; lra));
      destruct (Qltb_spec (fst p) (xint p a b)); auto; lra.
  - rewrite <- (cyc_false l). apply cyc_ext_mem. intros a b Ha Hb.
    specialize (H a Ha) as H1. specialize (H b Hb) as H2. unfold c_edge.
    destruct (Qltb_spec (snd p) (snd a)), (Qltb_spec (snd p) (snd b)); auto; lra.
  - rewrite <- (cyc_false l). apply cyc_ext_mem. intros a b Ha Hb.
    specialize (H a Ha) as H1. specialize (H b Hb) as H2. unfold c_edge.
    destruct (Qltb_spec (snd p) (snd a)), (Qltb_spec (snd p) (snd b)); auto; lra.
Qed.

(** ** The two tests *)

Definition gpot (p v : pt) : bool := Qeq_bool (snd v) (snd p) && Qltb (fst p) (fst v).
Lemma Qeq_bool_spec a b : BoolSpec (a == b) (~ a == b) (Qeq_bool a b).
Proof.
  destruct (Qeq_bool a b) eqn:E; constructor; [apply Qeq_bool_iff, E|].
  intros H. apply Qeq_bool_iff in H. congruence.
Qed.
Lemma on_seg_x p a b : ~ snd a == snd b ->
  (snd a <= snd p <= snd b \/ snd b <= snd p <= snd a) -> fst p == xint p a b -> on_segment a b p.
Proof.
  intros Hn Hb E. exists ((snd p - snd a) / (snd b - snd a)).
  destruct (xint_t p a b Hn) as [E1 E2]. split; [apply t01; auto|]. split; auto. rewrite E. exact E1.
Qed.
Lemma on_seg_y p a b : snd a == snd p -> snd b == snd p ->
  (fst a <= fst p <= fst b \/ fst b <= fst p <= fst a) -> on_segment a b p.
Proof.
  intros Ea Eb H. destruct (Qeq_dec (fst a) (fst b)) as [E|E].
  - exists 0. repeat split; lra.
  - exists ((fst p - fst a) / (fst b - fst a)).
    assert (Hs : 0 <= (fst p - fst a) / (fst b - fst a) <= 1).
    { destruct H as [H|H].
      - apply frac01; lra.
      - setoid_replace ((fst p - fst a) / (fst b - fst a)) with ((fst a - fst p) / (fst a - fst b)) by (field; lra).
        apply frac01; lra. }
    split; auto. split; [field; lra|]. rewrite Ea, Eb. ring.
Qed.
Lemma xint_at_b p a b : ~ snd a == snd b -> snd b == snd p -> xint p a b == fst b.
Proof. intros H E. unfold xint. rewrite <- E. field. lra. Qed.
Lemma xint_at_a p a b : ~ snd a == snd b -> snd a == snd p -> xint p a b == fst a.
Proof. intros H E. unfold xint. rewrite <- E. field. lra. Qed.

Lemma two_edges p a b : ~ on_segment a b p ->
  xorb (c_edge p a b) (py_edge' p a b) = xorb (gpot p a) (gpot p b).
Proof.
  intros Hs. unfold c_edge, py_edge', gpot. fold (xint p b a). 
  change ((fst b - fst a) * (snd p - snd a) / (snd b - snd a) + fst a) with (xint p a b).
  assert (Hx : ~ snd a == snd b -> (snd a <= snd p <= snd b \/ snd b <= snd p <= snd a) -> ~ fst p == xint p a b).
  { intros H1 H2 H3. apply Hs, on_seg_x; auto. }
  destruct (Qeq_bool_spec (snd a) (snd p)) as [Ea|Ea], (Qeq_bool_spec (snd b) (snd p)) as [Eb|Eb];
    destruct (Qltb_spec (snd p) (snd a)), (Qltb_spec (snd p) (snd b)); try lra;
    destruct (Qle_bool_spec (snd p) (snd a)), (Qle_bool_spec (snd p) (snd b)); try lra;
    cbn [Bool.eqb negb andb xorb]; auto.
  - (* both at the height of the point *)
    assert (Hy := on_seg_y p a b Ea Eb).
    destruct (Qltb_spec (fst p) (fst a)), (Qltb_spec (fst p) (fst b)); auto; exfalso; apply Hs, Hy; lra.
  - assert (Hn : ~ snd a == snd b) by lra. rewrite (xint_at_a p a b); auto; try (destruct (Qltb (fst p) (fst a)); reflexivity).
  - assert (Hn : ~ snd a == snd b) by lra. pose proof (xint_at_a p a b Hn Ea) as Ex.
    specialize (Hx Hn ltac:(lra)). rewrite Ex in Hx |- *.
    destruct (Qltb_spec (fst p) (fst a)), (Qle_bool_spec (fst p) (fst a)); auto; lra.
  - assert (Hn : ~ snd a == snd b) by lra. rewrite (xint_at_b p a b); auto; try (destruct (Qltb (fst p) (fst b)); reflexivity).
  - assert (Hn : ~ snd a == snd b) by lra. pose proof (xint_at_b p a b Hn Eb) as Ex.
    specialize (Hx Hn ltac:(lra)). rewrite Ex in Hx |- *.
    destruct (Qltb_spec (fst p) (fst b)), (Qle_bool_spec (fst p) (fst b)); auto; lra.
  - assert (Hn : ~ snd a == snd b) by lra. specialize (Hx Hn ltac:(lra)).
    destruct (Qltb_spec (fst p) (xint p a b)), (Qle_bool_spec (fst p) (xint p a b)); auto; lra.
  - assert (Hn : ~ snd a == snd b) by lra. specialize (Hx Hn ltac:(lra)).
    destruct (Qltb_spec (fst p) (xint p a b)), (Qle_bool_spec (fst p) (xint p a b)); auto; lra.
Qed.

Lemma edges_consec v r a b : consec a b ((v :: r) ++ [v]) -> In (a, b) (edges (v :: r)).
Proof. apply consec_edges. Qed.
Lemma tests_agree l p : ~ on_boundary l p -> cyc (c_edge p) l = cyc (py_edge' p) l.
Proof.
  intros H. destruct l as [|v r]; auto.
  assert (E : xorb (cyc (c_edge p) (v :: r)) (cyc (py_edge' p) (v :: r)) = false).
  { rewrite <- cyc_xor, <- (cyc_pot (gpot p) (v :: r)). unfold cyc. apply path_ext_in.
    intros a b Hc. apply two_edges. intros Hs. apply H. exists a, b. split; auto. apply edges_consec, Hc. }
  destruct (cyc (c_edge p) (v :: r)), (cyc (py_edge' p) (v :: r)); auto; discriminate.
Qed.
Lemma py_beside l p : beside l p -> ~ on_boundary l p.
Proof.
  intros H [a [b [Hin [t [Ht [E1 E2]]]]]].
  assert (Hm : In a l /\ In b l).
  { destruct l as [|v r]; [destruct Hin|]. unfold edges in Hin. split; [eapply in_combine_l; eauto|].
    apply in_combine_r in Hin. apply in_app_or in Hin as [?|[<-|[]]]; [right; auto|left; auto]. }
  destruct Hm as [Ha Hb].
  pose proof (convex t (fst a) (fst b) Ht) as [X1 X2]. pose proof (convex t (snd a) (snd b) Ht) as [Y1 Y2].
  destruct H as [H|[H|[H|H]]]; specialize (H a Ha) as H1; specialize (H b Hb) as H2.
  1,2: destruct (Qlt_le_dec (fst b) (fst a)) as [q|q]; [apply Qlt_le_weak in q; specialize (X2 q)|specialize (X1 q)]; lra.
  1,2: destruct (Qlt_le_dec (snd b) (snd a)) as [q|q]; [apply Qlt_le_weak in q; specialize (Y2 q)|specialize (Y1 q)]; lra.
Qed.

(** ** Triangles *)

Lemma pos_l x d : 0 < d -> 0 < x * d -> 0 < x.
Proof.
  intros Hd H. destruct (Qlt_le_dec 0 x); auto. exfalso.
  pose proof (Qmul_nonneg (- x) d ltac:(lra) ltac:(lra)). assert (- x * d == - (x * d)) by ring. lra.
Qed.
Lemma neg_l x d : 0 < d -> x * d < 0 -> x < 0.
Proof.
  intros Hd H. destruct (Qlt_le_dec x 0); auto. exfalso.
  pose proof (Qmul_nonneg x d ltac:(lra) ltac:(lra)). lra.
Qed.
Lemma cross_xint p a b : ~ snd a == snd b -> cross a b p == (xint p a b - fst p) * (snd b - snd a).
Proof. intros H. unfold cross, xint. field. lra. Qed.
Lemma edge_cross p a b : ~ on_segment a b p ->
  (snd a <= snd p < snd b -> c_edge p a b = Qltb 0 (cross a b p) /\ ~ cross a b p == 0) /\
  (snd b <= snd p < snd a -> c_edge p a b = Qltb (cross a b p) 0 /\ ~ cross a b p == 0).
Proof.
  intros Hs. split; intros Hy; unfold c_edge; fold (xint p a b).
  - assert (Hn : ~ snd a == snd b) by lra.
    assert (Hx : ~ fst p == xint p a b) by (intros H; apply Hs, on_seg_x; auto; lra).
    pose proof (cross_xint p a b Hn) as E.
    destruct (Qltb_spec (snd p) (snd a)), (Qltb_spec (snd p) (snd b)); try lra. cbn [Bool.eqb negb andb].
    destruct (Qltb_spec (fst p) (xint p a b)).
    + pose proof (Qmul_pos (xint p a b - fst p) (snd b - snd a) ltac:(lra) ltac:(lra)).
      split; [symmetry; apply Qltb_iff|]; lra.
    + pose proof (Qmul_pos (fst p - xint p a b) (snd b - snd a) ltac:(lra) ltac:(lra)).
      assert ((fst p - xint p a b) * (snd b - snd a) == - ((xint p a b - fst p) * (snd b - snd a))) by ring.
      split; [destruct (Qltb_spec 0 (cross a b p)); auto|]; lra.
  - assert (Hn : ~ snd a == snd b) by lra.
    assert (Hx : ~ fst p == xint p a b) by (intros H; apply Hs, on_seg_x; auto; lra).
    pose proof (cross_xint p a b Hn) as E.
    destruct (Qltb_spec (snd p) (snd a)), (Qltb_spec (snd p) (snd b)); try lra. cbn [Bool.eqb negb andb].
    destruct (Qltb_spec (fst p) (xint p a b)).
    + pose proof (Qmul_pos (xint p a b - fst p) (snd a - snd b) ltac:(lra) ltac:(lra)).
      assert ((xint p a b - fst p) * (snd a - snd b) == - ((xint p a b - fst p) * (snd b - snd a))) by ring.
      split; [symmetry; apply Qltb_iff|]; lra.
    + pose proof (Qmul_pos (fst p - xint p a b) (snd a - snd b) ltac:(lra) ltac:(lra)).
      assert ((fst p - xint p a b) * (snd a - snd b) == (xint p a b - fst p) * (snd b - snd a)) by ring.
      split; [destruct (Qltb_spec (cross a b p) 0); auto|]; lra.
Qed.
Lemma edge_flat p a b : (snd p < snd a -> snd p < snd b -> c_edge p a b = false) /\
  (snd a <= snd p -> snd b <= snd p -> c_edge p a b = false).
Proof.
  unfold c_edge. destruct (Qltb_spec (snd p) (snd a)), (Qltb_spec (snd p) (snd b)); split; intros; auto; lra.
Qed.
Lemma bary a b c p :
  cross b c p * (snd a - snd p) + cross c a p * (snd b - snd p) + cross a b p * (snd c - snd p) == 0.
Proof. unfold cross. ring. Qed.

Lemma strictly_insideb_iff a b c p : strictly_insideb a b c p = true <-> strictly_inside a b c p.
Proof.
  unfold strictly_insideb, strictly_inside. rewrite orb_true_iff, !andb_true_iff, !Qltb_iff. tauto.
Qed.
Lemma bool_iff (x y : bool) : (x = true <-> y = true) -> x = y.
Proof. destruct x, y; intuition congruence. Qed.
Lemma insideb_rot a b c p : strictly_insideb a b c p = strictly_insideb b c a p.
Proof. apply bool_iff. rewrite !strictly_insideb_iff. unfold strictly_inside. tauto. Qed.

Ltac fin := try (exfalso; lra); cbn [andb orb]; rewrite ?andb_false_r, ?orb_false_r, ?orb_true_r; cbn [andb orb]; reflexivity.
(** The third vertex alone on its side. *)
Lemma tri_up a b c p : ~ on_segment a b p -> ~ on_segment b c p -> ~ on_segment c a p ->
  snd a <= snd p -> snd b <= snd p -> snd p < snd c ->
  xorb (c_edge p b c) (c_edge p c a) = strictly_insideb a b c p.
Proof.
  intros Sab Sbc Sca Ha Hb Hc.
  destruct (edge_cross p b c Sbc) as [E1 _]. destruct (E1 ltac:(lra)) as [-> Nbc].
  destruct (edge_cross p c a Sca) as [_ E2]. destruct (E2 ltac:(lra)) as [-> Nca].
  pose proof (bary a b c p) as B.
  set (U := cross b c p) in *. set (V := cross c a p) in *. set (W := cross a b p) in *.
  assert (F : ~ (snd a == snd p /\ snd b == snd p /\ (0 < U /\ 0 < V \/ U < 0 /\ V < 0))).
  { intros [Ea [Eb HU]]. apply Sab. apply on_seg_y; auto.
    assert (EU : U == (fst b - fst p) * (snd c - snd p)) by (unfold U, cross; rewrite Eb; ring).
    assert (EV : V == (fst p - fst a) * (snd c - snd p)) by (unfold V, cross; rewrite Ea; ring).
    destruct HU as [[HU HV]|[HU HV]]; rewrite EU in HU; rewrite EV in HV.
    - apply pos_l in HU; [|lra]. apply pos_l in HV; [|lra]. lra.
    - apply neg_l in HU; [|lra]. apply neg_l in HV; [|lra]. lra. }
  unfold strictly_insideb. fold U V W.
  destruct (Qltb_spec 0 U) as [HU|HU], (Qltb_spec V 0) as [HV|HV]; cbn [xorb].
  - destruct (Qltb_spec 0 V), (Qltb_spec U 0); fin.
  - (* U > 0, V > 0 *)
    assert (HV' : 0 < V) by lra.
    assert (HW : 0 < W).
    { pose proof (Qmul_nonneg U (snd p - snd a) ltac:(lra) ltac:(lra)) as K1.
      pose proof (Qmul_nonneg V (snd p - snd b) ltac:(lra) ltac:(lra)) as K2.
      assert (EB : W * (snd c - snd p) == U * (snd p - snd a) + V * (snd p - snd b)) by lra.
      apply (pos_l W (snd c - snd p)); [lra|].
      destruct (Qeq_dec (snd a) (snd p)) as [Ea|Ea].
      - destruct (Qeq_dec (snd b) (snd p)) as [Eb|Eb].
        + exfalso. apply F. repeat split; auto.
        + pose proof (Qmul_pos V (snd p - snd b) ltac:(lra) ltac:(lra)). lra.
      - pose proof (Qmul_pos U (snd p - snd a) ltac:(lra) ltac:(lra)). lra. }
    destruct (Qltb_spec 0 V), (Qltb_spec 0 W); fin.
  - assert (HU' : U < 0) by lra.
    assert (HW : W < 0).
    { pose proof (Qmul_nonneg (- U) (snd p - snd a) ltac:(lra) ltac:(lra)) as K1.
      pose proof (Qmul_nonneg (- V) (snd p - snd b) ltac:(lra) ltac:(lra)) as K2.
      assert (EB : W * (snd c - snd p) == - (- U * (snd p - snd a)) - (- V * (snd p - snd b))) by lra.
      apply (neg_l W (snd c - snd p)); [lra|].
      destruct (Qeq_dec (snd a) (snd p)) as [Ea|Ea].
      - destruct (Qeq_dec (snd b) (snd p)) as [Eb|Eb].
        + exfalso. apply F. repeat split; auto.
        + pose proof (Qmul_pos (- V) (snd p - snd b) ltac:(lra) ltac:(lra)). lra.
      - pose proof (Qmul_pos (- U) (snd p - snd a) ltac:(lra) ltac:(lra)). lra. }
    destruct (Qltb_spec U 0), (Qltb_spec W 0); fin.
  - destruct (Qltb_spec U 0), (Qltb_spec V 0); fin.
Qed.
Lemma tri_down a b c p : ~ on_segment b c p -> ~ on_segment c a p ->
  snd p < snd a -> snd p < snd b -> snd c <= snd p ->
  xorb (c_edge p b c) (c_edge p c a) = strictly_insideb a b c p.
Proof.
  intros Sbc Sca Ha Hb Hc.
  destruct (edge_cross p b c Sbc) as [_ E1]. destruct (E1 ltac:(lra)) as [-> Nbc].
  destruct (edge_cross p c a Sca) as [E2 _]. destruct (E2 ltac:(lra)) as [-> Nca].
  pose proof (bary a b c p) as B.
  set (U := cross b c p) in *. set (V := cross c a p) in *. set (W := cross a b p) in *.
  unfold strictly_insideb. fold U V W.
  destruct (Qltb_spec U 0) as [HU|HU], (Qltb_spec 0 V) as [HV|HV]; cbn [xorb].
  - destruct (Qltb_spec 0 U), (Qltb_spec V 0); fin.
  - assert (HW : W < 0).
    { pose proof (Qmul_pos (- U) (snd a - snd p) ltac:(lra) ltac:(lra)) as K1.
      pose proof (Qmul_pos (- V) (snd b - snd p) ltac:(lra) ltac:(lra)) as K2.
      assert (EB : W * (snd p - snd c) == - (- U * (snd a - snd p)) - (- V * (snd b - snd p))) by lra.
      destruct (Qeq_dec (snd c) (snd p)) as [Ec|Ec].
      - exfalso. assert (W * (snd p - snd c) == 0) by (rewrite Ec; ring). lra.
      - apply (neg_l W (snd p - snd c)); lra. }
    destruct (Qltb_spec V 0), (Qltb_spec W 0); fin.
  - assert (HW : 0 < W).
    { pose proof (Qmul_pos U (snd a - snd p) ltac:(lra) ltac:(lra)) as K1.
      pose proof (Qmul_pos V (snd b - snd p) ltac:(lra) ltac:(lra)) as K2.
      assert (EB : W * (snd p - snd c) == U * (snd a - snd p) + V * (snd b - snd p)) by lra.
      destruct (Qeq_dec (snd c) (snd p)) as [Ec|Ec].
      - exfalso. assert (W * (snd p - snd c) == 0) by (rewrite Ec; ring). lra.
      - apply (pos_l W (snd p - snd c)); lra. }
    destruct (Qltb_spec 0 U), (Qltb_spec 0 W); fin.
  - destruct (Qltb_spec 0 U), (Qltb_spec V 0); fin.
Qed.
Lemma tri_none a b c p :
  (snd p < snd a /\ snd p < snd b /\ snd p < snd c) \/ (snd a <= snd p /\ snd b <= snd p /\ snd c <= snd p) ->
  strictly_insideb a b c p = false.
Proof.
  intros H. apply not_true_is_false. rewrite strictly_insideb_iff. intros HS.
  pose proof (bary a b c p) as B.
  assert (Z3 : snd a == snd p -> snd b == snd p -> cross a b p == 0) by (intros E1 E2; unfold cross; rewrite E1, E2; ring).
  unfold strictly_inside in HS.
  set (U := cross b c p) in *. set (V := cross c a p) in *. set (W := cross a b p) in *.
  assert (G : forall (u v w : Q), 0 < u -> 0 < v -> 0 < w ->
    u * (snd a - snd p) + v * (snd b - snd p) + w * (snd c - snd p) == 0 -> snd a == snd p /\ snd b == snd p).
  { intros u v w Hu Hv Hw E. destruct H as [[H1 [H2 H3]]|[H1 [H2 H3]]].
    - pose proof (Qmul_pos u (snd a - snd p) ltac:(lra) ltac:(lra)).
      pose proof (Qmul_pos v (snd b - snd p) ltac:(lra) ltac:(lra)).
      pose proof (Qmul_pos w (snd c - snd p) ltac:(lra) ltac:(lra)). lra.
    - pose proof (Qmul_nonneg u (snd p - snd a) ltac:(lra) ltac:(lra)).
      pose proof (Qmul_nonneg v (snd p - snd b) ltac:(lra) ltac:(lra)).
      pose proof (Qmul_nonneg w (snd p - snd c) ltac:(lra) ltac:(lra)).
      split.
      + destruct (Qlt_le_dec (snd a) (snd p)); [|lra].
        pose proof (Qmul_pos u (snd p - snd a) ltac:(lra) ltac:(lra)). lra.
      + destruct (Qlt_le_dec (snd b) (snd p)); [|lra].
        pose proof (Qmul_pos v (snd p - snd b) ltac:(lra) ltac:(lra)). lra. }
  destruct HS as [[H1 [H2 H3]]|[H1 [H2 H3]]].
  - destruct (G U V W) as [E1 E2]; auto. specialize (Z3 E1 E2). lra.
  - destruct (G (- U) (- V) (- W)) as [E1 E2]; [lra|lra|lra|lra|]. specialize (Z3 E1 E2). lra.
Qed.
Lemma tri_ok a b c p : ~ on_segment a b p -> ~ on_segment b c p -> ~ on_segment c a p ->
  cyc (c_edge p) [a; b; c] = strictly_insideb a b c p.
Proof.
  intros Sab Sbc Sca. cbn [cyc app path]. rewrite xorb_false_r.
  destruct (Qlt_le_dec (snd p) (snd a)), (Qlt_le_dec (snd p) (snd b)), (Qlt_le_dec (snd p) (snd c)).
  - rewrite tri_none by auto. rewrite !(proj1 (edge_flat _ _ _)); auto.
  - rewrite <- tri_down by auto. rewrite (proj1 (edge_flat p a b)), xorb_false_l; auto.
  - rewrite (insideb_rot a b c), (insideb_rot b c a), <- tri_down by auto. rewrite (proj1 (edge_flat p c a)); auto.
    destruct (c_edge p a b), (c_edge p b c); reflexivity.
  - rewrite (insideb_rot a b c), <- tri_up by auto. rewrite (proj2 (edge_flat p b c)); auto.
    destruct (c_edge p a b), (c_edge p c a); reflexivity.
  - rewrite (insideb_rot a b c), <- tri_down by auto. rewrite (proj1 (edge_flat p b c)); auto.
    destruct (c_edge p a b), (c_edge p c a); reflexivity.
  - rewrite (insideb_rot a b c), (insideb_rot b c a), <- tri_up by auto. rewrite (proj2 (edge_flat p c a)); auto.
    destruct (c_edge p a b), (c_edge p b c); reflexivity.
  - rewrite <- tri_up by auto. rewrite (proj2 (edge_flat p a b)), xorb_false_l; auto.
  - rewrite tri_none by auto. rewrite !(proj2 (edge_flat _ _ _)); auto.
Qed.

(** ** Fans *)

Lemma fan_ok v p r : (forall a b, In (a, b) (pairs r) -> ~ on_boundary [v; a; b] p) ->
  cyc (c_edge p) (v :: r) = Nat.odd (length (filter (fun ab => strictly_insideb v (fst ab) (snd ab) p) (pairs r))).
Proof.
  induction r as [|a r IH]; intros H.
  - cbn. rewrite c_edge_id. reflexivity.
  - destruct r as [|b r].
    + cbn. rewrite (c_edge_sym p a v), xorb_false_r. apply xorb_nilpotent.
    + change (v :: a :: b :: r) with (v :: [a] ++ b :: r). rewrite (cyc_chord (c_edge p) (c_edge_sym p) v b [a] r).
      assert (E1 : cyc (c_edge p) (v :: [a] ++ [b]) = strictly_insideb v a b p).
      { assert (Hb : ~ on_boundary [v; a; b] p) by (apply H; left; reflexivity).
        apply tri_ok; intros K; apply Hb; [exists v, a|exists a, b|exists b, v]; cbn; auto. }
      assert (E2 : cyc (c_edge p) (b :: r ++ [v]) = cyc (c_edge p) (v :: b :: r)).
      { rewrite (cyc_rot1 (c_edge p) v). reflexivity. }
      rewrite E1, E2, IH by (intros x y Hx; apply H; right; exact Hx).
      change (pairs (a :: b :: r)) with ((a, b) :: pairs (b :: r)). cbn [filter fst snd].
      destruct (strictly_insideb v a b p); cbn [length].
      * rewrite Nat.odd_succ, <- Nat.negb_odd. apply xorb_true_l.
      * apply xorb_false_l.
Qed.
