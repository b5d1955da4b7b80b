(** * Properties C169 to C171: surface concentrations, contours and hulls *)
From Coq Require Import QArith Lia Lqa Bool Permutation.
From Verif Require Import Py PyLemmas SrfModel SrfSpec SrfProofs.
Open Scope Z_scope.

(** ** C169: surface concentrations *)

(** The loop ends, and every element is given what [given] says, with the model's kernel
    as the density; nothing depends on elements of other spills. *)
Theorem C169_concentration : forall cosd kde l, l <> [] ->
  exists n, forall fuel, (n <= fuel)%nat ->
  exists c, compute cosd kde fuel l 1 = Some (Ok (Some c)) /\ Forall2 (given (kernel cosd kde) l) l c.
Proof.
  intros cosd kde l N.
  assert (B : forall ss, exists n, forall fuel, (n <= fuel)%nat -> forall s, In s ss -> enough (filter (fun e => e_spill e =? s) l) fuel).
  { induction ss as [|s ss (n & IH)]; [exists 0%nat; intros fuel _ s []|].
    exists (Nat.max n (Z.to_nat ((last_age (filter (fun e => e_spill e =? s) l) - first_age (filter (fun e => e_spill e =? s) l)) / bin_length + 2))).
    intros fuel F x [<-|I]; [unfold enough; lia|apply IH; [lia|exact I]]. }
  destruct (B (zsort (nodup Z.eq_dec (map e_spill l)))) as (n & F). exists n. intros fuel L.
  exists (map (conc cosd kde l) l). split.
  - unfold compute. destruct l as [|e l]; [congruence|]. change (1 =? 0) with false. change (1 =? 1) with true. cbn [orb]. cbv iota. unfold surface_conc_kde. set (L0 := e :: l) in *.
    rewrite spills_value by (apply F; exact L). f_equal. f_equal. f_equal. apply map_ext_in. intros x I.
    assert (M : zmem (e_spill x) (zsort (nodup Z.eq_dec (map e_spill L0))) = true).
    { unfold zmem. apply existsb_exists. exists (e_spill x). split; [|apply Z.eqb_refl]. apply Permutation_in with (l := nodup Z.eq_dec (map e_spill L0)); [apply Permutation_sym, zsort_perm|].
      apply nodup_In, in_map, I. }
    rewrite M. reflexivity.
  - assert (G : forall k, (forall e, In e k -> In e l) -> Forall2 (given (kernel cosd kde) l) k (map (conc cosd kde l) k)).
    { induction k as [|e k IH]; intros S; constructor; [apply conc_given, S; left; reflexivity|apply IH; intros x I; apply S; right; exact I]. }
    apply G. auto.
Qed.
Print Assumptions C169_concentration.

(** The kernel: metres from the lowest longitude and latitude, weights that are the
    shares of the mass unless all masses are equal. *)
Theorem C169_kernel : forall cosd kde k f, kernel cosd kde k = Some f ->
  exists lon0 lat0 w g,
    (exists a b, In a k /\ In b k /\ lon0 = e_lon a /\ lat0 = e_lat b) /\
    Forall (fun e => (lon0 <= e_lon e)%Q /\ (lat0 <= e_lat e)%Q) k /\
    kde (map (fun e => ((e_lon e - lon0) * 111325 * cosd lat0, (e_lat e - lat0) * 111325)%Q) k) w = Some g /\
    (forall e, f e = g ((e_lon e - lon0) * 111325 * cosd lat0, (e_lat e - lat0) * 111325)%Q) /\
    match w with
    | None => forall a b, In a k -> In b k -> (e_mass a == e_mass b)%Q
    | Some ws => ~ (qsum (map e_mass k) == 0)%Q -> Forall2 (fun e x => (x * qsum (map e_mass k) == e_mass e)%Q) k ws
    end.
Proof.
  intros cosd kde k f H. destruct k as [|e0 r]; [discriminate|]. unfold kernel in H. set (k := e0 :: r) in *.
  set (lon0 := qmin (e_lon e0) (map e_lon r)) in *. set (lat0 := qmin (e_lat e0) (map e_lat r)) in *.
  assert (QM : forall l x, (qmin x l <= x)%Q /\ Forall (fun y => (qmin x l <= y)%Q) l /\ (qmin x l = x \/ In (qmin x l) l)).
  { induction l as [|y l IH]; intros x; simpl; [split; [apply Qle_refl|split; [constructor|auto]]|].
    destruct (IH (qmin2 x y)) as (A & B & C). unfold qmin2 in *. destruct (Qle_bool x y) eqn:E.
    - apply Qle_bool_iff in E. split; [exact A|]. split; [constructor; [lra|exact B]|]. destruct C; auto.
    - assert (L : (y < x)%Q). { apply Qnot_le_lt. intros X. apply Qle_bool_iff in X. congruence. }
      split; [lra|]. split; [constructor; [lra|exact B]|]. destruct C as [C|C]; [right; left; symmetry; exact C|auto]. }
  destruct (kde (map (xy cosd lon0 lat0) k) (weights k)) as [g|] eqn:K; [|discriminate].
  assert (Hf : f = fun e => g (xy cosd lon0 lat0 e)) by congruence. subst f. clear H.
  exists lon0, lat0, (weights k), g. split; [|split; [|split; [exact K|split; [reflexivity|]]]].
  - assert (A : exists a, In a k /\ lon0 = e_lon a).
    { destruct (QM (map e_lon r) (e_lon e0)) as (_ & _ & [X|X]); [exists e0; split; [left; reflexivity|exact X]|]. apply in_map_iff in X. destruct X as (y & Y & I). exists y. split; [right; exact I|symmetry; exact Y]. }
    assert (B : exists b, In b k /\ lat0 = e_lat b).
    { destruct (QM (map e_lat r) (e_lat e0)) as (_ & _ & [X|X]); [exists e0; split; [left; reflexivity|exact X]|]. apply in_map_iff in X. destruct X as (y & Y & I). exists y. split; [right; exact I|symmetry; exact Y]. }
    destruct A as (a & A1 & A2). destruct B as (b & B1 & B2). exists a, b. auto.
  - destruct (QM (map e_lon r) (e_lon e0)) as (X1 & X2 & _). destruct (QM (map e_lat r) (e_lat e0)) as (Y1 & Y2 & _). constructor; [split; assumption|].
    rewrite Forall_forall in *. intros e I. split; [apply X2, in_map, I|apply Y2, in_map, I].
  - unfold weights. destruct (Nat.ltb 1 (distinct (map e_mass k))) eqn:D.
    + intros Z0. assert (G : forall l, Forall2 (fun e x => (x * qsum (map e_mass k) == e_mass e)%Q) l (map (fun e => e_mass e / qsum (map e_mass k))%Q l)).
      { induction l as [|e l IH]; constructor; [field; exact Z0|exact IH]. }
      apply G.
    + intros a b A B. destruct (Qeq_dec (e_mass a) (e_mass b)) as [E|E]; [exact E|]. exfalso.
      assert (X : at_least 2 (map e_mass k)).
      { exists [e_mass a; e_mass b]. split; [reflexivity|]. split.
        - intros [|[|i]] [|[|j]] x y X Y Q; try reflexivity; simpl in X, Y; try (destruct i; discriminate); try (destruct j; discriminate);
            inversion X; inversion Y; subst; exfalso; apply E; [exact Q|symmetry; exact Q].
        - constructor; [exists (e_mass a); split; [apply in_map; exact A|apply Qeq_refl]|]. constructor; [exists (e_mass b); split; [apply in_map; exact B|apply Qeq_refl]|constructor]. }
      apply value_ltb in X. congruence.
Qed.
Print Assumptions C169_kernel.

(** Without elements or without an algorithm nothing is computed; another algorithm than
    'kde' is an error, but only once there are elements. *)
Theorem C169_algorithm : forall cosd kde fuel l a, a <> 1 ->
  compute cosd kde fuel l a = Some (if a =? 0 then Ok None else match l with [] => Ok None | _ => Raise ValueErr end) /\
  compute cosd kde fuel [] 1 = Some (Ok None).
Proof.
  intros cosd kde fuel l a N. split; [|reflexivity]. unfold compute. destruct (a =? 0); [rewrite orb_true_r; reflexivity|]. rewrite orb_false_r.
  destruct l; [reflexivity|]. destruct (a =? 1) eqn:E; [apply Z.eqb_eq in E; contradiction|reflexivity].
Qed.
Print Assumptions C169_algorithm.

Definition ex_elems : list elem :=
  [Elem 1 1 2 0 7; Elem 2 3 2 100 7; Elem 3 2 2 3599 7; Elem 3 2 4 3600 7; Elem 5 5 1 7300 8; Elem 5 6 1 20 8]%Q.
Definition ex_kde (p : list (Q * Q)) (w : option (list Q)) : option (Q * Q -> Q) := Some (fun _ => 1%Q).
Example C169_concentration_meets : exists c, compute (fun _ => 1%Q) ex_kde 10 ex_elems 1 = Some (Ok (Some c)) /\ Forall2 Qeq c [6; 6; 6; 10; 0; 0]%Q.
Proof. eexists. split; [vm_compute; reflexivity|]. repeat constructor. Qed.
Example C169_kernel_meets : exists f, kernel (fun _ => 1%Q) ex_kde ex_elems = Some f.
Proof. eexists. reflexivity. Qed.

(** Two elements of a spill at the same place are not given the same number: the younger
    one does not see the oil of an hour before, whatever the kernel is, as long as
    the kernel of the younger elements and that of all do not make up for it. *)
Theorem C169_place_refuted : forall cosd (kde : list (Q * Q) -> option (list Q) -> option (Q * Q -> Q)),
  (forall p w, exists g, kde p w = Some g /\ forall x, (g x == 1)%Q) ->
  exists l fuel c i j, compute cosd kde fuel l 1 = Some (Ok (Some c)) /\
    exists a b x y, nth_error l i = Some a /\ nth_error l j = Some b /\ nth_error c i = Some x /\ nth_error c j = Some y /\
      e_lon a = e_lon b /\ e_lat a = e_lat b /\ e_spill a = e_spill b /\ ~ (x == y)%Q.
Proof.
  intros cosd kde K.
  destruct (C169_concentration cosd kde (firstn 4 ex_elems)) as (n & F); [discriminate|]. destruct (F n (Nat.le_refl n)) as (c & E & G).
  exists (firstn 4 ex_elems), n, c, 2%nat, 3%nat. split; [exact E|]. clear F E. unfold ex_elems in G. cbn [firstn] in G.
  inversion G; subst. inversion H3; subst. inversion H5; subst. inversion H7; subst. inversion H9; subst. clear G H3 H5 H7 H9.
  eexists _, _, y1, y2. split; [reflexivity|]. split; [reflexivity|]. split; [reflexivity|]. split; [reflexivity|]. split; [reflexivity|]. split; [reflexivity|]. split; [reflexivity|].
  assert (T : forall e v m, given (kernel cosd kde) (firstn 4 ex_elems) e v -> youngest (same_spill (firstn 4 ex_elems) e) m ->
     (forall f, kernel cosd kde (used (firstn 4 ex_elems) m e) = Some f -> (f e == 1)%Q) -> kernel cosd kde (used (firstn 4 ex_elems) m e) <> None ->
     (2 <? distinct (map e_lat (used (firstn 4 ex_elems) m e)))%nat = true -> (2 <? distinct (map e_lon (used (firstn 4 ex_elems) m e)))%nat = true ->
     Qle_bool (qsum (map e_mass (used (firstn 4 ex_elems) m e))) 0 = false -> (v == qsum (map e_mass (used (firstn 4 ex_elems) m e)))%Q).
  { intros e v m (m' & Y & V) Y' K1 K2 D1 D2 Q. rewrite (youngest_unique _ _ _ Y Y') in V. cbv zeta in V. rewrite Q in V.
    destruct (kernel cosd kde (used (firstn 4 ex_elems) m e)) as [f|]; [|congruence]. pose proof (K1 f eq_refl) as K1'.
    destruct V as [(_ & _ & ->)|([V|V] & _)]; [rewrite K1'; ring| |]; exfalso; apply V; apply value_ltb; assumption. }
  assert (KK : forall e r, (exists f, kernel cosd kde (e :: r) = Some f) /\ forall f x, kernel cosd kde (e :: r) = Some f -> (f x == 1)%Q).
  { intros e r. unfold kernel. destruct (K (map (xy cosd (qmin (e_lon e) (map e_lon r)) (qmin (e_lat e) (map e_lat r))) (e :: r)) (weights (e :: r))) as (g & E1 & E2). rewrite E1. split; [eexists; reflexivity|].
    intros f x X. inversion X; subst. apply E2. }
  assert (YY : youngest (same_spill (firstn 4 ex_elems) (Elem 1 1 2 0 7)%Q) 0).
  { split; [eexists; split; [left; reflexivity|reflexivity]|]. repeat constructor; vm_compute; discriminate. }
  assert (A : (y1 == 6)%Q).
  { rewrite (T _ _ 0 H4); [vm_compute; reflexivity|exact YY| | |vm_compute; reflexivity|vm_compute; reflexivity|vm_compute; reflexivity].
    - intros f X. eapply (proj2 (KK _ _)). exact X.
    - destruct (proj1 (KK (Elem 1 1 2 0 7) [Elem 2 3 2 100 7; Elem 3 2 2 3599 7])%Q) as (f & X). intros Y. assert (X2 := eq_trans (eq_sym Y) X). discriminate. }
  assert (B : (y2 == 10)%Q).
  { rewrite (T _ _ 0 H6); [vm_compute; reflexivity|exact YY| | |vm_compute; reflexivity|vm_compute; reflexivity|vm_compute; reflexivity].
    - intros f X. eapply (proj2 (KK _ _)). exact X.
    - destruct (proj1 (KK (Elem 1 1 2 0 7) [Elem 2 3 2 100 7; Elem 3 2 2 3599 7; Elem 3 2 4 3600 7])%Q) as (f & X). intros Y. assert (X2 := eq_trans (eq_sym Y) X). discriminate. }
  rewrite A, B. intros X. discriminate.
Qed.
Print Assumptions C169_place_refuted.

(** ** C170: contours *)

(** With the keys there and the columns there, the contours are, spill by spill and cutoff
    by cutoff, the hulls of the positions within the bounds of the cutoff, where there
    are any. *)
Definition expected {P H} (hull : list P -> option H) (rows : list (P * Z)) (cols : list (Z * list Q)) (structure : list (Z * (Z * list cutoff))) : list (contour H) :=
  concat (map (fun x => let '(s, (param, cs)) := x in
    for_each (length cs) (fun i =>
      match dget param cols, nth_error cs i with
      | Some col, Some (Cutoff v (Some a) (Some b) (Some l)) =>
          match positions_in rows col s (map c_cut cs) i with
          | [] => []
          | ps => match hull ps with Some h => [Contour H s v a b l h] | None => [] end
          end
      | _, _ => []
      end)) structure).
Theorem C170_contours : forall P H (concave_hull : list P -> geom H) buffer rows cols structure,
  Forall (fun x => dget (fst (snd x)) cols <> None /\ Forall complete (snd (snd x))) structure ->
  calculate_contours P H concave_hull buffer (Container P rows cols) structure =
  Ok (expected (shape_of concave_hull buffer) rows cols structure).
Proof.
  intros P H concave_hull buffer rows cols structure F. change (shape_of concave_hull buffer) with (hull_of P H concave_hull buffer). unfold calculate_contours. cbn [s_rows]. destruct rows as [|r0 rows0] eqn:R.
  - f_equal. unfold expected, for_each. clear F. induction structure as [|[s [p cs]] st IH]; [reflexivity|]. cbn [map concat]. rewrite <- IH. rewrite app_nil_r.
    assert (ZZ : forall n k, concat (map (fun i => match dget p cols, nth_error cs i with Some col, Some (Cutoff v (Some a) (Some b) (Some l)) => match positions_in (@nil (P * Z)) col s (map c_cut cs) i with [] => [] | ps => match hull_of P H concave_hull buffer ps with Some h => [Contour H s v a b l h] | None => [] end end | _, _ => [] end) (seq k n)) = []).
    { induction n as [|n IHn]; intros k; [reflexivity|]. cbn [seq map concat]. rewrite IHn. destruct (dget p cols); [|reflexivity]. destruct (nth_error cs k) as [[v [a|] [b|] [lb|]]|]; reflexivity. }
    symmetry. apply ZZ.
  - rewrite <- R. clear R r0 rows0. induction structure as [|[s [p cs]] st IH]; [reflexivity|]. inversion F; subst. destruct H2 as (D & C). cbn [fst snd] in D, C.
    cbn [over_spills]. rewrite (IH H3). unfold expected. cbn [map concat]. unfold for_each at 1.
    destruct (dget p cols) as [col|] eqn:E; [|congruence]. destruct cs as [|c cs]; [reflexivity|].
    cbn [s_cols]. rewrite E. cbn [key bind].
    pose proof (loop_contours P H concave_hull buffer s rows cols col (c :: cs) (c :: cs) [] 0%Q eq_refl C) as LC.
    change (length (@nil cutoff)) with 0%nat in LC. rewrite LC by (intros j J; discriminate). cbn [bind]. reflexivity.
Qed.
Print Assumptions C170_contours.

(** Of two cutoffs or more in ascending order every value has one, two only if it is
    equal to the value of the first of them. *)
Theorem C170_cover : forall cs v, ascending cs -> (2 <= length cs)%nat ->
  (exists i, (i < length cs)%nat /\ insideb cs i v = true) /\
  (forall i j, (i < j < length cs)%nat -> insideb cs i v = true -> insideb cs j v = true ->
     j = S i /\ exists c, nth_error cs i = Some c /\ (v == c)%Q).
Proof.
  intros cs v A L. split.
  - destruct (first_above cs v) as [(i & c & N & V & B)|B].
    + exists i. assert (LI : (i < length cs)%nat) by (apply nth_error_Some; congruence). split; [exact LI|]. apply insideb_within. split.
      * intros a X. destruct i as [|i]; [discriminate|]. simpl in X. apply Qlt_le_weak, (B i a); [lia|exact X].
      * intros b X. unfold upper in X. destruct i as [|i]; [|destruct (Nat.eqb (S (S i)) (length cs)); [discriminate|]]; rewrite N in X; inversion X; subst; exact V.
    + exists (length cs - 1)%nat. split; [lia|]. apply insideb_within. split.
      * intros a X. destruct (length cs - 1)%nat as [|k]; [discriminate|]. simpl in X. apply Qlt_le_weak, (B k a X).
      * intros b X. unfold upper in X. destruct (length cs - 1)%nat as [|k] eqn:E; [lia|]. assert (Y : Nat.eqb (S (S k)) (length cs) = true) by (apply Nat.eqb_eq; lia). rewrite Y in X. discriminate.
  - intros i j I X Y. apply insideb_within in X. apply insideb_within in Y. destruct X as (_ & U). destruct Y as (LO & _).
    destruct (nth_error cs i) as [c|] eqn:N; [|apply nth_error_None in N; lia].
    assert (UI : upper cs i = Some c). { unfold upper. destruct i as [|i]; [exact N|]. assert (Z : Nat.eqb (S (S i)) (length cs) = false) by (apply Nat.eqb_neq; lia). rewrite Z. exact N. }
    specialize (U c UI). destruct j as [|j]; [lia|]. destruct (nth_error cs j) as [d|] eqn:M; [|apply nth_error_None in M; lia].
    specialize (LO d M). destruct (Nat.eq_dec i j) as [<-|NE].
    + split; [reflexivity|]. exists c. split; [reflexivity|]. assert (d = c) by congruence. subst d. lra.
    + exfalso. assert (Z : (c < d)%Q) by (apply (A i j); [lia|exact N|exact M]). lra.
Qed.
Print Assumptions C170_cover.

Definition ex_cuts : list cutoff := [Cutoff (10 # 1) (Some 1) (Some 2) (Some 3); Cutoff (20 # 1) (Some 4) (Some 5) (Some 6); Cutoff (30 # 1) (Some 7) (Some 8) (Some 9)].
Definition ex_hull (ps : list Z) : geom (list Z) := match ps with [] => Other _ | [x] => Thin _ [x] | _ => Poly _ ps end.
Definition ex_sc : container Z := Container Z [(100, 1); (101, 1); (102, 2); (103, 1); (104, 1)] [(0, [5; 10; 1; 40; 31]%Q)].
Example C170_contours_meets : calculate_contours Z (list Z) ex_hull (fun h => 0 :: h) ex_sc [(1, (0, ex_cuts)); (2, (0, ex_cuts))] =
  Ok [Contour _ 1 (10 # 1) 1 2 3 [100; 101]; Contour _ 1 (20 # 1) 4 5 6 [0; 101]; Contour _ 1 (30 # 1) 7 8 9 [103; 104]; Contour _ 2 (10 # 1) 1 2 3 [0; 102]].
Proof. reflexivity. Qed.
Example C170_cover_meets : ascending (map c_cut ex_cuts) /\ (2 <= length ex_cuts)%nat.
Proof.
  split; [|simpl; lia]. intros i j a b L A B. destruct i as [|[|[|i]]]; destruct j as [|[|[|j]]]; simpl in *; try lia; try discriminate;
    try (destruct i; discriminate); try (destruct j; discriminate); inversion A; inversion B; reflexivity.
Qed.

(** A single cutoff has no part above it: those elements are in no contour, although the
    description has a last part without an upper bound. *)
Theorem C170_single_refuted : forall P H (concave_hull : list P -> geom H) buffer p s param c v, (c_cut c < v)%Q -> complete c ->
  calculate_contours P H concave_hull buffer (Container P [(p, s)] [(param, [v])]) [(s, (param, [c]))] = Ok [].
Proof.
  intros P H concave_hull buffer p s param c v L C. rewrite C170_contours.
  - unfold expected, for_each. cbn [map concat length seq dget]. rewrite Z.eqb_refl. cbn [nth_error map positions_in].
    rewrite Z.eqb_refl. assert (X : insideb [c_cut c] 0 v = false).
    { unfold insideb. simpl. apply not_true_is_false. intros X. apply Qle_bool_iff in X. lra. }
    rewrite X. cbn [andb]. destruct C as (a & b & l & ->). reflexivity.
  - constructor; [|constructor]. split; [cbn [fst snd dget]; rewrite Z.eqb_refl; discriminate|]. constructor; [exact C|constructor].
Qed.
Print Assumptions C170_single_refuted.

(** The structure that the description shows, with 'cutoff' and 'label' only, raises
    KeyError as soon as there is something to show. *)
Theorem C170_keys_refuted : forall P H (concave_hull : list P -> geom H) buffer rows cols s param cs c r col,
  cs = c :: r -> c_id c = None \/ c_color c = None ->
  dget param cols = Some col -> positions_in rows col s (map c_cut cs) 0 <> [] ->
  shape_of concave_hull buffer (positions_in rows col s (map c_cut cs) 0) <> None ->
  calculate_contours P H concave_hull buffer (Container P rows cols) [(s, (param, cs))] = Raise KeyErr.
Proof.
  intros P H concave_hull buffer rows cols s param cs c r col E K D N HN. change (shape_of concave_hull buffer) with (hull_of P H concave_hull buffer) in HN. unfold calculate_contours. cbn [s_rows].
  destruct rows as [|r0 rs] eqn:R; [exfalso; apply N; reflexivity|]. rewrite <- R in *. clear R r0 rs.
  cbn [over_spills s_cols]. rewrite D. subst cs. cbn [key bind loop].
  pose proof (chosen_inside P (map c_cut (c :: r)) 0 0%Q (c_cut c) (rows_of P (Container P rows cols) s col) eq_refl ltac:(intros; discriminate)) as CH. rewrite map_length in CH. rewrite CH. clear CH.
  rewrite <- positions_rows with (cols := cols) in N, HN.
  destruct (filter _ (rows_of P (Container P rows cols) s col)) as [|x xs]; [exfalso; apply N; reflexivity|].
  destruct (hull_of P H concave_hull buffer (map fst (x :: xs))) as [h|]; [|congruence].
  destruct K as [K|K]; rewrite K; cbn [key bind]; [reflexivity|]. destruct (c_id c); reflexivity.
Qed.
Print Assumptions C170_keys_refuted.
Example C170_keys_meets : calculate_contours Z (list Z) ex_hull (fun h => 0 :: h) ex_sc [(1, (0, [Cutoff (10 # 1) None None (Some 3)]))] = Raise KeyErr.
Proof. reflexivity. Qed.

(** ** C171: hulls *)

(** One spill after another: each spill that has elements with a hull appears once, with
    the hull of all its elements in all the containers. *)
Theorem C171_separate : forall P H (concave_hull : list P -> geom H) buffer union_all scs,
  let out := calculate_hull P H concave_hull buffer union_all scs false true in
  NoDup (map snd out) /\
  (forall h o, In (h, o) out <-> exists s, o = Some s /\ In s (map snd (concat scs)) /\
     shape_of concave_hull buffer (map fst (filter (fun x => snd x =? s) (concat scs))) = Some h).
Proof.
  intros P H concave_hull buffer union_all scs. change (shape_of concave_hull buffer) with (hull_of P H concave_hull buffer). unfold calculate_hull. set (all := concat scs).
  assert (U : forall l seen, NoDup (uniq_from seen l) /\ forall s, In s (uniq_from seen l) <-> In s l /\ ~ In s seen).
  { assert (ZM : forall s l, zmem s l = true <-> In s l).
    { intros s l. unfold zmem. rewrite existsb_exists. split; [intros (x & I & E); apply Z.eqb_eq in E; subst; exact I|intros I; exists s; split; [exact I|apply Z.eqb_refl]]. }
    induction l as [|x l IH]; intros seen; cbn [uniq_from]; [split; [constructor|intros s; simpl; tauto]|].
    destruct (zmem x seen) eqn:E.
    - destruct (IH seen) as (A & B). split; [exact A|]. intros s. rewrite B. apply ZM in E. simpl. split; [tauto|]. intros ([->|I] & N); [contradiction|tauto].
    - destruct (IH (x :: seen)) as (A & B). assert (NX : ~ In x seen) by (intros X; apply ZM in X; congruence). split.
      + constructor; [rewrite B; simpl; tauto|exact A].
      + intros s. simpl. rewrite B. simpl. split; [intros [<-|(I & N)]; tauto|]. intros ([->|I] & N); [tauto|]. destruct (Z.eq_dec x s) as [->|D]; [tauto|]. right. tauto. }
  destruct all as [|a0 all0] eqn:E; [split; [constructor|intros h o; simpl; split; [tauto|intros (s & _ & [] & _)]]|]. rewrite <- E. cbv zeta. clear a0 all0 E.
  destruct (U (map snd all) []) as (A & B). split.
  - clear B. induction (uniq_from [] (map snd all)) as [|s l IH]; [constructor|]. inversion A; subst. cbn [map concat]. destruct (hull_of _ _ _ _ _); [|apply IH; assumption].
    cbn [app map snd]. constructor; [|apply IH; assumption]. intros I. apply in_map_iff in I. destruct I as ([h' o] & O & I). simpl in O. subst o.
    apply in_concat in I. destruct I as (q & Q1 & Q2). apply in_map_iff in Q1. destruct Q1 as (s' & S1 & S2). destruct (hull_of _ _ _ _ _) in S1; subst q; [destruct Q2 as [Q2|[]]; inversion Q2; subst; contradiction|destruct Q2].
  - intros h o. rewrite in_concat. split.
    + intros (q & Q1 & Q2). apply in_map_iff in Q1. destruct Q1 as (s & S1 & S2). apply B in S2. exists s. destruct (hull_of _ _ _ _ _) eqn:HE in S1; subst q; [|destruct Q2]. destruct Q2 as [Q2|[]]. inversion Q2; subst. split; [reflexivity|]. split; [apply S2|exact HE].
    + intros (s & -> & I & HE). exists [(h, Some s)]. split; [|left; reflexivity]. apply in_map_iff. exists s. rewrite HE. split; [reflexivity|]. apply B. split; [exact I|simpl; tauto].
Qed.
Print Assumptions C171_separate.

(** All together: the hull of all elements of all containers, or none; and with
    union_results one shape without spill, of the hulls there would be without it. *)
Theorem C171_together : forall P H (concave_hull : list P -> geom H) buffer union_all scs sep,
  calculate_hull P H concave_hull buffer union_all scs false false =
    match concat scs with
    | [] => []
    | all => match shape_of concave_hull buffer (map fst all) with Some h => [(h, None)] | None => [] end
    end /\
  (concat scs = [] -> calculate_hull P H concave_hull buffer union_all scs true sep = []) /\
  (concat scs <> [] -> calculate_hull P H concave_hull buffer union_all scs true sep =
     [(union_all (map fst (calculate_hull P H concave_hull buffer union_all scs false sep)), None)]).
Proof.
  intros P H concave_hull buffer union_all scs sep. change (shape_of concave_hull buffer) with (hull_of P H concave_hull buffer). unfold calculate_hull. destruct (concat scs); [split; [reflexivity|]; split; [reflexivity|congruence]|].
  split; [reflexivity|]. split; [discriminate|reflexivity].
Qed.
Print Assumptions C171_together.
Example C171_separate_meets : calculate_hull Z (list Z) ex_hull (fun h => 0 :: h) (@concat Z) [[(10, 5); (11, 6)]; [(12, 5)]] false true = [([10; 12], Some 5); ([0; 11], Some 6)].
Proof. reflexivity. Qed.
