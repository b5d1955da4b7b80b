(** * C45, C46, C47, C74, C75: points in polygons *)
From Verif Require Import Py QLemmas PipModel PipSpec PipProofs.
Open Scope Q_scope.

(** A quadrilateral that is not convex, and some points. *)
Definition dart : list pt := [(0, 0); (4, 0); (1, 1); (0, 4)].
Example dart_inside : map (c_point_in_poly dart) [(1#2, 1#2); (2, 2); (1, 1#2); (0, 0); (4, 0); (0, 2); (1, 1)]
  = [true; false; true; true; false; true; false].
Proof. reflexivity. Qed.

(** ** C45 *)

(** Starting from another vertex. *)
Theorem C45_rotation : forall l1 l2 p,
  c_point_in_poly (l1 ++ l2) p = c_point_in_poly (l2 ++ l1) p /\
  crossings_test (l1 ++ l2) p = crossings_test (l2 ++ l1) p.
Proof.
  intros l1 l2 p. rewrite !c_cyc, (cyc_rot (c_edge p) l1 l2). split; auto.
  destruct l1 as [|a l1]; [rewrite app_nil_r; reflexivity|].
  rewrite !py_cyc by (destruct l2; discriminate). rewrite (cyc_rot _ (a :: l1) l2). reflexivity.
Qed.
Print Assumptions C45_rotation.

(** The other direction. *)
Theorem C45_reversal : forall l p,
  c_point_in_poly (rev l) p = c_point_in_poly l p /\ crossings_test (rev l) p = crossings_test l p.
Proof.
  intros l p. rewrite !c_cyc, (cyc_rev _ (c_edge_sym p)). split; auto.
  destruct l as [|a l]; [reflexivity|].
  rewrite !py_cyc by (cbn; destruct (rev l); discriminate). rewrite (cyc_rev _ (py_edge'_sym p)). reflexivity.
Qed.
Print Assumptions C45_reversal.

(** Repeating the first vertex at the end. *)
Theorem C45_closing : forall v r p,
  c_point_in_poly ((v :: r) ++ [v]) p = c_point_in_poly (v :: r) p /\
  crossings_test ((v :: r) ++ [v]) p = crossings_test (v :: r) p.
Proof.
  intros v r p. rewrite !c_cyc, (cyc_close _ (c_edge_id p)). split; auto.
  rewrite !py_cyc by discriminate. rewrite (cyc_close (py_edge' p)); auto.
  intros a. apply py_edge'_id. split; reflexivity.
Qed.
Print Assumptions C45_closing.

(** Repeating a vertex anywhere. *)
Theorem C45_repetition : forall l1 v l2 p,
  c_point_in_poly (l1 ++ v :: v :: l2) p = c_point_in_poly (l1 ++ v :: l2) p /\
  crossings_test (l1 ++ v :: v :: l2) p = crossings_test (l1 ++ v :: l2) p.
Proof.
  intros l1 v l2 p. rewrite !c_cyc, (cyc_dup _ (c_edge_id p)). split; auto.
  rewrite !py_cyc by (destruct l1; discriminate). rewrite (cyc_dup (py_edge' p)); auto.
  intros a. apply py_edge'_id. split; reflexivity.
Qed.
Print Assumptions C45_repetition.

(** Both tests answer for every polygon with a vertex; without, the Python one raises. *)
Theorem C45_answers : forall l p, (exists b, crossings_test l p = Ok b) <-> l <> [].
Proof.
  intros l p. split.
  - intros [b E] ->. discriminate E.
  - intros H. rewrite py_cyc by auto. eauto.
Qed.
Print Assumptions C45_answers.

(** ** C46 *)

(** The chord goes from vertex [a] to vertex [b]; the parts are the two polygons
    into which it cuts the polygon. *)
Theorem C46_chord : forall a l1 b l2 p,
  (c_point_in_poly (a :: l1 ++ b :: l2) p = true <->
   (c_point_in_poly (a :: l1 ++ [b]) p = true /\ c_point_in_poly (b :: l2 ++ [a]) p = false) \/
   (c_point_in_poly (a :: l1 ++ [b]) p = false /\ c_point_in_poly (b :: l2 ++ [a]) p = true)) /\
  (crossings_test (a :: l1 ++ b :: l2) p = Ok true <->
   (crossings_test (a :: l1 ++ [b]) p = Ok true /\ crossings_test (b :: l2 ++ [a]) p = Ok false) \/
   (crossings_test (a :: l1 ++ [b]) p = Ok false /\ crossings_test (b :: l2 ++ [a]) p = Ok true)).
Proof.
  intros a l1 b l2 p. rewrite !c_cyc, !py_cyc by discriminate.
  rewrite (cyc_chord _ (c_edge_sym p)), (cyc_chord _ (py_edge'_sym p)).
  destruct (cyc (c_edge p) (a :: l1 ++ [b])), (cyc (c_edge p) (b :: l2 ++ [a]));
  destruct (cyc (py_edge' p) (a :: l1 ++ [b])), (cyc (py_edge' p) (b :: l2 ++ [a]));
  cbn [xorb]; intuition congruence.
Qed.
Print Assumptions C46_chord.

(** A point on the common edge. *)
Example C46_meets :
  c_point_in_poly [(0, 0); (4, 0); (4, 4); (0, 4)] (2, 2) = true /\
  c_point_in_poly [(0, 0); (4, 0); (4, 4)] (2, 2) = true /\
  c_point_in_poly [(4, 4); (0, 4); (0, 0)] (2, 2) = false.
Proof. repeat split; reflexivity. Qed.

(** ** C47 *)

Theorem C47_bounding_box : forall l p, beside l p ->
  c_point_in_poly l p = false /\ (l <> [] -> crossings_test l p = Ok false).
Proof.
  intros l p H. rewrite c_cyc. split; [apply c_beside, H|].
  intros Hl. rewrite py_cyc by auto. rewrite <- tests_agree by (apply py_beside, H). f_equal. apply c_beside, H.
Qed.
Print Assumptions C47_bounding_box.
Example C47_meets : beside dart (-1, 1) /\ beside dart (5, 1) /\ beside dart (2, 5) /\ beside dart (2, -1).
Proof.
  unfold beside, dart. repeat split; [left|right; left|right; right; right|right; right; left];
    intros v H; cbn in H; repeat (destruct H as [<-|H]; [reflexivity|]); destruct H.
Qed.

(** ** C74: the two tests agree away from the boundary *)

Theorem C74_tests_agree : forall l p, l <> [] -> ~ on_boundary l p ->
  crossings_test l p = Ok (c_point_in_poly l p).
Proof. intros l p Hl H. rewrite c_cyc, tests_agree by auto. apply py_cyc, Hl. Qed.
Print Assumptions C74_tests_agree.
Theorem C74_boundary_refuted : exists l p, l <> [] /\ crossings_test l p <> Ok (c_point_in_poly l p).
Proof. exists dart, (0, 0). split; [discriminate|]. vm_compute. discriminate. Qed.
Print Assumptions C74_boundary_refuted.

(** ** C75: a triangle contains what it should *)

Theorem C75_triangle : forall a b c p, ~ on_boundary [a; b; c] p ->
  (c_point_in_poly [a; b; c] p = true <-> strictly_inside a b c p) /\
  (crossings_test [a; b; c] p = Ok true <-> strictly_inside a b c p).
Proof.
  intros a b c p H.
  assert (E : c_point_in_poly [a; b; c] p = strictly_insideb a b c p).
  { rewrite c_cyc. apply tri_ok; intros K; apply H; [exists a, b|exists b, c|exists c, a]; cbn; auto. }
  rewrite C74_tests_agree by (auto; discriminate). rewrite E, <- strictly_insideb_iff.
  split; [tauto|]. destruct (strictly_insideb a b c p); intuition congruence.
Qed.
Print Assumptions C75_triangle.

(** Any polygon: the parity of the triangles of the fan from its first vertex that
    contain the point. *)
Theorem C75_fan : forall v r p,
  (forall a b, In (a, b) (pairs r) -> ~ on_boundary [v; a; b] p) ->
  c_point_in_poly (v :: r) p =
    Nat.odd (length (filter (fun ab => strictly_insideb v (fst ab) (snd ab) p) (pairs r))).
Proof. intros v r p H. rewrite c_cyc. apply fan_ok, H. Qed.
Print Assumptions C75_fan.
Theorem C75_insideb : forall a b c p, strictly_insideb a b c p = true <-> strictly_inside a b c p.
Proof. exact strictly_insideb_iff. Qed.
Print Assumptions C75_insideb.

(** Nothing on a segment if it is not on its line. *)
Lemma off_line a b p : ~ cross a b p == 0 -> ~ on_segment a b p.
Proof.
  intros H [t [_ [E1 E2]]]. apply H. unfold cross. rewrite E1, E2. ring.
Qed.
Example C75_meets : ~ on_boundary [(0, 0); (4, 0); (0, 4)] (1, 1) /\
  strictly_inside (0, 0) (4, 0) (0, 4) (1, 1) /\ ~ strictly_inside (0, 0) (4, 0) (0, 4) (5, 5) /\
  (forall a b, In (a, b) (pairs (tl dart)) -> ~ on_boundary [(0, 0); a; b] (1#2, 1#3)).
Proof.
  assert (G : forall a b c p, ~ cross a b p == 0 -> ~ cross b c p == 0 -> ~ cross c a p == 0 -> ~ on_boundary [a; b; c] p).
  { intros a b c p H1 H2 H3 [x [y [Hin Hs]]]. cbn in Hin.
    destruct Hin as [E|[E|[E|[]]]]; injection E as <- <-; eapply off_line in Hs; eauto. }
  split; [|split; [|split]].
  - apply G; intros E; discriminate E.
  - left. repeat split.
  - intros [[H [H1 H2]]|[H _]]; [discriminate H1|discriminate H].
  - intros a b H. cbn in H. repeat (destruct H as [E|H]; [injection E as <- <-; apply G; intros E; discriminate E|]). destruct H.
Qed.
