(** * Proofs about bounding boxes *)
From Coq Require Import Qminmax.
From Verif Require Import Py PyLemmas QLemmas PipModel PipProofs BBoxModel BBoxSpec.
Open Scope Q_scope.

Ltac qb := repeat match goal with
  | H : Qle_bool _ _ = true |- _ => apply Qle_bool_iff in H
  | H : Qle_bool _ _ = false |- _ => apply Qle_bool_false in H
  | |- Qle_bool _ _ = true => apply Qle_bool_iff
  | |- Qle_bool _ _ = false => apply Qle_bool_false
  end.

(** ** One dimension *)

Lemma bounds_point a b : bounds a b -> exists q, lower a q /\ upper b q.
Proof.
  destruct a as [| |x|], b as [| |y|]; cbn; try tauto; intros H.
  - exists y. split; auto. lra.
  - exists 0. auto.
  - exists x. split; auto. lra.
  - exists x. split; auto. lra.
Qed.
Lemma within_iff a b a' b' : bounds a b ->
  (e_le a' a = true /\ e_le b b' = true <-> forall q, lower a q -> upper b q -> lower a' q /\ upper b' q).
Proof.
  intros Hb. split.
  - intros [H1 H2] q L U. split.
    + destruct a', a; cbn in *; try discriminate; try tauto; qb; lra.
    + destruct b', b; cbn in *; try discriminate; try tauto; qb; lra.
  - intros H.
    assert (Hlow : forall q, lower a q -> exists r, r <= q /\ lower a r /\ upper b r).
    { intros q L. destruct a as [| |x|], b as [| |y|]; cbn in *; try tauto.
      - exists (Qmin q y). split; [apply Q.le_min_l|]. split; [auto|apply Q.le_min_r].
      - exists q. split; [lra|auto].
      - exists x. repeat split; lra.
      - exists q. repeat split; auto; lra. }
    assert (Hup : forall q, upper b q -> exists r, q <= r /\ lower a r /\ upper b r).
    { intros q L. destruct a as [| |x|], b as [| |y|]; cbn in *; try tauto.
      - exists y. repeat split; lra.
      - exists q. split; [lra|auto].
      - exists y. repeat split; lra.
      - exists (Qmax q x). split; [apply Q.le_max_l|]. split; [apply Q.le_max_r|auto]. }
    destruct (bounds_point a b Hb) as [q0 [L0 U0]]. destruct (H q0 L0 U0) as [L0' U0'].
    split.
    + destruct a' as [| |x'|], a as [| |x|]; cbn in *; try tauto; auto.
      * exfalso. destruct (Hlow (x' - 1) I) as [r [Hr [Lr Ur]]]. destruct (H r Lr Ur) as [K _]. lra.
      * qb. destruct (Hlow x ltac:(lra)) as [r [Hr [Lr Ur]]]. destruct (H r Lr Ur) as [K _]. lra.
    + destruct b' as [| |y'|], b as [| |y|]; cbn in *; try tauto; auto.
      * qb. destruct (Hup y ltac:(lra)) as [r [Hr [Lr Ur]]]. destruct (H r Lr Ur) as [_ K]. lra.
      * exfalso. destruct (Hup (y' + 1) I) as [r [Hr [Lr Ur]]]. destruct (H r Lr Ur) as [_ K]. lra.
Qed.
Lemma meet_iff a b a' b' : bounds a b -> bounds a' b' ->
  (e_le a' b = true /\ e_le a b' = true <-> exists q, lower a q /\ upper b q /\ lower a' q /\ upper b' q).
Proof.
  intros Hb Hb'. split.
  - intros [H1 H2]. destruct a as [| |x|], b as [| |y|], a' as [| |x'|], b' as [| |y'|]; cbn in *; try discriminate; try tauto; qb.
    + exists (Qmin y y'). repeat split; auto; [apply Q.le_min_l|apply Q.le_min_r].
    + exists y. repeat split; lra.
    + exists (Qmax x' x'). assert (E : Qmax x' x' == x') by (rewrite Q.max_l; lra). rewrite E. repeat split; lra.
    + exists x'. repeat split; lra.
    + exists y'. repeat split; lra.
    + exists 0. auto.
    + exists x'. repeat split; lra.
    + exists x'. repeat split; lra.
    + exists x. repeat split; lra.
    + exists x. repeat split; lra.
    + destruct (Qlt_le_dec x x'); [exists x'|exists x]; repeat split; lra.
    + destruct (Qlt_le_dec x x'); [exists x'|exists x]; repeat split; lra.
    + exists x. repeat split; lra.
    + exists x. repeat split; lra.
    + destruct (Qlt_le_dec x x'); [exists x'|exists x]; repeat split; lra.
    + destruct (Qlt_le_dec x x'); [exists x'|exists x]; repeat split; lra.
  - intros [q [L [U [L' U']]]]. destruct a, b, a', b'; cbn in *; try tauto; split; auto; qb; lra.
Qed.

(** ** Boxes *)

Lemma proper_point b : proper b -> exists p, has b p.
Proof.
  intros [Hx Hy]. destruct (bounds_point _ _ Hx) as [x [L U]]. destruct (bounds_point _ _ Hy) as [y [L' U']].
  exists (x, y). repeat split; auto.
Qed.
Lemma null_none p : ~ has null_bbox p.
Proof. intros [H _]. exact H. Qed.

Lemma point_inside_iff b p : point_inside b (Fin (fst p)) (Fin (snd p)) = true <-> has b p.
Proof.
  unfold point_inside, has. rewrite !andb_true_iff.
  assert (L : forall e q, e_le e (Fin q) = true <-> lower e q).
  { intros e q. destruct e; cbn; try (split; [discriminate|tauto]); try tauto. rewrite Qle_bool_iff. tauto. }
  assert (U : forall e q, e_le (Fin q) e = true <-> upper e q).
  { intros e q. destruct e; cbn; try (split; [discriminate|tauto]); try tauto. rewrite Qle_bool_iff. tauto. }
  rewrite !L, !U. tauto.
Qed.
Lemma inside_iff s b : proper b -> (inside s b = true <-> forall p, has b p -> has s p).
Proof.
  intros [Hx Hy]. unfold inside. rewrite !andb_true_iff.
  pose proof (within_iff _ _ (x0 s) (x1 s) Hx) as Wx. pose proof (within_iff _ _ (y0 s) (y1 s) Hy) as Wy.
  split.
  - intros [[[H1 H2] H3] H4] p [P1 [P2 [P3 P4]]].
    destruct (proj1 Wx (conj H1 H2) (fst p) P1 P2). destruct (proj1 Wy (conj H3 H4) (snd p) P3 P4).
    repeat split; auto.
  - intros H. destruct (bounds_point _ _ Hx) as [x [L U]]. destruct (bounds_point _ _ Hy) as [y [L' U']].
    assert (Kx : e_le (x0 s) (x0 b) = true /\ e_le (x1 b) (x1 s) = true).
    { apply Wx. intros q Lq Uq. destruct (H (q, y)) as [A [B _]]; [repeat split; auto|]. auto. }
    assert (Ky : e_le (y0 s) (y0 b) = true /\ e_le (y1 b) (y1 s) = true).
    { apply Wy. intros q Lq Uq. destruct (H (x, q)) as [_ [_ [A B]]]; [repeat split; auto|]. auto. }
    tauto.
Qed.
Lemma all_inf_proper b : proper b -> all_inf b = true -> forall p, has b p.
Proof.
  intros [Hx Hy] H p. unfold all_inf in H. rewrite !andb_true_iff in H.
  destruct b as [a b c d]; unfold has; cbn in *. destruct a, c; cbn in *; try tauto; try (exfalso; intuition discriminate);
    destruct b, d; cbn in *; try tauto; exfalso; intuition discriminate.
Qed.
Lemma overlaps_iff s b : proper s -> proper b -> (overlaps s b = true <-> exists p, has s p /\ has b p).
Proof.
  intros Hs Hb. unfold overlaps.
  destruct (all_inf s) eqn:Es.
  { cbn [orb]. split; auto. intros _. destruct (proper_point b Hb) as [p Hp]. exists p. split; auto. apply all_inf_proper; auto. }
  destruct (all_inf b) eqn:Eb.
  { cbn [orb]. split; auto. intros _. destruct (proper_point s Hs) as [p Hp]. exists p. split; auto. apply all_inf_proper; auto. }
  cbn [orb]. rewrite !andb_true_iff. destruct Hs as [Sx Sy], Hb as [Bx By].
  pose proof (meet_iff _ _ _ _ Sx Bx) as Mx. pose proof (meet_iff _ _ _ _ Sy By) as My.
  split.
  - intros [[[H1 H2] H3] H4]. destruct (proj1 Mx (conj H1 H2)) as [x Hx]. destruct (proj1 My (conj H3 H4)) as [y Hy].
    exists (x, y). unfold has. cbn. tauto.
  - intros [p [[P1 [P2 [P3 P4]]] [Q1 [Q2 [Q3 Q4]]]]].
    destruct (proj2 Mx) as [A B]; [exists (fst p); auto|]. destruct (proj2 My) as [C D]; [exists (snd p); auto|]. tauto.
Qed.

Lemma good_cases b : good b -> (proper b /\ is_null b = false) \/ b = null_bbox.
Proof.
  intros [H| ->]; [left|right; auto]. split; auto. destruct H as [Hx _]. destruct b as [a b c d]; cbn in *.
  unfold is_null. cbn. destruct a; cbn in *; auto. destruct c; tauto.
Qed.

(** The lower and the upper of two bounds. *)
Definition e_lo (a b : ext) : ext := if e_lt b a then b else a.
Definition e_hi (a b : ext) : ext := if e_lt a b then b else a.
Lemma merge_proper s b : is_null s = false -> is_null b = false ->
  merge s b = mkBox (e_lo (x0 s) (x0 b)) (e_lo (y0 s) (y0 b)) (e_hi (x1 s) (x1 b)) (e_hi (y1 s) (y1 b)).
Proof. intros E1 E2. unfold merge. rewrite E1, E2. reflexivity. Qed.
Lemma join_bounds a b a' b' : bounds a b -> bounds a' b' -> bounds (e_lo a a') (e_hi b b').
Proof.
  unfold e_lo, e_hi, e_lt.
  destruct a as [| |x|], b as [| |y|], a' as [| |x'|], b' as [| |y'|]; cbn; try tauto; intros H H';
    repeat match goal with |- context [Qle_bool ?u ?v] => destruct (Qle_bool_spec u v) end; cbn; auto; lra.
Qed.
Lemma lo_in a b a' b' q : bounds a b -> bounds a' b' ->
  (lower a q \/ lower a' q -> lower (e_lo a a') q) /\ (upper b q \/ upper b' q -> upper (e_hi b b') q).
Proof.
  unfold e_lo, e_hi, e_lt. intros H H'. split.
  - destruct a as [| |x|], b as [| |y|], a' as [| |x'|], b' as [| |y'|]; cbn in *; try tauto;
    repeat match goal with |- context [Qle_bool ?u ?v] => destruct (Qle_bool_spec u v) end; cbn; try tauto; intros [K|K]; try tauto; lra.
  - destruct a as [| |x|], b as [| |y|], a' as [| |x'|], b' as [| |y'|]; cbn in *; try tauto;
    repeat match goal with |- context [Qle_bool ?u ?v] => destruct (Qle_bool_spec u v) end; cbn; try tauto; intros [K|K]; try tauto; lra.
Qed.
Lemma e_lo_or a b : e_lo a b = a \/ e_lo a b = b.
Proof. unfold e_lo. destruct (e_lt b a); auto. Qed.
Lemma e_hi_or a b : e_hi a b = a \/ e_hi a b = b.
Proof. unfold e_hi. destruct (e_lt a b); auto. Qed.

Lemma proper_inside_bounds c b : proper b -> (forall p, has b p -> has c p) ->
  e_le (x0 c) (x0 b) = true /\ e_le (x1 b) (x1 c) = true /\ e_le (y0 c) (y0 b) = true /\ e_le (y1 b) (y1 c) = true.
Proof. intros Hb H. apply (inside_iff c b Hb) in H. unfold inside in H. rewrite !andb_true_iff in H. tauto. Qed.
Lemma merge_good s b : good s -> good b -> good (merge s b).
Proof.
  intros Hs Hb. destruct (good_cases s Hs) as [[Ps Ns]| ->]; [|exact Hb].
  destruct (good_cases b Hb) as [[Pb Nb]| ->].
  - left. rewrite merge_proper by auto. destruct Ps, Pb. split; cbn; apply join_bounds; auto.
  - unfold merge. rewrite Ns. exact Hs.
Qed.
Lemma merge_contains s b : good s -> good b -> forall p, has s p \/ has b p -> has (merge s b) p.
Proof.
  intros Hs Hb p. destruct (good_cases s Hs) as [[Ps Ns]| ->].
  - destruct (good_cases b Hb) as [[Pb Nb]| ->].
    + rewrite merge_proper by auto. destruct Ps as [Sx Sy], Pb as [Bx By]. unfold has. cbn.
      destruct (lo_in _ _ _ _ (fst p) Sx Bx). destruct (lo_in _ _ _ _ (snd p) Sy By). tauto.
    + unfold merge. rewrite Ns. intros [H|H]; auto. destruct (null_none _ H).
  - intros [H|H]; [destruct (null_none _ H)|]. exact H.
Qed.
Lemma merge_least s b c : good s -> good b ->
  (forall p, has s p -> has c p) -> (forall p, has b p -> has c p) -> forall p, has (merge s b) p -> has c p.
Proof.
  intros Hs Hb Hsc Hbc p. destruct (good_cases s Hs) as [[Ps Ns]| ->]; [|apply Hbc].
  destruct (good_cases b Hb) as [[Pb Nb]| ->].
  - pose proof (merge_good s b Hs Hb) as Hm. rewrite merge_proper in * by auto.
    destruct (proper_inside_bounds c s Ps Hsc) as [A1 [A2 [A3 A4]]].
    destruct (proper_inside_bounds c b Pb Hbc) as [B1 [B2 [B3 B4]]].
    assert (Pm : proper (mkBox (e_lo (x0 s) (x0 b)) (e_lo (y0 s) (y0 b)) (e_hi (x1 s) (x1 b)) (e_hi (y1 s) (y1 b)))).
    { destruct Ps, Pb. split; cbn; apply join_bounds; auto. }
    revert p. apply inside_iff; auto. unfold inside. cbn.
    destruct (e_lo_or (x0 s) (x0 b)) as [-> | ->], (e_lo_or (y0 s) (y0 b)) as [-> | ->],
      (e_hi_or (x1 s) (x1 b)) as [-> | ->], (e_hi_or (y1 s) (y1 b)) as [-> | ->];
      rewrite ?A1, ?A2, ?A3, ?A4, ?B1, ?B2, ?B3, ?B4; reflexivity.
  - unfold merge. rewrite Ns. apply Hsc.
Qed.

(** ** Equality *)

Lemma eq_iff s b : good s -> good b -> (bb_eqb s b = true <-> forall p, has s p <-> has b p).
Proof.
  intros Hs Hb. unfold bb_eqb. destruct (good_cases s Hs) as [[Ps Ns]| ->], (good_cases b Hb) as [[Pb Nb]| ->].
  - rewrite Ns. cbn [andb]. unfold e_eq. rewrite !andb_true_iff. split.
    + intros H p. split; intros K.
      * eapply (inside_iff b s Ps); [|exact K]. unfold inside. rewrite !andb_true_iff. tauto.
      * eapply (inside_iff s b Pb); [|exact K]. unfold inside. rewrite !andb_true_iff. tauto.
    + intros H. destruct (proper_inside_bounds s b Pb) as [A1 [A2 [A3 A4]]]; [intros p; apply H|].
      destruct (proper_inside_bounds b s Ps) as [B1 [B2 [B3 B4]]]; [intros p; apply H|]. tauto.
  - rewrite Ns. cbn [andb]. split.
    + intros H. exfalso. unfold e_eq, null_bbox in H. cbn in H. destruct (x0 s); cbn in H; discriminate.
    + intros H. destruct (proper_point s Ps) as [p Hp]. apply H in Hp. destruct (null_none _ Hp).
  - rewrite Nb, andb_false_r. split.
    + intros H. discriminate H.
    + intros H. destruct (proper_point b Pb) as [p Hp]. apply H in Hp. destruct (null_none _ Hp).
  - cbn. tauto.
Qed.

(** ** From points and boxes *)

Lemma fold_min_fin l : forall a, exists m, fold_left e_min (map Fin l) (Fin a) = Fin m /\
  (forall q, In q (a :: l) -> m <= q) /\ In m (a :: l).
Proof.
  induction l as [|x r IH]; intros a.
  - exists a. cbn. split; auto. split; auto. intros q [<-|[]]. lra.
  - cbn [map fold_left]. unfold e_min at 2. cbn [is_nan orb e_le]. destruct (Qle_bool_spec a x) as [H|H].
    + destruct (IH a) as [m [E [H1 H2]]]. exists m. split; auto. split.
      * intros q [<-|[<-|Hq]]; [apply H1; left; auto| |apply H1; right; auto].
        specialize (H1 a (or_introl eq_refl)). lra.
      * destruct H2 as [<-|H2]; [left; auto|right; right; auto].
    + destruct (IH x) as [m [E [H1 H2]]]. exists m. split; auto. split.
      * intros q [<-|[<-|Hq]]; [|apply H1; left; auto|apply H1; right; auto].
        specialize (H1 x (or_introl eq_refl)). lra.
      * destruct H2 as [<-|H2]; [right; left; auto|right; right; auto].
Qed.
Lemma fold_max_fin l : forall a, exists m, fold_left e_max (map Fin l) (Fin a) = Fin m /\
  (forall q, In q (a :: l) -> q <= m) /\ In m (a :: l).
Proof.
  induction l as [|x r IH]; intros a.
  - exists a. cbn. split; auto. split; auto. intros q [<-|[]]. lra.
  - cbn [map fold_left]. unfold e_max at 2. cbn [is_nan orb e_le]. destruct (Qle_bool_spec a x) as [H|H].
    + destruct (IH x) as [m [E [H1 H2]]]. exists m. split; auto. split.
      * intros q [<-|[<-|Hq]]; [|apply H1; left; auto|apply H1; right; auto].
        specialize (H1 x (or_introl eq_refl)). lra.
      * destruct H2 as [<-|H2]; [right; left; auto|right; right; auto].
    + destruct (IH a) as [m [E [H1 H2]]]. exists m. split; auto. split.
      * intros q [<-|[<-|Hq]]; [apply H1; left; auto| |apply H1; right; auto].
        specialize (H1 a (or_introl eq_refl)). lra.
      * destruct H2 as [<-|H2]; [left; auto|right; right; auto].
Qed.
Lemma from_points_ok l : l <> [] -> exists b, from_points (map fin_pt l) = Ok b /\ proper b /\
  (forall p, In p l -> has b p) /\
  (forall c, (forall p, In p l -> has c p) -> forall p, has b p -> has c p).
Proof.
  destruct l as [|v r]; [congruence|]. intros _. unfold from_points.
  assert (Ef : map fst (map fin_pt (v :: r)) = Fin (fst v) :: map Fin (map fst r)) by (cbn; rewrite !map_map; reflexivity).
  assert (Es : map snd (map fin_pt (v :: r)) = Fin (snd v) :: map Fin (map snd r)) by (cbn; rewrite !map_map; reflexivity).
  rewrite Ef, Es. clear Ef Es. cbn [reduce bind].
  destruct (fold_min_fin (map fst r) (fst v)) as [a [Ea [La Ia]]]. destruct (fold_min_fin (map snd r) (snd v)) as [b [Eb [Lb Ib]]].
  destruct (fold_max_fin (map fst r) (fst v)) as [c [Ec [Lc Ic]]]. destruct (fold_max_fin (map snd r) (snd v)) as [d [Ed [Ld Id]]].
  rewrite Ea, Eb, Ec, Ed. eexists. split; [reflexivity|].
  change (fst v :: map fst r) with (map fst (v :: r)) in *. change (snd v :: map snd r) with (map snd (v :: r)) in *.
  split; [|split].
  - split; cbn.
    + specialize (La (fst v) (or_introl eq_refl)). specialize (Lc (fst v) (or_introl eq_refl)). lra.
    + specialize (Lb (snd v) (or_introl eq_refl)). specialize (Ld (snd v) (or_introl eq_refl)). lra.
  - intros p Hp. pose proof (in_map fst _ _ Hp). pose proof (in_map snd _ _ Hp). repeat split; cbn; auto.
  - intros k Hk. assert (Gx : forall x, In x (map fst (v :: r)) -> lower (x0 k) x /\ upper (x1 k) x).
    { intros x Hx. apply in_map_iff in Hx as [p [<- Hp]]. destruct (Hk p Hp) as [A [B _]]. auto. }
    assert (Gy : forall y, In y (map snd (v :: r)) -> lower (y0 k) y /\ upper (y1 k) y).
    { intros y Hy. apply in_map_iff in Hy as [p [<- Hp]]. destruct (Hk p Hp) as [_ [_ [A B]]]. auto. }
    intros p [P1 [P2 [P3 P4]]]. cbn in *.
    destruct (Gx a Ia) as [A _], (Gx c Ic) as [_ C], (Gy b Ib) as [B _], (Gy d Id) as [_ D].
    unfold has. destruct (x0 k), (x1 k), (y0 k), (y1 k); cbn in *; try tauto; repeat split; auto; lra.
Qed.

Lemma e_min_lo a b : is_nan a = false -> is_nan b = false -> e_min a b = e_lo a b.
Proof.
  intros Ha Hb. unfold e_min, e_lo, e_lt. rewrite Ha, Hb. cbn [orb negb andb].
  destruct (e_le a b); reflexivity.
Qed.
Lemma e_max_hi a b : is_nan a = false -> is_nan b = false -> (e_max a b = e_hi a b) \/ (e_le a b = true /\ e_le b a = true).
Proof.
  intros Ha Hb. unfold e_max, e_hi, e_lt. rewrite Ha, Hb. cbn [orb negb andb].
  destruct (e_le a b) eqn:E1, (e_le b a) eqn:E2; cbn; auto.
  exfalso. destruct a, b; cbn in *; try discriminate. qb. lra.
Qed.

(** Two boxes at a time. *)
Definition join (s b : bbox) : bbox :=
  mkBox (e_min (x0 s) (x0 b)) (e_min (y0 s) (y0 b)) (e_max (x1 s) (x1 b)) (e_max (y1 s) (y1 b)).
Lemma join_1d a b a' b' : bounds a b -> bounds a' b' ->
  bounds (e_min a a') (e_max b b') /\
  (forall q, (lower a q \/ lower a' q -> lower (e_min a a') q) /\ (upper b q \/ upper b' q -> upper (e_max b b') q)) /\
  (e_min a a' = a \/ e_min a a' = a') /\ (e_max b b' = b \/ e_max b b' = b').
Proof.
  intros H H'. split; [|split; [|split]].
  - destruct a as [| |x|], b as [| |y|], a' as [| |x'|], b' as [| |y'|]; cbn in *; try tauto; unfold e_min, e_max; cbn;
    repeat match goal with |- context [Qle_bool ?u ?v] => destruct (Qle_bool_spec u v) end; cbn; auto; lra.
  - intros q. split.
    + destruct a as [| |x|], b as [| |y|], a' as [| |x'|], b' as [| |y'|]; cbn in *; try tauto; unfold e_min, e_max; cbn;
      repeat match goal with |- context [Qle_bool ?u ?v] => destruct (Qle_bool_spec u v) end; cbn; try tauto; intros [K|K]; try tauto; lra.
    + destruct a as [| |x|], b as [| |y|], a' as [| |x'|], b' as [| |y'|]; cbn in *; try tauto; unfold e_min, e_max; cbn;
      repeat match goal with |- context [Qle_bool ?u ?v] => destruct (Qle_bool_spec u v) end; cbn; try tauto; intros [K|K]; try tauto; lra.
  - unfold e_min. assert (is_nan a = false) by (destruct a, b; cbn in *; tauto).
    assert (is_nan a' = false) by (destruct a', b'; cbn in *; tauto). rewrite H0, H1. cbn. destruct (e_le a a'); auto.
  - unfold e_max. assert (is_nan b = false) by (destruct a, b; cbn in *; tauto).
    assert (is_nan b' = false) by (destruct a', b'; cbn in *; tauto). rewrite H0, H1. cbn. destruct (e_le b b'); auto.
Qed.
Lemma join_ok s b : proper s -> proper b -> proper (join s b) /\
  (forall p, has s p \/ has b p -> has (join s b) p) /\
  (forall c, (forall p, has s p -> has c p) -> (forall p, has b p -> has c p) -> forall p, has (join s b) p -> has c p).
Proof.
  intros Ps Pb. pose proof Ps as [Sx Sy]. pose proof Pb as [Bx By].
  destruct (join_1d _ _ _ _ Sx Bx) as [X1 [X2 [X3 X4]]]. destruct (join_1d _ _ _ _ Sy By) as [Y1 [Y2 [Y3 Y4]]].
  assert (Pj : proper (join s b)) by (split; auto).
  split; auto. split.
  - intros p. unfold has. cbn. destruct (X2 (fst p)), (Y2 (snd p)). tauto.
  - intros c Hsc Hbc. destruct (proper_inside_bounds c s Ps Hsc) as [A1 [A2 [A3 A4]]].
    destruct (proper_inside_bounds c b Pb Hbc) as [B1 [B2 [B3 B4]]].
    apply inside_iff; auto. unfold inside, join. cbn.
    destruct X3 as [-> | ->], X4 as [-> | ->], Y3 as [-> | ->], Y4 as [-> | ->];
      rewrite ?A1, ?A2, ?A3, ?A4, ?B1, ?B2, ?B3, ?B4; reflexivity.
Qed.
Lemma from_bbarray_fold v r : from_bbarray (v :: r) = Ok (fold_left join r v).
Proof.
  unfold from_bbarray. cbn [map reduce bind]. f_equal. revert v. induction r as [|b r IH]; intros v; cbn [map fold_left].
  - destruct v; reflexivity.
  - rewrite <- IH. reflexivity.
Qed.
Lemma from_bbarray_ok l : l <> [] -> (forall b, In b l -> proper b) -> exists m, from_bbarray l = Ok m /\ proper m /\
  (forall b p, In b l -> has b p -> has m p) /\
  (forall c, (forall b p, In b l -> has b p -> has c p) -> forall p, has m p -> has c p).
Proof.
  destruct l as [|v r]; [congruence|]. intros _ H. rewrite from_bbarray_fold. eexists. split; [reflexivity|].
  revert v H. induction r as [|b r IH]; intros v H; cbn [fold_left].
  - split; [apply H; left; auto|]. split.
    + intros b p [<-|[]]. auto.
    + intros c Hc p. apply Hc. left; auto.
  - destruct (join_ok v b) as [J1 [J2 J3]]; [apply H; left; auto|apply H; right; left; auto|].
    destruct (IH (join v b)) as [K1 [K2 K3]].
    { intros x [<-|Hx]; auto. apply H. right; right; auto. }
    split; auto. split.
    + intros x p [<-|[<-|Hx]] Hp.
      * apply (K2 (join v b)); [left; auto|]. apply J2. auto.
      * apply (K2 (join v b)); [left; auto|]. apply J2. auto.
      * apply (K2 x); [right; auto|auto].
    + intros c Hc. apply K3. intros x p [<-|Hx].
      * apply J3; intros q; apply Hc; [left; auto|right; left; auto].
      * apply Hc. right; right; auto.
Qed.

(** ** Corners *)

Lemma box_poly a b c d p : a <= c -> b <= d ->
  (c_point_in_poly [(a, b); (a, d); (c, d); (c, b)] p = true <-> a <= fst p < c /\ b <= snd p < d).
Proof.
  intros H1 H2. destruct p as [x y]. unfold c_point_in_poly. cbn [last c_loop fst snd].
  assert (E : forall u v w z, c_edge (x, y) (u, v) (w, z) =
     negb (Bool.eqb (Qltb y v) (Qltb y z)) && Qltb x (xint (x, y) (u, v) (w, z))) by reflexivity.
  assert (V : forall u v z, ~ v == z -> xint (x, y) (u, v) (u, z) == u) by (intros u v z Hn; unfold xint; cbn; field; lra).
  rewrite !E. destruct (Qltb_spec y b), (Qltb_spec y d); cbn [Bool.eqb negb andb].
  - split; [intros K; discriminate K|]. intros. lra.
  - exfalso. lra.
  - assert (V1 : Qltb x (xint (x, y) (c, b) (c, d)) = Qltb x c) by (rewrite V by lra; reflexivity).
    assert (V2 : Qltb x (xint (x, y) (a, d) (a, b)) = Qltb x a) by (rewrite V by lra; reflexivity).
    rewrite V1, V2. destruct (Qltb_spec x a), (Qltb_spec x c); cbn; split; intros K; try discriminate K; try lra; auto.
  - split; [intros K; discriminate K|]. intros. lra.
Qed.
