(** * Proofs about polygons and sets of polygons *)
From Coq Require Import Setoid Morphisms.
From Verif Require Import Py PyLemmas QLemmas PipModel PipSpec PipProofs PolyModel PolySpec.
Open Scope Q_scope.

(** ** Sums along a path *)

Section Sum.
  Context {A : Type}.
  Variable f : A -> A -> Q.
  Fixpoint psum (l : list A) : Q :=
    match l with
    | a :: r => match r with b :: _ => f a b + psum r | [] => 0 end
    | [] => 0
    end.
  Definition csum (l : list A) : Q := match l with [] => 0 | v :: _ => psum (l ++ [v]) end.

  Lemma psum_snoc l v a : l <> [] -> psum (l ++ [a]) == psum l + f (last l v) a.
  Proof.
    intros H. induction l as [|x r IH]; [congruence|]. destruct r as [|y r].
    - cbn. ring.
    - change (psum ((x :: y :: r) ++ [a])) with (f x y + psum ((y :: r) ++ [a])).
      rewrite IH by discriminate. change (psum (x :: y :: r)) with (f x y + psum (y :: r)).
      change (last (x :: y :: r) v) with (last (y :: r) v). ring.
  Qed.
  Lemma csum_rot1 x l : csum (x :: l) == csum (l ++ [x]).
  Proof.
    destruct l as [|y m]; [reflexivity|].
    change (csum (x :: y :: m)) with (f x y + psum (y :: m ++ [x])).
    change (csum ((y :: m) ++ [x])) with (psum ((y :: m ++ [x]) ++ [y])).
    rewrite (psum_snoc (y :: m ++ [x]) y y) by discriminate.
    assert (E : last (y :: m ++ [x]) y = x).
    { change (y :: m ++ [x]) with ((y :: m) ++ [x]). apply last_last. }
    rewrite E. ring.
  Qed.
  Lemma csum_rot l1 : forall l2, csum (l1 ++ l2) == csum (l2 ++ l1).
  Proof.
    induction l1 as [|x r IH]; intros l2; [rewrite app_nil_r; reflexivity|].
    change ((x :: r) ++ l2) with (x :: r ++ l2). rewrite csum_rot1, <- app_assoc, IH, <- app_assoc. reflexivity.
  Qed.
  Hypothesis anti : forall a b, f a b == - f b a.
  Lemma psum_rev l : psum (rev l) == - psum l.
  Proof.
    induction l as [|x r IH]; [reflexivity|]. cbn [rev].
    destruct r as [|y r]; [reflexivity|].
    rewrite (psum_snoc (rev (y :: r)) y x).
    - rewrite IH. cbn [rev]. rewrite last_last.
      change (psum (x :: y :: r)) with (f x y + psum (y :: r)). rewrite (anti y x). ring.
    - cbn. destruct (rev r); discriminate.
  Qed.
  Lemma csum_rev l : csum (rev l) == - csum l.
  Proof.
    destruct l as [|v r]; [reflexivity|].
    assert (E : csum (v :: r) == - psum (v :: rev r ++ [v])).
    { unfold csum. rewrite <- (rev_involutive ((v :: r) ++ [v])), psum_rev, rev_app_distr. reflexivity. }
    rewrite E. cbn [rev]. rewrite <- csum_rot1. unfold csum. cbn [app]. ring.
  Qed.
End Sum.

Lemma psum_ext {A} (f g : A -> A -> Q) l : (forall a b, f a b == g a b) -> psum f l == psum g l.
Proof.
  intros H. induction l as [|x r IH]; [reflexivity|]. destruct r as [|y r]; [reflexivity|].
  change (f x y + psum f (y :: r) == g x y + psum g (y :: r)). rewrite H, IH. reflexivity.
Qed.
Lemma psum_pot {A} (f : A -> A -> Q) (h : A -> Q) v l w :
  psum (fun a b => f a b + h b - h a) (v :: l ++ [w]) == psum f (v :: l ++ [w]) + h w - h v.
Proof.
  revert v. induction l as [|x r IH]; intros v.
  - cbn. ring.
  - change (f v x + h x - h v + psum (fun a b => f a b + h b - h a) (x :: r ++ [w]) ==
            f v x + psum f (x :: r ++ [w]) + h w - h v).
    rewrite IH. ring.
Qed.
Lemma psum_map {A B} (u : A -> B) (f : B -> B -> Q) l : psum f (map u l) = psum (fun a b => f (u a) (u b)) l.
Proof.
  induction l as [|x r IH]; auto. destruct r as [|y r]; auto.
  cbn [map] in *. change (f (u x) (u y) + psum f (u y :: map u r) = f (u x) (u y) + psum (fun a b => f (u a) (u b)) (y :: r)).
  rewrite IH. reflexivity.
Qed.
Lemma psum_pairs (f : pt -> pt -> Q) l : psum f l = fold_right (fun e s => f (fst e) (snd e) + s) 0 (pairs l).
Proof.
  induction l as [|x r IH]; auto. destruct r as [|y r]; auto.
  change (f x y + psum f (y :: r) = f x y + fold_right (fun e s => f (fst e) (snd e) + s) 0 (pairs (y :: r))).
  rewrite IH. reflexivity.
Qed.
Lemma edges_pairs v r : edges (v :: r) = pairs ((v :: r) ++ [v]).
Proof.
  unfold edges. cbn [app]. generalize v at 2 4 as z. revert v. induction r as [|x r IH]; intros v z; auto.
  cbn [app combine]. change (pairs (v :: x :: r ++ [z])) with ((v, x) :: pairs (x :: r ++ [z])).
  f_equal. apply IH.
Qed.

Lemma area_csum l : signed_area2 l = csum term l.
Proof.
  destruct l as [|v r]; auto. unfold signed_area2. rewrite edges_pairs. unfold csum. rewrite psum_pairs. reflexivity.
Qed.
Lemma total_psum l : forall t, total_loop t l == t + psum term l.
Proof.
  induction l as [|x r IH]; intros t; [cbn; ring|]. destruct r as [|y r]; [cbn; ring|].
  change (total_loop t (x :: y :: r)) with (total_loop (t + term x y) (y :: r)).
  change (psum term (x :: y :: r)) with (term x y + psum term (y :: r)). rewrite IH. ring.
Qed.
Lemma clockwise_area v r : is_clockwise (v :: r) = Ok (Qle_bool (signed_area2 (v :: r)) 0).
Proof.
  unfold is_clockwise. f_equal. rewrite total_psum, area_csum. unfold csum.
  rewrite (psum_snoc term (v :: r) v v) by discriminate. apply Qleb_comp; [ring|reflexivity].
Qed.
Lemma clockwise_all l : l <> [] -> is_clockwise l = Ok (Qle_bool (signed_area2 l) 0).
Proof. destruct l; [congruence|]. intros _. apply clockwise_area. Qed.
Lemma term_anti a b : term a b == - term b a.
Proof. unfold term. ring. Qed.

Lemma area_shift d l : signed_area2 (map (shift d) l) == signed_area2 l.
Proof.
  rewrite !area_csum. destruct l as [|v r]; [reflexivity|]. unfold csum. cbn [map].
  change ((shift d v :: map (shift d) r) ++ [shift d v]) with (map (shift d) (v :: r) ++ map (shift d) [v]).
  rewrite <- map_app, psum_map.
  rewrite (psum_ext _ (fun a b => term a b + (fst d * snd b - snd d * fst b) - (fst d * snd a - snd d * fst a))).
  - cbn [app]. rewrite (psum_pot term (fun p => fst d * snd p - snd d * fst p)). ring.
  - intros a b. unfold term, shift. cbn [fst snd]. ring.
Qed.
Lemma area_fan v r : signed_area2 (v :: r) == fold_right (fun e s => cross v (fst e) (snd e) + s) 0 (pairs r).
Proof.
  rewrite area_csum, <- psum_pairs. unfold csum.
  destruct r as [|a r]; [cbn; unfold term; ring|].
  destruct (exists_last (l := a :: r) ltac:(discriminate)) as [m [z E]]. rewrite E.
  assert (Hc : forall x y, cross v x y == term x y + (- term v y) - (- term v x)) by (intros; unfold cross, term; ring).
  rewrite (psum_ext _ _ (m ++ [z]) Hc).
  destruct m as [|b m].
  - cbn. unfold term. ring.
  - cbn [app]. rewrite (psum_pot term (fun y => - term v y)).
    change (psum term (v :: b :: (m ++ [z]) ++ [v])) with (term v b + psum term ((b :: m ++ [z]) ++ [v])).
    rewrite (psum_snoc term (b :: m ++ [z]) b v) by discriminate.
    assert (El : last (b :: m ++ [z]) b = z) by (change (b :: m ++ [z]) with ((b :: m) ++ [z]); apply last_last).
    rewrite El, (term_anti z v). ring.
Qed.
Lemma fold_nonneg {A} (g : A -> Q) l : (forall x, In x l -> 0 <= g x) -> 0 <= fold_right (fun e s => g e + s) 0 l.
Proof.
  induction l as [|x r IH]; intros H; cbn; [lra|]. pose proof (H x (or_introl eq_refl)).
  assert (0 <= fold_right (fun e s => g e + s) 0 r) by (apply IH; intros; apply H; right; auto). lra.
Qed.
Lemma fold_nonpos {A} (g : A -> Q) l : (forall x, In x l -> g x <= 0) -> fold_right (fun e s => g e + s) 0 l <= 0.
Proof.
  induction l as [|x r IH]; intros H; cbn; [lra|]. pose proof (H x (or_introl eq_refl)).
  assert (fold_right (fun e s => g e + s) 0 r <= 0) by (apply IH; intros; apply H; right; auto). lra.
Qed.
Lemma convex_ok l : turns_one_way l -> is_clockwise_convex l = is_clockwise l.
Proof.
  destruct l as [|v [|a [|b r]]]; try (intros []; fail). intros H.
  rewrite clockwise_area, area_fan.
  assert (E : is_clockwise_convex (v :: a :: b :: r) = Ok (Qle_bool (cross v a b) 0)).
  { destruct v as [x0 y0], a as [x1 y1], b as [x2 y2]. cbn [is_clockwise_convex]. f_equal.
    apply Qleb_comp; [|reflexivity]. unfold cross. cbn [fst snd]. ring. }
  rewrite E. f_equal. cbn [turns_one_way] in H.
  change (pairs (a :: b :: r)) with ((a, b) :: pairs (b :: r)) in *. cbn [fold_right fst snd].
  destruct H as [[H0 H]|H].
  - pose proof (fold_nonneg (fun e => cross v (fst e) (snd e)) (pairs (b :: r))) as K.
    assert (K' : 0 <= fold_right (fun e s => cross v (fst e) (snd e) + s) 0 (pairs (b :: r))).
    { apply K. intros [x y] Hx. apply H. right. exact Hx. }
    destruct (Qle_bool_spec (cross v a b) 0), (Qle_bool_spec (cross v a b + fold_right (fun e s => cross v (fst e) (snd e) + s) 0 (pairs (b :: r))) 0); auto; lra.
  - pose proof (fold_nonpos (fun e => cross v (fst e) (snd e)) (pairs (b :: r))) as K.
    assert (K' : fold_right (fun e s => cross v (fst e) (snd e) + s) 0 (pairs (b :: r)) <= 0).
    { apply K. intros [x y] Hx. apply H. right. exact Hx. }
    pose proof (H a b (or_introl eq_refl)).
    destruct (Qle_bool_spec (cross v a b) 0), (Qle_bool_spec (cross v a b + fold_right (fun e s => cross v (fst e) (snd e) + s) 0 (pairs (b :: r))) 0); auto; lra.
Qed.

(** ** Thinning *)

Lemma pix_eqb_iff a b : pix_eqb a b = true <-> a = b.
Proof.
  unfold pix_eqb. rewrite andb_true_iff, !Z.eqb_eq. destruct a, b; cbn.
  split; [intros [-> ->]; reflexivity|intros E; injection E; auto].
Qed.
Lemma pix_eqb_refl a : pix_eqb a a = true.
Proof. apply pix_eqb_iff. reflexivity. Qed.
Lemma pix_eqb_false a b : pix_eqb a b = false <-> a <> b.
Proof. rewrite <- pix_eqb_iff. destruct (pix_eqb a b); split; congruence. Qed.

#[export] Instance np_round_comp : Proper (Qeq ==> eq) np_round.
Proof.
  intros a b E. unfold np_round. assert (Ef : Qfloor a = Qfloor b) by (apply Qfloor_comp, E).
  rewrite Ef. cbv zeta.
  assert (H1 : Qltb (a - inject_Z (Qfloor b)) (1#2) = Qltb (b - inject_Z (Qfloor b)) (1#2)) by (rewrite E; reflexivity).
  assert (H2 : Qltb (1#2) (a - inject_Z (Qfloor b)) = Qltb (1#2) (b - inject_Z (Qfloor b))) by (rewrite E; reflexivity).
  rewrite H1, H2. reflexivity.
Qed.
Lemma pixel_same s a b : pt_same a b -> pixel s a = pixel s b.
Proof. intros [E1 E2]. unfold pixel. rewrite E1, E2. reflexivity. Qed.
Lemma pt_eqb_iff a b : pt_eqb a b = true <-> pt_same a b.
Proof. unfold pt_eqb, pt_same. rewrite andb_true_iff, !Qeq_bool_iff. tauto. Qed.

Lemma dedup_loop s l : forall p, dedup (p :: map (pixel s) l) = p :: map (pixel s) (thin_loop s p l).
Proof.
  induction l as [|v r IH]; intros p; auto.
  cbn [map thin_loop]. change (dedup (p :: pixel s v :: map (pixel s) r)) with
    (if pix_eqb p (pixel s v) then dedup (pixel s v :: map (pixel s) r) else p :: dedup (pixel s v :: map (pixel s) r)).
  rewrite IH. destruct (pix_eqb (pixel s v) p) eqn:E.
  - apply pix_eqb_iff in E. rewrite E, pix_eqb_refl. reflexivity.
  - assert (E2 : pix_eqb p (pixel s v) = false) by (apply pix_eqb_false; apply pix_eqb_false in E; congruence).
    rewrite E2. reflexivity.
Qed.
Lemma loop_self s v r : thin_loop s (pixel s v) (v :: r) = thin_loop s (pixel s v) r.
Proof. cbn [thin_loop]. rewrite pix_eqb_refl. reflexivity. Qed.
Lemma dedup_idem l : dedup (dedup l) = dedup l.
Proof.
  induction l as [|a r IH]; auto. destruct r as [|b r]; auto.
  change (dedup (a :: b :: r)) with (if pix_eqb a b then dedup (b :: r) else a :: dedup (b :: r)).
  destruct (pix_eqb a b) eqn:E; auto.
  assert (H : exists t, dedup (b :: r) = b :: t).
  { clear -r. revert b. induction r as [|c r IH]; intros b; [eexists; reflexivity|].
    change (dedup (b :: c :: r)) with (if pix_eqb b c then dedup (c :: r) else b :: dedup (c :: r)).
    destruct (pix_eqb b c) eqn:E; [|eexists; reflexivity]. apply pix_eqb_iff in E. subst. apply IH. }
  destruct H as [t Ht]. rewrite Ht in IH |- *.
  change (dedup (a :: b :: t)) with (if pix_eqb a b then dedup (b :: t) else a :: dedup (b :: t)).
  rewrite E, IH. reflexivity.
Qed.
Lemma dedup_head a r : exists t, dedup (a :: r) = a :: t.
Proof.
  revert a. induction r as [|c r IH]; intros b; [eexists; reflexivity|].
  change (dedup (b :: c :: r)) with (if pix_eqb b c then dedup (c :: r) else b :: dedup (c :: r)).
  destruct (pix_eqb b c) eqn:E; [|eexists; reflexivity]. apply pix_eqb_iff in E. subst. apply IH.
Qed.
Lemma dedup_snoc l z : dedup (dedup l ++ [z]) = dedup (l ++ [z]).
Proof.
  induction l as [|a r IH]; auto. destruct r as [|b r]; auto.
  change ((a :: b :: r) ++ [z]) with (a :: b :: r ++ [z]).
  change (dedup (a :: b :: r)) with (if pix_eqb a b then dedup (b :: r) else a :: dedup (b :: r)).
  change (dedup (a :: b :: r ++ [z])) with (if pix_eqb a b then dedup (b :: r ++ [z]) else a :: dedup (b :: r ++ [z])).
  destruct (pix_eqb a b) eqn:E; [exact IH|].
  destruct (dedup_head b r) as [t Ht]. rewrite Ht in IH |- *. cbn [app] in IH |- *.
  change (dedup (a :: b :: t ++ [z])) with (if pix_eqb a b then dedup (b :: t ++ [z]) else a :: dedup (b :: t ++ [z])).
  rewrite E, IH. reflexivity.
Qed.

(** The body that the loop runs over. *)
Definition body (v : pt) (l : list pt) : list pt := if pt_eqb v (last l v) then removelast l else l.
Lemma body_spec v r :
  (pt_eqb v (last (v :: r) v) = false /\ body v (v :: r) = v :: r) \/
  (pt_eqb v (last (v :: r) v) = true /\ r = [] /\ body v (v :: r) = []) \/
  (exists m z, pt_eqb v (last (v :: r) v) = true /\ r = m ++ [z] /\ pt_same v z /\ body v (v :: r) = v :: m).
Proof.
  unfold body. destruct (pt_eqb v (last (v :: r) v)) eqn:E; [right|left; auto].
  destruct r as [|x r]; [left; auto|right].
  destruct (exists_last (l := x :: r) ltac:(discriminate)) as [m [z Em]].
  exists m, z. rewrite Em in *. change (v :: m ++ [z]) with ((v :: m) ++ [z]) in *.
  rewrite last_last in E. rewrite removelast_last. repeat split; auto; apply pt_eqb_iff in E; apply E.
Qed.
Lemma Ok_inj {A} (a b : A) : Ok a = Ok b -> a = b.
Proof. intros E. injection E. auto. Qed.
Lemma thin_nil s m : thin s (mkPoly [] m) = Raise IndexErr.
Proof. reflexivity. Qed.

(** What thin returns. *)
Lemma thin_cases s v r m :
  let th := thin_loop s (pixel s v) (body v (v :: r)) in
  thin s (mkPoly (v :: r) m) =
    Ok (mkPoly (match th with [] => [] | _ => v :: th ++ (if pt_eqb v (last (v :: r) v) then [v] else []) end) m).
Proof.
  cbv zeta. unfold thin. cbn [pg_points pg_meta]. fold (body v (v :: r)).
  destruct (thin_loop s (pixel s v) (body v (v :: r))) as [|x t] eqn:E.
  - reflexivity.
  - replace (1 <? Z.of_nat (length (v :: x :: t)))%Z with true; [reflexivity|].
    symmetry. apply Z.ltb_lt. cbn [length]. lia.
Qed.

Lemma drawn_thin s v r :
  v :: thin_loop s (pixel s v) (body v (v :: r)) <> [] /\
  map (pixel s) (v :: thin_loop s (pixel s v) (body v (v :: r))) =
    dedup (map (pixel s) (match body v (v :: r) with [] => [v] | b => b end)).
Proof.
  split; [discriminate|].
  destruct (body_spec v r) as [[E Eb]|[[E [Er Eb]]|[l [z [E [Er [Hs Eb]]]]]]]; rewrite Eb.
  - rewrite loop_self. cbn [map]. rewrite dedup_loop. reflexivity.
  - reflexivity.
  - rewrite loop_self. cbn [map]. rewrite dedup_loop. reflexivity.
Qed.

Lemma dedup_single l : (exists x, dedup l = [x]) -> forall a b, In a l -> In b l -> a = b.
Proof.
  induction l as [|x r IH]; intros [y E] a b Ha Hb; [destruct Ha|].
  destruct r as [|z r].
  - destruct Ha as [<-|[]], Hb as [<-|[]]. reflexivity.
  - change (dedup (x :: z :: r)) with (if pix_eqb x z then dedup (z :: r) else x :: dedup (z :: r)) in E.
    destruct (pix_eqb x z) eqn:Ez.
    + apply pix_eqb_iff in Ez. subst z. apply IH; eauto; cbn in *; intuition.
    + destruct (dedup_head z r) as [t Ht]. rewrite Ht in E. discriminate.
Qed.
Lemma dedup_const l x : (forall a, In a l -> a = x) -> l <> [] -> dedup l = [x].
Proof.
  induction l as [|y r IH]; intros H Hl; [congruence|]. destruct r as [|z r].
  - cbn. rewrite (H y); auto. left; auto.
  - change (dedup (y :: z :: r)) with (if pix_eqb y z then dedup (z :: r) else y :: dedup (z :: r)).
    rewrite (H y (or_introl eq_refl)), (H z (or_intror (or_introl eq_refl))), pix_eqb_refl.
    rewrite <- (H z (or_intror (or_introl eq_refl))) at 1. apply IH; [|discriminate].
    intros a Ha. apply H. right. exact Ha.
Qed.

Lemma thin_ok s p : (exists q, thin s p = Ok q) <-> pg_points p <> [].
Proof.
  destruct p as [[|v r] m]; cbn [pg_points].
  - split; [intros [q E]; discriminate|congruence].
  - split; [discriminate|]. intros _. rewrite thin_cases. eauto.
Qed.
Lemma thin_meta s p q : thin s p = Ok q -> pg_meta q = pg_meta p.
Proof.
  destruct p as [[|v r] m]; [discriminate|]. rewrite thin_cases. intros E. apply Ok_inj in E. subst q. reflexivity.
Qed.
Lemma thin_drawn s p q : thin s p = Ok q -> pg_points q <> [] -> drawn s q = drawn s p.
Proof.
  destruct p as [[|v r] m]; [discriminate|]. rewrite thin_cases. intros E. apply Ok_inj in E. subst q. cbn [pg_points].
  unfold drawn. cbn [pg_points]. destruct (drawn_thin s v r) as [_ Hd].
  destruct (thin_loop s (pixel s v) (body v (v :: r))) as [|x t]; [congruence|]. intros _.
  change (v :: (x :: t) ++ (if pt_eqb v (last (v :: r) v) then [v] else [])) with
    ((v :: x :: t) ++ (if pt_eqb v (last (v :: r) v) then [v] else [])).
  rewrite map_app, Hd.
  destruct (body_spec v r) as [[E Eb]|[[E [Er Eb]]|[l [z [E [Er [Hs Eb]]]]]]]; rewrite E, Eb.
  - rewrite app_nil_r. apply dedup_idem.
  - rewrite Eb in Hd. discriminate Hd.
  - cbn [map]. rewrite (pixel_same s v z Hs) at 2. rewrite dedup_snoc, Er.
    rewrite <- (map_cons (pixel s) v l). change [pixel s z] with (map (pixel s) [z]).
    rewrite <- map_app. reflexivity.
Qed.
Lemma thin_empty s p q : thin s p = Ok q ->
  (pg_points q = [] <-> exists x, forall v, In v (pg_points p) -> pixel s v = x).
Proof.
  destruct p as [[|v r] m]; [discriminate|]. rewrite thin_cases. intros E. apply Ok_inj in E. subst q. cbn [pg_points].
  destruct (drawn_thin s v r) as [_ Hd].
  assert (Hall : forall w, In w (v :: r) -> In (pixel s w) (map (pixel s) (match body v (v :: r) with [] => [v] | b => b end))).
  { intros w Hw. destruct (body_spec v r) as [[E Eb]|[[E [Er Eb]]|[l [z [E [Er [Hs Eb]]]]]]]; rewrite Eb.
    - apply in_map, Hw.
    - subst r. destruct Hw as [<-|[]]. left. reflexivity.
    - subst r. destruct Hw as [<-|Hw]; [left; reflexivity|]. apply in_app_or in Hw as [Hw|[<-|[]]].
      + right. apply in_map, Hw.
      + left. apply pixel_same, Hs. }
  assert (Hall2 : forall x, In x (map (pixel s) (match body v (v :: r) with [] => [v] | b => b end)) ->
    exists w, In w (v :: r) /\ pixel s w = x).
  { intros x Hx. apply in_map_iff in Hx as [w [Ew Hw]]. exists w. split; auto.
    destruct (body_spec v r) as [[E Eb]|[[E [Er Eb]]|[l [z [E [Er [Hs Eb]]]]]]]; rewrite Eb in Hw; auto.
    - destruct Hw as [<-|[]]. left. reflexivity.
    - destruct Hw as [<-|Hw]; [left; reflexivity|]. right. rewrite Er. apply in_or_app. auto. }
  destruct (thin_loop s (pixel s v) (body v (v :: r))) as [|x t].
  - split; [|auto]. intros _. exists (pixel s v). intros w Hw.
    eapply dedup_single; [|apply Hall, Hw|apply Hall; left; reflexivity].
    cbn [map] in Hd. exists (pixel s v). symmetry. exact Hd.
  - split; [discriminate|]. intros [y Hy]. exfalso.
    rewrite (dedup_const _ y) in Hd.
    + discriminate Hd.
    + intros a Ha. destruct (Hall2 a Ha) as [w [Hw <-]]. auto.
    + intros E. specialize (Hall v (or_introl eq_refl)). rewrite E in Hall. destruct Hall.
Qed.
Lemma thin_loop_in s l : forall p v, In v (thin_loop s p l) -> In v l.
Proof.
  induction l as [|x r IH]; intros p v H; [destruct H|]. cbn [thin_loop] in H.
  destruct (pix_eqb (pixel s x) p); [right; eapply IH; eauto|].
  destruct H as [<-|H]; [left; auto|right; eapply IH; eauto].
Qed.
Lemma thin_in s p q v : thin s p = Ok q -> In v (pg_points q) -> In v (pg_points p).
Proof.
  destruct p as [[|w r] m]; [discriminate|]. rewrite thin_cases. intros E. apply Ok_inj in E. subst q. cbn [pg_points].
  assert (Hb : forall x, In x (thin_loop s (pixel s w) (body w (w :: r))) -> In x (w :: r)).
  { intros x Hx. apply thin_loop_in in Hx.
    destruct (body_spec w r) as [[E Eb]|[[E [Er Eb]]|[l [z [E [Er [Hs Eb]]]]]]]; rewrite Eb in Hx; auto; [destruct Hx|].
    destruct Hx as [<-|Hx]; [left; auto|right; rewrite Er; apply in_or_app; auto]. }
  destruct (thin_loop s (pixel s w) (body w (w :: r))) as [|x t]; [intros []|].
  intros [<-|H]; [left; auto|]. apply in_app_or in H as [H|H]; [apply Hb, H|].
  destruct (pt_eqb w (last (w :: r) w)); [|destruct H]. destruct H as [<-|[]]. left; auto.
Qed.
Lemma closed_iff v r m : closed (mkPoly (v :: r) m) <-> pt_eqb v (last (v :: r) v) = true.
Proof.
  rewrite pt_eqb_iff. split.
  - intros [w [t [E H]]]. cbn in E. injection E as <- <-. exact H.
  - intros H. exists v, r. split; auto.
Qed.
Lemma thin_closed s p q : thin s p = Ok q -> pg_points q <> [] -> closed p -> closed q.
Proof.
  destruct p as [[|v r] m]; [discriminate|]. rewrite thin_cases. intros E. apply Ok_inj in E. subst q. cbn [pg_points].
  rewrite closed_iff.
  destruct (thin_loop s (pixel s v) (body v (v :: r))) as [|x t]; [congruence|]. intros _ E. rewrite E.
  apply closed_iff. change (v :: (x :: t) ++ [v]) with ((v :: x :: t) ++ [v]). rewrite last_last.
  apply pt_eqb_iff. split; reflexivity.
Qed.
(** No vertex is in the pixel of the one before, except that a closing vertex may be. *)
Lemma thin_tight s p q : thin s p = Ok q -> pg_points q <> [] ->
  let open := if (fun b : bool => b) (match pg_points p with v :: r => pt_eqb v (last (v :: r) v) | [] => false end)
              then removelast (pg_points q) else pg_points q in
  dedup (map (pixel s) open) = map (pixel s) open.
Proof.
  destruct p as [[|v r] m]; [discriminate|]. rewrite thin_cases. intros E. apply Ok_inj in E. subst q. cbn [pg_points].
  destruct (drawn_thin s v r) as [_ Hd].
  destruct (thin_loop s (pixel s v) (body v (v :: r))) as [|x t]; [congruence|]. intros _.
  destruct (pt_eqb v (last (v :: r) v)).
  - change (v :: (x :: t) ++ [v]) with ((v :: x :: t) ++ [v]). rewrite removelast_last, Hd. apply dedup_idem.
  - rewrite app_nil_r, Hd. apply dedup_idem.
Qed.

(** Thinning again changes nothing. *)
Lemma tight_loop s l : forall p, dedup (p :: map (pixel s) l) = p :: map (pixel s) l -> thin_loop s p l = l.
Proof.
  induction l as [|v r IH]; intros p H; auto. cbn [thin_loop].
  change (map (pixel s) (v :: r)) with (pixel s v :: map (pixel s) r) in H.
  change (dedup (p :: pixel s v :: map (pixel s) r)) with
    (if pix_eqb p (pixel s v) then dedup (pixel s v :: map (pixel s) r) else p :: dedup (pixel s v :: map (pixel s) r)) in H.
  destruct (pix_eqb p (pixel s v)) eqn:E.
  - exfalso. assert (L : forall k, (length (dedup k) <= length k)%nat).
    { induction k as [|a k IHk]; auto. destruct k as [|b k]; auto.
      change (dedup (a :: b :: k)) with (if pix_eqb a b then dedup (b :: k) else a :: dedup (b :: k)).
      destruct (pix_eqb a b); cbn [length] in *; lia. }
    specialize (L (pixel s v :: map (pixel s) r)). rewrite H in L. cbn [length] in L. lia.
  - injection H as H. rewrite (IH _ H).
    assert (E2 : pix_eqb (pixel s v) p = false) by (apply pix_eqb_false; apply pix_eqb_false in E; congruence).
    rewrite E2. reflexivity.
Qed.
Lemma thin_idem s p q : thin s p = Ok q -> pg_points q <> [] -> closed p \/ ~ closed q -> thin s q = Ok q.
Proof.
  destruct p as [[|v r] m]; [discriminate|]. intros Et Hq. pose proof (thin_tight s _ _ Et Hq) as Ht.
  rewrite thin_cases in Et. apply Ok_inj in Et. symmetry in Et. rename Et into Eq. cbn [pg_points] in Ht. rewrite closed_iff.
  destruct (thin_loop s (pixel s v) (body v (v :: r))) as [|x t]; [subst q; cbn in Hq; congruence|].
  subst q. cbn [pg_points] in *. clear Hq.
  destruct (pt_eqb v (last (v :: r) v)) eqn:E.
  - intros _. cbv beta zeta iota in Ht.
    change (v :: (x :: t) ++ [v]) with ((v :: x :: t) ++ [v]) in *. rewrite removelast_last in Ht.
    cbn [app]. rewrite thin_cases. unfold body.
    change (v :: x :: t ++ [v]) with ((v :: x :: t) ++ [v]). rewrite last_last.
    assert (Ev : pt_eqb v v = true) by (apply pt_eqb_iff; split; reflexivity).
    rewrite Ev, removelast_last, loop_self.
    rewrite tight_loop by exact Ht. reflexivity.
  - intros [H|H]; [congruence|]. cbv beta zeta iota in Ht. rewrite app_nil_r in *. rewrite closed_iff in H.
    rewrite thin_cases. unfold body. destruct (pt_eqb v (last (v :: x :: t) v)) eqn:E2; [congruence|].
    rewrite loop_self, tight_loop by exact Ht. rewrite app_nil_r. reflexivity.
Qed.

(** ** Sets *)

Fixpoint idx (k : Z) (l : list polygon) : list Z :=
  match l with
  | [] => [k]
  | p :: r => k :: idx (k + Z.of_nat (length (pg_points p))) r
  end.
Definition rep (s : pset) (l : list polygon) : Prop :=
  ps_points s = concat (map pg_points l) /\ ps_index s = idx 0 l /\ ps_meta s = map pg_meta l /\ ps_list s = true.

Lemma idx_snoc l : forall k p, idx k (l ++ [p]) =
  idx k l ++ [(k + Z.of_nat (length (concat (map pg_points (l ++ [p])))))%Z].
Proof.
  induction l as [|a r IH]; intros k p; cbn [app idx map concat].
  - rewrite app_nil_r. reflexivity.
  - rewrite IH. rewrite app_length, Nat2Z.inj_add, Z.add_assoc. reflexivity.
Qed.
Lemma idx_length l : forall k, length (idx k l) = S (length l).
Proof. induction l as [|p r IH]; intros k; cbn; auto. Qed.
Lemma idx_nth l : forall k i, (i <= length l)%nat ->
  nth_error (idx k l) i = Some (k + Z.of_nat (length (concat (map pg_points (firstn i l)))))%Z.
Proof.
  induction l as [|p r IH]; intros k i Hi.
  - cbn in Hi. assert (i = 0%nat) as -> by lia. cbn. f_equal. lia.
  - destruct i as [|i]; [cbn; f_equal; lia|]. cbn in Hi. cbn [idx nth_error firstn map concat].
    rewrite IH by lia. f_equal. rewrite app_length. lia.
Qed.
Lemma concat_split (l : list polygon) i p : nth_error l i = Some p ->
  concat (map pg_points l) = concat (map pg_points (firstn i l)) ++ pg_points p ++ concat (map pg_points (skipn (S i) l)).
Proof.
  revert l. induction i as [|i IH]; intros [|q r] H; try discriminate.
  - injection H as ->. reflexivity.
  - cbn [nth_error] in H. cbn [firstn map concat]. rewrite (IH r H), <- app_assoc. reflexivity.
Qed.
Lemma concat_le (l : list polygon) i : (length (concat (map pg_points (firstn i l))) <= length (concat (map pg_points l)))%nat.
Proof.
  revert l. induction i as [|i IH]; intros [|q r]; cbn; try lia. rewrite !app_length. specialize (IH r). lia.
Qed.
Lemma firstn_S (l : list polygon) i p : nth_error l i = Some p ->
  length (concat (map pg_points (firstn (S i) l))) =
  (length (concat (map pg_points (firstn i l))) + length (pg_points p))%nat.
Proof.
  revert l. induction i as [|i IH]; intros [|q r] H; try discriminate.
  - injection H as ->. cbn. rewrite app_nil_r. reflexivity.
  - cbn [nth_error] in H. change (firstn (S (S i)) (q :: r)) with (q :: firstn (S i) r).
    change (firstn (S i) (q :: r)) with (q :: firstn i r). cbn [map concat]. rewrite !app_length, (IH r H). lia.
Qed.
Lemma slice_nth l i p : nth_error l i = Some p ->
  py_slice (concat (map pg_points l)) (Z.of_nat (length (concat (map pg_points (firstn i l)))))
    (Z.of_nat (length (concat (map pg_points (firstn (S i) l))))) = pg_points p.
Proof.
  intros H. unfold py_slice, clip.
  pose proof (concat_le l i). pose proof (concat_le l (S i)).
  destruct (Z.ltb_spec (Z.of_nat (length (concat (map pg_points (firstn i l))))) 0); [lia|].
  destruct (Z.ltb_spec (Z.of_nat (length (concat (map pg_points (firstn (S i) l))))) 0); [lia|].
  rewrite !Z.min_l by lia. rewrite (firstn_S l i p H).
  replace (Z.to_nat _) with (length (pg_points p)) at 1 by lia. rewrite Nat2Z.id.
  rewrite (concat_split l i p H). rewrite skipn_app, Nat.sub_diag, skipn_all. cbn [app skipn].
  rewrite firstn_app, Nat.sub_diag, firstn_all. cbn [firstn]. apply app_nil_r.
Qed.

Lemma rep_len s l : rep s l -> ps_len s = Z.of_nat (length l).
Proof. intros [_ [E _]]. unfold ps_len. rewrite E, idx_length. lia. Qed.
Lemma poly_eta p : mkPoly (pg_points p) (pg_meta p) = p.
Proof. destruct p; reflexivity. Qed.
Lemma py_get_nat {A} (l : list A) k : py_get l (Z.of_nat k) = match nth_error l k with Some x => Ok x | None => Raise IndexErr end.
Proof.
  unfold py_get, py_pos. destruct (Z.leb_spec 0 (Z.of_nat k)); [|lia].
  destruct (Z.ltb_spec (Z.of_nat k) (Z.of_nat (length l))).
  - rewrite Nat2Z.id. reflexivity.
  - assert (E : nth_error l k = None) by (apply nth_error_None; lia). rewrite E. reflexivity.
Qed.
Lemma rep_get_nat s l k : rep s l ->
  (do a <- py_get (ps_index s) (Z.of_nat k);
   do b <- py_get (ps_index s) (Z.of_nat k + 1)%Z;
   do m <- py_get (ps_meta s) (Z.of_nat k);
   Ok (mkPoly (py_slice (ps_points s) a b) m)) = py_get l (Z.of_nat k).
Proof.
  intros [Ep [Ei [Em _]]]. rewrite Ep, Ei, Em. replace (Z.of_nat k + 1)%Z with (Z.of_nat (S k)) by lia.
  rewrite !py_get_nat. destruct (nth_error l k) as [p|] eqn:E.
  - assert (Hk : (k < length l)%nat) by (apply nth_error_Some; congruence).
    rewrite !idx_nth by lia. rewrite !Z.add_0_l.
    rewrite (map_nth_error pg_meta k l E). cbn [bind]. rewrite (slice_nth l k p E), poly_eta. reflexivity.
  - apply nth_error_None in E. rewrite (proj2 (nth_error_None (idx 0 l) (S k))) by (rewrite idx_length; lia).
    destruct (nth_error (idx 0 l) k); reflexivity.
Qed.
Lemma rep_get s l i : rep s l -> ps_get s i = py_get l i.
Proof.
  intros H. unfold ps_get. rewrite (rep_len s l H).
  destruct (Z.ltb_spec (Z.of_nat (length l)) i).
  - unfold py_get, py_pos. destruct (Z.leb_spec 0 i); [|lia]. destruct (Z.ltb_spec i (Z.of_nat (length l))); [lia|]. reflexivity.
  - destruct (Z.ltb_spec i 0).
    + destruct (Z.ltb_spec i (- Z.of_nat (length l))).
      * unfold py_get, py_pos. destruct (Z.leb_spec 0 i); [lia|].
        destruct (Z.leb_spec (- Z.of_nat (length l)) i); [lia|]. reflexivity.
      * cbn [bind]. replace (Z.of_nat (length l) + i)%Z with (Z.of_nat (Z.to_nat (Z.of_nat (length l) + i))) by lia.
        rewrite rep_get_nat with (l := l) by exact H. rewrite py_get_nat.
        unfold py_get, py_pos. destruct (Z.leb_spec 0 i); [lia|].
        destruct (Z.leb_spec (- Z.of_nat (length l)) i); [|lia].
        rewrite (Z.add_comm i). reflexivity.
    + cbn [bind]. replace i with (Z.of_nat (Z.to_nat i)) by lia. apply rep_get_nat, H.
Qed.
Lemma rep_iter s l : rep s l -> ps_iter s = Ok l.
Proof.
  intros H. unfold ps_iter. rewrite (rep_len s l H), Nat2Z.id.
  assert (G : forall k n, (k + n = length l)%nat -> mapM (ps_get s) (zseq (Z.of_nat k) n) = Ok (skipn k l)).
  { intros k n. revert k. induction n as [|n IH]; intros k Hk.
    - cbn. rewrite skipn_all2 by lia. reflexivity.
    - cbn [zseq mapM]. rewrite (rep_get s l _ H), py_get_nat.
      destruct (nth_error l k) as [p|] eqn:E; [|apply nth_error_None in E; lia].
      cbn [bind]. replace (Z.of_nat k + 1)%Z with (Z.of_nat (S k)) by lia. rewrite IH by lia. cbn [bind].
      f_equal. clear -E. revert l E. induction k as [|k IH]; intros [|q r] E; try discriminate.
      + injection E as ->. reflexivity.
      + cbn [skipn]. cbn [nth_error] in E. rewrite <- (IH r E). reflexivity. }
  apply (G 0%nat). reflexivity.
Qed.
Lemma rep_shows s l : rep s l -> shows s l.
Proof.
  intros H. split; [apply rep_len, H|]. split; [intros i; apply rep_get, H|]. split; [apply rep_iter, H|].
  unfold ps_total. destruct H as [-> _]. reflexivity.
Qed.
Lemma rep_new : rep ps_new [].
Proof. repeat split. Qed.

Lemma no_points_iff l : no_points l <-> concat (map pg_points l) = [].
Proof.
  unfold no_points. induction l as [|p r IH]; cbn.
  - split; auto. intros _ q [].
  - split.
    + intros H. rewrite (H p (or_introl eq_refl)). apply IH. intros q Hq. apply H. right; auto.
    + intros H. apply app_eq_nil in H as [H1 H2]. intros q [<-|Hq]; auto. apply IH; auto.
Qed.
Lemma append_rep s l p m : rep s l -> (pg_points p <> [] \/ no_points l) ->
  exists s', append s p m = (s', None) /\ rep s' (l ++ [with_meta p m]).
Proof.
  intros [Ep [Ei [Em El]]] H.
  assert (Hf : (if (Z.of_nat (length (pg_points p)) =? 0)%Z then 0%nat
      else (length (ps_points s ++ repeat (0%Q, 0%Q) (length (pg_points p))) - length (pg_points p))%nat) = length (ps_points s)).
  { destruct (Z.eqb_spec (Z.of_nat (length (pg_points p))) 0) as [E|E].
    - destruct H as [H|H]; [destruct (pg_points p); [congruence|cbn in E; lia]|].
      apply no_points_iff in H. rewrite Ep, H. reflexivity.
    - rewrite app_length, repeat_length. lia. }
  unfold append. cbv zeta. rewrite Hf, app_length, repeat_length.
  replace (length (ps_points s) + length (pg_points p) - length (ps_points s))%nat with (length (pg_points p)) by lia.
  rewrite Nat.eqb_refl. cbn [negb]. rewrite El. eexists. split; [reflexivity|].
  rewrite firstn_app, Nat.sub_diag, firstn_all. cbn [firstn]. rewrite app_nil_r.
  assert (Ew : concat (map pg_points (l ++ [with_meta p m])) = ps_points s ++ pg_points p).
  { rewrite map_app, concat_app, Ep. cbn. rewrite app_nil_r. destruct m; reflexivity. }
  unfold rep. cbn [ps_points ps_index ps_meta ps_list]. rewrite Ew, Ei, Em, idx_snoc, Ew.
  repeat split; auto. rewrite map_app. destruct m; reflexivity.
Qed.
Lemma append_refused s l p m : rep s l -> pg_points p = [] -> ~ no_points l -> append s p m = (s, Some ValueErr).
Proof.
  intros [Ep _] H Hn. unfold append. cbv zeta. rewrite H. cbn [length repeat]. rewrite app_nil_r. cbn [Z.of_nat].
  rewrite Z.eqb_refl, Nat.sub_0_r.
  destruct (Nat.eqb_spec (length (ps_points s)) 0) as [E|E]; auto.
  exfalso. apply Hn, no_points_iff. rewrite <- Ep. destruct (ps_points s); [reflexivity|discriminate].
Qed.
Lemma transform_rep s l f : rep s l -> rep (ps_transform s (map f)) (map (map_poly f) l).
Proof.
  intros [Ep [Ei [Em El]]]. unfold rep, ps_transform. cbn [ps_points ps_index ps_meta ps_list].
  rewrite Ep, Ei, Em, El. split; [|split; [|split]]; auto.
  - rewrite concat_map, !map_map. reflexivity.
  - clear. generalize 0%Z as k. induction l as [|p r IH]; intros k; auto.
    cbn [map idx map_poly pg_points]. rewrite map_length. f_equal. apply IH.
  - rewrite map_map. reflexivity.
Qed.
Lemma should_rep s l o l' : rep s l -> should l o l' -> rep (ps_do s o) l'.
Proof.
  intros H Hs. destruct Hs; cbn [ps_do].
  - destruct (append_rep s l p m H) as [s' [E Hr]]; auto. rewrite E. exact Hr.
  - rewrite (append_refused s l p m H); auto.
  - apply transform_rep, H.
Qed.
Lemma run_rep os l : should_run os l -> rep (ps_run os) l.
Proof.
  induction 1 as [|os l o l' _ IH Hs]; [apply rep_new|].
  unfold ps_run. rewrite fold_left_app. cbn [fold_left]. eapply should_rep; eauto.
Qed.
Lemma should_total l o : exists l', should l o l'.
Proof.
  destruct o as [p m|f]; [|eexists; apply sh_trans].
  destruct (pg_points p) as [|v r] eqn:E.
  - destruct (concat (map pg_points l)) eqn:Ec.
    + eexists. apply sh_append. right. apply no_points_iff, Ec.
    + eexists. apply sh_refuse; auto. intros H. apply no_points_iff in H. congruence.
  - eexists. apply sh_append. left. congruence.
Qed.
Lemma should_run_total os : exists l, should_run os l.
Proof.
  induction os as [|o os IH] using rev_ind; [eexists; constructor|].
  destruct IH as [l Hl]. destruct (should_total l o) as [l' Hs]. exists l'. econstructor; eauto.
Qed.

Lemma thin_polys_ok scale : forall l acc l0, rep acc l0 ->
  (forall p, In p l -> pg_points p <> []) ->
  exists s' qs, thin_polys scale l acc = Ok s' /\ mapM (thin scale) l = Ok qs /\
    rep s' (l0 ++ filter (fun q => match pg_points q with [] => false | _ => true end) qs).
Proof.
  induction l as [|p r IH]; intros acc l0 H Hne.
  - exists acc, []. cbn. rewrite app_nil_r. auto.
  - destruct (proj2 (thin_ok scale p) (Hne p (or_introl eq_refl))) as [q Eq].
    cbn [thin_polys mapM]. rewrite Eq. cbn [bind].
    assert (Hr : forall x, In x r -> pg_points x <> []) by (intros x Hx; apply Hne; right; auto).
    destruct (Z.ltb_spec 0 (Z.of_nat (length (pg_points q)))) as [Hl|Hl].
    + destruct (append_rep acc l0 q None H) as [acc' [E Ha]].
      { left. intros E. rewrite E in Hl. cbn in Hl. lia. }
      rewrite E. destruct (IH acc' _ Ha Hr) as [s' [qs [E1 [E2 E3]]]].
      exists s', (q :: qs). rewrite E2. cbn [bind]. split; auto. split; auto.
      cbn [filter]. destruct (pg_points q) eqn:Ep; [cbn in Hl; lia|]. rewrite <- app_assoc in E3. exact E3.
    + destruct (IH acc _ H Hr) as [s' [qs [E1 [E2 E3]]]].
      exists s', (q :: qs). rewrite E2. cbn [bind]. split; auto. split; auto.
      cbn [filter]. destruct (pg_points q) eqn:Ep; [exact E3|cbn in Hl; lia].
Qed.
Lemma thin_polys_fail scale : forall l acc l0, rep acc l0 ->
  (exists p, In p l /\ pg_points p = []) -> thin_polys scale l acc = Raise IndexErr.
Proof.
  induction l as [|p r IH]; intros acc l0 H [x [Hx Ex]]; [destruct Hx|].
  cbn [thin_polys]. destruct (pg_points p) as [|v t] eqn:Ep.
  - destruct p as [ps m]. cbn in Ep. subst ps. reflexivity.
  - destruct (proj2 (thin_ok scale p)) as [q Eq]; [congruence|]. rewrite Eq. cbn [bind].
    assert (Hr : exists y, In y r /\ pg_points y = []).
    { destruct Hx as [->|Hx]; [congruence|eauto]. }
    destruct (Z.ltb_spec 0 (Z.of_nat (length (pg_points q)))) as [Hl|Hl].
    + destruct (append_rep acc l0 q None H) as [acc' [E Ha]].
      { left. intros E. rewrite E in Hl. cbn in Hl. lia. }
      rewrite E. eapply IH; eauto.
    + eapply IH; eauto.
Qed.

(** ** Equality of sets *)

Lemma pts_eqb_iff l m : pts_eqb l m = true <-> Forall2 pt_same l m.
Proof.
  unfold pts_eqb. revert m. induction l as [|a r IH]; intros [|b t]; cbn; split; intros H; try discriminate; auto.
  - inversion H.
  - inversion H.
  - apply andb_prop in H as [H1 H2]. apply andb_prop in H2 as [H2 H3]. constructor; [apply pt_eqb_iff, H2|].
    apply IH. rewrite H1, H3. reflexivity.
  - inversion H; subst. apply IH in H5. apply andb_prop in H5 as [H6 H7]. rewrite H6, H7.
    apply pt_eqb_iff in H3. rewrite H3. reflexivity.
Qed.
Lemma zs_eqb_iff l m : zs_eqb l m = true <-> l = m.
Proof.
  unfold zs_eqb. revert m. induction l as [|a r IH]; intros [|b t]; cbn; split; intros H; try discriminate; auto.
  - apply andb_prop in H as [H1 H2]. apply andb_prop in H2 as [H2 H3]. apply Z.eqb_eq in H2. subst b. f_equal.
    apply IH. rewrite H1, H3. reflexivity.
  - injection H as <- <-. rewrite Nat.eqb_refl, Z.eqb_refl. cbn. specialize (IH r). rewrite Nat.eqb_refl in IH. apply IH. reflexivity.
Qed.

(** ** Releases from polygons *)

Lemma tri_point_in R S a b c : 0 <= R < 1 -> 0 <= S < 1 -> in_triangle a b c (random_pt_in_tri R S a b c).
Proof.
  intros HR HS. unfold random_pt_in_tri. destruct (Qle_bool_spec 1 (R + S)) as [H|H].
  - exists (1 - (1 - R) - (1 - S)), (1 - R), (1 - S). cbn [fst snd]. repeat split; try lra; ring.
  - exists (1 - R - S), R, S. cbn [fst snd]. repeat split; try lra; ring.
Qed.

Lemma fold_plus_shift l : forall a, fold_left Qplus l a == a + qsum l.
Proof.
  unfold qsum. induction l as [|x r IH]; intros a; cbn [fold_left]; [ring|].
  rewrite IH, (IH (0 + x)). ring.
Qed.
Lemma qsum_cons x l : qsum (x :: l) == x + qsum l.
Proof. unfold qsum. cbn [fold_left]. rewrite fold_plus_shift. unfold qsum. ring. Qed.
Lemma qsum_app l m : qsum (l ++ m) == qsum l + qsum m.
Proof.
  induction l as [|x r IH]; cbn [app]; [unfold qsum at 2; cbn; ring|]. rewrite !qsum_cons, IH. ring.
Qed.
Lemma qsum_scale k l : qsum (map (Qmult k) l) == k * qsum l.
Proof. induction l as [|x r IH]; cbn [map]; [unfold qsum; cbn; ring|]. rewrite !qsum_cons, IH. ring. Qed.
Lemma qsum_div l t : ~ t == 0 -> qsum (map (fun s => s / t) l) == qsum l / t.
Proof. intros Ht. induction l as [|x r IH]; cbn [map]; [unfold qsum; cbn; field; auto|]. rewrite !qsum_cons, IH. field. auto. Qed.

Lemma weights_ok areas ws : area_weights areas = Ok ws ->
  (areas = [] /\ ws = []) \/ (~ qsum areas == 0 /\ ws = map (fun s => s / qsum areas) areas).
Proof.
  unfold area_weights. fold (qsum areas). destruct (Qeq_bool_spec (qsum areas) 0) as [E|E].
  - destruct areas as [|a r]; [|discriminate]. intros H. injection H as <-. auto.
  - intros H. right. split; auto.
    assert (G : forall l vs, mapM (fun s => Ok (s / qsum areas)) l = Ok vs -> vs = map (fun s => s / qsum areas) l).
    { induction l as [|x r IH]; intros vs Hv; cbn in Hv; [injection Hv as <-; auto|].
      destruct (mapM _ r) as [ys|]; [|discriminate]. cbn in Hv. injection Hv as <-. cbn. f_equal. apply IH. reflexivity. }
    apply G, H.
Qed.
Lemma weights_sum areas ws : area_weights areas = Ok ws -> length ws = length areas /\ (areas <> [] -> qsum ws == 1).
Proof.
  intros H. destruct (weights_ok areas ws H) as [[-> ->]|[Hn ->]]; [split; [auto|congruence]|].
  rewrite map_length. split; auto. intros _. rewrite qsum_div by auto. field. auto.
Qed.
Lemma area_weights_fail areas : (exists ws, area_weights areas = Ok ws) <-> areas = [] \/ ~ qsum areas == 0.
Proof.
  unfold area_weights. fold (qsum areas). destruct (Qeq_bool_spec (qsum areas) 0) as [E|E].
  - destruct areas as [|a r]; [split; [auto|eexists; reflexivity]|].
    split; [intros [ws H]; discriminate|intros [H|H]; congruence].
  - split; [auto|]. intros _. generalize areas at 2. intros l. induction l as [|x r [ws IH]]; [eexists; reflexivity|].
    cbn [mapM bind]. rewrite IH. eexists. reflexivity.
Qed.

Lemma weigh_shares : forall pws ts ws, weigh_tris pws = Ok (ts, ws) ->
  ts = map fst (concat (map fst pws)) /\ length ws = length ts /\
  (forall i p w, nth_error pws i = Some (p, w) -> p <> [] -> share (map fst pws) (ts, ws) i == w) /\
  (forall i p w, nth_error pws i = Some (p, w) -> p = [] -> share (map fst pws) (ts, ws) i == 0).
Proof.
  induction pws as [|[p w] r IH]; intros ts ws H.
  - injection H as <- <-. repeat split; auto; intros [|i]; discriminate.
  - cbn [weigh_tris] in H. destruct (area_weights (map snd p)) as [vs|] eqn:Ev; [|discriminate].
    cbn [bind] in H. destruct (weigh_tris r) as [[ts' ws']|] eqn:Er; [|discriminate].
    cbn [bind fst snd] in H. injection H as <- <-.
    destruct (IH ts' ws' eq_refl) as [E1 [E2 [E3 E4]]].
    destruct (weights_sum _ _ Ev) as [L S]. rewrite map_length in L.
    assert (Hs : forall i, share (map fst ((p, w) :: r)) (map fst p ++ ts', map (Qmult w) vs ++ ws') (Datatypes.S i) = share (map fst r) (ts', ws') i).
    { intros i. unfold share. cbn [map fst firstn concat nth snd]. rewrite app_length.
      rewrite skipn_app, map_length, L.
      replace (length p + length (concat (firstn i (map fst r))) - length p)%nat with (length (concat (firstn i (map fst r)))) by lia.
      rewrite skipn_all2 by (rewrite map_length; lia). reflexivity. }
    assert (H0 : share (map fst ((p, w) :: r)) (map fst p ++ ts', map (Qmult w) vs ++ ws') 0 == w * qsum vs).
    { unfold share. cbn [map fst firstn concat nth snd length skipn].
      rewrite firstn_app, map_length, L, Nat.sub_diag. cbn [firstn]. rewrite app_nil_r.
      rewrite firstn_all2 by (rewrite map_length; lia). apply qsum_scale. }
    split; [cbn [map fst concat]; rewrite map_app, E1; reflexivity|].
    split; [rewrite !app_length, !map_length; lia|].
    split; intros [|i] p' w' Hn Hp.
    + cbn in Hn. injection Hn as <- <-. rewrite H0, S by (destruct p; [congruence|discriminate]). ring.
    + rewrite Hs. apply (E3 i p' w'); auto.
    + cbn in Hn. injection Hn as <- <-. subst p. rewrite H0. destruct vs; [|discriminate]. unfold qsum. cbn. ring.
    + rewrite Hs. apply (E4 i p' w'); auto.
Qed.
Lemma concat_nth {A} (ls : list (list A)) i :
  firstn (length (nth i ls [])) (skipn (length (concat (firstn i ls))) (concat ls)) = nth i ls [].
Proof.
  revert i. induction ls as [|l r IH]; intros [|i]; cbn [nth firstn concat length skipn]; auto.
  - rewrite firstn_app, Nat.sub_diag, firstn_all. cbn [firstn]. apply app_nil_r.
  - rewrite app_length, skipn_app, skipn_all2 by lia.
    replace (length l + length (concat (firstn i r)) - length l)%nat with (length (concat (firstn i r))) by lia.
    apply IH.
Qed.
Lemma default_shares polys ts ws : get_polys_as_tris polys None = Ok (ts, ws) ->
  ts = map fst (concat polys) /\ length ws = length ts /\
  forall i, share polys (ts, ws) i == qsum (map snd (nth i polys [])) / qsum (map snd (concat polys)).
Proof.
  unfold get_polys_as_tris. destruct (area_weights (map snd (concat polys))) as [vs|] eqn:E; [|discriminate].
  cbn [bind snd]. destruct (close_to_1 (qsum vs)) eqn:Ec; [|discriminate]. intros H. injection H as <- <-.
  destruct (weights_ok _ _ E) as [[E1 E2]|[Hn E2]].
  - subst vs. discriminate Ec.
  - split; auto. split; [rewrite E2, !map_length; reflexivity|]. intros i. unfold share. cbn [snd]. rewrite E2.
    rewrite <- (qsum_div _ _ Hn). rewrite <- (concat_nth polys i) at 2.
    rewrite !map_map, skipn_map, firstn_map. reflexivity.
Qed.
Lemma given_shares polys ws0 ts ws : get_polys_as_tris polys (Some ws0) = Ok (ts, ws) ->
  length ws0 = length polys /\ ts = map fst (concat polys) /\ length ws = length ts /\
  forall i p w, nth_error polys i = Some p -> nth_error ws0 i = Some w ->
    share polys (ts, ws) i == match p with [] => 0 | _ => w end.
Proof.
  unfold get_polys_as_tris. destruct (Nat.eqb_spec (length ws0) (length polys)) as [El|El]; [|discriminate]. cbn [negb].
  destruct (weigh_tris (combine polys ws0)) as [[ts' ws']|] eqn:E; [|discriminate]. cbn [bind snd].
  destruct (close_to_1 (qsum ws')); [|discriminate]. intros H. injection H as <- <-.
  assert (Hm : map fst (combine polys ws0) = polys).
  { clear -El. revert ws0 El. induction polys as [|p r IH]; intros [|w t] El; try discriminate; auto.
    cbn. f_equal. apply IH. cbn in El. lia. }
  destruct (weigh_shares _ _ _ E) as [E1 [E2 [E3 E4]]]. rewrite Hm in *.
  split; auto. split; auto. split; auto. intros i p w Hp Hw.
  assert (Hn : nth_error (combine polys ws0) i = Some (p, w)).
  { clear -Hp Hw. revert i ws0 Hp Hw. induction polys as [|q r IH]; intros [|i] [|x t] Hp Hw; try discriminate; cbn in *.
    - congruence.
    - apply IH; auto. }
  destruct p; [apply (E4 i [] w); auto|apply (E3 i (p :: p0) w); auto; discriminate].
Qed.
Lemma prepared_close polys w ts ws : get_polys_as_tris polys w = Ok (ts, ws) ->
  Qabs (qsum ws - 1) <= (1#100000000) + (1#100000).
Proof.
  unfold get_polys_as_tris. intros H.
  match type of H with (do _ <- ?e; _) = _ => destruct e as [tw|] end; [|discriminate].
  cbn [bind] in H. destruct (close_to_1 (qsum (snd tw))) eqn:E; [|discriminate].
  injection H as ->. apply Qle_bool_iff in E. exact E.
Qed.
Lemma distribution_ok areas th ws : compute_distribution areas th = Ok ws ->
  length ws = Nat.min (length areas) (length th) /\
  forall i a t, nth_error areas i = Some a -> nth_error th i = Some t ->
    exists w, nth_error ws i = Some w /\
      w == a * t / qsum (map (fun x => fst x * snd x) (combine areas th)).
Proof.
  unfold compute_distribution. set (vols := map _ (combine areas th)). set (T := qsum vols). intros H.
  assert (G : forall l vs, mapM (fun v => if Qeq_bool T 0 then Raise ZeroDivErr else Ok (v / T)) l = Ok vs ->
    vs = map (fun v => v / T) l).
  { induction l as [|x r IH]; intros vs Hv; cbn [mapM] in Hv; [injection Hv as <-; auto|].
    destruct (Qeq_bool T 0) eqn:ET; [discriminate|]. cbn [bind] in Hv.
    destruct (mapM _ r) as [ys|] eqn:Ey; [|discriminate]. cbn in Hv. injection Hv as <-. cbn. f_equal. apply IH. reflexivity. }
  apply G in H. subst ws. split; [unfold vols; rewrite !map_length, combine_length; reflexivity|].
  intros i a t Ha Ht.
  assert (Hn : nth_error (combine areas th) i = Some (a, t)).
  { clear -Ha Ht. revert i th Ha Ht. induction areas as [|q r IH]; intros [|i] [|x u] Ha Ht; try discriminate; cbn in *.
    - congruence.
    - apply IH; auto. }
  exists (a * t / T). split; [|reflexivity].
  unfold vols. rewrite map_map. erewrite map_nth_error; [|exact Hn]. reflexivity.
Qed.
Lemma positions_in tris picks ps : poly_positions tris picks = Ok ps ->
  (forall k, In k picks -> 0 <= fst (snd k) < 1 /\ 0 <= snd (snd k) < 1) ->
  Forall2 (fun k q => exists a b c, py_get tris (fst k) = Ok (a, b, c) /\
    in_triangle a b c (fst q) /\ snd q == 0) picks ps.
Proof.
  revert ps. induction picks as [|k r IH]; intros ps H Hk; cbn in H; [injection H as <-; constructor|].
  destruct (py_get tris (fst k)) as [[[a b] c]|] eqn:E; [|discriminate]. cbn [bind] in H.
  unfold poly_positions in IH. destruct (mapM _ r) as [ys|]; [|discriminate]. cbn [bind] in H. injection H as <-.
  constructor; [|apply IH; auto; intros; apply Hk; right; auto]. exists a, b, c.
  split; [exact E|split; [|reflexivity]].
  destruct (Hk k (or_introl eq_refl)). cbn [fst]. rewrite <- surjective_pairing. apply tri_point_in; auto.
Qed.
Lemma positions_total tris picks : (forall k, In k picks -> exists t, py_get tris (fst k) = Ok t) ->
  exists ps, poly_positions tris picks = Ok ps.
Proof.
  unfold poly_positions. induction picks as [|k r IH]; intros H; [eexists; reflexivity|]. cbn [mapM].
  destruct (H k (or_introl eq_refl)) as [[[a b] c] E]. rewrite E. cbn [bind].
  destruct IH as [ps Ep]; [intros; apply H; right; auto|]. rewrite Ep. eexists. reflexivity.
Qed.
Lemma tri_point_all a b c p u v w : 0 < u -> 0 <= v -> 0 <= w -> u + v + w == 1 ->
  fst p == u * fst a + v * fst b + w * fst c -> snd p == u * snd a + v * snd b + w * snd c ->
  exists R S, 0 <= R < 1 /\ 0 <= S < 1 /\ pt_same (random_pt_in_tri R S a b c) p.
Proof.
  intros Hu Hv Hw Hs Hx Hy. exists v, w. split; [lra|]. split; [lra|]. unfold random_pt_in_tri.
  destruct (Qle_bool_spec 1 (v + w)); [lra|]. assert (Eu : u == 1 - v - w) by lra.
  split; cbn; [rewrite Hx|rewrite Hy]; rewrite Eu; ring.
Qed.

(** ** The weights of single triangles *)

Lemma weigh_nth : forall pws ts ws, weigh_tris pws = Ok (ts, ws) -> forall i p w j t ar,
  nth_error pws i = Some (p, w) -> nth_error p j = Some (t, ar) ->
  ~ qsum (map snd p) == 0 /\
  exists x, nth_error ws (length (concat (firstn i (map fst pws))) + j) = Some x /\ x == w * (ar / qsum (map snd p)).
Proof.
  induction pws as [|[q v] r IH]; intros ts ws H i p w j t ar Hi Hj; [destruct i; discriminate|].
  cbn [weigh_tris] in H. destruct (area_weights (map snd q)) as [vs|] eqn:Ev; [|discriminate].
  cbn [bind] in H. destruct (weigh_tris r) as [[ts' ws']|] eqn:Er; [|discriminate].
  cbn [bind fst snd] in H. injection H as <- <-. destruct (weights_sum _ _ Ev) as [L _]. rewrite map_length in L.
  destruct i as [|i].
  - cbn in Hi. injection Hi as -> ->. cbn [firstn concat length Nat.add].
    destruct (weights_ok _ _ Ev) as [[E1 _]|[Hn ->]]; [destruct p; [destruct j; discriminate|discriminate E1]|].
    split; auto. exists (w * (ar / qsum (map snd p))). split; [|reflexivity].
    rewrite nth_error_app1 by (rewrite !map_length; apply nth_error_Some; congruence).
    rewrite !map_map. apply map_nth_error with (f := fun x : tri * Q => w * (snd x / qsum (map snd p))) in Hj. exact Hj.
  - destruct (IH ts' ws' eq_refl i p w j t ar Hi Hj) as [Hn [x [Hx E]]]. split; auto. exists x. split; auto.
    cbn [map fst firstn concat]. rewrite app_length, nth_error_app2 by (rewrite map_length; lia).
    rewrite map_length, L. replace (length q + _ + j - length q)%nat with (length (concat (firstn i (map fst r))) + j)%nat by lia.
    exact Hx.
Qed.
Lemma concat_nth_error {A} (ls : list (list A)) i l j x : nth_error ls i = Some l -> nth_error l j = Some x ->
  nth_error (concat ls) (length (concat (firstn i ls)) + j) = Some x.
Proof.
  revert i. induction ls as [|h r IH]; intros [|i] Hi Hj; try discriminate; cbn [firstn concat length Nat.add].
  - cbn in Hi. injection Hi as ->. rewrite nth_error_app1; auto. apply nth_error_Some. congruence.
  - rewrite app_length, nth_error_app2 by lia.
    replace (length h + _ + j - length h)%nat with (length (concat (firstn i r)) + j)%nat by lia. apply IH; auto.
Qed.
Lemma nth_error_nth' {A} (l : list A) i x d : nth_error l i = Some x -> nth i l d = x.
Proof. revert i. induction l as [|a r IH]; intros [|i] H; try discriminate; cbn in *; [congruence|auto]. Qed.
Lemma tris_even polys w ts ws : get_polys_as_tris polys w = Ok (ts, ws) ->
  forall i p j t ar, nth_error polys i = Some p -> nth_error p j = Some (t, ar) ->
  nth_error ts (length (concat (firstn i polys)) + j) = Some t /\
  exists x, nth_error ws (length (concat (firstn i polys)) + j) = Some x /\
    x * qsum (map snd p) == share polys (ts, ws) i * ar.
Proof.
  intros H i p j t ar Hi Hj. destruct w as [ws0|].
  - destruct (given_shares _ _ _ _ H) as [El [Et [_ Hsh]]].
    split; [rewrite Et; apply map_nth_error with (f := fst) (d := (t, ar)); apply (concat_nth_error _ _ p); auto|].
    assert (exists w, nth_error ws0 i = Some w) as [w Hw].
    { destruct (nth_error ws0 i) eqn:E; eauto. apply nth_error_None in E.
      assert (i < length polys)%nat by (apply nth_error_Some; congruence). lia. }
    specialize (Hsh i p w Hi Hw). destruct p as [|q0 p']; [destruct j; discriminate|].
    unfold get_polys_as_tris in H. rewrite El, Nat.eqb_refl in H. cbn [negb] in H.
    destruct (weigh_tris (combine polys ws0)) as [[ts' ws']|] eqn:E; [|discriminate]. cbn [bind snd] in H.
    destruct (close_to_1 (qsum ws')); [|discriminate]. injection H as <- <-.
    assert (Hm : map fst (combine polys ws0) = polys).
    { clear -El. revert ws0 El. induction polys as [|p r IH]; intros [|w t] El; try discriminate; auto.
      cbn. f_equal. apply IH. cbn in El. lia. }
    assert (Hn : nth_error (combine polys ws0) i = Some (q0 :: p', w)).
    { clear -Hi Hw. revert i ws0 Hi Hw. induction polys as [|q r IH]; intros [|i] [|x t] Hp Hw; try discriminate; cbn in *.
      - injection Hp as ->. injection Hw as ->. reflexivity.
      - apply IH; auto. }
    destruct (weigh_nth _ _ _ E i _ w j t ar Hn Hj) as [Hz [x [Hx Ex]]]. rewrite Hm in Hx.
    exists x. split; auto. rewrite Hsh, Ex. field. auto.
  - destruct (default_shares _ _ _ H) as [Et [_ Hsh]].
    split; [rewrite Et; apply map_nth_error with (f := fst) (d := (t, ar)); apply (concat_nth_error _ _ p); auto|].
    specialize (Hsh i). unfold get_polys_as_tris in H.
    destruct (area_weights (map snd (concat polys))) as [vs|] eqn:E; [|discriminate].
    cbn [bind snd] in H. destruct (close_to_1 (qsum vs)) eqn:Ec; [|discriminate]. injection H as <- <-.
    destruct (weights_ok _ _ E) as [[_ E2]|[Hn E2]]; [subst vs; discriminate Ec|].
    exists (ar / qsum (map snd (concat polys))). split.
    + rewrite E2, map_map. apply map_nth_error with (f := fun x : tri * Q => snd x / qsum (map snd (concat polys))) (d := (t, ar)).
      apply (concat_nth_error _ _ p); auto.
    + rewrite Hsh. assert (En : nth i polys [] = p) by (apply nth_error_nth'; exact Hi). unfold tpoly in *. rewrite En. field. auto.
Qed.

(** ** When a release from polygons can start *)

Lemma close_spec x : close_to_1 x = true <-> Qabs (x - 1) <= (1#100000000) + (1#100000).
Proof. apply Qle_bool_iff. Qed.
Lemma default_answers polys : ~ qsum (map snd (concat polys)) == 0 -> exists tw, get_polys_as_tris polys None = Ok tw.
Proof.
  intros H. unfold get_polys_as_tris.
  destruct (proj2 (area_weights_fail (map snd (concat polys))) (or_intror H)) as [ws E]. rewrite E. cbn [bind snd].
  destruct (weights_sum _ _ E) as [_ S].
  assert (Hc : close_to_1 (qsum ws) = true).
  { apply close_spec. rewrite S; [vm_compute; discriminate|]. intros K. rewrite K in H. apply H. reflexivity. }
  rewrite Hc. eauto.
Qed.
Lemma weigh_total : forall pws, (forall p w, In (p, w) pws -> p <> [] /\ ~ qsum (map snd p) == 0) ->
  exists ts ws, weigh_tris pws = Ok (ts, ws) /\ qsum ws == qsum (map snd pws).
Proof.
  induction pws as [|[p w] r IH]; intros H; [exists [], []; split; reflexivity|].
  destruct (H p w (or_introl eq_refl)) as [Hne Hz].
  destruct (proj2 (area_weights_fail (map snd p)) (or_intror Hz)) as [vs E].
  destruct IH as [ts [ws [Er Es]]]; [intros q x Hq; apply (H q x); right; auto|].
  cbn [weigh_tris]. rewrite E. cbn [bind]. rewrite Er. cbn [bind fst snd]. eexists. eexists. split; [reflexivity|].
  destruct (weights_sum _ _ E) as [_ S]. cbn [map snd]. rewrite qsum_app, qsum_scale, qsum_cons, S, Es; [ring|].
  destruct p; [congruence|discriminate].
Qed.
Lemma given_answers polys ws0 : length ws0 = length polys ->
  (forall p, In p polys -> p <> [] /\ ~ qsum (map snd p) == 0) ->
  ((exists tw, get_polys_as_tris polys (Some ws0) = Ok tw) <-> Qabs (qsum ws0 - 1) <= (1#100000000) + (1#100000)).
Proof.
  intros El H. unfold get_polys_as_tris. rewrite El, Nat.eqb_refl. cbn [negb].
  destruct (weigh_total (@combine tpoly Q polys ws0)) as [ts [ws [E Es]]].
  { intros p w Hp. apply H. apply in_combine_l in Hp. exact Hp. }
  rewrite E. cbn [bind snd].
  assert (Hm : map snd (@combine tpoly Q polys ws0) = ws0).
  { clear -El. revert ws0 El. induction polys as [|p r IH]; intros [|w t] El; try discriminate; auto.
    cbn. f_equal. apply IH. cbn in El. lia. }
  change (qsum ws == qsum (map snd (@combine tpoly Q polys ws0))) in Es. rewrite Hm in Es. rewrite <- Es. rewrite <- close_spec. destruct (close_to_1 (qsum ws)); split; eauto.
  - intros [tw K]. discriminate K.
  - intros K. discriminate K.
Qed.
