(** * C29: the order of the weatherers *)
From Coq Require Import Sorted Permutation.
From Verif Require Import Py PyLemmas OrdCollModel OrdCollSpec OrdCollProofs OrderModel OrderSpec OrderProofs.

(** After any history of calls on the collection of weatherers, ordering them leaves
    the same weatherers, in the documented order, those of one class in the order they
    had; iteration and values() agree on it. *)
Theorem C29_ordered : forall (Obj : Type) (sid : Obj -> Z) (cls : Obj -> wclass) (weq : Obj -> Obj -> bool) l0 h,
  (forall x y, weq x y = true -> cls x = cls y) ->
  NoDup (map sid l0) -> forallb not_by_pos h = true ->
  let l := fst (s_run sid l0 h) in
  (forall x, In x l -> listed (cls x)) ->
  exists s' l', order_weatherers sid cls weq (fst (run sid (ctor sid l0) h)) = (s', None) /\
    iter s' = Ok (map Some l') /\ values s' = l' /\ in_order cls l' /\ same_but_order cls l l' /\ Permutation l' l.
Proof.
  intros Obj sid cls weq l0 h He Hn Hh l Hl. destruct (history_R sid l0 h Hn Hh) as [HR _]. fold l in HR.
  destruct (order_ok sid cls weq _ l He HR Hl) as [s' [E1 [E2 E3]]]. exists s', (osort cls l). split; [exact E1|]. split; [apply (R_iter sid); auto|].
  split; [exact E3|]. split; [apply (osort_in_order sid cls weq); auto|]. split; [apply (osort_same sid cls weq)|apply osort_perm].
Qed.
Print Assumptions C29_ordered.
(** The result does not depend on the order in which weatherers of different classes
    were added. *)
Theorem C29_unique : forall (A : Type) (cls : A -> wclass) (a b : list A),
  (forall x, In x a -> listed (cls x)) -> (forall x, In x b -> listed (cls x)) ->
  in_order cls a -> in_order cls b -> same_but_order cls a b -> a = b.
Proof.
  intros A cls a b Ha Hb Sa Sb E.
  assert (I : forall (a b : list A), (forall x, In x a -> listed (cls x)) -> (forall x, In x b -> listed (cls x)) -> in_order cls a -> in_order cls b -> same_but_order cls a b ->
    forall x r, a = x :: r -> exists r', b = x :: r').
  { clear. intros a b Ha Hb Sa Sb E x r ->.
    assert (Hx : In x b).
    { specialize (E (cls x)). unfold of_class in E. cbn [filter] in E. destruct (wclass_eq_dec (cls x) (cls x)); [|congruence].
      assert (K : In x (filter (fun y => if wclass_eq_dec (cls y) (cls x) then true else false) b)) by (rewrite E; left; auto). apply filter_In in K. apply K. }
    destruct b as [|y b]; [contradiction|].
    assert (Hy : In y (x :: r)).
    { specialize (E (cls y)). unfold of_class in E. cbn [filter] in E. destruct (wclass_eq_dec (cls y) (cls y)); [|congruence].
      assert (K : In y (filter (fun z => if wclass_eq_dec (cls z) (cls y) then true else false) (x :: r))) by (cbn [filter]; rewrite <- E; left; auto). apply filter_In in K. apply K. }
    assert (C : cls x = cls y).
    { assert (L1 : listed (cls x)) by (apply Ha; left; auto). assert (L2 : listed (cls y)) by (apply Hb; left; auto).
      assert (P1 : may_precede (cls x) (cls y)) by (destruct Hy as [->|Hy]; [intros i j Hi Hj; congruence || (rewrite Hi in Hj; injection Hj as ->; lia)|]; inversion Sa; subst; rewrite Forall_forall in *; auto).
      assert (P2 : may_precede (cls y) (cls x)) by (destruct Hx as [->|Hx]; [intros i j Hi Hj; congruence || (rewrite Hi in Hj; injection Hj as ->; lia)|]; inversion Sb; subst; rewrite Forall_forall in *; auto).
      unfold listed, may_precede in *. destruct (rank (cls x)) as [i|] eqn:R1; [|congruence]. destruct (rank (cls y)) as [j|] eqn:R2; [|congruence].
      assert (i = j) by (specialize (P1 i j eq_refl eq_refl); specialize (P2 j i eq_refl eq_refl); lia). subst j. clear - R1 R2.
      destruct (cls x); cbn in R1; injection R1 as <- || discriminate; destruct (cls y); cbn in R2; (reflexivity || discriminate). }
    specialize (E (cls x)). unfold of_class in E. cbn [filter] in E. rewrite <- C in E. destruct (wclass_eq_dec (cls x) (cls x)); [|congruence]. injection E as E _. subst y. eauto. }
  revert b Hb Sb E. induction a as [|x r IH]; intros b Hb Sb E.
  - destruct b as [|y b]; [reflexivity|]. destruct (I (y :: b) [] Hb Ha Sb Sa (fun c => eq_sym (E c)) y b eq_refl) as [q Q]. discriminate.
  - destruct (I (x :: r) b Ha Hb Sa Sb E x r eq_refl) as [r' ->]. f_equal. apply IH.
    + intros; apply Ha; right; auto.
    + inversion Sa; auto.
    + intros; apply Hb; right; auto.
    + inversion Sb; auto.
    + intros c. specialize (E c). unfold of_class in *. cbn [filter] in E. destruct (wclass_eq_dec (cls x) c); [injection E|]; auto.
Qed.
Print Assumptions C29_unique.
(** A weatherer of a class that is not listed, a subclass of a listed one for instance,
    makes the ordering raise TypeError unless it is alone; the collection stays. *)
Theorem C29_unlisted : forall (Obj : Type) (sid : Obj -> Z) (cls : Obj -> wclass) (weq : Obj -> Obj -> bool) l0 h,
  NoDup (map sid l0) -> forallb not_by_pos h = true ->
  let s := fst (run sid (ctor sid l0) h) in
  forall x y, In x (fst (s_run sid l0 h)) -> ~ listed (cls x) -> In y (fst (s_run sid l0 h)) -> sid x <> sid y ->
  order_weatherers sid cls weq s = (s, Some TypeErr).
Proof.
  intros Obj sid cls weq l0 h Hn Hh s x y Hx Hl Hy Hne. destruct (history_R sid l0 h Hn Hh) as [HR _]. fold s in HR.
  unfold order_weatherers. rewrite (R_iter sid _ _ HR). assert (R0 : rank (cls x) = None) by (unfold listed in Hl; destruct (rank (cls x)); auto; exfalso; apply Hl; discriminate).
  rewrite (sorted_unlisted sid cls _ x y Hx R0 Hy Hne). reflexivity.
Qed.
Print Assumptions C29_unlisted.
(** Weatherers (number, class); an evaporation is put in place of the second skimmer. *)
Definition w0 : list (Z * wclass) := [(1, Langmuir); (2, Emulsification); (3, Skimmer); (4, Evaporation); (5, Skimmer); (6, ChemicalDispersion)].
Definition wh : list (op (Z * wclass)) := [OAdd (AObj (7, Skimmer)); OReplace (ById 5) (8, Evaporation); ORemove (ByPos 0)].
Definition weq0 (a b : Z * wclass) : bool := if wclass_eq_dec (snd a) (snd b) then true else false.
Example C29_meets : NoDup (map fst w0) /\ forallb not_by_pos wh = true /\
  (forall x, In x (fst (s_run fst w0 wh)) -> listed (snd x)) /\
  iter (fst (order_weatherers fst snd weq0 (fst (run fst (ctor fst w0) wh)))) =
  Ok (map Some [(6, ChemicalDispersion); (3, Skimmer); (7, Skimmer); (4, Evaporation); (8, Evaporation); (2, Emulsification)]).
Proof.
  split; [repeat constructor; cbn; intuition lia|]. split; [reflexivity|]. split; [|vm_compute; reflexivity].
  intros x Hx. vm_compute in Hx. repeat destruct Hx as [<-|Hx]; try contradiction; discriminate.
Qed.
