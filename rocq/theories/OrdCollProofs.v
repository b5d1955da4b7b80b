(** * OrderedCollection: refinement to a list of objects *)
From Verif Require Import Py PyLemmas OrdCollModel OrdCollSpec.
From Coq Require Import Sorting.Sorted Sorting.Permutation.

Section Proofs.
  Context {Obj : Type}.
  Variable sid : Obj -> Z.
  Notation OC := (oc Obj).
  Implicit Type s : OC.

  (** The dictionary and the slots belong together. *)
  Definition W s : Prop :=
    NoDup (dkeys (dindex s)) /\
    forall k i, dget k (dindex s) = Some i ->
      0 <= i /\ exists o, nth_error (elems s) (Z.to_nat i) = Some (Some o) /\ sid o = k.

  Definition slots s : list Z := zsort (dvals (dindex s)).

  Definition P s (i : Z) (o : Obj) : Prop :=
    0 <= i /\ nth_error (elems s) (Z.to_nat i) = Some (Some o) /\ dget (sid o) (dindex s) = Some i.

  (** [s] stands for the list [l]. *)
  Definition R s (l : list Obj) : Prop := W s /\ Forall2 (P s) (slots s) l.

  Lemma In_dvals s i : W s -> In i (dvals (dindex s)) <-> exists k, dget k (dindex s) = Some i.
  Proof.
    intros [Hn _]. unfold dvals. rewrite in_map_iff. split.
    - intros [[k j] [E Hin]]. cbn in E; subst. exists k. apply In_dget; auto.
    - intros [k E]. apply dget_In in E. exists (k, i). auto.
  Qed.

  Lemma dvals_NoDup s : W s -> NoDup (dvals (dindex s)).
  Proof.
    intros [Hn Hw]. unfold dvals.
    assert (Hinj : forall a b, In a (dindex s) -> In b (dindex s) -> snd a = snd b -> a = b).
    { intros [k1 i1] [k2 i2] H1 H2 E. cbn in E. subst i2.
      apply In_dget in H1; auto. apply In_dget in H2; auto.
      destruct (Hw _ _ H1) as [_ [o1 [E1 S1]]]. destruct (Hw _ _ H2) as [_ [o2 [E2 S2]]].
      congruence. }
    assert (Hnd : NoDup (dindex s)) by (apply (NoDup_map_inv fst); exact Hn).
    clear Hn Hw. induction (dindex s) as [|a r IH]; cbn; [constructor|].
    inversion Hnd; subst. constructor.
    - intros Hin. apply in_map_iff in Hin. destruct Hin as [b [E Hb]].
      assert (b = a) by (apply Hinj; [right|left|]; auto). subst. contradiction.
    - apply IH; auto. intros; apply Hinj; auto; right; auto.
  Qed.

  Lemma slots_sorted s : W s -> StronglySorted Z.lt (slots s).
  Proof. intros H. apply zsort_lt, dvals_NoDup, H. Qed.

  Lemma In_slots s i : W s -> In i (slots s) <-> exists k, dget k (dindex s) = Some i.
  Proof. intros H. unfold slots. rewrite zsort_In. apply In_dvals, H. Qed.

  (** R determines l. *)
  Lemma R_exists s : W s -> exists l, R s l.
  Proof.
    intros H. unfold R.
    assert (Hall : forall i, In i (slots s) -> exists o, P s i o).
    { intros i Hi. apply In_slots in Hi as [k E]; auto. destruct (proj2 H _ _ E) as [Hp [o [E1 E2]]].
      exists o. split; auto. split; auto. rewrite E2. exact E. }
    clear -H Hall. revert Hall. generalize (slots s) as L.
    induction L as [|i r IH]; intros Hall.
    - exists []. auto.
    - destruct (Hall i (or_introl eq_refl)) as [o Ho].
      destruct IH as [l [_ Hl]]; [intros; apply Hall; right; auto|].
      exists (o :: l). auto.
  Qed.

  Lemma R_len s l : R s l -> len s = Z.of_nat (length l).
  Proof.
    intros [_ F]. apply Forall2_length in F. unfold len, slots in *.
    rewrite zsort_length in F. unfold dkeys, dvals in *. rewrite map_length in *. lia.
  Qed.

  Lemma py_get_nth {A} (l : list A) i x :
    0 <= i -> nth_error l (Z.to_nat i) = Some x -> py_get l i = Ok x.
  Proof.
    intros Hi E. unfold py_get.
    assert (Z.to_nat i < length l)%nat by (apply nth_error_Some; congruence).
    rewrite py_pos_nonneg by lia. rewrite E. reflexivity.
  Qed.

  Lemma R_iter s l : R s l -> iter s = Ok (map Some l).
  Proof.
    intros [_ F]. unfold iter. change (zsort (dvals (dindex s))) with (slots s).
    revert F. generalize (slots s). intros L F. induction F as [|i o r1 r2 H F IH]; cbn [mapM map]; auto.
    destruct H as [H1 [H2 _]]. rewrite (py_get_nth _ _ _ H1 H2). cbn [bind].
    rewrite IH. reflexivity.
  Qed.

  Lemma R_in s l k : R s l -> in_list sid k l = dmem k (dindex s).
  Proof.
    intros [HW F]. apply eq_true_iff_eq. unfold in_list. rewrite existsb_exists. unfold has_id. split.
    - intros [o [Ho E]]. apply Z.eqb_eq in E. apply In_nth_error in Ho as [n Hn].
      pose proof (Forall2_nth _ _ _ n F) as HF. rewrite Hn in HF.
      destruct (nth_error (slots s) n); [|contradiction]. destruct HF as [_ [_ HF]].
      unfold dmem. rewrite <- E, HF. reflexivity.
    - unfold dmem. destruct (dget k (dindex s)) as [i|] eqn:E; [|discriminate]. intros _.
      assert (Hi : In i (slots s)) by (apply In_slots; eauto).
      apply In_nth_error in Hi as [n Hn].
      pose proof (Forall2_nth _ _ _ n F) as HF. rewrite Hn in HF.
      destruct (nth_error l n) as [o|] eqn:Eo; [|contradiction].
      exists o. split; [apply (nth_error_In _ _ Eo)|].
      destruct (proj2 HW _ _ E) as [_ [o' [E1 E2]]]. destruct HF as [_ [HF _]].
      apply Z.eqb_eq. congruence.
  Qed.

  Lemma R_NoDup s l : R s l -> NoDup (map sid l).
  Proof.
    intros [HW F]. pose proof (dvals_NoDup s HW) as Hn. apply zsort_NoDup in Hn.
    fold (slots s) in Hn. induction F as [|i o r1 r2 H F IH]; cbn; [constructor|].
    inversion Hn; subst. constructor; auto.
    intros Hin. apply in_map_iff in Hin as [o' [E Ho']].
    apply In_nth_error in Ho' as [n En].
    pose proof (Forall2_nth _ _ _ n F) as HF. rewrite En in HF.
    destruct (nth_error r1 n) as [j|] eqn:Ej; [|contradiction].
    destruct H as [_ [_ H]], HF as [_ [_ HF]]. rewrite E in HF.
    assert (i = j) by congruence. subst j. apply nth_error_In in Ej. contradiction.
  Qed.

  Lemma R_find s l k i o : R s l -> dget k (dindex s) = Some i ->
    nth_error (elems s) (Z.to_nat i) = Some (Some o) -> find (has_id sid k) l = Some o /\ In o l.
  Proof.
    intros HR E Eo. pose proof (R_NoDup _ _ HR) as Hnd. destruct HR as [HW F].
    destruct (proj2 HW _ _ E) as [Hp [o' [E1 E2]]]. assert (o' = o) by congruence. subst o'.
    assert (Hi : In i (slots s)) by (apply In_slots; eauto).
    apply In_nth_error in Hi as [n Hn].
    pose proof (Forall2_nth _ _ _ n F) as HF. rewrite Hn in HF.
    destruct (nth_error l n) as [o2|] eqn:El; [|contradiction].
    destruct HF as [_ [HF _]]. assert (o2 = o) by congruence. subst o2.
    apply nth_error_In in El. split; auto.
    clear -El E2 Hnd. induction l as [|a r IH]; [destruct El|]. cbn [find]. unfold has_id at 1.
    cbn in Hnd. inversion Hnd; subst. destruct El as [->|El].
    - rewrite Z.eqb_refl. reflexivity.
    - destruct (Z.eqb_spec (sid a) (sid o)) as [Ea|]; auto.
      exfalso. apply H1. rewrite Ea. apply in_map. exact El.
  Qed.

  (** Only [elems] and [dindex] matter. *)
  Lemma R_fire s ev o l : R (fire_event s ev o) l <-> R s l.
  Proof. reflexivity. Qed.

  Lemma find_in_list k l : in_list sid k l = match find (has_id sid k) l with Some _ => true | None => false end.
  Proof.
    unfold in_list. induction l as [|a r IH]; cbn [existsb find]; auto.
    destruct (has_id sid k a); auto.
  Qed.

  (** add *)
  Lemma R_add1 s l o : R s l -> R (add1 sid s o) (s_add sid l o).
  Proof.
    intros HR. unfold add1, s_add. rewrite (R_in s l _ HR).
    destruct (dmem (sid o) (dindex s)) eqn:E; [exact HR|].
    apply R_fire. destruct HR as [HW F].
    set (n := Z.of_nat (length (elems s))).
    set (s' := mkOC _ _ _ _).
    assert (Hg : forall k, dget k (dindex s') = if k =? sid o then Some n else dget k (dindex s))
      by (intros; apply dget_dset).
    assert (Hdm : dget (sid o) (dindex s) = None) by (unfold dmem in E; destruct (dget _ _); congruence).
    assert (Hlt : forall k i, dget k (dindex s) = Some i -> i < n).
    { intros k i Ei. destruct (proj2 HW _ _ Ei) as [Hp [o' [E1 _]]].
      assert (Z.to_nat i < length (elems s))%nat by (apply nth_error_Some; congruence). lia. }
    assert (HW' : W s').
    { split; [apply dset_NoDup, HW|].
      intros k i. rewrite Hg. destruct (Z.eqb_spec k (sid o)) as [->|].
      - intros [= <-]. split; [lia|]. exists o. split; auto. cbn [elems s'].
        unfold n. rewrite Nat2Z.id. rewrite nth_error_app2 by lia. rewrite Nat.sub_diag. reflexivity.
      - intros Ei. destruct (proj2 HW _ _ Ei) as [Hp [o' [E1 E2]]]. split; auto.
        exists o'. split; auto. cbn [elems s']. rewrite nth_error_app1; auto.
        apply nth_error_Some. congruence. }
    split; auto.
    assert (HS : slots s' = slots s ++ [n]).
    { apply sorted_lt_ext; [apply slots_sorted; auto| |].
      - pose proof (slots_sorted s HW) as Hs.
        assert (Hb : forall i, In i (slots s) -> i < n) by (intros i Hi; apply In_slots in Hi as [k Hk]; eauto).
        clear -Hs Hb. induction Hs as [|a r Hs IH Hf]; cbn; constructor; auto.
        + constructor.
        + apply IH. intros; apply Hb; right; auto.
        + apply Forall_app. split; auto. constructor; auto. apply Hb; left; auto.
      - intros x. rewrite in_app_iff, !In_slots by auto. split.
        + intros [k Ek]. rewrite Hg in Ek. destruct (k =? sid o); [injection Ek as <-; right; left; auto|left; eauto].
        + intros [[k Ek]|[<-|[]]].
          * exists k. rewrite Hg. destruct (Z.eqb_spec k (sid o)); [congruence|auto].
          * exists (sid o). rewrite Hg, Z.eqb_refl. reflexivity. }
    rewrite HS. apply Forall2_app.
    - eapply Forall2_impl; [|exact F]. intros i o' [H1 [H2 H3]]. split; [|split]; auto.
      + cbn [elems s']. rewrite nth_error_app1; auto. apply nth_error_Some. congruence.
      + rewrite Hg. destruct (Z.eqb_spec (sid o') (sid o)); [congruence|auto].
    - constructor; auto. split; [lia|]. split.
      + cbn [elems s']. unfold n. rewrite Nat2Z.id, nth_error_app2, Nat.sub_diag by lia. reflexivity.
      + rewrite Hg, Z.eqb_refl. reflexivity.
  Qed.

  Lemma R_add_iter xs : forall s l, R s l ->
    R (fst (add_iter sid s xs)) (fst (s_add_iter sid l xs)) /\
    snd (add_iter sid s xs) = snd (s_add_iter sid l xs).
  Proof.
    induction xs as [|[o|] r IH]; intros s l HR; cbn [add_iter s_add_iter]; auto.
    apply IH, R_add1, HR.
  Qed.

  Lemma R_clear s : R (clear s) [].
  Proof.
    split; [split|]; cbn.
    - constructor.
    - intros k i; discriminate.
    - constructor.
  Qed.

  (** remove, by the id of a present object *)
  Lemma R_del s l k i o :
    R s l -> dget k (dindex s) = Some i -> nth_error (elems s) (Z.to_nat i) = Some (Some o) ->
    forall el, el = set_nth (Z.to_nat i) None (elems s) ->
    forall c g, R (mkOC el (ddel k (dindex s)) c g) (s_del sid l k).
  Proof.
    intros [HW F] E Eo el -> c g. set (s' := mkOC _ _ _ _).
    assert (Hg : forall k', dget k' (dindex s') = if k' =? k then None else dget k' (dindex s))
      by (intros; apply dget_ddel).
    assert (Hi0 : 0 <= i) by apply (proj2 HW _ _ E).
    assert (Hsk : sid o = k) by (destruct (proj2 HW _ _ E) as [_ [o' [E1 E2]]]; congruence).
    assert (Hother : forall k' j, dget k' (dindex s) = Some j -> k' <> k -> j <> i).
    { intros k' j Ej Hne ->. destruct (proj2 HW _ _ Ej) as [_ [o' [E1 E2]]]. congruence. }
    assert (HW' : W s').
    { split; [apply ddel_NoDup, HW|].
      intros k' j. rewrite Hg. destruct (Z.eqb_spec k' k) as [->|Hne]; [discriminate|].
      intros Ej. destruct (proj2 HW _ _ Ej) as [Hp [o' [E1 E2]]]. split; auto. exists o'. split; auto.
      cbn [elems s']. rewrite nth_error_set_nth_ne; auto.
      pose proof (Hother _ _ Ej Hne). lia. }
    split; auto.
    assert (HS : slots s' = filter (fun j => negb (j =? i)) (slots s)).
    { apply sorted_lt_ext; [apply slots_sorted; auto|apply filter_sorted_lt, slots_sorted; auto|].
      intros x. rewrite filter_In, !In_slots by auto. split.
      - intros [k' Ek]. rewrite Hg in Ek. destruct (Z.eqb_spec k' k); [discriminate|].
        split; [eauto|]. pose proof (Hother _ _ Ek n). lia.
      - intros [[k' Ek] Hne]. exists k'. rewrite Hg. destruct (Z.eqb_spec k' k) as [->|]; auto.
        assert (x = i) by congruence. lia. }
    rewrite HS. unfold s_del.
    assert (F2 : Forall2 (P s) (filter (fun j => negb (j =? i)) (slots s))
                         (filter (fun o => negb (has_id sid k o)) l)).
    { apply Forall2_filter; auto. intros j o' _ _ [H1 [H2 H3]]. f_equal. unfold has_id.
      destruct (Z.eqb_spec j i) as [->|], (Z.eqb_spec (sid o') k); auto; try congruence. }
    eapply Forall2_impl_in; [|exact F2].
    intros j o' Hj _ [H1 [H2 H3]]. apply filter_In in Hj as [_ Hj].
    split; [|split]; auto.
    - cbn [elems s']. rewrite nth_error_set_nth_ne; auto. lia.
    - rewrite Hg. destruct (Z.eqb_spec (sid o') k); auto. assert (j = i) by congruence. lia.
  Qed.

  (** replacing a present object, whose slot is [i] *)
  Lemma R_put s l k i o x :
    R s l -> dget k (dindex s) = Some i -> nth_error (elems s) (Z.to_nat i) = Some (Some o) ->
    forall el, el = set_nth (Z.to_nat i) (Some x) (elems s) ->
    forall c g, R (mkOC el (dset (sid x) i (ddel k (dindex s))) c g) (s_put sid l k x).
  Proof.
    intros [HW F] E Eo el -> c g. set (s' := mkOC _ _ _ _).
    assert (Hg : forall k', dget k' (dindex s') =
      if k' =? sid x then Some i else if k' =? k then None else dget k' (dindex s)).
    { intros. cbn [dindex s']. rewrite dget_dset, dget_ddel. reflexivity. }
    assert (Hi0 : 0 <= i) by apply (proj2 HW _ _ E).
    assert (Hsk : sid o = k) by (destruct (proj2 HW _ _ E) as [_ [o' [E1 E2]]]; congruence).
    assert (Hlen : (Z.to_nat i < length (elems s))%nat) by (apply nth_error_Some; congruence).
    assert (Hother : forall k' j, dget k' (dindex s) = Some j -> k' <> k -> j <> i).
    { intros k' j Ej Hne ->. destruct (proj2 HW _ _ Ej) as [_ [o' [E1 E2]]]. congruence. }
    assert (HW' : W s').
    { split; [apply dset_NoDup, ddel_NoDup, HW|].
      intros k' j. rewrite Hg. destruct (Z.eqb_spec k' (sid x)) as [->|Hnx].
      - intros [= <-]. split; auto. exists x. split; auto. cbn [elems s'].
        apply nth_error_set_nth_eq; auto.
      - destruct (Z.eqb_spec k' k) as [->|Hne]; [discriminate|].
        intros Ej. destruct (proj2 HW _ _ Ej) as [Hp [o' [E1 E2]]]. split; auto. exists o'. split; auto.
        cbn [elems s']. rewrite nth_error_set_nth_ne; auto.
        pose proof (Hother _ _ Ej Hne). lia. }
    split; auto.
    set (keep := fun j => (j =? i) || negb (match dget (sid x) (dindex s) with Some j' => j =? j' | None => false end)).
    assert (HS : slots s' = filter keep (slots s)).
    { apply sorted_lt_ext; [apply slots_sorted; auto|apply filter_sorted_lt, slots_sorted; auto|].
      intros j. rewrite filter_In, !In_slots by auto. unfold keep. split.
      - intros [k' Ek]. rewrite Hg in Ek. destruct (Z.eqb_spec k' (sid x)) as [Ekx|Hnx].
        + injection Ek as <-. rewrite Z.eqb_refl. split; eauto.
        + destruct (Z.eqb_spec k' k); [discriminate|]. split; [eauto|].
          apply orb_true_iff. right. destruct (dget (sid x) (dindex s)) as [j'|] eqn:Ex; auto.
          destruct (Z.eqb_spec j j') as [->|]; auto.
          destruct (proj2 HW _ _ Ek) as [_ [o1 [E1 S1]]]. destruct (proj2 HW _ _ Ex) as [_ [o2 [E2 S2]]].
          congruence.
      - intros [[k' Ek] Hk]. apply orb_true_iff in Hk as [Hk|Hk].
        + apply Z.eqb_eq in Hk as ->. exists (sid x). rewrite Hg, Z.eqb_refl. reflexivity.
        + destruct (Z.eqb_spec k' (sid x)) as [->|Hnx].
          * rewrite Ek, Z.eqb_refl in Hk. discriminate.
          * destruct (Z.eqb_spec k' k) as [->|Hne].
            -- assert (j = i) by congruence. subst j. exists (sid x). rewrite Hg, Z.eqb_refl. reflexivity.
            -- exists k'. rewrite Hg. destruct (Z.eqb_spec k' (sid x)); [congruence|].
               destruct (Z.eqb_spec k' k); [congruence|auto]. }
    rewrite HS. unfold s_put. apply Forall2_map_r.
    assert (F2 : Forall2 (P s) (filter keep (slots s))
                   (filter (fun o => has_id sid k o || negb (has_id sid (sid x) o)) l)).
    { apply Forall2_filter; auto. intros j o' _ _ [H1 [H2 H3]]. unfold keep, has_id.
      f_equal.
      - destruct (Z.eqb_spec j i) as [->|], (Z.eqb_spec (sid o') k); auto; try congruence.
      - f_equal. destruct (Z.eqb_spec (sid o') (sid x)) as [Ex|Ex].
        + rewrite <- Ex, H3, Z.eqb_refl. reflexivity.
        + destruct (dget (sid x) (dindex s)) as [j'|] eqn:Ej; auto.
          destruct (Z.eqb_spec j j') as [->|]; auto.
          destruct (proj2 HW _ _ Ej) as [_ [o2 [E2 S2]]]. congruence. }
    eapply Forall2_impl_in; [|exact F2].
    intros j o' Hj Ho' [H1 [H2 H3]]. unfold has_id.
    destruct (Z.eqb_spec (sid o') k) as [Ek|Ek].
    - assert (j = i) by congruence. subst j. split; [|split]; auto.
      + cbn [elems s']. apply nth_error_set_nth_eq; auto.
      + rewrite Hg, Z.eqb_refl. reflexivity.
    - assert (Hnx : sid o' <> sid x).
      { apply filter_In in Ho' as [_ Ho']. unfold has_id in Ho'.
        destruct (Z.eqb_spec (sid o') k); [congruence|].
        destruct (Z.eqb_spec (sid o') (sid x)); [discriminate|auto]. }
      pose proof (Hother _ _ H3 Ek) as Hji.
      split; [|split]; auto.
      + cbn [elems s']. rewrite nth_error_set_nth_ne; auto. lia.
      + rewrite Hg. destruct (Z.eqb_spec (sid o') (sid x)); [congruence|].
        destruct (Z.eqb_spec (sid o') k); [congruence|auto].
  Qed.

  (** lookups *)
  Lemma s_nth_pos l i : s_nth l i = match py_pos (length l) i with
                                    | Some k => nth_error (A:=Obj) l k | None => None end.
  Proof.
    unfold s_nth, py_pos. destruct (Z.leb_spec 0 i).
    - destruct (Z.ltb_spec i (Z.of_nat (length l))); auto. apply nth_error_None. lia.
    - destruct (Z.ltb_spec (i + Z.of_nat (length l)) 0), (Z.leb_spec (- Z.of_nat (length l)) i); auto; lia.
  Qed.

  Lemma R_get_pos s l i : R s l ->
    get s (ByPos i) = match s_nth l i with Some o => Ok (Some o) | None => Raise IndexErr end.
  Proof.
    intros [HW F]. unfold get. fold (slots s). rewrite s_nth_pos. unfold py_get at 1.
    rewrite (Forall2_length _ _ _ F).
    destruct (py_pos (length l) i) as [n|]; [|reflexivity].
    pose proof (Forall2_nth _ _ _ n F) as HF.
    destruct (nth_error (slots s) n) as [j|], (nth_error l n) as [o|]; try contradiction; [|reflexivity].
    cbn [bind]. destruct HF as [H1 [H2 _]]. apply py_get_nth; auto.
  Qed.

  Lemma R_get_id s l k : R s l ->
    get s (ById k) = match find (has_id sid k) l with Some o => Ok (Some o) | None => Raise KeyErr end.
  Proof.
    intros HR. unfold get. destruct (dget k (dindex s)) as [i|] eqn:E.
    - destruct (proj2 (proj1 HR) _ _ E) as [Hp [o [E1 E2]]].
      destruct (R_find _ _ _ _ _ HR E E1) as [-> _]. apply py_get_nth; auto.
    - pose proof (R_in s l k HR) as Hin. rewrite find_in_list in Hin. unfold dmem in Hin. rewrite E in Hin.
      destruct (find _ l); [discriminate|reflexivity].
  Qed.

  Lemma R_index s l k : R s l ->
    index s k = match find (has_id sid k) l with
                | Some _ => match zfind k (map sid l) with Some p => Ok (Z.of_nat p) | None => Raise ValueErr end
                | None => Raise ValueErr
                end.
  Proof.
    intros HR. unfold index. fold (slots s). destruct (dget k (dindex s)) as [i|] eqn:E.
    - destruct (proj2 (proj1 HR) _ _ E) as [Hp [o [E1 E2]]].
      destruct (R_find _ _ _ _ _ HR E E1) as [-> Ho].
      pose proof (R_NoDup _ _ HR) as Hnd. destruct HR as [HW F].
      assert (Hi : In i (slots s)) by (apply In_slots; eauto).
      apply In_nth_error in Hi as [n Hn].
      assert (HS : NoDup (slots s)) by (apply zsort_NoDup, dvals_NoDup, HW).
      rewrite (zfind_nth _ _ _ HS Hn).
      pose proof (Forall2_nth _ _ _ n F) as HF. rewrite Hn in HF.
      destruct (nth_error l n) as [o'|] eqn:El; [|contradiction].
      destruct HF as [_ [HF _]]. assert (o' = o) by congruence. subst o'.
      rewrite (zfind_nth _ n); auto. rewrite nth_error_map, El. cbn. congruence.
    - pose proof (R_in s l k HR) as Hin. rewrite find_in_list in Hin. unfold dmem in Hin. rewrite E in Hin.
      destruct (find _ l); [discriminate|reflexivity].
  Qed.

  (** remove *)
  Lemma remove_present s l k o :
    R s l -> find (has_id sid k) l = Some o ->
    exists i, dget k (dindex s) = Some i /\ nth_error (elems s) (Z.to_nat i) = Some (Some o) /\ 0 <= i.
  Proof.
    intros HR Hf. pose proof (R_in s l k HR) as Hin. rewrite find_in_list, Hf in Hin.
    unfold dmem in Hin. destruct (dget k (dindex s)) as [i|] eqn:E; [|discriminate].
    destruct (proj2 (proj1 HR) _ _ E) as [Hp [o' [E1 E2]]].
    destruct (R_find _ _ _ _ _ HR E E1) as [Hf' _]. exists i. split; auto. split; auto. congruence.
  Qed.

  Lemma py_set_nth {A} (l : list A) i x y :
    0 <= i -> nth_error l (Z.to_nat i) = Some x -> py_set l i y = Ok (set_nth (Z.to_nat i) y l).
  Proof.
    intros Hi E. unfold py_set.
    assert (Z.to_nat i < length l)%nat by (apply nth_error_Some; congruence).
    rewrite py_pos_nonneg by lia. reflexivity.
  Qed.

  Lemma has_id_find k l o : find (has_id sid k) l = Some o -> sid o = k.
  Proof. intros H. apply find_some in H as [_ H]. apply Z.eqb_eq. exact H. Qed.

  Lemma find_self l o : NoDup (map sid l) -> In o l -> find (has_id sid (sid o)) l = Some o.
  Proof.
    induction l as [|a r IH]; intros Hn Hin; [destruct Hin|]. cbn [find]. cbn in Hn.
    inversion Hn; subst. unfold has_id at 1. destruct Hin as [->|Hin].
    - rewrite Z.eqb_refl. reflexivity.
    - destruct (Z.eqb_spec (sid a) (sid o)) as [E|]; auto.
      exfalso. apply H1. rewrite E. apply in_map, Hin.
  Qed.

  Lemma s_nth_In l i o : s_nth l i = Some o -> In (A:=Obj) o l.
  Proof.
    rewrite s_nth_pos. destruct (py_pos _ _); [apply nth_error_In|discriminate].
  Qed.

  (** the effect of remove in terms of the list and of the log *)
  Lemma remove_spec s l id :
    R s l ->
    R (fst (remove sid s id)) (fst (s_apply sid l (ORemove id))) /\
    snd (remove sid s id) = snd (s_apply sid l (ORemove id)) /\
    callbacks (fst (remove sid s id)) = callbacks s /\
    log (fst (remove sid s id)) = log s ++ flat_map (deliver (callbacks s)) (s_events sid l (ORemove id)).
  Proof.
    intros HR. pose proof (R_NoDup _ _ HR) as Hnd.
    assert (Hpres : forall k o, find (has_id sid k) l = Some o ->
      let r := match get s (ById k) with
        | Raise e => (s, Some e)
        | Ok item =>
            match dget k (dindex s) with
            | None => (s, Some KeyErr)
            | Some idx =>
                match py_set (elems s) idx None with
                | Raise e => (s, Some e)
                | Ok el =>
                    let s' := mkOC el (ddel k (dindex s)) (callbacks s) (log s) in
                    match item with
                    | Some o => (fire_event s' EvRemove o, None)
                    | None => (s', None)
                    end
                end
            end
        end in
      R (fst r) (s_del sid l k) /\ snd r = None /\ callbacks (fst r) = callbacks s /\
      log (fst r) = log s ++ deliver (callbacks s) (EvRemove, o)).
    { intros k o Hf. rewrite (R_get_id s l k HR), Hf.
      destruct (remove_present s l k o HR Hf) as [i [E1 [E2 E3]]]. rewrite E1.
      rewrite (py_set_nth _ _ _ _ E3 E2). cbn [fst snd]. split; [|split; [|split]]; auto.
      apply R_fire. eapply R_del; eauto. }
    unfold remove. destruct id as [i|k].
    - rewrite (R_get_pos s l i HR). cbn [s_apply s_events].
      destruct (s_nth l i) as [o|] eqn:En; cbn [bind okey option_map fst snd flat_map].
      + pose proof (find_self l o Hnd (s_nth_In _ _ _ En)) as Hf.
        destruct (Hpres _ _ Hf) as [H1 [H2 [H3 H4]]]. rewrite app_nil_r. auto.
      + rewrite app_nil_r. auto.
    - cbn [s_apply s_events]. rewrite <- (R_in s l k HR), find_in_list.
      destruct (find (has_id sid k) l) as [o|] eqn:Hf.
      + destruct (Hpres _ _ Hf) as [H1 [H2 [H3 H4]]]. cbn [fst snd flat_map]. rewrite app_nil_r. auto.
      + rewrite (R_get_id s l k HR), Hf. cbn [bind fst snd flat_map]. rewrite app_nil_r. auto.
  Qed.

  Lemma replace_id_spec s l k x :
    R s l ->
    R (fst (replace sid s (ById k) x)) (fst (s_apply sid l (OReplace (ById k) x))) /\
    snd (replace sid s (ById k) x) = snd (s_apply sid l (OReplace (ById k) x)) /\
    callbacks (fst (replace sid s (ById k) x)) = callbacks s /\
    log (fst (replace sid s (ById k) x)) =
      log s ++ flat_map (deliver (callbacks s)) (s_events sid l (OReplace (ById k) x)).
  Proof.
    intros HR. unfold replace. cbn [s_apply s_events]. rewrite find_in_list.
    destruct (find (has_id sid k) l) as [o|] eqn:Hf.
    - destruct (remove_present s l k o HR Hf) as [i [E1 [E2 E3]]]. rewrite E1.
      rewrite (py_set_nth _ _ _ _ E3 E2). cbn [fst snd flat_map]. rewrite app_nil_r.
      split; [|split; [|split]]; auto. apply R_fire. eapply R_put; eauto.
    - pose proof (R_in s l k HR) as Hin. rewrite find_in_list, Hf in Hin. unfold dmem in Hin.
      destruct (dget k (dindex s)); [discriminate|]. cbn [fst snd flat_map]. rewrite app_nil_r. auto.
  Qed.

  Lemma add1_log s l o : R s l ->
    callbacks (add1 sid s o) = callbacks s /\
    log (add1 sid s o) = log s ++ (if in_list sid (sid o) l then [] else deliver (callbacks s) (EvAdd, o)).
  Proof.
    intros HR. unfold add1. rewrite <- (R_in s l _ HR). destruct (in_list sid (sid o) l); cbn; auto.
    rewrite app_nil_r. auto.
  Qed.

  Lemma add_iter_log xs : forall s l, R s l ->
    callbacks (fst (add_iter sid s xs)) = callbacks s /\
    log (fst (add_iter sid s xs)) = log s ++ flat_map (deliver (callbacks s)) (s_added sid l xs).
  Proof.
    induction xs as [|[o|] r IH]; intros s l HR; cbn [add_iter s_added fst flat_map].
    - rewrite app_nil_r. auto.
    - destruct (add1_log s l o HR) as [Hc Hl].
      destruct (IH _ _ (R_add1 s l o HR)) as [Hc2 Hl2]. split; [congruence|].
      rewrite Hl2, Hl, Hc. unfold s_add. destruct (in_list sid (sid o) l); cbn [flat_map].
      + rewrite app_nil_r. reflexivity.
      + rewrite app_assoc. reflexivity.
    - rewrite app_nil_r. auto.
  Qed.

  Lemma s_add_iter_all xs l : s_add_iter sid l (map Some xs) = (fold_left (s_add sid) xs l, None).
  Proof. revert l; induction xs as [|x r IH]; intros l; cbn; auto. Qed.

  (** One call other than assignment by position. *)
  Lemma apply_spec s l o :
    R s l -> not_by_pos o = true ->
    R (fst (apply sid s o)) (fst (s_apply sid l o)) /\
    snd (apply sid s o) = snd (s_apply sid l o) /\
    callbacks (fst (apply sid s o)) =
      match o with ORegister cb evs => callbacks s ++ [(cb, evs)] | _ => callbacks s end /\
    log (fst (apply sid s o)) = log s ++ flat_map (deliver (callbacks s)) (s_events sid l o).
  Proof.
    intros HR Hok. destruct o as [[o|xs|]|id|[i|k] x| |xs|cb evs]; cbn [not_by_pos] in Hok; try discriminate.
    - cbn [apply add s_apply s_events fst snd]. destruct (add1_log s l o HR) as [H1 H2].
      split; [apply R_add1; auto|]. split; auto. split; auto. rewrite H2.
      destruct (in_list sid (sid o) l); cbn [flat_map]; rewrite ?app_nil_r; auto.
    - cbn [apply add s_apply s_events]. destruct (R_add_iter xs s l HR) as [H1 H2].
      destruct (add_iter_log xs s l HR) as [H3 H4]. auto.
    - cbn. rewrite app_nil_r. auto.
    - cbn [apply]. apply remove_spec; auto.
    - cbn [apply]. apply replace_id_spec; auto.
    - cbn [apply s_apply s_events fst snd flat_map]. rewrite app_nil_r.
      split; [apply R_clear|]. auto.
    - cbn [apply s_apply s_events fst snd]. unfold update.
      destruct (R_add_iter (map Some xs) (clear s) [] (R_clear s)) as [H1 _].
      destruct (add_iter_log (map Some xs) (clear s) [] (R_clear s)) as [H3 H4].
      rewrite s_add_iter_all in H1. auto.
    - cbn. rewrite app_nil_r. split; [|auto]. exact HR.
  Qed.

  Lemma run_spec h : forall s l,
    R s l -> forallb not_by_pos h = true ->
    R (fst (run sid s h)) (fst (s_run sid l h)) /\
    snd (run sid s h) = snd (s_run sid l h) /\
    log (fst (run sid s h)) = log s ++ s_log sid l (callbacks s) h.
  Proof.
    induction h as [|o r IH]; intros s l HR Hok; cbn [run s_run s_log forallb] in *.
    - rewrite app_nil_r. auto.
    - apply andb_true_iff in Hok as [Ho Hr].
      destruct (apply_spec s l o HR Ho) as [H1 [H2 [H3 H4]]].
      destruct (apply sid s o) as [s1 e]. destruct (s_apply sid l o) as [l1 e'].
      cbn [fst snd] in *. specialize (IH s1 l1 H1 Hr).
      destruct (run sid s1 r) as [s2 es]. destruct (s_run sid l1 r) as [l2 es'].
      cbn [fst snd] in *. destruct IH as [I1 [I2 I3]]. split; auto. split; [congruence|].
      rewrite I3, H4, H3. rewrite <- app_assoc. reflexivity.
  Qed.

  (** the constructor *)
  Lemma ctor_index_get l : forall a (d : dict Z) k,
    (forall o, In o l -> ~ In (sid o) (dkeys d)) -> NoDup (map sid l) ->
    dget k (fold_left (fun d ix => dset (sid (snd ix)) (fst ix) d) (combine (zseq a (length l)) l) d) =
    match zfind k (map sid l) with Some p => Some (a + Z.of_nat p) | None => dget k d end.
  Proof.
    induction l as [|o r IH]; intros a d k Hd Hn; cbn [length zseq combine fold_left map zfind]; auto.
    cbn in Hn. inversion Hn; subst. rewrite IH; auto.
    - cbn [fst snd]. destruct (Z.eqb_spec k (sid o)) as [->|].
      + destruct (zfind (sid o) (map sid r)) eqn:Ez.
        * apply zfind_Some, nth_error_In in Ez. contradiction.
        * rewrite dget_dset, Z.eqb_refl. f_equal. lia.
      + destruct (zfind k (map sid r)); cbn [option_map]; [f_equal; lia|].
        rewrite dget_dset. destruct (Z.eqb_spec k (sid o)); [congruence|auto].
    - intros o' Ho' Hin. cbn [fst snd] in Hin. rewrite dkeys_dset in Hin.
      destruct (dmem (sid o) d).
      + apply (Hd o'); auto. right; auto.
      + apply in_app_iff in Hin as [Hin|[Hin|[]]].
        * apply (Hd o'); auto. right; auto.
        * apply H1. rewrite Hin. apply in_map. exact Ho'.
  Qed.

  Lemma ctor_keys_NoDup l : forall a (d : dict Z), NoDup (dkeys d) ->
    NoDup (dkeys (fold_left (fun d ix => dset (sid (snd ix)) (fst ix) d) (combine (zseq a (length l)) l) d)).
  Proof.
    induction l as [|o r IH]; intros a d Hd; cbn [length zseq combine fold_left]; auto.
    apply IH. apply dset_NoDup, Hd.
  Qed.

  Lemma R_ctor l : NoDup (map sid l) -> R (ctor sid l) l.
  Proof.
    intros Hn.
    assert (Hg : forall k, dget k (dindex (ctor sid l)) =
      match zfind k (map sid l) with Some p => Some (Z.of_nat p) | None => None end).
    { intros k. cbn [dindex ctor]. rewrite ctor_index_get; auto. }
    assert (HW : W (ctor sid l)).
    { split; [apply ctor_keys_NoDup; constructor|].
      intros k i. rewrite Hg. destruct (zfind k (map sid l)) as [p|] eqn:E; [|discriminate].
      intros [= <-]. split; [lia|]. apply zfind_Some in E. rewrite nth_error_map in E.
      destruct (nth_error l p) as [o|] eqn:Eo; [|discriminate]. exists o. rewrite Nat2Z.id.
      cbn [elems ctor]. rewrite nth_error_map, Eo. split; auto. cbn in E. congruence. }
    split; auto.
    assert (HS : slots (ctor sid l) = zseq 0 (length l)).
    { apply sorted_lt_ext; [apply slots_sorted; auto|apply zseq_sorted|].
      intros i. rewrite In_slots, zseq_In by auto. split.
      - intros [k Ek]. rewrite Hg in Ek. destruct (zfind k (map sid l)) as [p|] eqn:E; [|discriminate].
        injection Ek as <-. apply zfind_Some in E.
        assert (p < length (map sid l))%nat by (apply nth_error_Some; congruence).
        rewrite map_length in *. lia.
      - intros Hi. destruct (nth_error l (Z.to_nat i)) as [o|] eqn:Eo.
        + exists (sid o). rewrite Hg. rewrite (zfind_nth _ (Z.to_nat i)); auto.
          * f_equal. lia.
          * rewrite nth_error_map, Eo. reflexivity.
        + apply nth_error_None in Eo. lia. }
    rewrite HS.
    assert (Hgen : forall a r, (forall p o, nth_error r p = Some o -> P (ctor sid l) (a + Z.of_nat p) o) ->
      Forall2 (P (ctor sid l)) (zseq a (length r)) r).
    { intros a r. revert a. induction r as [|o r IH]; intros a H; cbn [length zseq]; constructor.
      - specialize (H O o eq_refl). rewrite Z.add_0_r in H. exact H.
      - apply IH. intros p o' Ep. replace (a + 1 + Z.of_nat p) with (a + Z.of_nat (S p)) by lia.
        apply H. exact Ep. }
    apply Hgen. intros p o Ep. rewrite Z.add_0_l. split; [lia|]. split.
    - rewrite Nat2Z.id. cbn [elems ctor]. rewrite nth_error_map, Ep. reflexivity.
    - rewrite Hg. rewrite (zfind_nth _ p); auto. rewrite nth_error_map, Ep. reflexivity.
  Qed.

  Lemma ctor_cb l : callbacks (ctor sid l) = [] /\ log (ctor sid l) = [].
  Proof. auto. Qed.

  (** Everything about a history, in one place. *)
  Lemma history_R l0 h :
    NoDup (map sid l0) -> forallb not_by_pos h = true ->
    R (fst (run sid (ctor sid l0) h)) (fst (s_run sid l0 h)) /\
    snd (run sid (ctor sid l0) h) = snd (s_run sid l0 h) /\
    log (fst (run sid (ctor sid l0) h)) = s_log sid l0 [] h.
  Proof. intros Hn Hh. apply (run_spec h (ctor sid l0) l0); auto. apply R_ctor, Hn. Qed.

  Lemma history_iter l0 h :
    NoDup (map sid l0) -> forallb not_by_pos h = true ->
    iter (fst (run sid (ctor sid l0) h)) = Ok (map Some (fst (s_run sid l0 h))) /\
    snd (run sid (ctor sid l0) h) = snd (s_run sid l0 h).
  Proof.
    intros Hn Hh. destruct (history_R l0 h Hn Hh) as [H1 [H2 _]]. split; auto. apply R_iter, H1.
  Qed.

  Lemma history_len l0 h :
    NoDup (map sid l0) -> forallb not_by_pos h = true ->
    let s := fst (run sid (ctor sid l0) h) in
    exists l, iter s = Ok (map Some l) /\ len s = Z.of_nat (length l) /\ NoDup (map sid l) /\
              forall o, contains sid s o = true <-> In (sid o) (map sid l).
  Proof.
    intros Hn Hh s. destruct (history_R l0 h Hn Hh) as [H1 _]. fold s in H1.
    exists (fst (s_run sid l0 h)). split; [apply R_iter; auto|]. split; [apply R_len; auto|].
    split; [apply (R_NoDup _ _ H1)|].
    intros o. unfold contains. rewrite <- (R_in _ _ _ H1). unfold in_list. rewrite existsb_exists, in_map_iff.
    unfold has_id. split; intros [o' [Ha Hb]]; exists o'.
    - apply Z.eqb_eq in Hb. auto.
    - split; auto. apply Z.eqb_eq. auto.
  Qed.

  Lemma history_get l0 h :
    NoDup (map sid l0) -> forallb not_by_pos h = true ->
    let s := fst (run sid (ctor sid l0) h) in
    exists l, iter s = Ok (map Some l) /\
      (forall i, get s (ByPos i) = match s_nth l i with Some o => Ok (Some o) | None => Raise IndexErr end) /\
      (forall k, get s (ById k) = match find (has_id sid k) l with Some o => Ok (Some o) | None => Raise KeyErr end) /\
      (forall p o, nth_error l p = Some o -> index s (sid o) = Ok (Z.of_nat p)) /\
      (forall k, ~ In k (map sid l) -> index s k = Raise ValueErr).
  Proof.
    intros Hn Hh s. destruct (history_R l0 h Hn Hh) as [H1 _]. fold s in H1.
    set (l := fst (s_run sid l0 h)) in *.
    exists l. split; [apply R_iter; auto|]. split; [intros; apply R_get_pos; auto|].
    split; [intros; apply R_get_id; auto|]. pose proof (R_NoDup _ _ H1) as Hnd. split.
    - intros p o Hp. rewrite (R_index _ _ _ H1).
      rewrite (find_self l o Hnd (nth_error_In _ _ Hp)).
      rewrite (zfind_nth _ p); auto. rewrite nth_error_map, Hp. reflexivity.
    - intros k Hk. rewrite (R_index _ _ _ H1).
      destruct (find (has_id sid k) l) as [o|] eqn:E; auto.
      exfalso. apply Hk. pose proof (has_id_find _ _ _ E) as Es.
      rewrite <- Es. apply in_map. apply find_some in E. tauto.
  Qed.

  (** ** Assignment by position while nothing has been removed *)

  (** No holes: the live slots are exactly 0 .. n-1. *)
  Definition dense s : Prop := slots s = zseq 0 (length (elems s)).

  Lemma dense_ctor l : NoDup (map sid l) -> dense (ctor sid l).
  Proof.
    intros Hn. unfold dense. destruct (R_ctor l Hn) as [HW F].
    assert (Hg : forall k, dget k (dindex (ctor sid l)) =
      match zfind k (map sid l) with Some p => Some (Z.of_nat p) | None => None end).
    { intros k. cbn [dindex ctor]. rewrite ctor_index_get; auto. }
    apply sorted_lt_ext; [apply slots_sorted; auto|apply zseq_sorted|].
    intros i. cbn [elems ctor]. rewrite map_length, In_slots, zseq_In by auto. split.
    - intros [k Ek]. rewrite Hg in Ek. destruct (zfind k (map sid l)) as [p|] eqn:E; [|discriminate].
      injection Ek as <-. apply zfind_Some in E.
      assert (p < length (map sid l))%nat by (apply nth_error_Some; congruence).
      rewrite map_length in *. lia.
    - intros Hi. destruct (nth_error l (Z.to_nat i)) as [o|] eqn:Eo.
      + exists (sid o). rewrite Hg. rewrite (zfind_nth _ (Z.to_nat i)); auto.
        * f_equal. lia.
        * rewrite nth_error_map, Eo. reflexivity.
      + apply nth_error_None in Eo. lia.
  Qed.

  (** dense means every slot is live *)
  Lemma dense_get s l i o : R s l -> dense s -> 0 <= i -> s_nth l i = Some o ->
    nth_error (elems s) (Z.to_nat i) = Some (Some o) /\ dget (sid o) (dindex s) = Some i.
  Proof.
    intros [HW F] Hd Hi Hn. unfold s_nth in Hn. destruct (Z.leb_spec 0 i); [|lia].
    pose proof (Forall2_nth _ _ _ (Z.to_nat i) F) as HF. rewrite Hn in HF.
    destruct (nth_error (slots s) (Z.to_nat i)) as [j|] eqn:E; [|contradiction].
    rewrite Hd in E. assert (Z.to_nat i < length (zseq 0 (length (elems s))))%nat by (apply nth_error_Some; congruence).
    rewrite zseq_length in H0. rewrite zseq_nth in E by auto. injection E as <-.
    destruct HF as [_ [H1 H2]].
    assert (Ei : Z.of_nat (Z.to_nat i) = i) by lia. rewrite ?Z.add_0_l, Ei in H1, H2. auto.
  Qed.

  Lemma dense_iff s l : R s l -> (dense s <-> length l = length (elems s)).
  Proof.
    intros [HW F]. pose proof (Forall2_length _ _ _ F) as HL. split.
    - intros Hd. rewrite <- HL, Hd, zseq_length. reflexivity.
    - intros He. unfold dense.
      assert (Hincl : incl (slots s) (zseq 0 (length (elems s)))).
      { intros i Hi. apply In_slots in Hi as [k Hk]; auto. apply zseq_In.
        destruct (proj2 HW _ _ Hk) as [Hp [o [E _]]].
        assert (Z.to_nat i < length (elems s))%nat by (apply nth_error_Some; congruence). lia. }
      assert (Hnd : NoDup (slots s)) by (apply zsort_NoDup, dvals_NoDup; auto).
      apply sorted_lt_ext; [apply slots_sorted; auto|apply zseq_sorted|].
      intros i. split; [apply Hincl|].
      apply (NoDup_length_incl Hnd); auto. rewrite zseq_length. lia.
  Qed.

  Lemma replace_pos_spec s l i x :
    R s l -> dense s -> 0 <= i ->
    R (fst (replace sid s (ByPos i) x)) (fst (s_apply sid l (OReplace (ByPos i) x))) /\
    snd (replace sid s (ByPos i) x) = snd (s_apply sid l (OReplace (ByPos i) x)) /\
    length (elems (fst (replace sid s (ByPos i) x))) = length (elems s).
  Proof.
    intros HR Hd Hi. unfold replace. cbn [s_apply].
    destruct (s_nth l i) as [o|] eqn:Hn.
    - destruct (dense_get s l i o HR Hd Hi Hn) as [E1 E2].
      rewrite (py_get_nth _ _ _ Hi E1). cbn [bind okey option_map]. unfold dmem. rewrite E2.
      rewrite (py_set_nth _ _ _ _ Hi E1). cbn [fst snd].
      split; [apply R_fire; eapply R_put; eauto|]. split; auto. cbn. apply set_nth_length.
    - apply (dense_iff s l HR) in Hd. unfold s_nth in Hn. destruct (Z.leb_spec 0 i); [|lia].
      apply nth_error_None in Hn. unfold py_get. rewrite py_pos_out by lia. auto.
  Qed.

  Lemma s_put_length l k x : in_list sid k l = true -> NoDup (map sid l) ->
    (in_list sid (sid x) l = true -> k = sid x) -> length (s_put sid l k x) = length l.
  Proof.
    intros Hk Hn Hx. unfold s_put. rewrite map_length, filter_all; auto.
    intros o Ho. destruct (Z.eqb_spec (sid o) k) as [E|E]; unfold has_id.
    - rewrite E, Z.eqb_refl. reflexivity.
    - destruct (Z.eqb_spec (sid o) (sid x)) as [Ex|Ex].
      + exfalso. apply E. rewrite Ex. symmetry. apply Hx. unfold in_list. apply existsb_exists.
        exists o. split; auto. unfold has_id. apply Z.eqb_eq. auto.
      + destruct (sid o =? k); auto.
  Qed.

  Lemma add1_len s l o : R s l -> length (s_add sid l o) = (length l + (length (elems (add1 sid s o)) - length (elems s)))%nat
     /\ (length (elems s) <= length (elems (add1 sid s o)))%nat.
  Proof.
    intros HR. unfold s_add, add1. rewrite (R_in s l _ HR). destruct (dmem _ _); cbn; [lia|].
    rewrite !app_length. cbn. lia.
  Qed.

  Lemma add_iter_len xs : forall s l, R s l -> length l = length (elems s) ->
    length (fst (s_add_iter sid l xs)) = length (elems (fst (add_iter sid s xs))).
  Proof.
    induction xs as [|[o|] r IH]; intros s l HR HL; cbn [add_iter s_add_iter fst]; auto.
    apply IH; [apply R_add1; auto|]. destruct (add1_len s l o HR). lia.
  Qed.

  Lemma apply_dense s l o :
    R s l -> dense s -> no_hole_call sid l o ->
    R (fst (apply sid s o)) (fst (s_apply sid l o)) /\
    snd (apply sid s o) = snd (s_apply sid l o) /\ dense (fst (apply sid s o)).
  Proof.
    intros HR Hd Hc. pose proof (proj1 (dense_iff s l HR) Hd) as HL. pose proof (R_NoDup _ _ HR) as Hnd.
    destruct (not_by_pos o) eqn:Ho.
    - destruct (apply_spec s l o HR Ho) as [H1 [H2 _]]. split; auto. split; auto.
      apply (dense_iff _ _ H1).
      destruct o as [[o|xs|]|id|[i|k] x| |xs|cb evs]; cbn [no_hole_call] in Hc; try discriminate; try contradiction.
      + cbn [apply add fst s_apply]. destruct (add1_len s l o HR). lia.
      + cbn [apply add fst s_apply]. apply add_iter_len; auto.
      + cbn. exact HL.
      + cbn [apply s_apply]. unfold replace. rewrite (R_in s l k HR).
        destruct (dmem k (dindex s)) eqn:E; unfold dmem in E; destruct (dget k (dindex s)) as [i|] eqn:E2; try discriminate.
        * destruct (proj2 (proj1 HR) _ _ E2) as [Hp [o [E3 E4]]]. rewrite (py_set_nth _ _ _ _ Hp E3).
          cbn [fst fire_event elems]. rewrite set_nth_length, s_put_length; auto.
          rewrite (R_in s l k HR). unfold dmem. rewrite E2. reflexivity.
        * exact HL.
      + reflexivity.
      + cbn [apply s_apply fst]. unfold update.
        pose proof (add_iter_len (map Some xs) (clear s) [] (R_clear s) eq_refl) as H.
        rewrite s_add_iter_all in H. exact H.
      + exact HL.
    - destruct o as [[o|xs|]|id|[i|k] x| |xs|cb evs]; try discriminate. cbn [no_hole_call] in Hc.
      destruct Hc as [Hi Hx].
      destruct (replace_pos_spec s l i x HR Hd Hi) as [H1 [H2 H3]].
      cbn [apply]. split; auto. split; auto. apply (dense_iff _ _ H1). rewrite H3. cbn [s_apply].
      destruct (s_nth l i) as [y|] eqn:Ey; [|exact HL]. cbn [fst]. rewrite s_put_length; auto.
      + unfold in_list. apply existsb_exists. exists y. split; [apply (s_nth_In _ _ _ Ey)|].
        unfold has_id. apply Z.eqb_refl.
      + intros Hin. destruct (Hx Hin) as [y' [E1 E2]]. congruence.
  Qed.

  Lemma run_dense h : forall s l,
    R s l -> dense s -> no_hole_history sid l h ->
    R (fst (run sid s h)) (fst (s_run sid l h)) /\ snd (run sid s h) = snd (s_run sid l h).
  Proof.
    induction h as [|o r IH]; intros s l HR Hd Hh; cbn [run s_run no_hole_history] in *; auto.
    destruct Hh as [Hc Hh]. destruct (apply_dense s l o HR Hd Hc) as [H1 [H2 H3]].
    destruct (apply sid s o) as [s1 e]. destruct (s_apply sid l o) as [l1 e'].
    cbn [fst snd] in *. destruct (IH s1 l1 H1 H3 Hh) as [I1 I2].
    destruct (run sid s1 r) as [s2 es]. destruct (s_run sid l1 r) as [l2 es'].
    cbn [fst snd] in *. split; auto. congruence.
  Qed.

  Lemma history_setitem l0 h :
    NoDup (map sid l0) -> no_hole_history sid l0 h ->
    iter (fst (run sid (ctor sid l0) h)) = Ok (map Some (fst (s_run sid l0 h))) /\
    snd (run sid (ctor sid l0) h) = snd (s_run sid l0 h).
  Proof.
    intros Hn Hh. destruct (run_dense h _ _ (R_ctor l0 Hn) (dense_ctor l0 Hn) Hh) as [H1 H2].
    split; auto. apply R_iter, H1.
  Qed.

  Lemma history_log l0 h :
    NoDup (map sid l0) -> forallb not_by_pos h = true ->
    log (fst (run sid (ctor sid l0) h)) = s_log sid l0 [] h.
  Proof. intros Hn Hh. apply (history_R l0 h Hn Hh). Qed.

  (** ** values(), while no object has been put in twice *)

  Definition live s : Prop := forall i o, nth_error (elems s) i = Some (Some o) -> dget (sid o) (dindex s) = Some (Z.of_nat i).

  Definition full (el : list (option Obj)) (i : Z) : bool :=
    match nth_error el (Z.to_nat i) with Some (Some _) => true | _ => false end.

  Lemma values_full el : forall pre, Forall2 (fun i o => nth_error (pre ++ el) (Z.to_nat i) = Some (Some o))
    (filter (full (pre ++ el)) (zseq (Z.of_nat (length pre)) (length el)))
    (flat_map (fun o => match o with Some x => [x] | None => [] end) el).
  Proof.
    induction el as [|a el IH]; intros pre; cbn [length zseq filter flat_map]; [constructor|].
    assert (E : nth_error (pre ++ a :: el) (Z.to_nat (Z.of_nat (length pre))) = Some a).
    { rewrite Nat2Z.id, nth_error_app2 by lia. rewrite Nat.sub_diag. reflexivity. }
    specialize (IH (pre ++ [a])). rewrite <- app_assoc, app_length in IH. cbn [app length] in IH.
    replace (Z.of_nat (length pre + 1)) with (Z.of_nat (length pre) + 1) in IH by lia.
    unfold full at 1. rewrite E. destruct a as [o|]; [|exact IH].
    cbn [app]. constructor; auto.
  Qed.

  Lemma live_values s l : R s l -> live s -> values s = l.
  Proof.
    intros [HW F] HL. pose proof (values_full (elems s) []) as V. cbn [app length] in V.
    assert (HS : slots s = filter (full (elems s)) (zseq 0 (length (elems s)))).
    { apply sorted_lt_ext; [apply slots_sorted; auto|apply filter_sorted_lt, zseq_sorted|].
      intros i. rewrite In_slots, filter_In, zseq_In by auto. unfold full. split.
      - intros [k E]. destruct (proj2 HW _ _ E) as [H0 [o [Eo _]]]. rewrite Eo. split; auto.
        assert (Z.to_nat i < length (elems s))%nat by (apply nth_error_Some; congruence). lia.
      - intros [H0 H1]. destruct (nth_error (elems s) (Z.to_nat i)) as [[o|]|] eqn:E; try discriminate.
        exists (sid o). rewrite (HL _ _ E). f_equal. lia. }
    rewrite HS in F. unfold values. change (Z.of_nat 0) with 0 in V. revert V F.
    generalize (filter (full (elems s)) (zseq 0 (length (elems s)))).
    generalize (flat_map (fun o : option Obj => match o with Some x => [x] | None => [] end) (elems s)).
    clear HS HW. revert l. intros l v is V. revert l. induction V as [|i o is v E V IH]; intros l F; inversion F as [|? o' ? l' HP HF]; subst; auto.
    destruct HP as [_ [HP _]]. f_equal; [congruence|]. apply IH; auto.
  Qed.

  Lemma live_ctor l : NoDup (map sid l) -> live (ctor sid l).
  Proof.
    intros Hn i o E. cbn [elems dindex ctor] in *. rewrite nth_error_map in E.
    destruct (nth_error l i) as [o'|] eqn:E'; [|discriminate]. injection E as ->.
    rewrite ctor_index_get; auto. rewrite (zfind_nth _ i); auto. rewrite nth_error_map, E'. reflexivity.
  Qed.

  Lemma live_add1 s l o : R s l -> live s -> live (add1 sid s o).
  Proof.
    intros HR HL. unfold add1, dmem. destruct (dget (sid o) (dindex s)) as [j|] eqn:E; [exact HL|].
    intros i x Ex. cbn [fire_event elems dindex] in *. rewrite dget_dset.
    destruct (Nat.lt_ge_cases i (length (elems s))) as [Hi|Hi].
    - rewrite nth_error_app1 in Ex by auto. destruct (Z.eqb_spec (sid x) (sid o)) as [Es|]; [|apply HL; auto].
      apply HL in Ex. congruence.
    - rewrite nth_error_app2 in Ex by auto. destruct (i - length (elems s))%nat as [|n] eqn:En; [|destruct n; discriminate].
      injection Ex as <-. rewrite Z.eqb_refl. f_equal. lia.
  Qed.
  Lemma live_add_iter xs : forall s l, R s l -> live s -> live (fst (add_iter sid s xs)).
  Proof.
    induction xs as [|[o|] r IH]; intros s l HR HL; cbn [add_iter]; auto.
    apply (IH _ (s_add sid l o)); [apply R_add1; auto|eapply live_add1; eauto].
  Qed.

  Lemma live_del s k i c g : live s -> dget k (dindex s) = Some i -> 0 <= i ->
    live (mkOC (set_nth (Z.to_nat i) None (elems s)) (ddel k (dindex s)) c g).
  Proof.
    intros HL E H0 j o Ej. cbn [elems dindex] in *.
    destruct (Nat.eq_dec j (Z.to_nat i)) as [->|Hne].
    - assert (Z.to_nat i < length (set_nth (Z.to_nat i) None (elems s)))%nat as Hl by (apply nth_error_Some; congruence).
      rewrite set_nth_length in Hl. rewrite nth_error_set_nth_eq in Ej by auto. discriminate.
    - rewrite nth_error_set_nth_ne in Ej by auto. apply HL in Ej. rewrite dget_ddel.
      destruct (Z.eqb_spec (sid o) k) as [Es|]; auto. rewrite Es in Ej. assert (i = Z.of_nat j) by congruence. lia.
  Qed.
  Lemma live_put s k i x c g : live s -> dget k (dindex s) = Some i -> 0 <= i ->
    (dmem (sid x) (dindex s) = true -> k = sid x) ->
    live (mkOC (set_nth (Z.to_nat i) (Some x) (elems s)) (dset (sid x) i (ddel k (dindex s))) c g).
  Proof.
    intros HL E H0 Hx j o Ej. cbn [elems dindex] in *. rewrite dget_dset, dget_ddel.
    destruct (Nat.eq_dec j (Z.to_nat i)) as [->|Hne].
    - assert (Z.to_nat i < length (set_nth (Z.to_nat i) (Some x) (elems s)))%nat as Hl by (apply nth_error_Some; congruence).
      rewrite set_nth_length in Hl. rewrite nth_error_set_nth_eq in Ej by auto. injection Ej as <-. rewrite Z.eqb_refl. f_equal. lia.
    - rewrite nth_error_set_nth_ne in Ej by auto. apply HL in Ej.
      destruct (Z.eqb_spec (sid o) (sid x)) as [Es|].
      + unfold dmem in Hx. rewrite <- Es, Ej in Hx. specialize (Hx eq_refl).
        subst k. assert (i = Z.of_nat j) by congruence. lia.
      + destruct (Z.eqb_spec (sid o) k) as [Es|]; auto. rewrite Es in Ej. assert (i = Z.of_nat j) by congruence. lia.
  Qed.

  Lemma live_fire s ev o : live (fire_event s ev o) <-> live s.
  Proof. reflexivity. Qed.

  Lemma live_remove s l id : R s l -> live s -> live (fst (remove sid s id)).
  Proof.
    intros HR HL. unfold remove.
    match goal with |- live (fst (match ?kk with _ => _ end)) => destruct kk as [[k|]|e] end; auto.
    destruct (get s (ById k)) as [item|e]; auto. destruct (dget k (dindex s)) as [i|] eqn:E; auto.
    destruct (proj2 (proj1 HR) _ _ E) as [H0 [o [Eo _]]]. rewrite (py_set_nth _ _ _ _ H0 Eo).
    pose proof (live_del s k i (callbacks s) (log s) HL E H0) as HD. destruct item; exact HD.
  Qed.

  Lemma live_apply s l o : R s l -> live s -> fresh_call sid l o -> live (fst (apply sid s o)).
  Proof.
    intros HR HL HF. destruct o as [[o|xs|]|id|[i|k] x| |xs|cb evs]; cbn [apply add fst fresh_call] in *; auto; try contradiction.
    - eapply live_add1; eauto.
    - eapply live_add_iter; eauto.
    - eapply live_remove; eauto.
    - unfold replace. destruct (dget k (dindex s)) as [i|] eqn:E; auto.
      destruct (proj2 (proj1 HR) _ _ E) as [H0 [o [Eo _]]]. rewrite (py_set_nth _ _ _ _ H0 Eo). cbn [fst].
      apply live_fire. apply live_put; auto. intros Hm. apply HF. rewrite (R_in _ _ _ HR). exact Hm.
    - intros i o E. destruct i; discriminate.
    - unfold update. apply (live_add_iter _ _ []); [apply R_clear|]. intros i o E. destruct i; discriminate.
  Qed.

  Lemma fresh_not_by_pos l o : fresh_call sid l o -> not_by_pos o = true.
  Proof. destruct o as [| |[|]| | |]; cbn; auto. Qed.

  Lemma history_values l0 h :
    NoDup (map sid l0) -> fresh_history sid l0 h -> values (fst (run sid (ctor sid l0) h)) = fst (s_run sid l0 h).
  Proof.
    intros Hn Hf. assert (forall s l, R s l -> live s -> fresh_history sid l h -> values (fst (run sid s h)) = fst (s_run sid l h)) as K.
    { clear. induction h as [|o r IH]; intros s l HR HL HF; cbn [run s_run fresh_history] in *; [apply live_values; auto|].
      destruct HF as [Hc HF]. pose proof (live_apply s l o HR HL Hc) as H0.
      destruct (apply_spec s l o HR (fresh_not_by_pos l o Hc)) as [H1 _].
      destruct (apply sid s o) as [s1 e]. destruct (s_apply sid l o) as [l1 e']. cbn [fst] in *.
      specialize (IH s1 l1 H1 H0 HF). destruct (run sid s1 r). destruct (s_run sid l1 r). exact IH. }
    apply K; auto. apply R_ctor; auto. apply live_ctor; auto.
  Qed.
End Proofs.
