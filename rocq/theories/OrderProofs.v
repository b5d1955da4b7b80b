(** * Proofs about the order of weatherers *)
From Coq Require Import Sorted Permutation.
From Verif Require Import Py PyLemmas OrdCollModel OrdCollSpec OrdCollProofs OrderModel OrderSpec.

Lemma sort_rank c : weatherer_sort c = option_map (fun i => i - 1) (rank c).
Proof. destruct c; reflexivity. Qed.

Section P.
  Context {Obj : Type}.
  Variable sid : Obj -> Z.
  Variable cls : Obj -> wclass.
  Variable weq : Obj -> Obj -> bool.
  Notation le1 := (fun x y : Z * Obj => fst x <= fst y).

  Lemma insert_In k (o : Obj) l x : In x (insert k o l) <-> x = (k, o) \/ In x l.
  Proof.
    induction l as [|[k' o'] r IH]; cbn [insert In]; [intuition|]. destruct (k' <=? k); cbn [In]; rewrite ?IH; intuition.
  Qed.
  Lemma insert_sorted k (o : Obj) l : StronglySorted le1 l -> StronglySorted le1 (insert k o l).
  Proof.
    intros H. induction H as [|[k' o'] r H IH F]; cbn [insert]; [repeat constructor|].
    destruct (Z.leb_spec k' k).
    - constructor; auto. apply Forall_forall. intros x Hx. apply insert_In in Hx as [->|Hx]; [cbn; lia|]. rewrite Forall_forall in F. apply F, Hx.
    - constructor; [constructor; auto|]. constructor; [cbn; lia|]. eapply Forall_impl; [|exact F]. cbn. intros; lia.
  Qed.
  Lemma insert_filter (p : Z * Obj -> bool) k (o : Obj) l : StronglySorted le1 l -> (forall x, p x = true -> p (k, o) = true -> fst x = k) ->
    filter p (insert k o l) = filter p l ++ filter p [(k, o)].
  Proof.
    intros H Hp. induction H as [|[k' o'] r H IH F]; [reflexivity|]. cbn [insert]. destruct (Z.leb_spec k' k).
    - cbn [filter]. rewrite IH. destruct (p (k', o')); reflexivity.
    - change ((k, o) :: (k', o') :: r) with ([(k, o)] ++ (k', o') :: r). rewrite filter_app.
      destruct (p (k, o)) eqn:E; cbn [filter]; rewrite E; [|cbn; rewrite app_nil_r; reflexivity].
      assert (N : forall x, In x ((k', o') :: r) -> p x = false).
      { intros x Hx. destruct (p x) eqn:Ex; auto. apply Hp in Ex; auto. destruct Hx as [<-|Hx]; [cbn in Ex; lia|].
        rewrite Forall_forall in F. specialize (F x Hx). cbn in F. lia. }
      assert (Z : filter p ((k', o') :: r) = []) by (apply filter_none; exact N). cbn [filter] in Z. rewrite Z. reflexivity.
  Qed.
  Lemma sort_from_sorted l : forall acc : list (Z * Obj), StronglySorted le1 acc -> StronglySorted le1 (fold_left (fun acc x => insert (fst x) (snd x) acc) l acc).
  Proof. induction l as [|[k o] r IH]; intros acc H; cbn [fold_left]; auto. apply IH, insert_sorted, H. Qed.
  Lemma sort_from_filter (p : Z * Obj -> bool) l : forall acc, StronglySorted le1 acc ->
    (forall x y, p x = true -> p y = true -> fst x = fst y) ->
    filter p (fold_left (fun acc x => insert (fst x) (snd x) acc) l acc) = filter p acc ++ filter p l.
  Proof.
    induction l as [|[k o] r IH]; intros acc H Hp; cbn [fold_left]; [rewrite app_nil_r; reflexivity|].
    rewrite IH; [|apply insert_sorted; auto|auto]. cbn [fst snd]. rewrite insert_filter; auto.
    - rewrite <- app_assoc. f_equal. cbn [filter]. destruct (p (k, o)); reflexivity.
    - intros x Hx Hy. apply (Hp x (k, o) Hx Hy).
  Qed.
  Lemma sort_from_In l (x : Z * Obj) : forall acc, In x (fold_left (fun acc x => insert (fst x) (snd x) acc) l acc) <-> In x acc \/ In x l.
  Proof.
    induction l as [|[k o] r IH]; intros acc; cbn [fold_left In]; [intuition|]. rewrite IH, insert_In. cbn [fst snd]. intuition.
  Qed.
  Lemma sort_from_perm l : forall acc : list (Z * Obj), Permutation (fold_left (fun acc x => insert (fst x) (snd x) acc) l acc) (acc ++ l).
  Proof.
    assert (I : forall k (o : Obj) a, Permutation (insert k o a) ((k, o) :: a)).
    { intros k o a. induction a as [|[k' o'] r IH]; cbn [insert]; auto. destruct (k' <=? k); auto. rewrite IH. apply perm_swap. }
    induction l as [|[k o] r IH]; intros acc; cbn [fold_left]; [rewrite app_nil_r; auto|]. rewrite IH. cbn [fst snd]. rewrite I. apply Permutation_middle.
  Qed.

  (** ** The sorted list *)

  Definition kof (x : Obj) : Z := match weatherer_sort (cls x) with Some k => k | None => 0 end.
  Lemma keyed_listed l : (forall x, In x l -> listed (cls x)) -> mapM (keyed cls) (map Some l) = Ok (map (fun x => (kof x, x)) l).
  Proof.
    induction l as [|x r IH]; intros H; [reflexivity|]. cbn [map mapM]. unfold keyed at 1, key_of, kof at 1.
    assert (L : listed (cls x)) by (apply H; left; auto). unfold listed in L. rewrite sort_rank. destruct (rank (cls x)); [|congruence].
    cbn [option_map bind]. rewrite IH by (intros; apply H; right; auto). reflexivity.
  Qed.
  Lemma may_precede_le x y : listed (cls x) -> listed (cls y) -> may_precede (cls x) (cls y) <-> kof x <= kof y.
  Proof.
    unfold listed, may_precede, kof. rewrite !sort_rank. intros Hx Hy. destruct (rank (cls x)) as [i|], (rank (cls y)) as [j|]; try congruence. cbn.
    split; [intros H; specialize (H i j eq_refl eq_refl); lia|intros H a b Ha Hb; injection Ha as <-; injection Hb as <-; lia].
  Qed.
  Definition osort (l : list Obj) : list Obj := map snd (sort_keyed (map (fun x => (kof x, x)) l)).
  Lemma sorted_weatherers_listed l : (forall x, In x l -> listed (cls x)) -> sorted_weatherers cls (map Some l) = Ok (map Some (osort l)).
  Proof.
    intros H. destruct l as [|a [|b r]]; try reflexivity. unfold sorted_weatherers. cbn [map]. change (Some a :: Some b :: map Some r) with (map Some (a :: b :: r)).
    rewrite keyed_listed by auto. cbn [bind]. f_equal. unfold osort. rewrite map_map. reflexivity.
  Qed.
  Lemma osort_pairs l : sort_keyed (map (fun x => (kof x, x)) l) = map (fun x => (kof x, x)) (osort l).
  Proof.
    unfold osort. rewrite map_map. rewrite <- (map_id (sort_keyed _)) at 1. apply map_ext_in. intros [k x] Hx. unfold sort_keyed in Hx. apply sort_from_In in Hx as [[]|Hx].
    apply in_map_iff in Hx as [y [Hy _]]. injection Hy as <- <-. reflexivity.
  Qed.
  Lemma osort_perm l : Permutation (osort l) l.
  Proof.
    unfold osort, sort_keyed. rewrite sort_from_perm. cbn [app]. rewrite map_map. cbn [snd]. rewrite map_id. auto.
  Qed.
  Lemma osort_sorted l : StronglySorted (fun x y => kof x <= kof y) (osort l).
  Proof.
    assert (S : StronglySorted le1 (map (fun x => (kof x, x)) (osort l))).
    { rewrite <- osort_pairs. apply sort_from_sorted. constructor. }
    induction (osort l) as [|x r IH]; [constructor|]. cbn [map] in S. inversion S as [|? ? S1 S2]; subst. constructor; auto.
    apply Forall_forall. intros y Hy. rewrite Forall_forall in S2. apply (S2 (kof y, y)). apply in_map_iff. exists y. auto.
  Qed.
  Lemma osort_in_order l : (forall x, In x l -> listed (cls x)) -> in_order cls (osort l).
  Proof.
    intros H. assert (H' : forall x, In x (osort l) -> listed (cls x)) by (intros x Hx; apply H; eapply Permutation_in; [apply osort_perm|exact Hx]).
    pose proof (osort_sorted l) as S. unfold in_order. revert S H'. generalize (osort l). intros q S. induction S as [|x r S IH F]; intros H'; constructor.
    - apply IH. intros; apply H'; right; auto.
    - apply Forall_forall. intros y Hy. apply may_precede_le; [apply H'; left; auto|apply H'; right; auto|]. rewrite Forall_forall in F. auto.
  Qed.
  Lemma osort_same l : same_but_order cls l (osort l).
  Proof.
    intros c. unfold of_class. set (p := fun x : Obj => if wclass_eq_dec (cls x) c then true else false).
    assert (G : forall q : list Obj, filter (fun kx : Z * Obj => p (snd kx) && (fst kx =? kof (snd kx))) (map (fun x => (kof x, x)) q) = map (fun x => (kof x, x)) (filter p q)).
    { induction q as [|x r IH]; [reflexivity|]. cbn [map filter fst snd]. rewrite Z.eqb_refl, andb_true_r. destruct (p x); cbn [map]; rewrite IH; reflexivity. }
    assert (E : map (fun x => (kof x, x)) (filter p (osort l)) = map (fun x => (kof x, x)) (filter p l)).
    { rewrite <- !G. rewrite <- osort_pairs. unfold sort_keyed. rewrite sort_from_filter; [reflexivity|constructor|].
      intros [k x] [k' y]. cbn [fst snd]. rewrite !andb_true_iff, !Z.eqb_eq. unfold p, kof. intros [A B] [C D].
      destruct (wclass_eq_dec (cls x) c) as [U|]; [|discriminate]. destruct (wclass_eq_dec (cls y) c) as [V|]; [|discriminate]. rewrite B, D, U, V. reflexivity. }
    apply (f_equal (map snd)) in E. rewrite !map_map in E. cbn [snd] in E. rewrite !map_id in E. exact E.
  Qed.
  Lemma osort_id l : StronglySorted (fun x y => kof x <= kof y) l -> osort l = l.
  Proof.
    intros H. unfold osort, sort_keyed.
    assert (G : forall q acc, StronglySorted (fun x y => kof x <= kof y) (acc ++ q) ->
      fold_left (fun a x => insert (fst x) (snd x) a) (map (fun x => (kof x, x)) q) (map (fun x => (kof x, x)) acc) = map (fun x => (kof x, x)) (acc ++ q)).
    { induction q as [|x r IH]; intros acc S; [rewrite app_nil_r; reflexivity|]. cbn [map fold_left fst snd].
      assert (I : insert (kof x) x (map (fun x => (kof x, x)) acc) = map (fun x => (kof x, x)) (acc ++ [x])).
      { clear IH. revert S. induction acc as [|y a IHa]; intros S; [reflexivity|]. cbn [map insert app]. cbn [app] in S. inversion S as [|? ? S1 S2]; subst.
        rewrite Forall_forall in S2. specialize (S2 x ltac:(apply in_or_app; right; left; auto)). destruct (Z.leb_spec (kof y) (kof x)); [|lia]. rewrite IHa by auto. reflexivity. }
      rewrite I, IH by (rewrite <- app_assoc; exact S). rewrite <- app_assoc. reflexivity. }
    specialize (G l [] H). cbn [map app] in G. rewrite G, map_map. cbn [snd]. apply map_id.
  Qed.

  (** ** values() and iteration: of the same length, the same *)

  Inductive sub : list Obj -> list Obj -> Prop :=
  | sub_nil : forall l, sub [] l
  | sub_skip : forall a l y, sub a l -> sub a (y :: l)
  | sub_keep : forall a l y, sub a l -> sub (y :: a) (y :: l).
  Lemma sub_length a l : sub a l -> (length a <= length l)%nat.
  Proof. induction 1; cbn; lia. Qed.
  Lemma sub_same a l : sub a l -> length a = length l -> a = l.
  Proof.
    induction 1 as [l|a l y H IH|a l y H IH]; intros E; [destruct l; auto; discriminate| |f_equal; apply IH; cbn in E; lia].
    apply sub_length in H. cbn in E. lia.
  Qed.
  Definition unopt : list (option Obj) -> list Obj := flat_map (fun o => match o with Some x => [x] | None => [] end).
  Lemma sub_values el : forall off is l, StronglySorted Z.lt is -> (forall i, In i is -> off <= i) ->
    Forall2 (fun i o => nth_error el (Z.to_nat (i - off)) = Some (Some o)) is l -> sub l (unopt el).
  Proof.
    induction el as [|a el IH]; intros off is l S Ho F.
    - inversion F as [|i o is' l' Hx Hy]; subst; [constructor|]. destruct (Z.to_nat (i - off)); discriminate.
    - inversion F as [|i o is' l' Hx Hy]; subst; [constructor|]. inversion S as [|? ? S1 S2]; subst. rewrite Forall_forall in S2.
      assert (T : forall is2 l2, (forall j, In j is2 -> off < j) -> Forall2 (fun i o => nth_error (a :: el) (Z.to_nat (i - off)) = Some (Some o)) is2 l2 ->
                  Forall2 (fun i o => nth_error el (Z.to_nat (i - (off + 1))) = Some (Some o)) is2 l2).
      { intros is2 l2 Hj F2. induction F2 as [|j q is2 l2 E F2 IH2]; constructor; [|apply IH2; intros; apply Hj; right; auto].
        assert (off < j) by (apply Hj; left; auto). replace (Z.to_nat (j - off)) with (Datatypes.S (Z.to_nat (j - (off + 1)))) in E by lia. exact E. }
      assert (off <= i) by (apply Ho; left; auto). destruct (Z.eq_dec i off) as [->|N].
      + rewrite Z.sub_diag in Hx. cbn in Hx. injection Hx as ->. cbn [unopt flat_map app]. apply sub_keep. apply (IH (off + 1) is'); auto.
        intros j Hj. specialize (S2 j Hj). lia.
      + assert (G : sub (o :: l') (unopt el)).
        { apply (IH (off + 1) (i :: is')); auto.
          - intros j [<-|Hj]; [lia|]. specialize (S2 j Hj). lia.
          - apply T; auto. intros j [<-|Hj]; [lia|]. specialize (S2 j Hj). lia. }
        unfold unopt. cbn [flat_map]. destruct a; [apply sub_skip|]; exact G.
  Qed.
  Lemma R_sub_values s l : R sid s l -> sub l (values s).
  Proof.
    intros [HW F]. apply (sub_values (elems s) 0 (slots s)).
    - apply (slots_sorted sid); auto.
    - intros i Hi. apply (In_slots sid) in Hi; auto. destruct Hi as [k Hk]. apply HW in Hk. lia.
    - clear HW. induction F as [|i o is l' HP F IH]; constructor; auto. destruct HP as [H0 [H1 _]]. rewrite Z.sub_0_r. exact H1.
  Qed.
  Lemma list_eq_keys a b : (forall x y, weq x y = true -> cls x = cls y) -> list_eq weq a (map Some b) = true -> map kof a = map kof b.
  Proof.
    intros He. revert b. induction a as [|x r IH]; intros [|y b] H; try discriminate; [reflexivity|]. cbn [map list_eq] in H. apply andb_true_iff in H as [H1 H2].
    cbn [map]. f_equal; [unfold kof; rewrite (He _ _ H1); reflexivity|auto].
  Qed.
  Lemma sorted_keys a b : map kof a = map kof b -> StronglySorted (fun x y => kof x <= kof y) a -> StronglySorted (fun x y => kof x <= kof y) b.
  Proof.
    revert b. induction a as [|x r IH]; intros [|y b] E S; try discriminate; [constructor|]. cbn [map] in E. injection E as E1 E2. inversion S as [|? ? S1 S2]; subst. constructor; [auto|].
    apply Forall_forall. intros z Hz. apply (in_map kof) in Hz. rewrite <- E2 in Hz. apply in_map_iff in Hz as [w [E3 Hw]]. rewrite Forall_forall in S2. specialize (S2 w Hw). lia.
  Qed.

  Lemma fold_add_nodup q : forall acc, NoDup (map sid (acc ++ q)) -> fold_left (s_add sid) q acc = acc ++ q.
  Proof.
    induction q as [|x r IH]; intros acc H; [rewrite app_nil_r; reflexivity|]. cbn [fold_left]. unfold s_add at 2.
    destruct (in_list sid (sid x) acc) eqn:E.
    - exfalso. unfold in_list in E. apply existsb_exists in E as [y [Hy E]]. unfold has_id in E. apply Z.eqb_eq in E. rewrite map_app in H. cbn [map] in H.
      apply NoDup_remove_2 in H. apply H. apply in_or_app. left. apply in_map_iff. exists y. auto.
    - rewrite IH by (rewrite <- app_assoc; exact H). rewrite <- app_assoc. reflexivity.
  Qed.
  Lemma order_ok s l : (forall x y, weq x y = true -> cls x = cls y) -> R sid s l -> (forall x, In x l -> listed (cls x)) ->
    exists s', order_weatherers sid cls weq s = (s', None) /\ R sid s' (osort l) /\ values s' = osort l.
  Proof.
    intros He HR Hl. unfold order_weatherers. rewrite (R_iter sid s l HR), sorted_weatherers_listed by auto.
    destruct (list_eq weq (values s) (map Some (osort l))) eqn:E.
    - assert (V : values s = l).
      { symmetry. apply sub_same; [apply R_sub_values; auto|]. apply (list_eq_keys _ _ He) in E. apply (f_equal (@length Z)) in E.
        rewrite !map_length in E. rewrite E. symmetry. apply Permutation_length, osort_perm. }
      assert (O : osort l = l).
      { apply osort_id. rewrite V in E. apply (sorted_keys (osort l)); [symmetry; apply list_eq_keys; auto|apply osort_sorted]. }
      exists s. rewrite O. auto.
    - pose proof (R_add_iter sid (map Some (osort l)) (clear s) [] (R_clear sid s)) as [H1 H2].
      rewrite s_add_iter_all in H1, H2. cbn [fst snd] in H1, H2.
      assert (N : NoDup (map sid (osort l))).
      { eapply Permutation_NoDup; [|apply (R_NoDup sid s l HR)]. symmetry. apply Permutation_map, osort_perm. }
      rewrite fold_add_nodup in H1 by exact N. cbn [app] in H1.
      destruct (add_iter sid (clear s) (map Some (osort l))) as [s' e] eqn:E2. cbn [fst snd] in *. subst e. exists s'. split; [reflexivity|]. split; [exact H1|].
      apply (live_values sid); auto. replace s' with (fst (add_iter sid (clear s) (map Some (osort l)))) by (rewrite E2; reflexivity).
      apply (live_add_iter sid _ _ [] (R_clear sid s)). intros i o Hi. cbn in Hi. destruct i; discriminate.
  Qed.
  Lemma sorted_unlisted l x y : In x l -> rank (cls x) = None -> In y l -> sid x <> sid y -> sorted_weatherers cls (map Some l) = Raise TypeErr.
  Proof.
    intros Hx Hr Hy Hn. destruct l as [|a [|b r]]; [contradiction| |].
    - destruct Hx as [<-|[]]. destruct Hy as [<-|[]]. congruence.
    - unfold sorted_weatherers. cbn [map]. change (Some a :: Some b :: map Some r) with (map Some (a :: b :: r)). revert Hx. generalize (a :: b :: r). clear - Hr.
      intros q Hx.
      assert (G : mapM (keyed cls) (map Some q) = Raise TypeErr).
      { induction q as [|z q IH]; [contradiction|]. cbn [map mapM]. unfold keyed at 1, key_of. rewrite sort_rank. destruct Hx as [->|Hx].
        - rewrite Hr. reflexivity.
        - destruct (rank (cls z)); cbn [option_map bind]; [|reflexivity]. rewrite IH by auto. reflexivity. }
      rewrite G. reflexivity.
  Qed.
End P.
