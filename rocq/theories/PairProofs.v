(** * Proofs about pairs of containers *)
From Verif Require Import Py PyLemmas OrdCollModel OrdCollSpec OrdCollProofs PairModel PairSpec.
Open Scope Z_scope.

Notation R := (R s_id).
Ltac sp := repeat match goal with |- _ /\ _ => split end.

(** ** One substance *)

Definition one_sub (l : list spill) : Prop := check_list None (map Some l) = None.

Lemma check_some x l : check_list (Some x) (map Some l) = None <-> (forall s, In s l -> s_on s = true -> s_sub s = x).
Proof.
  induction l as [|s r IH]; cbn [map check_list].
  - split; auto. intros _ s [].
  - destruct (s_on s) eqn:Eo; cbn [negb].
    + destruct (Z.eqb_spec (s_sub s) x) as [E|E].
      * rewrite IH. split; intros H t Ht; [|apply H; cbn; auto]. destruct Ht as [<-|Ht]; auto.
      * split; [discriminate|]. intros H. exfalso. apply E, H; cbn; auto.
    + rewrite IH. split; intros H t Ht; [|apply H; cbn; auto]. destruct Ht as [<-|Ht]; auto. congruence.
Qed.
Lemma one_sub_iff l : one_sub l <->
  (forall a b, In a l -> In b l -> s_on a = true -> s_on b = true -> s_sub a = s_sub b).
Proof.
  unfold one_sub. induction l as [|s r IH]; cbn [map check_list].
  - split; auto. intros _ a b [].
  - destruct (s_on s) eqn:Eo; cbn [negb].
    + rewrite check_some. split.
      * intros H a b Ha Hb Oa Ob.
        assert (G : forall t, In t (s :: r) -> s_on t = true -> s_sub t = s_sub s).
        { intros t [<-|Ht]; auto. }
        rewrite (G a), (G b); auto.
      * intros H t Ht Ot. apply H; cbn; auto.
    + rewrite IH. split; intros H a b Ha Hb.
      * destruct Ha as [<-|Ha]; [congruence|]. destruct Hb as [<-|Hb]; [congruence|]. auto.
      * apply H; cbn; auto.
Qed.
Lemma one_sub_incl l l' : (forall s, In s l' -> In s l) -> one_sub l -> one_sub l'.
Proof. intros Hi H. rewrite one_sub_iff in *. auto. Qed.

Lemma R_check c l : R c l -> check c = check_list None (map Some l).
Proof. intros H. unfold check. rewrite (R_iter _ _ _ H). reflexivity. Qed.

Lemma check_no_holes c : check c = None -> exists l, iter c = Ok (map Some l).
Proof.
  unfold check. destruct (iter c) as [l|e]; [|discriminate]. intros H.
  enough (exists k, l = map Some k) as [k ->] by eauto.
  revert H. generalize (@None Z). induction l as [|[s|] r IH]; intros o H.
  - exists []. reflexivity.
  - cbn [check_list] in H. assert (exists o', check_list o' r = None) as [o' H'].
    { destruct (negb (s_on s)); [eauto|]. destruct o as [x|]; [|eauto].
      destruct (s_sub s =? x); [eauto|discriminate]. }
    destruct (IH _ H') as [k ->]. exists (s :: k). reflexivity.
  - discriminate.
Qed.

(** ** Single operations *)

Lemma c_add_new c l s : R c l -> ~ In (s_id s) (map s_id l) ->
  R (fst (c_add c s)) (l ++ [s]) /\ snd (c_add c s) = check_list None (map Some (l ++ [s])).
Proof.
  intros HR Hn. unfold c_add.
  assert (E : in_list s_id (s_id s) l = false).
  { unfold in_list. apply not_true_is_false. intros H. apply existsb_exists in H as [x [Hx E]].
    unfold has_id in E. apply Z.eqb_eq in E. apply Hn. rewrite <- E. apply in_map, Hx. }
  rewrite <- (R_in s_id c l _ HR), E. cbn [fst snd].
  pose proof (R_add1 s_id c l s HR) as H. unfold s_add in H. rewrite E in H.
  split; auto. apply R_check, H.
Qed.

Fixpoint drop_at {A} (n : nat) (l : list A) : list A :=
  match n, l with
  | _, [] => []
  | O, _ :: r => r
  | S n, x :: r => x :: drop_at n r
  end.
Lemma drop_at_In {A} n (l : list A) x : In x (drop_at n l) -> In x l.
Proof.
  revert n. induction l as [|a r IH]; intros [|n]; cbn; auto. intros [->|H]; eauto.
Qed.
Lemma drop_at_Forall2 {A B} (Q : A -> B -> Prop) n l l' :
  Forall2 Q l l' -> Forall2 Q (drop_at n l) (drop_at n l').
Proof.
  intros H. revert n. induction H; intros [|n]; cbn; auto.
Qed.
Lemma s_del_absent l k : ~ In k (map s_id l) -> s_del s_id l k = l.
Proof.
  induction l as [|a r IH]; cbn; auto. intros H. unfold has_id.
  destruct (Z.eqb_spec (s_id a) k); [exfalso; auto|]. cbn. f_equal. apply IH. auto.
Qed.
Lemma s_del_at l : forall n o, NoDup (map s_id l) -> nth_error l n = Some o ->
  s_del s_id l (s_id o) = drop_at n l.
Proof.
  induction l as [|a r IH]; intros [|n] o Hn E; cbn in E; try discriminate; cbn in Hn; inversion Hn; subst.
  - injection E as ->. cbn. unfold has_id at 1. rewrite Z.eqb_refl. cbn. apply s_del_absent; auto.
  - cbn. unfold has_id at 1. destruct (Z.eqb_spec (s_id a) (s_id o)) as [Eq|Eq].
    + exfalso. apply H1. rewrite Eq. apply in_map. eapply nth_error_In; eauto.
    + cbn. f_equal. apply IH; auto.
Qed.

Lemma get_find c l i s : R c l -> get c i = Ok (Some s) ->
  In s l /\ s_apply s_id l (ORemove i) = (s_del s_id l (s_id s), None).
Proof.
  intros HR H. destruct i as [i|k].
  - rewrite (R_get_pos s_id c l i HR) in H. cbn [s_apply]. destruct (s_nth l i) as [o|] eqn:E; [|discriminate].
    injection H as ->. split; auto. eapply s_nth_In; eauto.
  - rewrite (R_get_id s_id c l k HR) in H. cbn [s_apply]. rewrite find_in_list.
    destruct (find (has_id s_id k) l) as [o|] eqn:E; [|discriminate]. injection H as ->.
    rewrite (has_id_find _ _ _ _ E). split; auto. apply find_some in E. tauto.
Qed.
Lemma get_none c l i : R c l -> get c i <> Ok None.
Proof.
  intros HR. destruct i as [i|k].
  - rewrite (R_get_pos s_id c l i HR). destruct (s_nth l i); congruence.
  - rewrite (R_get_id s_id c l k HR). destruct (find _ _); congruence.
Qed.
Lemma get_raise c l i e : R c l -> get c i = Raise e -> s_apply s_id l (ORemove i) = (l, Some e).
Proof.
  intros HR. destruct i as [i|k].
  - rewrite (R_get_pos s_id c l i HR). cbn. destruct (s_nth l i); congruence.
  - rewrite (R_get_id s_id c l k HR). cbn. rewrite find_in_list. destruct (find _ _); congruence.
Qed.

Lemma index_nth c l s : R c l -> In s l ->
  exists p, index c (s_id s) = Ok (Z.of_nat p) /\ nth_error l p = Some s.
Proof.
  intros HR Hin. pose proof (R_NoDup _ _ _ HR) as Hn.
  rewrite (R_index s_id c l _ HR), (find_self _ _ _ Hn Hin).
  destruct (zfind (s_id s) (map s_id l)) as [p|] eqn:E.
  - exists p. split; auto. apply zfind_Some in E.
    rewrite nth_error_map in E. destruct (nth_error l p) as [o|] eqn:Eo; [|discriminate].
    cbn in E. injection E as E. f_equal.
    assert (In o l) by (eapply nth_error_In; eauto).
    pose proof (find_self _ _ _ Hn H). pose proof (find_self _ _ _ Hn Hin). congruence.
  - exfalso. assert (In (s_id s) (map s_id l)) by (apply in_map; auto).
    destruct (zfind_In _ _ H) as [q Hq]. congruence.
Qed.

Lemma c_del_pos c l p : R c l -> (p < length l)%nat ->
  R (fst (c_del c (ByPos (Z.of_nat p)))) (drop_at p l) /\
  snd (c_del c (ByPos (Z.of_nat p))) = check_list None (map Some (drop_at p l)).
Proof.
  intros HR Hp. destruct (nth_error l p) as [o|] eqn:E; [|apply nth_error_None in E; lia].
  pose proof (remove_spec s_id c l (ByPos (Z.of_nat p)) HR) as [H1 [H2 _]].
  cbn [s_apply] in H1, H2. unfold s_nth in H1, H2.
  destruct (Z.leb_spec 0 (Z.of_nat p)); [|lia]. rewrite Nat2Z.id, E in H1, H2. cbn in H1, H2.
  rewrite (s_del_at l p o (R_NoDup _ _ _ HR) E) in H1.
  unfold c_del. destruct (remove s_id c (ByPos (Z.of_nat p))) as [c' e]. cbn in *. subst e.
  cbn. split; auto. apply R_check; auto.
Qed.
Lemma c_del_found c l i s p : R c l -> get c i = Ok (Some s) -> nth_error l p = Some s ->
  R (fst (c_del c i)) (drop_at p l).
Proof.
  intros HR Hg E. destruct (get_find c l i s HR Hg) as [_ Ha].
  pose proof (remove_spec s_id c l i HR) as [H1 [H2 _]]. rewrite Ha in H1, H2. cbn in H1, H2.
  rewrite (s_del_at l p s (R_NoDup _ _ _ HR) E) in H1.
  unfold c_del. destruct (remove s_id c i) as [c' e]. cbn in *. subst e. exact H1.
Qed.
Lemma c_del_R c l i : R c l -> exists l', R (fst (c_del c i)) l'.
Proof.
  intros HR. pose proof (remove_spec s_id c l i HR) as [H1 _]. unfold c_del.
  destruct (remove s_id c i) as [c' [e|]]; cbn in *; eauto.
Qed.

(** ** Copies *)

Lemma copy_alike n s : alike s (copy_of n s).
Proof. repeat split. Qed.

Definition above (n : Z) (l : list spill) : Prop := Forall (fun s => n < s_id s) l.

Lemma above_notin n l : above n l -> ~ In n (map s_id l).
Proof.
  intros H Hin. apply in_map_iff in Hin as [s [E Hs]].
  unfold above in H. rewrite Forall_forall in H. specialize (H s Hs). lia.
Qed.
Lemma above_less n m l : above n l -> m <= n -> above m l.
Proof. intros H Hm. unfold above in *. eapply Forall_impl; [|exact H]. cbn. intros; lia. Qed.

Lemma copy_all_ok l : forall next c lc n c',
  R c lc -> above next lc -> one_sub lc ->
  copy_all next (map Some l) c = (n, c', None) ->
  exists cp, R c' (lc ++ cp) /\ Forall2 alike l cp /\ n <= next /\ above n (lc ++ cp) /\ one_sub (lc ++ cp).
Proof.
  induction l as [|s r IH]; intros next c lc n c' HR Ha Ho; cbn [map copy_all].
  - intros H. injection H as <- <-. exists []. rewrite app_nil_r. sp; auto; lia.
  - destruct (c_add_new c lc (copy_of next s) HR (above_notin _ _ Ha)) as [HR' HE].
    destruct (c_add c (copy_of next s)) as [c1 [e|]]; [discriminate|]. cbn in HR', HE. intros H.
    destruct (IH (next - 1) c1 (lc ++ [copy_of next s]) n c' HR') as [cp [P1 [P2 [P3 [P4 P5]]]]]; auto.
    + apply Forall_app. split; [apply (above_less next); [auto|lia]|].
      constructor; [cbn; lia|constructor].
    + symmetry. exact HE.
    + exists (copy_of next s :: cp). rewrite <- app_assoc in *. cbn in *.
      sp; auto; try lia. constructor; auto. apply copy_alike.
Qed.

Lemma uncertain_copy_ok next fc n c :
  uncertain_copy next fc = (n, c, None) ->
  forall lf, iter fc = Ok (map Some lf) ->
  exists lu, R c lu /\ Forall2 alike lf lu /\ n <= next /\ above n lu /\ one_sub lu.
Proof.
  intros H lf E. unfold uncertain_copy in H. rewrite E in H.
  destruct (copy_all_ok lf next empty_oc [] n c) as [cp HH]; auto.
  - apply R_ctor. constructor.
  - constructor.
  - reflexivity.
  - exists cp. exact HH.
Qed.

(** ** The invariant *)

Section Inv.
  Variable edits : bool.
  Definition rel (a b : spill) : Prop := edits = true \/ alike a b.

  Definition Inv (p : pair) (lf lu : list spill) : Prop :=
    R (p_fc p) lf /\ p_next p < 0 /\
    (p_flag p = true -> exists u, p_unc p = Some u /\ R u lu /\ Forall2 rel lf lu /\
       one_sub lu /\ above (p_next p) lu).

  Lemma alike_rel l l' : Forall2 alike l l' -> Forall2 rel l l'.
  Proof. intros H. eapply Forall2_impl; [|exact H]. unfold rel. auto. Qed.

  Lemma Inv_new u : Inv (new_pair u) [] [].
  Proof.
    unfold Inv, new_pair. cbn. sp; try lia.
    - apply R_ctor. constructor.
    - intros ->. exists empty_oc. sp; auto.
      + apply R_ctor. constructor.
      + reflexivity.
      + constructor.
  Qed.

  Lemma NoDup_app_mid {A} (a b : list A) x : NoDup (a ++ x :: b) -> NoDup ((a ++ [x]) ++ b) /\ ~ In x a.
  Proof.
    intros H. split; [rewrite <- app_assoc; exact H|].
    apply NoDup_remove_2 in H. intros Hx. apply H, in_or_app. auto.
  Qed.

  Lemma p_add_Inv items : forall p lf lu p',
    Inv p lf lu ->
    NoDup (map s_id lf ++ ids (map first_of items)) ->
    (p_flag p = true -> NoDup (map s_id lu ++ ids (map second_of items))) ->
    Forall (fun k => 0 <= k) (ids (map second_of items)) ->
    Forall (fun it => match first_of it, second_of it with Some a, Some b => alike a b | _, _ => True end) items ->
    p_add p items = (p', None) -> exists lf' lu', Inv p' lf' lu'.
  Proof.
    induction items as [|it r IH]; intros p lf lu p' HI N1 N2 Hp Ha; cbn [p_add].
    - intros H. injection H as <-. eauto.
    - destruct (add_item p it) as [p1 [e|]] eqn:E; [discriminate|]. intros H.
      destruct HI as [HR [Hneg HU]]. inversion Ha as [|? ? Ha1 Ha2]; subst. clear Ha.
      destruct it as [s|l].
      + cbn [map first_of second_of] in *. unfold ids in *. cbn [live flat_map app map] in *. fold (live (map first_of r)) in *. fold (live (map second_of r)) in *.
        apply NoDup_app_mid in N1 as [N1 N0].
        cbn [add_item] in E. destruct (c_add_new (p_fc p) lf s HR N0) as [HR1 HE1].
        destruct (c_add (p_fc p) s) as [c [e|]]; [discriminate|]. cbn [fst snd] in HR1, HE1.
        cbn [put_fc p_flag] in E. destruct (p_flag p) eqn:Ef.
        * destruct (HU eq_refl) as [u [Eu [HRu [HF [Ho Hab]]]]].
          unfold add_unc in E. cbn [put_next put_fc p_unc p_next] in E. rewrite Eu in E.
          destruct (c_add_new u lu (copy_of (p_next p) s) HRu (above_notin _ _ Hab)) as [HR2 HE2].
          destruct (c_add u (copy_of (p_next p) s)) as [u' [e|]]; [discriminate|]. cbn [fst snd] in HR2, HE2.
          injection E as <-. refine (IH _ (lf ++ [s]) (lu ++ [copy_of (p_next p) s]) p' _ _ _ _ _ H); auto.
          -- unfold Inv; sp; cbn; auto; try lia. intros _. exists u'. sp; auto.
             ++ apply Forall2_app; auto. constructor; auto. right. apply copy_alike.
             ++ symmetry. exact HE2.
             ++ apply Forall_app. split; [apply (above_less (p_next p)); [auto|lia]|].
                constructor; [cbn; lia|constructor].
          -- rewrite map_app. cbn. exact N1.
          -- intros _. rewrite map_app. cbn. rewrite <- app_assoc. cbn.
             apply (Permutation.Permutation_NoDup (Permutation.Permutation_middle _ _ _)). constructor; [|apply N2; auto].
             intros Hin. apply in_app_or in Hin as [Hin|Hin].
             ++ revert Hin. apply above_notin, Hab.
             ++ rewrite Forall_forall in Hp. specialize (Hp _ Hin). lia.
        * injection E as <-. refine (IH _ (lf ++ [s]) lu p' _ _ _ _ _ H); auto.
          -- unfold Inv; sp; cbn; auto; try lia. intros; congruence.
          -- rewrite map_app. cbn. exact N1.
          -- cbn. congruence.
      + cbn [add_item] in E. destruct (p_flag p) eqn:Ef; cbn [andb negb] in E.
        * destruct l as [|s [|t [|? ?]]]; cbn [length Nat.eqb negb] in E; try discriminate.
          cbn [map first_of second_of nth_error] in *. unfold ids in *. cbn [live flat_map app map] in *. fold (live (map first_of r)) in *. fold (live (map second_of r)) in *.
          apply NoDup_app_mid in N1 as [N1 N0].
          destruct (NoDup_app_mid _ _ _ (N2 eq_refl)) as [N3 N4].
          destruct (c_add_new (p_fc p) lf s HR N0) as [HR1 HE1].
          destruct (c_add (p_fc p) s) as [c [e|]]; [discriminate|]. cbn [fst snd] in HR1, HE1.
          destruct (HU eq_refl) as [u [Eu [HRu [HF [Ho Hab]]]]].
          unfold add_unc in E. cbn [put_fc p_unc] in E. rewrite Eu in E.
          destruct (c_add_new u lu t HRu N4) as [HR2 HE2].
          destruct (c_add u t) as [u' [e|]]; [discriminate|]. cbn [fst snd] in HR2, HE2.
          inversion Hp as [|? ? Hp1 Hp2]; subst.
          injection E as <-. refine (IH _ (lf ++ [s]) (lu ++ [t]) p' _ _ _ _ _ H); auto.
          -- unfold Inv; sp; cbn; auto; try lia. intros _. exists u'. sp; auto.
             ++ apply Forall2_app; auto. constructor; auto. right. auto.
             ++ symmetry. exact HE2.
             ++ apply Forall_app. split; auto. constructor; [lia|constructor].
          -- rewrite map_app. cbn. exact N1.
          -- intros _. rewrite map_app. cbn. exact N3.
        * destruct l as [|s [|? ?]]; cbn [length Nat.eqb negb] in E; try discriminate.
          cbn [map first_of second_of nth_error] in *. unfold ids in *. cbn [live flat_map app map] in *. fold (live (map first_of r)) in *. fold (live (map second_of r)) in *.
          apply NoDup_app_mid in N1 as [N1 N0].
          destruct (c_add_new (p_fc p) lf s HR N0) as [HR1 HE1].
          destruct (c_add (p_fc p) s) as [c [e|]]; [discriminate|]. cbn [fst snd] in HR1, HE1.
          injection E as <-. refine (IH _ (lf ++ [s]) lu p' _ _ _ _ _ H); auto.
          -- unfold Inv; sp; cbn; auto; try lia. intros; congruence.
          -- rewrite map_app. cbn. exact N1.
          -- cbn. congruence.
  Qed.

  Lemma has_iff c l k : R c l -> has c k <-> In k (map s_id l).
  Proof.
    intros HR. unfold has, spills. rewrite (R_iter _ _ _ HR). split.
    - intros [l' [s [E [Hs <-]]]]. injection E as E. apply in_map.
      assert (l = l') as ->; auto. revert E. clear. revert l'.
      induction l as [|a r IH]; intros [|b t] E; cbn in E; try discriminate; auto.
      injection E as -> E. f_equal. auto.
    - intros Hk. apply in_map_iff in Hk as [s [E Hs]]. eauto.
  Qed.

  Lemma NoDup_app_intro {A} (a b : list A) :
    NoDup a -> NoDup b -> (forall x, In x b -> ~ In x a) -> NoDup (a ++ b).
  Proof.
    intros Ha Hb H. induction a as [|x r IH]; cbn; auto. inversion Ha; subst.
    constructor.
    - intros Hx. apply in_app_or in Hx as [Hx|Hx]; auto. apply (H x Hx). cbn. auto.
    - apply IH; auto. intros y Hy Hr. apply (H y Hy). cbn. auto.
  Qed.

  Lemma ids_one l : ids (map first_of (map ItOne l)) = map s_id l /\ ids (map second_of (map ItOne l)) = [].
  Proof.
    induction l as [|s r [IH1 IH2]]; cbn; auto. split; [f_equal; exact IH1|exact IH2].
  Qed.

  Lemma p_clear_Inv p lf lu : Inv p lf lu -> Inv (fst (p_clear p)) [] [].
  Proof.
    intros [HR [Hneg HU]]. unfold p_clear. cbn [put_fc p_flag p_unc].
    destruct (p_flag p) eqn:Ef.
    - destruct (HU eq_refl) as [u [Eu _]]. rewrite Eu. cbn.
      unfold Inv; sp; cbn; auto; try apply R_clear. intros _. exists (clear u). sp; try constructor; try apply R_clear.
    - unfold Inv; sp; cbn; auto; try apply R_clear. intros; congruence.
  Qed.

  Lemma edit_R c l k f : R c l ->
    R (edit_oc c k f) (map (fun s => if s_id s =? k then copy_of (s_id s) (f s) else s) l).
  Proof.
    intros [[Hn HW] F]. set (g := fun s => if s_id s =? k then copy_of (s_id s) (f s) else s).
    assert (Hid : forall s, s_id (g s) = s_id s). { intros s. unfold g. destruct (s_id s =? k); auto. }
    split; [split|].
    - exact Hn.
    - intros j i E. destruct (HW j i E) as [Hp [o [E1 E2]]]. split; auto. exists (g o).
      split; [|rewrite Hid; auto]. cbn [edit_oc elems]. rewrite nth_error_map. fold g. rewrite E1. reflexivity.
    - change (slots (edit_oc c k f)) with (slots c). revert F. generalize (slots c). intros L F.
      fold g. induction F as [|i o r1 r2 H F IH]; cbn; constructor; auto.
      destruct H as [H1 [H2 H3]]. unfold P; sp; auto.
      + cbn [edit_oc elems]. rewrite nth_error_map. fold g. rewrite H2. reflexivity.
      + rewrite Hid. exact H3.
  Qed.

  Lemma do_op_Inv p lf lu o : Inv p lf lu -> allowed edits p o ->
    exists lf' lu', Inv (fst (do_op p o)) lf' lu'.
  Proof.
    intros HI. pose proof HI as [HR [Hneg HU]]. destruct o as [items|i|i s|v| | |l|k f]; cbn [allowed do_op].
    - intros [[N1 [N2 [Hp [Hf [Hs Ha]]]]] HE].
      destruct (p_add p items) as [p' e] eqn:E. cbn in *. subst e.
      eapply (p_add_Inv items p lf lu p'); eauto.
      + apply NoDup_app_intro; auto; [apply (R_NoDup _ _ _ HR)|].
        intros x Hx. rewrite Forall_forall in Hf. specialize (Hf x Hx).
        rewrite (has_iff _ _ _ HR) in Hf. exact Hf.
      + intros Hfl. destruct (HU Hfl) as [u [Eu [HRu _]]].
        apply NoDup_app_intro; auto; [apply (R_NoDup _ _ _ HRu)|].
        intros x Hx. specialize (Hs u Eu). rewrite Forall_forall in Hs. specialize (Hs x Hx).
        rewrite (has_iff _ _ _ HRu) in Hs. exact Hs.
    - intros _. unfold p_remove. destruct (p_flag p) eqn:Ef.
      + destruct (HU eq_refl) as [u [Eu [HRu [HF [Ho Hab]]]]].
        destruct (get (p_fc p) i) as [[s|]|e] eqn:Eg; [| |exists lf, lu; exact HI].
        * destruct (get_find _ _ _ _ HR Eg) as [Hin _].
          destruct (index_nth _ _ _ HR Hin) as [q [Ei En]]. rewrite Ei, Eu.
          assert (Hq : (q < length lu)%nat).
          { rewrite <- (Forall2_length _ _ _ HF). apply nth_error_Some. congruence. }
          destruct (c_del_pos u lu q HRu Hq) as [HR1 HE1].
          assert (Hos : one_sub (drop_at q lu)).
          { eapply one_sub_incl; [|exact Ho]. intros s'. apply drop_at_In. }
          unfold one_sub in Hos. rewrite Hos in HE1.
          destruct (c_del u (ByPos (Z.of_nat q))) as [u' e1]. cbn in HR1, HE1. subst e1.
          pose proof (c_del_found _ _ _ _ _ HR Eg En) as HR2.
          cbn [put_unc p_fc]. destruct (c_del (p_fc p) i) as [c e2]. cbn in HR2 |- *.
          exists (drop_at q lf), (drop_at q lu). unfold Inv; sp; cbn; auto.
          intros _. exists u'. sp; auto.
          -- apply drop_at_Forall2; auto.
          -- unfold above in *. rewrite Forall_forall in *. intros s' Hs'. apply Hab. eapply drop_at_In; eauto.
        * exists lf, lu. exact HI.
      + destruct (c_del_R (p_fc p) lf i HR) as [l' HR'].
        destruct (c_del (p_fc p) i) as [c e]. cbn in HR' |- *.
        exists l', lu. unfold Inv; sp; cbn; auto. intros; congruence.
    - intros [].
    - unfold p_set_uncertain. destruct (p_flag p) eqn:Ef; destruct v; cbn [andb negb fst snd]; intros HE.
      + exists lf, lu. exact HI.
      + exists lf, lu. unfold Inv; sp; cbn; auto. intros; congruence.
      + destruct (uncertain_copy (p_next p) (p_fc p)) as [[n c] [e|]] eqn:Ec; cbn in HE |- *; [discriminate|].
        destruct (uncertain_copy_ok _ _ _ _ Ec lf (R_iter _ _ _ HR)) as [lu' [P1 [P2 [P3 [P4 P5]]]]].
        exists lf, lu'. unfold Inv; sp; cbn; auto; try lia. intros _. exists c. sp; auto.
        apply alike_rel, P2.
      + exists lf, lu. exact HI.
    - intros _. exists [], []. eapply p_clear_Inv; eauto.
    - intros _. unfold p_rewind. destruct (check (p_fc p)); [exists lf, lu; exact HI|].
      destruct (p_flag p) eqn:Ef; cbn [negb]; [|exists lf, lu; exact HI].
      destruct (HU eq_refl) as [u [Eu [HRu [HF [Ho Hab]]]]]. rewrite Eu.
      destruct (check u); [exists lf, lu; exact HI|].
      destruct (oc_eq (p_fc p) u) as [[|]|]; try (exists lf, lu; exact HI).
      destruct (uncertain_copy (p_next p) (p_fc p)) as [[n c] [e|]] eqn:Ec; cbn.
      + exists lf, lu. unfold Inv; sp; cbn; auto.
        * unfold uncertain_copy in Ec. rewrite (R_iter _ _ _ HR) in Ec.
          enough (n <= p_next p) by lia. revert Ec. clear. generalize (p_next p) empty_oc.
          induction lf as [|s r IH]; intros m c0; cbn; [discriminate|].
          destruct (c_add c0 (copy_of m s)) as [c' [e'|]].
          -- intros H. injection H as <- _ _. lia.
          -- intros H. apply IH in H. lia.
        * intros _. exists u. sp; auto.
          unfold uncertain_copy in Ec. rewrite (R_iter _ _ _ HR) in Ec.
          apply (above_less (p_next p)); auto. revert Ec. clear. generalize (p_next p) empty_oc.
          induction lf as [|s r IH]; intros m c0; cbn; [discriminate|].
          destruct (c_add c0 (copy_of m s)) as [c' [e'|]].
          -- intros H. injection H as <- _ _. lia.
          -- intros H. apply IH in H. lia.
      + destruct (uncertain_copy_ok _ _ _ _ Ec lf (R_iter _ _ _ HR)) as [lu' [P1 [P2 [P3 [P4 P5]]]]].
        exists lf, lu'. unfold Inv; sp; cbn; auto; try lia. intros _. exists c. sp; auto.
        apply alike_rel, P2.
    - intros [Hn HE]. unfold p_update in *. destruct (_ || _); [|exists lf, lu; exact HI].
      pose proof (p_clear_Inv p lf lu HI) as HC. destruct (p_clear p) as [p1 [e|]]; cbn in HE, HC |- *; [discriminate|].
      destruct (p_add p1 (map ItOne l)) as [p2 e2] eqn:E2. cbn in *. subst e2.
      destruct (ids_one l) as [I1 I2].
      eapply (p_add_Inv (map ItOne l) p1 [] [] p2); eauto.
      + rewrite I1. exact Hn.
      + intros _. rewrite I2. constructor.
      + rewrite I2. constructor.
      + apply Forall_forall. intros it Hit. apply in_map_iff in Hit as [s [<- _]]. exact I.
    - intros He. exists (map (fun s => if s_id s =? k then copy_of (s_id s) (f s) else s) lf), lu.
      unfold Inv; sp; cbn; auto.
      + apply edit_R. exact HR.
      + intros Hfl. destruct (HU Hfl) as [u [Eu [HRu [HF [Ho Hab]]]]]. exists u. sp; auto.
        clear -HF He. induction HF; cbn; constructor; auto. left. exact He.
  Qed.

  Lemma run_Inv os : forall p lf lu, Inv p lf lu -> allowed_run edits p os ->
    exists lf' lu', Inv (run p os) lf' lu'.
  Proof.
    induction os as [|o r IH]; intros p lf lu HI; cbn [allowed_run].
    - intros _. exists lf, lu. exact HI.
    - intros [H1 H2]. destruct (do_op_Inv p lf lu o HI H1) as [lf' [lu' HI']].
      eapply IH; eauto.
  Qed.

  Lemma run_lockstep u os : allowed_run edits (new_pair u) os -> lockstep rel (run (new_pair u) os).
  Proof.
    intros H. destruct (run_Inv os _ _ _ (Inv_new u) H) as [lf [lu [HR [_ HU]]]].
    exists lf. split; [apply R_iter with (sid := s_id); exact HR|].
    intros Hf. destruct (HU Hf) as [c [E [HRc [HF _]]]]. exists c, lu. split; [exact E|split; [|exact HF]].
    apply R_iter with (sid := s_id); exact HRc.
  Qed.
End Inv.

(** ** Rewind *)

Lemma same_content_alike a b : same_content a b = true -> alike a b.
Proof.
  unfold same_content, alike. intros H. apply andb_prop in H as [H H3]. apply andb_prop in H as [H1 H2].
  apply Bool.eqb_prop in H1. apply Z.eqb_eq in H2, H3. auto.
Qed.
Lemma same_list_alike a : forall b, same_list a b = true -> Forall2 alike a b.
Proof.
  induction a as [|x r IH]; intros [|y s] H; cbn in H; try discriminate; constructor.
  - apply andb_prop in H as [H _]. apply same_content_alike, H.
  - apply andb_prop in H as [_ H]. auto.
Qed.
Lemma live_some l : live (map Some l) = l.
Proof. induction l as [|a r IH]; cbn; auto. f_equal. exact IH. Qed.

Lemma rewind_ok p p' : p_rewind p = (p', None) -> lockstep alike p'.
Proof.
  unfold p_rewind. destruct (check (p_fc p)) eqn:Ec; [discriminate|].
  destruct (check_no_holes _ Ec) as [lf Ef].
  destruct (p_flag p) eqn:Efl; cbn [negb].
  2:{ intros H. injection H as <-. exists lf. split; auto. congruence. }
  destruct (p_unc p) as [u|] eqn:Eu; [|discriminate].
  destruct (check u) eqn:Eu2; [discriminate|]. destruct (check_no_holes _ Eu2) as [lu El].
  destruct (oc_eq (p_fc p) u) as [[|]|] eqn:Eq; [| |discriminate].
  - intros H. injection H as <-. exists lf. split; auto. intros _. exists u, lu. sp; auto.
    unfold oc_eq in Eq. rewrite Ef, El in Eq. cbn [bind] in Eq. injection Eq as Eq.
    apply andb_prop in Eq as [_ Eq]. rewrite !live_some in Eq. apply same_list_alike, Eq.
  - destruct (uncertain_copy (p_next p) (p_fc p)) as [[n c] [e|]] eqn:Ecp; [discriminate|].
    intros H. injection H as <-.
    destruct (uncertain_copy_ok _ _ _ _ Ecp lf Ef) as [lu' [P1 [P2 _]]].
    exists lf. split; auto. intros _. exists c, lu'. sp; auto.
    apply R_iter with (sid := s_id); exact P1.
Qed.

(** ** Deciding whether a history is allowed *)

Fixpoint nodupb (l : list Z) : bool :=
  match l with [] => true | x :: r => negb (zmem x r) && nodupb r end.
Definition idsof (c : oc spill) : list Z := match iter c with Ok l => ids l | Raise _ => [] end.
Definition new_itemsb (p : pair) (items : list item) : bool :=
  nodupb (ids (map first_of items)) && nodupb (ids (map second_of items)) &&
  forallb (fun k => 0 <=? k) (ids (map second_of items)) &&
  forallb (fun k => negb (zmem k (idsof (p_fc p)))) (ids (map first_of items)) &&
  forallb (fun k => negb (zmem k (match p_unc p with Some u => idsof u | None => [] end))) (ids (map second_of items)) &&
  forallb (fun it => match first_of it, second_of it with Some a, Some b => same_content a b | _, _ => true end) items.
Definition is_none {A} (o : option A) : bool := match o with None => true | Some _ => false end.
Definition allowedb (edits : bool) (p : pair) (o : op) : bool :=
  match o with
  | PAdd items => new_itemsb p items && is_none (snd (do_op p o))
  | PSet _ _ => false
  | PUncertain _ => is_none (snd (do_op p o))
  | PUpdate l => nodupb (map s_id l) && is_none (snd (do_op p o))
  | PEdit _ _ => edits
  | _ => true
  end.
Fixpoint allowed_runb (edits : bool) (p : pair) (os : list op) : bool :=
  match os with
  | [] => true
  | o :: r => allowedb edits p o && allowed_runb edits (fst (do_op p o)) r
  end.

Lemma nodupb_ok l : nodupb l = true -> NoDup l.
Proof.
  induction l as [|x r IH]; cbn; constructor.
  - apply andb_prop in H as [H _]. intros Hx. apply zmem_In in Hx. rewrite Hx in H. discriminate.
  - apply andb_prop in H as [_ H]. auto.
Qed.
Lemma has_idsof c k : has c k -> In k (idsof c).
Proof.
  intros [l [s [E [Hs <-]]]]. unfold idsof. rewrite E. unfold ids. rewrite live_some. apply in_map, Hs.
Qed.
Lemma is_none_ok {A} (o : option A) : is_none o = true -> o = None.
Proof. destruct o; [discriminate|auto]. Qed.
Lemma notmem c ks : forallb (fun k => negb (zmem k (idsof c))) ks = true -> Forall (fun k => ~ has c k) ks.
Proof.
  intros H. rewrite forallb_forall in H. apply Forall_forall. intros k Hk Hh.
  specialize (H k Hk). apply has_idsof, zmem_In in Hh. rewrite Hh in H. discriminate.
Qed.
Lemma new_itemsb_ok p items : new_itemsb p items = true -> new_items p items.
Proof.
  unfold new_itemsb. intros H. repeat (apply andb_prop in H as [H ?]). unfold new_items. sp.
  - apply nodupb_ok; auto.
  - apply nodupb_ok; auto.
  - rewrite forallb_forall in H3. apply Forall_forall. intros k Hk. specialize (H3 k Hk). lia.
  - apply notmem; auto.
  - intros u E. rewrite E in H1. apply notmem; auto.
  - rewrite forallb_forall in H0. apply Forall_forall. intros it Hit. specialize (H0 it Hit).
    destruct (first_of it), (second_of it); auto. apply same_content_alike, H0.
Qed.
Lemma allowed_runb_ok edits os : forall p, allowed_runb edits p os = true -> allowed_run edits p os.
Proof.
  induction os as [|o r IH]; intros p; cbn [allowed_runb allowed_run]; auto.
  intros H. apply andb_prop in H as [H1 H2]. split; auto.
  destruct o; cbn [allowedb allowed] in *; auto; try discriminate.
  - apply andb_prop in H1 as [Ha Hb]. split; [apply new_itemsb_ok, Ha|apply is_none_ok, Hb].
  - apply is_none_ok, H1.
  - apply andb_prop in H1 as [Ha Hb]. split; [apply nodupb_ok, Ha|apply is_none_ok, Hb].
Qed.
