(** * Proofs about spill containers *)
From Verif Require Import Py PyLemmas QLemmas ScModel ScSpec.
From Coq Require Import Sorted.
Open Scope Z_scope.

(** ** Shapes *)

Definition shape (d : arrays) (name : Z) : option nat := option_map (@length val) (dget name d).
Definition same_shape (a b : arrays) : Prop := forall name, shape a name = shape b name.

Lemma same_shape_refl a : same_shape a a.
Proof. intros n; reflexivity. Qed.
Lemma same_shape_trans a b c : same_shape a b -> same_shape b c -> same_shape a c.
Proof. intros H1 H2 n. rewrite H1. apply H2. Qed.

Lemma same_shape_dset d name l old :
  dget name d = Some old -> length l = length old -> same_shape (dset name l d) d.
Proof.
  intros E H n. unfold shape. rewrite dget_dset. destruct (Z.eqb_spec n name) as [->|]; auto.
  rewrite E. cbn. congruence.
Qed.

Lemma write_tails_shape n ws : forall d d' e, write_tails n ws d = (d', e) -> same_shape d' d.
Proof.
  induction ws as [|[name vals] r IH]; intros d d' e; cbn [write_tails].
  { intros [= <- <-]. apply same_shape_refl. }
  unfold write_tail. destruct (dget name d) as [l|] eqn:E.
  2:{ intros [= <- <-]. apply same_shape_refl. }
  destruct (Nat.eqb_spec (length vals) (length (skipn (length l - Z.to_nat n) l))) as [Hl|].
  2:{ intros [= <- <-]. apply same_shape_refl. }
  intros H. apply IH in H. eapply same_shape_trans; [exact H|].
  apply (same_shape_dset _ _ _ l E). rewrite app_length, firstn_length, Hl, skipn_length. lia.
Qed.

Lemma write_tails_frame n ws : forall d d' e name,
  write_tails n ws d = (d', e) -> ~ In name (map fst ws) -> dget name d' = dget name d.
Proof.
  induction ws as [|[x vals] r IH]; intros d d' e name; cbn [write_tails].
  { intros [= <- <-] _. reflexivity. }
  intros H Hn. cbn [map fst In] in Hn. unfold write_tail in H. destruct (dget x d) as [l|] eqn:E.
  2:{ injection H as <- <-. reflexivity. }
  destruct (Nat.eqb (length vals) _).
  2:{ injection H as <- <-. reflexivity. }
  rewrite (IH _ _ _ name H) by tauto. rewrite dget_dset.
  destruct (Z.eqb_spec name x); [subst; tauto|reflexivity].
Qed.

Lemma append_get iv n : forall ts d d' e,
  append_arrays iv ts n d = (d', e) -> NoDup (map fst ts) ->
  (forall name, ~ In name (map fst ts) -> dget name d' = dget name d) /\
  (e = None -> forall name at_, dget name ts = Some at_ ->
     exists l, dget name d = Some l /\ dget name d' = Some (l ++ initialize iv at_ n)).
Proof.
  induction ts as [|[x a] r IH]; intros d d' e; cbn [append_arrays].
  { intros [= <- <-] _. split; auto. intros _ name at_ H. discriminate. }
  intros H Hn. inversion Hn as [|? ? Hx Hr]; subst.
  destruct (dget x d) as [l|] eqn:E.
  2:{ injection H as <- <-. split; auto. discriminate. }
  destruct (IH _ _ _ H Hr) as [Hf Hs]. split.
  - intros name Hin. cbn [map fst In] in Hin. rewrite Hf by tauto. rewrite dget_dset.
    destruct (Z.eqb_spec name x); [subst; tauto|reflexivity].
  - intros He name at_ Hg. cbn [dget] in Hg. destruct (Z.eqb_spec name x) as [->|Hne].
    + injection Hg as <-. exists l. split; [exact E|]. rewrite Hf by exact Hx.
      rewrite dget_dset, Z.eqb_refl. reflexivity.
    + destruct (Hs He name at_ Hg) as [l' [H1 H2]]. rewrite dget_dset in H1.
      destruct (Z.eqb_spec name x); [contradiction|]. exists l'. auto.
Qed.

Lemma append_ok iv n : forall ts d,
  (forall name, In name (map fst ts) -> exists l, dget name d = Some l) ->
  exists d', append_arrays iv ts n d = (d', None).
Proof.
  induction ts as [|[x a] r IH]; intros d H; cbn [append_arrays]; [eauto|].
  destruct (H x) as [l E]; [left; reflexivity|]. rewrite E. apply IH.
  intros name Hin. rewrite dget_dset. destruct (Z.eqb_spec name x); [eauto|].
  apply H. right. exact Hin.
Qed.

Lemma initialize_length iv a n : 0 <= n -> length (initialize iv a n) = Z.to_nat n.
Proof.
  intros H. unfold initialize. destruct (fst a); rewrite ?map_length, ?zseq_length, ?repeat_length; auto.
Qed.

Lemma dget_in_keys {V} k (d : dict V) : In k (map fst d) <-> exists v, dget k d = Some v.
Proof.
  induction d as [|[k' v] r IH]; cbn [map fst In dget].
  - split; [tauto|intros [v H]; discriminate].
  - destruct (Z.eqb_spec k k').
    + split; [eauto|intros _; left; auto].
    + rewrite <- IH. split; [intros [H|H]; [congruence|auto]|auto].
Qed.

(** ** Well-formedness is kept *)

Lemma shape_col c d : same_shape d (c_data c) ->
  forall name, (exists l, dget name d = Some l) <-> (exists l, column c name = Some l).
Proof.
  intros H name. specialize (H name). unfold shape, column in *.
  destruct (dget name d), (dget name (c_data c)); cbn in H; try discriminate;
    split; intros [? ?]; try discriminate; eauto.
Qed.

Lemma wf_shape ts d v c :
  well_formed c -> same_shape d (c_data c) -> ts = c_types c ->
  (forall f w, match dget f v with Some x => x | None => VEmpty end = VCopy w -> NoDup (map fst w)) ->
  well_formed (mkSC ts d v).
Proof.
  intros [[n Ha] [Hc [Hp Hv]]] Hs -> Hw. split; [|split; [|split]]; cbn.
  - exists n. intros name l E. cbn in E. pose proof (Hs name) as Hn. unfold shape in Hn.
    unfold column in E; cbn in E. rewrite E in Hn. cbn in Hn.
    destruct (dget name (c_data c)) as [l'|] eqn:E'; cbn in Hn; [|discriminate].
    injection Hn as ->. apply (Ha name l' E').
  - intros name. unfold column; cbn. rewrite (shape_col c d Hs name). apply Hc.
  - exact Hp.
  - exact Hw.
Qed.

Lemma wf_put_data c d : well_formed c -> same_shape d (c_data c) -> well_formed (put_data c d).
Proof. intros H Hs. apply (wf_shape _ _ _ c); auto. destruct H as [_ [_ [_ H]]]. exact H. Qed.

Lemma wf_reset c d : well_formed c -> same_shape d (c_data c) -> well_formed (mkSC (c_types c) d []).
Proof. intros H Hs. apply (wf_shape _ _ _ c); auto. cbn. discriminate. Qed.

Lemma wf_put_view c v : well_formed c ->
  (forall f w, match dget f v with Some x => x | None => VEmpty end = VCopy w -> NoDup (map fst w)) ->
  well_formed (put_view c v).
Proof. intros H Hs. apply (wf_shape _ _ _ c); auto. apply same_shape_refl. Qed.

Lemma wf_set_view c f x : well_formed c ->
  (forall w, x = VCopy w -> NoDup (map fst w)) -> well_formed (put_view c (dset f x (c_view c))).
Proof.
  intros H Hx. apply wf_put_view; auto. intros g w. rewrite dget_dset.
  destruct (Z.eqb_spec g f); [apply Hx|]. destruct H as [_ [_ [_ H]]]. apply H.
Qed.

Lemma wf_empty : well_formed empty_sc.
Proof.
  split; [|split; [|split]].
  - exists O. intros name l H. discriminate.
  - intros name. cbn. split; [intros [l H]; discriminate|tauto].
  - constructor.
  - cbn. discriminate.
Qed.

(** ** Prepare, release *)

Lemma init_arrays_get ts : forall d name,
  dget name (init_arrays ts d) = if dmem name ts then Some [] else dget name d.
Proof.
  unfold init_arrays. induction ts as [|[x a] r IH]; intros d name; cbn [fold_left fst]; auto.
  rewrite IH. unfold dmem. cbn [dget]. destruct (Z.eqb_spec name x) as [->|Hne].
  - destruct (dget x r); auto. rewrite dget_dset, Z.eqb_refl. reflexivity.
  - destruct (dget name r); auto. rewrite dget_dset.
    destruct (Z.eqb_spec name x); [contradiction|reflexivity].
Qed.

Lemma fold_dset_keys (l : types) : forall d name,
  In name (map fst (fold_left (fun d t => dset (fst t) (snd t) d) l d)) <->
  In name (map fst d) \/ In name (map fst l).
Proof.
  induction l as [|[x a] r IH]; intros d name; cbn [fold_left map fst snd In]; [tauto|].
  rewrite IH, !dget_in_keys. rewrite dget_dset. destruct (Z.eqb_spec name x) as [->|Hne].
  - split; eauto.
  - intuition congruence.
Qed.

Lemma fold_dset_NoDup (l : types) : forall d, NoDup (map fst d) ->
  NoDup (map fst (fold_left (fun d t => dset (fst t) (snd t) d) l d)).
Proof.
  induction l as [|[x a] r IH]; intros d H; cbn [fold_left fst snd]; auto.
  apply IH. apply (dset_NoDup x a d H).
Qed.

Lemma update_types_keys a b name :
  In name (map fst (update_types a b)) <-> In name (map fst a) \/ In name (map fst b).
Proof. unfold update_types. rewrite fold_dset_keys, map_app, in_app_iff. cbn. tauto. Qed.

Lemma update_types_NoDup a b : NoDup (map fst (update_types a b)).
Proof. apply fold_dset_NoDup. constructor. Qed.

Lemma wf_prepare c df ats :
  well_formed c ->
  (forall name l, column c name = Some l -> In name (map fst df) \/ In name (map fst ats)) ->
  well_formed (prepare_sc df ats c) /\ aligned (prepare_sc df ats c) 0.
Proof.
  intros [_ [_ [_ Hv]]] H.
  assert (Ha : aligned (prepare_sc df ats c) 0).
  { intros name l. unfold column, prepare_sc; cbn. rewrite init_arrays_get.
    unfold dmem. destruct (dget name (update_types df ats)) eqn:E; [intros [= <-]; reflexivity|].
    intros E'. exfalso. apply H in E'. apply update_types_keys in E'. apply dget_in_keys in E'.
    destruct E' as [v E']. congruence. }
  split; [split; [|split; [|split]]|exact Ha].
  - exists O. exact Ha.
  - intros name. unfold column, prepare_sc; cbn. rewrite init_arrays_get.
    unfold dmem. rewrite dget_in_keys. destruct (dget name (update_types df ats)) eqn:E; [split; eauto|].
    split.
    + intros [l E']. exfalso. apply H in E'. apply update_types_keys in E'. apply dget_in_keys in E'.
      destruct E' as [v E']. congruence.
    + intros [v E']. discriminate.
  - apply update_types_NoDup.
  - unfold prepare_sc, get_view; cbn. destruct (dmem n_fate (update_types df ats)); [discriminate|exact Hv].
Qed.

Lemma wf_append c iv n d e m :
  well_formed c -> aligned c m -> 0 <= n -> append_arrays iv (c_types c) n (c_data c) = (d, e) ->
  e = None /\ well_formed (put_data c d) /\ aligned (put_data c d) (m + Z.to_nat n).
Proof.
  intros [_ [Hc [Hp Hv]]] Ha Hn H.
  destruct (append_ok iv n (c_types c) (c_data c)) as [d0 E0].
  { intros name Hin. apply Hc in Hin. exact Hin. }
  rewrite E0 in H. injection H as -> <-.
  destruct (append_get _ _ _ _ _ _ E0 Hp) as [Hf Hs]. specialize (Hs eq_refl).
  assert (Hcase : forall name, (exists at_ l, dget name (c_types c) = Some at_ /\ dget name (c_data c) = Some l
                                  /\ dget name d = Some (l ++ initialize iv at_ n))
                               \/ (~ In name (map fst (c_types c)) /\ dget name d = None)).
  { intros name. destruct (dget name (c_types c)) as [a|] eqn:E.
    - left. destruct (Hs name a E) as [l [H1 H2]]. eauto.
    - right. assert (Hni : ~ In name (map fst (c_types c))).
      { rewrite dget_in_keys. intros [v Ev]. congruence. }
      split; [exact Hni|]. rewrite (Hf name Hni).
      destruct (dget name (c_data c)) as [l|] eqn:E2; auto. exfalso. apply Hni. apply Hc. exists l. exact E2. }
  assert (Ha' : aligned (put_data c d) (m + Z.to_nat n)).
  { intros name l. unfold column; cbn. destruct (Hcase name) as [[a [l0 [H1 [H2 H3]]]]|[_ H3]];
      rewrite H3; [intros [= <-]|discriminate].
    rewrite app_length, initialize_length by exact Hn. rewrite (Ha name l0 H2). reflexivity. }
  split; [reflexivity|]. split; [|exact Ha']. split; [|split; [|split]].
  - exists (m + Z.to_nat n)%nat. exact Ha'.
  - intros name. unfold column; cbn. rewrite dget_in_keys.
    destruct (Hcase name) as [[a [l0 [H1 [H2 H3]]]]|[H1 H3]].
    + rewrite H3, H1. split; eauto.
    + rewrite H3. rewrite dget_in_keys in H1. split; [intros [? ?]; discriminate|contradiction].
  - exact Hp.
  - exact Hv.
Qed.

Lemma aligned_shape c d m : aligned c m -> same_shape d (c_data c) -> aligned (put_data c d) m.
Proof.
  intros Ha Hs name l E. unfold column in E; cbn in E. pose proof (Hs name) as Hn. unfold shape in Hn.
  rewrite E in Hn. cbn in Hn. destruct (dget name (c_data c)) as [l'|] eqn:E'; cbn in Hn; [|discriminate].
  injection Hn as ->. apply (Ha name l' E').
Qed.


Lemma wf_release : forall rs iv c iv' c' e m,
  well_formed c -> aligned c m -> release_loop iv c rs = (iv', c', e) ->
  well_formed c' /\ (e = None -> aligned c' (m + rel_total rs)) /\ c_types c' = c_types c.
Proof.
  induction rs as [|r rest IH]; intros iv c iv' c' e m Hw Ha; cbn [release_loop].
  { intros [= <- <- <-]. split; [|split; auto].
    - apply wf_put_view; auto. cbn. discriminate.
    - intros _. unfold rel_total; cbn. rewrite Nat.add_0_r. exact Ha. }
  unfold rel_total. cbn [map list_sum fold_right]. destruct (Z.leb_spec (ri_n r) 0) as [Hn|Hn].
  { intros H. destruct (IH _ _ _ _ _ _ Hw Ha H) as [H1 [H2 H3]]. split; [exact H1|]. split; [|exact H3].
    replace (Z.to_nat (ri_n r)) with O by lia. exact H2. }
  destruct (append_arrays iv (c_types c) (ri_n r) (c_data c)) as [d e1] eqn:E1.
  destruct (wf_append c iv (ri_n r) d e1 m Hw Ha ltac:(lia) E1) as [-> [Hw1 Ha1]].
  destruct (write_tails _ _ d) as [d2 e2] eqn:E2.
  apply write_tails_shape in E2.
  pose proof (wf_put_data _ _ Hw1 E2) as Hw2.
  pose proof (aligned_shape _ _ _ Ha1 E2) as Ha2.
  change (put_data (put_data c d) d2) with (put_data c d2) in Hw2, Ha2.
  destruct e2; [intros [= <- <- <-]; split; [exact Hw2|split; [discriminate|reflexivity]]|].
  destruct (ri_fail r); [intros [= <- <- <-]; split; [exact Hw2|split; [discriminate|reflexivity]]|].
  assert (Hrest : forall jv, release_loop jv (put_data c d2) rest = (iv', c', e) ->
    well_formed c' /\ (e = None -> aligned c' (m + (Z.to_nat (ri_n r) + rel_total rest))%nat) /\ c_types c' = c_types c).
  { intros jv H. destruct (IH _ _ _ _ _ _ Hw2 Ha2 H) as [H1 [H2 H3]]. rewrite Nat.add_assoc. auto. }
  destruct (dget n_spill d2) as [sp|]; [|intros [= <- <- <-]; split; [exact Hw2|split; [discriminate|reflexivity]]].
  destruct (dget n_id d2) as [il|]; [|intros [= <- <- <-]; split; [exact Hw2|split; [discriminate|reflexivity]]].
  destruct sp; [apply Hrest|].
  destruct (py_get il (-1)) as [[i|q]|x]; [apply Hrest| |];
    intros [= <- <- <-]; (split; [exact Hw2|split; [discriminate|reflexivity]]).
Qed.

(** ** Removal *)

Lemma delete_from_ext a b : forall l i,
  (forall j, (i <= j)%nat -> existsb (Nat.eqb j) a = existsb (Nat.eqb j) b) ->
  delete_from i a l = delete_from i b l.
Proof.
  induction l as [|x r IH]; intros i H; cbn [delete_from]; auto.
  rewrite (H i (le_n i)). rewrite (IH (S i)); auto. intros j Hj. apply H. lia.
Qed.

Lemma where_val_ge z : forall l i j, In j (where_val i z l) -> (i <= j < i + length l)%nat.
Proof.
  induction l as [|x r IH]; intros i j; cbn [where_val length]; [intros []|].
  destruct (is_val z x).
  - intros [<-|H]; [lia|]. apply IH in H. lia.
  - intros H. apply IH in H. lia.
Qed.

Lemma existsb_eqb j l : existsb (Nat.eqb j) l = true <-> In j l.
Proof.
  rewrite existsb_exists. split.
  - intros [x [H E]]. apply Nat.eqb_eq in E. subst; auto.
  - intros H. exists j. split; auto. apply Nat.eqb_refl.
Qed.

Lemma delete_where : forall st l i, length l = length st ->
  delete_from i (where_val i to_be_removed st) l = stay st l.
Proof.
  unfold stay. induction st as [|s st IH]; intros [|x l] i H; try discriminate; auto.
  cbn [where_val delete_from combine filter fst]. change (removed s) with (is_val to_be_removed s).
  injection H as H. destruct (is_val to_be_removed s) eqn:E; cbn [negb].
  - replace (existsb (Nat.eqb i) (i :: _)) with true by (cbn; rewrite Nat.eqb_refl; reflexivity).
    rewrite <- (IH l (S i) H). apply delete_from_ext. intros j Hj. cbn.
    destruct (Nat.eqb_spec j i); [lia|reflexivity].
  - destruct (existsb (Nat.eqb i) (where_val (S i) to_be_removed st)) eqn:E2.
    { apply existsb_eqb in E2. apply where_val_ge in E2. lia. }
    cbn [map snd]. f_equal. apply IH. exact H.
Qed.

Lemma delete_all_ok m ixs : Forall (fun i => (i < m)%nat) ixs -> forall ts d,
  NoDup (map fst ts) -> (forall name, In name (map fst ts) -> exists l, dget name d = Some l /\ length l = m) ->
  exists d', delete_all ts ixs d = (d', None) /\
    forall name, dget name d' = if zmem name (map fst ts) then option_map (delete_from 0 ixs) (dget name d)
                                else dget name d.
Proof.
  intros Hi. induction ts as [|[x a] r IH]; intros d Hn H; cbn [delete_all].
  { exists d. split; auto. }
  inversion Hn as [|? ? Hx Hr]; subst.
  destruct (H x) as [l [E El]]; [left; reflexivity|]. rewrite E. unfold np_delete.
  replace (forallb _ ixs) with true.
  2:{ symmetry. apply forallb_forall. rewrite Forall_forall in Hi. intros i Hin. apply Nat.ltb_lt.
      rewrite El. apply Hi, Hin. }
  destruct (IH (dset x (delete_from 0 ixs l) d) Hr) as [d' [H1 H2]].
  { intros name Hin. rewrite dget_dset. destruct (Z.eqb_spec name x) as [->|]; [contradiction|].
    apply H. right. exact Hin. }
  exists d'. split; [exact H1|]. intros name. rewrite H2. cbn [map fst].
  rewrite dget_dset. destruct (Z.eqb_spec name x) as [->|Hne]; cbn [orb].
  - unfold zmem. cbn [existsb]. rewrite Z.eqb_refl, E. cbn [orb option_map].
    destruct (existsb (Z.eqb x) (map fst r)) eqn:Em; auto.
    change (existsb (Z.eqb x) (map fst r)) with (zmem x (map fst r)) in Em.
    apply zmem_In in Em. contradiction.
  - unfold zmem. cbn [existsb]. destruct (Z.eqb_spec name x); [contradiction|]. reflexivity.
Qed.

Lemma stay_none st : forall l, where_val 0 to_be_removed st = [] -> length l = length st -> stay st l = l.
Proof.
  intros l H Hl. rewrite <- (delete_where st l 0 Hl). rewrite H.
  generalize 0%nat. clear. induction l; intros i; cbn; f_equal; auto.
Qed.

Lemma step_done_spec c st :
  well_formed c -> column c n_status = Some st ->
  exists c', step_done c = (c', None) /\ c_types c' = c_types c /\ well_formed c' /\
    forall name, column c' name = option_map (stay st) (column c name).
Proof.
  intros Hw Est. pose proof Hw as [[m Ha] [Hc [Hp Hv]]]. unfold step_done.
  destruct (c_data c) as [|kv r] eqn:Ed.
  { unfold column in Est. rewrite Ed in Est. discriminate. }
  rewrite <- Ed in *. clear kv r Ed.
  change (dget n_status (c_data c)) with (column c n_status). rewrite Est.
  destruct (where_val 0 to_be_removed st) as [|i ixs] eqn:Ew.
  { exists c. split; [reflexivity|]. split; [reflexivity|]. split; [exact Hw|].
    intros name. destruct (column c name) as [l|] eqn:E; auto. cbn.
    rewrite stay_none; auto. rewrite (Ha _ _ E), (Ha _ _ Est). reflexivity. }
  rewrite <- Ew. clear Ew i ixs.
  destruct (delete_all_ok m (where_val 0 to_be_removed st)) with (ts := c_types c) (d := c_data c) as [d' [H1 H2]].
  { apply Forall_forall. intros i Hi. apply where_val_ge in Hi. rewrite (Ha _ _ Est) in Hi. lia. }
  { exact Hp. }
  { intros name Hin. apply Hc in Hin. destruct Hin as [l E]. exists l. split; [exact E|apply (Ha _ _ E)]. }
  rewrite H1. eexists. split; [reflexivity|]. split; [reflexivity|].
  assert (Hcol : forall name, dget name d' = option_map (stay st) (column c name)).
  { intros name. rewrite H2. unfold column. destruct (dget name (c_data c)) as [l|] eqn:E; cbn.
    - rewrite delete_where by (rewrite (Ha _ _ E), (Ha _ _ Est); reflexivity).
      destruct (zmem name (map fst (c_types c))) eqn:Em; auto.
      exfalso. assert (In name (map fst (c_types c))) as Hin by (apply Hc; exists l; exact E).
      apply zmem_In in Hin. congruence.
    - destruct (zmem _ _); reflexivity. }
  split; [|exact Hcol]. split; [|split; [|split]].
  - exists (length (stay st st)). intros name l. unfold column; cbn. rewrite Hcol.
    destruct (column c name) as [l0|] eqn:E; cbn; [intros [= <-]|discriminate].
    assert (Hl : length l0 = length st) by (rewrite (Ha _ _ E), (Ha _ _ Est); reflexivity).
    unfold stay. rewrite !map_length. clear - Hl. revert l0 Hl.
    induction st as [|s st IH]; intros [|x l0] H; try discriminate; auto.
    injection H as H. cbn [combine filter fst]. destruct (removed s); cbn [negb length]; rewrite (IH _ H); reflexivity.
  - intros name. unfold column; cbn. rewrite Hcol. rewrite <- (Hc name).
    destruct (column c name); cbn; split; intros [? ?]; eauto; discriminate.
  - exact Hp.
  - cbn. discriminate.
Qed.

Lemma wf_step_done c : well_formed c -> well_formed (fst (step_done c)).
Proof.
  intros Hw. destruct (column c n_status) as [st|] eqn:E.
  - destruct (step_done_spec c st Hw E) as [c' [-> [_ [H _]]]]. exact H.
  - unfold step_done. destruct (c_data c) eqn:Ed; [exact Hw|]. rewrite <- Ed.
    unfold column in E. rewrite E. exact Hw.
Qed.

(** ** Views *)

Lemma masked_rows {A} m (l : list A) : masked m l = rows m l.
Proof. reflexivity. Qed.

Lemma sc_len_aligned c m name l : aligned c m -> column c name = Some l -> sc_len c = m.
Proof.
  intros Ha E. unfold sc_len, column in *. destruct (c_data c) as [|[k x] r] eqn:Ed; [discriminate|].
  apply (Ha k x). unfold column. rewrite Ed. cbn. rewrite Z.eqb_refl. reflexivity.
Qed.

Lemma combine_repeat_true : forall (ms : list val) n, n = length ms ->
  map (fun '(a, b) => a && positive b) (combine (repeat true n) ms) = map mass_positive ms.
Proof.
  induction ms as [|x r IH]; intros n ->; cbn; auto. f_equal. apply IH. reflexivity.
Qed.

Lemma combine_map_l (g : val -> bool) : forall (fs ms : list val),
  map (fun '(a, b) => a && positive b) (combine (map g fs) ms)
  = map (fun p => g (fst p) && mass_positive (snd p)) (combine fs ms).
Proof.
  induction fs as [|x r IH]; intros [|y s]; cbn; auto. f_equal. apply IH.
Qed.

Lemma mask_complete c f sel m : aligned c m -> in_view c f sel -> fate_mask c f = Ok sel.
Proof.
  intros Ha [ms [Em H]]. unfold fate_mask. change (dget n_mass (c_data c)) with (column c n_mass). rewrite Em.
  destruct (f =? 0); cbn [bind].
  - rewrite (sc_len_aligned c m _ _ Ha Em). rewrite repeat_length, (Ha _ _ Em), Nat.eqb_refl.
    f_equal. subst sel. rewrite <- (Ha _ _ Em). apply combine_repeat_true. reflexivity.
  - destruct H as [fs [Ef ->]]. change (dget n_fate (c_data c)) with (column c n_fate). rewrite Ef. cbn [bind].
    rewrite map_length, (Ha _ _ Em), (Ha _ _ Ef), Nat.eqb_refl. f_equal. apply combine_map_l.
Qed.

Lemma mask_sound c f sel m : aligned c m -> fate_mask c f = Ok sel -> in_view c f sel /\ length sel = m.
Proof.
  intros Ha. unfold fate_mask. change (dget n_mass (c_data c)) with (column c n_mass).
  destruct (column c n_mass) as [ms|] eqn:Em; [|discriminate].
  pose proof (Ha _ _ Em) as Hm. unfold in_view.
  destruct (f =? 0) eqn:Ef0; cbn [bind].
  - rewrite (sc_len_aligned c m _ _ Ha Em), repeat_length, Hm, Nat.eqb_refl. intros [= <-].
    rewrite combine_repeat_true by auto. split; [exists ms; auto|rewrite map_length; exact Hm].
  - change (dget n_fate (c_data c)) with (column c n_fate).
    destruct (column c n_fate) as [fs|] eqn:Ef; cbn [bind]; [|discriminate].
    pose proof (Ha _ _ Ef) as Hf. rewrite map_length, Hm, Hf, Nat.eqb_refl. intros [= <-].
    unfold fate_is. rewrite combine_map_l. split; [exists ms; split; [exact Em|]; exists fs; auto|].
    rewrite map_length, combine_length. lia.
Qed.

Lemma copy_false mask : forall names data dst data' dst' e,
  copy_masked false mask names data dst = (data', dst', e) ->
  data' = data /\ (NoDup (map fst dst) -> NoDup (map fst dst')) /\
  (forall name, ~ In name names -> dget name dst' = dget name dst) /\
  (e = None -> forall name, In name names ->
     exists l, dget name data = Some l /\ dget name dst' = Some (rows mask l)).
Proof.
  induction names as [|x r IH]; intros data dst data' dst' e; cbn [copy_masked].
  { intros [= <- <- <-]. repeat split; auto. intros _ name []. }
  destruct (dget x data) as [l|] eqn:E.
  2:{ intros [= <- <- <-]. repeat split; auto. discriminate. }
  destruct (Nat.eqb (length mask) (length l)).
  2:{ intros [= <- <- <-]. repeat split; auto. discriminate. }
  intros H. destruct (IH _ _ _ _ _ H) as [-> [Hn [Hf Hs]]]. split; [reflexivity|]. split; [|split].
  - intros Hd. apply Hn. apply (dset_NoDup x _ dst Hd).
  - intros name Hni. cbn in Hni. rewrite Hf by tauto. rewrite dget_dset.
    destruct (Z.eqb_spec name x); [subst; tauto|reflexivity].
  - intros He name Hin. destruct (in_dec Z.eq_dec name r) as [Hr|Hr].
    + apply Hs; auto.
    + destruct Hin as [->|Hin]; [|contradiction]. exists l. split; [exact E|].
      rewrite Hf by exact Hr. rewrite dget_dset, Z.eqb_refl. rewrite masked_rows. reflexivity.
Qed.

Lemma forallb_id l : forallb (fun b : bool => b) l = true <-> forall b, In b l -> b = true.
Proof. rewrite forallb_forall. split; intros H b Hb; apply H in Hb; auto. Qed.

Lemma wf_get c names f :
  well_formed c ->
  (get_view c f = VAlias -> exists sel, in_view c f sel /\ forall b, In b sel -> b = true) ->
  well_formed (fst (get_data c names f)) /\ c_data (fst (get_data c names f)) = c_data c
  /\ c_types (fst (get_data c names f)) = c_types c
  /\ forall g, g <> f -> get_view (fst (get_data c names f)) g = get_view c g.
Proof.
  intros Hw Hal. pose proof Hw as [[m Ha] [_ [_ Hv]]]. unfold get_data.
  assert (Hview : forall x g, g <> f -> get_view (put_view c (dset f x (c_view c))) g = get_view c g).
  { intros x g Hg. unfold get_view; cbn. rewrite dget_dset. destruct (Z.eqb_spec g f); [contradiction|reflexivity]. }
  destruct (fate_mask c f) as [mask|e] eqn:Em; [|auto].
  destruct (forallb (fun b => b) mask) eqn:Eall.
  { cbn [fst]. split; [apply wf_set_view; [exact Hw|discriminate]|]. auto. }
  destruct (get_view c f) as [| |v] eqn:Ev.
  - destruct (copy_masked false mask names (c_data c) []) as [[d v] e] eqn:E.
    apply copy_false in E. destruct E as [-> [Hn _]]. cbn [fst].
    split; [|auto]. apply wf_set_view; [exact Hw|]. intros w [= <-]. apply Hn. constructor.
  - exfalso. destruct (Hal eq_refl) as [sel [Hs Ht]]. rewrite (mask_complete c f sel m Ha Hs) in Em.
    injection Em as ->. apply forallb_id in Ht. congruence.
  - destruct (copy_masked false mask names (c_data c) v) as [[d v'] e] eqn:E.
    apply copy_false in E. destruct E as [-> [Hn _]]. cbn [fst].
    split; [|auto]. apply wf_set_view; [exact Hw|]. intros w [= <-]. apply Hn. apply (Hv f v Ev).
Qed.

Lemma wf_write c name l : well_formed c -> well_formed (fst (write c name l)).
Proof.
  intros Hw. unfold write. destruct (dget name (c_data c)) as [old|] eqn:E; [|exact Hw].
  destruct (Nat.eqb_spec (length l) (length old)); [|exact Hw].
  apply wf_put_data; [exact Hw|]. apply (same_shape_dset _ _ _ old E). assumption.
Qed.

Lemma wf_set_item c name l : well_formed c -> (exists x, column c name = Some x) ->
  well_formed (fst (set_item c name l)).
Proof.
  intros Hw [x E]. unfold set_item. unfold column in E. rewrite E.
  destruct (Nat.eqb_spec (length l) (length x)); [|exact Hw].
  apply wf_put_data; [exact Hw|]. apply (same_shape_dset _ _ _ x E). assumption.
Qed.

Lemma wf_modify c f name l : well_formed c -> well_formed (fst (modify c f name l)).
Proof.
  intros Hw. unfold modify. destruct (get_view c f) as [| |v] eqn:Ev; [exact Hw|apply wf_write, Hw|].
  destruct (dget name v) as [old|] eqn:E; [|exact Hw].
  destruct (Nat.eqb _ _); [|exact Hw]. apply wf_set_view; [exact Hw|].
  intros w [= <-]. apply (dset_NoDup name l v). destruct Hw as [_ [_ [_ Hv]]]. apply (Hv f v Ev).
Qed.

Lemma scatter_length : forall mask vals l l', scatter_masked mask vals l = Some l' -> length l' = length l.
Proof.
  induction mask as [|b m IH]; intros vals [|x r] l'; cbn [scatter_masked].
  - destruct vals; [intros [= <-]; reflexivity|discriminate].
  - discriminate.
  - destruct b; discriminate.
  - destruct b; [destruct vals as [|v vs]; [discriminate|]|].
    + destruct (scatter_masked m vs r) eqn:E; [|discriminate]. intros [= <-]. cbn. f_equal. eauto.
    + destruct (scatter_masked m vals r) eqn:E; [|discriminate]. intros [= <-]. cbn. f_equal. eauto.
Qed.

Lemma sync_shape mask : forall v d d' e, sync mask v d = (d', e) -> same_shape d' d.
Proof.
  induction v as [|[name vals] r IH]; intros d d' e; cbn [sync].
  { intros [= <- <-]. apply same_shape_refl. }
  destruct (dget name d) as [l|] eqn:E; [|intros [= <- <-]; apply same_shape_refl].
  destruct (scatter_masked mask vals l) as [l'|] eqn:Es; [|intros [= <- <-]; apply same_shape_refl].
  intros H. apply IH in H. eapply same_shape_trans; [exact H|].
  apply (same_shape_dset _ _ _ l E). apply (scatter_length _ _ _ _ Es).
Qed.

Lemma wf_update c f : well_formed c -> well_formed (fst (update_sc c f)).
Proof.
  intros Hw. unfold update_sc. destruct (get_view c f) as [| |v] eqn:Ev.
  - exact Hw.
  - cbn. apply wf_put_view; [exact Hw|]. cbn. discriminate.
  - destruct (fate_mask c f) as [mask|e]; [|exact Hw].
    destruct (sync mask v (c_data c)) as [d e] eqn:E. apply sync_shape in E.
    destruct e; [apply wf_put_data; assumption|].
    cbn [fst]. destruct (_ || _); [apply wf_reset; assumption|].
    change (mkSC (c_types c) d (c_view c)) with (put_data c d). apply wf_put_data; assumption.
Qed.

(** ** Splitting *)

Lemma split_value_ok k num v frac : 2 <= num -> fractions_ok num frac ->
  exists parts, split_value k num v frac = Ok parts /\ length parts = Z.to_nat num.
Proof.
  intros Hn Hf. unfold split_value. destruct (Z.ltb_spec num 2); [lia|].
  assert (Hr : forall x : val, length (repeat x (Z.to_nat num)) = Z.to_nat num) by (intros; apply repeat_length).
  destruct k; try (eexists; split; [reflexivity|apply Hr]).
  destruct frac as [l|]; [|eexists; split; [reflexivity|apply Hr]].
  destruct Hf as [H1 H2]. rewrite H1, Z.eqb_refl. cbn [negb]. unfold close_to_1.
  apply Qle_bool_iff in H2. rewrite H2. cbn [negb].
  eexists. split; [reflexivity|]. rewrite map_length. lia.
Qed.

Lemma split_arrays_ok m idx num frac : (idx < m)%nat -> 2 <= num -> fractions_ok num frac -> forall ts d,
  NoDup (map fst ts) -> (forall name, In name (map fst ts) -> exists l, dget name d = Some l /\ length l = m) ->
  exists d', split_arrays ts idx num frac d = (d', None) /\
    (forall name, ~ In name (map fst ts) -> dget name d' = dget name d) /\
    forall name at_, dget name ts = Some at_ -> exists l v parts,
      dget name d = Some l /\ nth_error l idx = Some v /\ split_value (fst at_) num v frac = Ok parts /\
      dget name d' = Some (firstn idx l ++ parts ++ skipn (S idx) l).
Proof.
  intros Hi Hn Hf. induction ts as [|[x a] r IH]; intros d Hd H; cbn [split_arrays].
  { exists d. split; [reflexivity|]. split; auto. discriminate. }
  inversion Hd as [|? ? Hx Hr]; subst.
  destruct (H x) as [l [E El]]; [left; reflexivity|]. rewrite E.
  destruct (nth_error l idx) as [v|] eqn:En.
  2:{ apply nth_error_None in En. lia. }
  destruct (split_value_ok (fst a) num v frac Hn Hf) as [parts [Ep Hp]]. rewrite Ep.
  destruct (IH (dset x (firstn idx l ++ parts ++ skipn (S idx) l) d) Hr) as [d' [H1 [H2 H3]]].
  { intros name Hin. rewrite dget_dset. destruct (Z.eqb_spec name x) as [->|]; [contradiction|].
    apply H. right. exact Hin. }
  exists d'. split; [exact H1|]. split.
  - intros name Hni. cbn in Hni. rewrite H2 by tauto. rewrite dget_dset.
    destruct (Z.eqb_spec name x); [subst; tauto|reflexivity].
  - intros name at_ Hg. cbn [dget] in Hg. destruct (Z.eqb_spec name x) as [->|Hne].
    + injection Hg as <-. exists l, v, parts. repeat split; auto. rewrite H2 by exact Hx.
      rewrite dget_dset, Z.eqb_refl. reflexivity.
    + destruct (H3 name at_ Hg) as [l' [v' [p' [Q1 [Q2 [Q3 Q4]]]]]]. rewrite dget_dset in Q1.
      destruct (Z.eqb_spec name x); [contradiction|]. exists l', v', p'. auto.
Qed.

Lemma split_arrays_small ts idx num frac d :
  num < 2 -> fst (split_arrays ts idx num frac d) = d.
Proof.
  intros H. destruct ts as [|[x a] r]; cbn [split_arrays]; auto.
  destruct (dget x d) as [l|]; auto. destruct (nth_error l idx) as [v|]; auto.
  unfold split_value. destruct (Z.ltb_spec num 2); [reflexivity|lia].
Qed.

Lemma reset_fatedata_spec ix : forall fates c,
  NoDup fates -> well_formed c -> (forall f, In f fates -> get_view c f <> VAlias) ->
  well_formed (fst (reset_fatedata fates ix c)) /\ c_data (fst (reset_fatedata fates ix c)) = c_data c
  /\ c_types (fst (reset_fatedata fates ix c)) = c_types c.
Proof.
  induction fates as [|f r IH]; intros c Hn Hw Hv; cbn [reset_fatedata]; auto.
  inversion Hn as [|? ? Hf Hr]; subst.
  assert (Hskip : well_formed (fst (reset_fatedata r ix c)) /\ c_data (fst (reset_fatedata r ix c)) = c_data c
    /\ c_types (fst (reset_fatedata r ix c)) = c_types c).
  { apply IH; auto. intros g Hg. apply Hv. right. exact Hg. }
  destruct (match get_view c f with VEmpty => [] | VAlias => c_data c | VCopy v => v end) as [|kv d'] eqn:Ed;
    [exact Hskip|].
  rewrite <- Ed. clear kv d' Ed.
  destruct (dget n_id _) as [il|]; [|auto].
  destruct (existsb (is_val ix) il); [|exact Hskip].
  match goal with |- context[get_data c ?ns f] =>
    destruct (wf_get c ns f Hw) as [H1 [H2 [H3 H4]]];
      [intros E; exfalso; apply (Hv f); [left; reflexivity|exact E]|];
    destruct (get_data c ns f) as [c1 e1] eqn:Eg
  end.
  cbn [fst] in *. destruct e1; [auto|].
  destruct (IH c1 Hr H1) as [Q1 [Q2 Q3]].
  { intros g Hg. rewrite H4; [apply Hv; right; exact Hg|]. intros ->. contradiction. }
  split; [exact Q1|]. split; congruence.
Qed.

Lemma all_fates_NoDup : NoDup all_fates.
Proof. unfold all_fates. repeat constructor; cbn; lia. Qed.

Lemma where_val_first z : forall l i k, where_val i z l = k -> 
  match k with
  | [] => forall v, In v l -> is_val z v = false
  | idx :: _ => (i <= idx < i + length l)%nat /\ (exists v, nth_error l (idx - i) = Some v /\ is_val z v = true)
                /\ forall j v, (i + j < idx)%nat -> nth_error l j = Some v -> is_val z v = false
  end.
Proof.
  induction l as [|x r IH]; intros i k <-; cbn [where_val].
  { intros v []. }
  destruct (is_val z x) eqn:E.
  - cbn [length]. split; [lia|]. rewrite Nat.sub_diag. split; [exists x; auto|]. intros; lia.
  - specialize (IH (S i) _ eq_refl). destruct (where_val (S i) z r) as [|idx t].
    + intros v [<-|Hv]; auto.
    + cbn [length]. destruct IH as [H1 [[v [H2 H3]] H4]]. split; [lia|]. split.
      * exists v. replace (idx - i)%nat with (S (idx - S i)) by lia. auto.
      * intros [|j] w Hj Hw; [cbn in Hw; congruence|]. apply (H4 j w); [lia|exact Hw].
Qed.

Lemma wf_split_data c idx num frac d m :
  well_formed c -> aligned c m -> (idx < m)%nat -> 2 <= num -> fractions_ok num frac ->
  split_arrays (c_types c) idx num frac (c_data c) = (d, None) ->
  well_formed (put_data c d) /\ aligned (put_data c d) (m + Z.to_nat num - 1).
Proof.
  intros [_ [Hc [Hp Hv]]] Ha Hi Hn Hf E.
  destruct (split_arrays_ok m idx num frac Hi Hn Hf (c_types c) (c_data c) Hp) as [d' [E' [H1 H2]]].
  { intros name Hin. apply Hc in Hin. destruct Hin as [l El]. exists l. split; [exact El|apply (Ha _ _ El)]. }
  rewrite E in E'. injection E' as <-.
  assert (Ha' : aligned (put_data c d) (m + Z.to_nat num - 1)).
  { intros name l El. unfold column in El; cbn in El.
    destruct (dget name (c_types c)) as [a|] eqn:Et.
    - destruct (H2 name a Et) as [l0 [v [parts [Q1 [Q2 [Q3 Q4]]]]]]. rewrite El in Q4. apply (f_equal (fun o => match o with Some x => x | None => [] end)) in Q4.
      cbv iota beta in Q4. subst l.
      destruct (split_value_ok (fst a) num v frac Hn Hf) as [p' [P1 P2]]. rewrite Q3 in P1. injection P1 as <-.
      rewrite !app_length, firstn_length, skipn_length, P2. rewrite (Ha name l0 Q1). lia.
    - exfalso. assert (Hni : ~ In name (map fst (c_types c))).
      { rewrite dget_in_keys. intros [? ?]; congruence. }
      rewrite (H1 name Hni) in El. apply Hni. apply Hc. exists l. exact El. }
  split; [|exact Ha']. split; [eauto|]. split; [|split; [exact Hp|exact Hv]].
  intros name. unfold column; cbn. destruct (dget name (c_types c)) as [a|] eqn:Et.
  - destruct (H2 name a Et) as [l0 [v [parts [Q1 [Q2 [Q3 Q4]]]]]]. rewrite Q4. split; eauto.
    intros _. apply dget_in_keys. eauto.
  - assert (Hni : ~ In name (map fst (c_types c))).
    { rewrite dget_in_keys. intros [? ?]; congruence. }
    rewrite (H1 name Hni). apply (Hc name).
Qed.

Lemma wf_split c ix num frac :
  well_formed c -> fractions_ok num frac -> (forall f, get_view c f <> VAlias) ->
  well_formed (fst (split_element c ix num frac)).
Proof.
  intros Hw Hf Hv. pose proof Hw as [[m Ha] [Hc [Hp _]]]. unfold split_element.
  destruct (dget n_id (c_data c)) as [il|] eqn:Ei; [|exact Hw].
  pose proof (where_val_first ix il 0 _ eq_refl) as Hfirst.
  destruct (where_val 0 ix il) as [|idx t]; [exact Hw|].
  destruct Hfirst as [Hidx _]. rewrite (Ha n_id il Ei) in Hidx.
  destruct (split_arrays (c_types c) idx num frac (c_data c)) as [d e] eqn:E.
  destruct (Z_lt_le_dec num 2) as [Hn|Hn].
  { assert (Hd : d = c_data c).
    { pose proof (split_arrays_small (c_types c) idx num frac (c_data c) Hn) as Q. rewrite E in Q. exact Q. }
    assert (Hsame : put_data c (c_data c) = c) by (destruct c; reflexivity). rewrite Hd, Hsame.
    destruct e; [exact Hw|]. apply reset_fatedata_spec; auto. apply all_fates_NoDup. }
  destruct (split_arrays_ok m idx num frac ltac:(lia) Hn Hf (c_types c) (c_data c) Hp) as [d' [E' _]].
  { intros name Hin. apply Hc in Hin. destruct Hin as [l El]. exists l. split; [exact El|apply (Ha _ _ El)]. }
  rewrite E in E'. injection E' as <- ->.
  destruct (wf_split_data c idx num frac d m Hw Ha ltac:(lia) Hn Hf E) as [Hw' _].
  apply reset_fatedata_spec; [apply all_fates_NoDup|exact Hw'|]. intros f _. exact (Hv f).
Qed.

(** ** All histories *)

Lemma wf_do_op iv c o iv' c' e : well_formed c -> tidy c o -> do_op iv c o = (iv', c', e) -> well_formed c'.
Proof.
  intros Hw Ht. destruct o; cbn [do_op tidy] in *.
  - intros [= <- <- <-]. apply wf_empty.
  - intros [= <- <- <-]. apply (wf_prepare c defaults ats Hw Ht).
  - intros H. destruct Hw as [[m Ha] Hr]. apply (wf_release rs iv c iv' c' e m (conj (ex_intro _ m Ha) Hr) Ha H).
  - intros [= <- <- <-]. apply wf_step_done, Hw.
  - intros [= <- <- <-]. apply wf_split; tauto.
  - intros [= <- <- <-]. apply wf_set_item; auto.
  - intros [= <- <- <-]. apply wf_write, Hw.
  - intros [= <- <- <-]. apply wf_get; auto.
  - intros [= <- <- <-]. apply wf_modify, Hw.
  - intros [= <- <- <-]. apply wf_update, Hw.
Qed.

Lemma wf_do_world w o : (forall u, well_formed (container w u)) -> tidy (container w (fst o)) (snd o) ->
  forall u, well_formed (container (do_world w o) u).
Proof.
  intros Hw Ht. destruct o as [[|] o]; cbn [fst snd] in Ht; unfold do_world.
  - destruct (do_op (w_iv w) (w_unc w) o) as [[iv c] e] eqn:E.
    pose proof (wf_do_op _ _ _ _ _ _ (Hw true) Ht E) as H.
    intros [|]; cbn; [exact H|apply (Hw false)].
  - destruct (do_op (w_iv w) (w_fc w) o) as [[iv c] e] eqn:E.
    pose proof (wf_do_op _ _ _ _ _ _ (Hw false) Ht E) as H.
    intros [|]; cbn; [apply (Hw true)|exact H].
Qed.

Lemma wf_run : forall os w, (forall u, well_formed (container w u)) -> tidy_run w os ->
  forall u, well_formed (container (run_world w os) u).
Proof.
  induction os as [|o r IH]; intros w Hw Ht; cbn [tidy_run] in *; [exact Hw|].
  destruct Ht as [H1 H2]. unfold run_world. cbn [fold_left].
  apply (IH (do_world w o)); [|exact H2]. apply wf_do_world; assumption.
Qed.

(** ** Identities *)

Definition IdInv (iv : Z) (c : sc) : Prop :=
  NoDup (map fst (c_types c)) /\
  (forall l, column c n_id = Some l ->
     (exists zs, l = map VZ zs /\ StronglySorted Z.lt zs /\ Forall (fun z => z < iv) zs) /\
     exists v, dget n_id (c_types c) = Some (IdKind, v)) /\
  (forall f v, get_view c f = VCopy v -> ~ In n_id (map fst v)).

Lemma ids_VZ c zs : column c n_id = Some (map VZ zs) -> ids c = zs.
Proof. intros H. unfold ids. rewrite H, map_map. exact (map_id zs). Qed.

Lemma ids_none c : column c n_id = None -> ids c = [].
Proof. intros H. unfold ids. rewrite H. reflexivity. Qed.

Lemma id_inv_ids iv c : IdInv iv c ->
  StronglySorted Z.lt (ids c) /\ Forall (fun z => z < iv) (ids c).
Proof.
  intros [_ [H _]]. destruct (column c n_id) as [l|] eqn:E.
  - destruct (H l eq_refl) as [[zs [-> [H1 H2]]] _]. rewrite (ids_VZ c zs E). auto.
  - rewrite (ids_none c E). split; constructor.
Qed.

Lemma id_inv_mono iv iv' c : iv <= iv' -> IdInv iv c -> IdInv iv' c.
Proof.
  intros Hle [H1 [H2 H3]]. split; [exact H1|]. split; [|exact H3]. intros l E.
  destruct (H2 l E) as [[zs [-> [Hs Hf]]] Hv]. split; [|exact Hv]. exists zs. split; auto. split; auto.
  eapply Forall_impl; [|exact Hf]. cbn. intros; lia.
Qed.

(** Operations that leave the ids alone. *)
Lemma id_inv_same iv c c' :
  IdInv iv c -> c_types c' = c_types c -> column c' n_id = column c n_id ->
  (forall f v, get_view c' f = VCopy v -> ~ In n_id (map fst v)) -> IdInv iv c' /\ ids c' = ids c.
Proof.
  intros [H1 [H2 _]] Ht Hc Hv. split; [|unfold ids; rewrite Hc; reflexivity].
  split; [rewrite Ht; exact H1|]. split; [|exact Hv]. rewrite Ht, Hc. exact H2.
Qed.

Lemma SS_app : forall a b, StronglySorted Z.lt a -> StronglySorted Z.lt b ->
  (forall x y, In x a -> In y b -> x < y) -> StronglySorted Z.lt (a ++ b).
Proof.
  induction a as [|x r IH]; intros b Ha Hb H; cbn; auto.
  inversion Ha as [|? ? Hr Hf]; subst. constructor.
  - apply IH; auto. intros; apply H; auto. right; auto.
  - apply Forall_app. split; [exact Hf|]. apply Forall_forall. intros y Hy. apply H; [left; auto|exact Hy].
Qed.

Lemma delete_from_sub : forall zs i ixs, exists zs',
  delete_from i ixs (map VZ zs) = map VZ zs' /\ incl zs' zs /\
  (StronglySorted Z.lt zs -> StronglySorted Z.lt zs').
Proof.
  induction zs as [|z r IH]; intros i ixs; cbn [map delete_from].
  { exists []. split; [reflexivity|]. split; [apply incl_refl|auto]. }
  destruct (IH (S i) ixs) as [zs' [E [Hi Hs]]].
  destruct (existsb (Nat.eqb i) ixs).
  - exists zs'. split; [exact E|]. split; [apply incl_tl, Hi|]. intros H. inversion H; subst; auto.
  - exists (z :: zs'). split; [cbn; f_equal; exact E|]. split.
    + intros y [<-|Hy]; [left; auto|right; apply Hi, Hy].
    + intros H. inversion H as [|? ? Hr Hf]; subst. constructor; auto.
      rewrite Forall_forall in *. intros y Hy. apply Hf, Hi, Hy.
Qed.

Lemma delete_all_frame ixs : forall ts d d' e, delete_all ts ixs d = (d', e) -> NoDup (map fst ts) ->
  forall name, dget name d' = dget name d \/
    exists l, dget name d = Some l /\ dget name d' = Some (delete_from 0 ixs l).
Proof.
  induction ts as [|[x a] r IH]; intros d d' e; cbn [delete_all].
  { intros [= <- <-] _ name. left; reflexivity. }
  destruct (dget x d) as [l|] eqn:E; [|intros [= <- <-] _ name; left; reflexivity].
  unfold np_delete. destruct (forallb _ ixs); [|intros [= <- <-] _ name; left; reflexivity].
  intros H Hn name. inversion Hn as [|? ? Hx Hr]; subst.
  assert (Hfr : forall ts d d' e, delete_all ts ixs d = (d', e) -> ~ In x (map fst ts) -> dget x d' = dget x d).
  { clear. induction ts as [|[y b] s IHs]; intros d d' e; cbn [delete_all].
    - intros [= <- <-] _. reflexivity.
    - intros H Hy. cbn in Hy. destruct (dget y d) as [m|]; [|injection H as <- <-; reflexivity].
      destruct (np_delete ixs m); [|injection H as <- <-; reflexivity].
      rewrite (IHs _ _ _ H) by tauto. rewrite dget_dset. destruct (Z.eqb_spec x y); [subst; tauto|reflexivity]. }
  destruct (Z.eq_dec name x) as [->|Hne].
  - right. exists l. split; [exact E|]. rewrite (Hfr _ _ _ _ H Hx). rewrite dget_dset, Z.eqb_refl. reflexivity.
  - destruct (IH _ _ _ H Hr name) as [Q|[m [Q1 Q2]]]; rewrite dget_dset in *;
      destruct (Z.eqb_spec name x); try contradiction; [left; exact Q|right; eauto].
Qed.

Lemma ids_step_done iv c : IdInv iv c ->
  IdInv iv (fst (step_done c)) /\ incl (ids (fst (step_done c))) (ids c).
Proof.
  intros HI. pose proof HI as [H1 [H2 H3]].
  assert (Hc : IdInv iv c /\ incl (ids c) (ids c)) by (split; [exact HI|apply incl_refl]).
  unfold step_done. destruct (c_data c) as [|kv tl] eqn:Ed; [exact Hc|]. rewrite <- Ed in *. clear kv tl Ed.
  destruct (dget n_status (c_data c)) as [st|]; [|exact Hc].
  destruct (where_val 0 to_be_removed st) as [|i t] eqn:Ew; [exact Hc|]. rewrite <- Ew. clear Ew i t.
  destruct (delete_all (c_types c) (where_val 0 to_be_removed st) (c_data c)) as [d e] eqn:E.
  assert (Hd : forall v, (forall f w, match dget f v with Some x => x | None => VEmpty end = VCopy w -> ~ In n_id (map fst w)) ->
      IdInv iv (mkSC (c_types c) d v) /\ incl (ids (mkSC (c_types c) d v)) (ids c)).
  { intros v Hv. destruct (delete_all_frame _ _ _ _ _ E H1 n_id) as [Q|[l [Q1 Q2]]].
    - destruct (id_inv_same iv c (mkSC (c_types c) d v) HI eq_refl Q Hv) as [R1 R2].
      split; [exact R1|]. rewrite R2. apply incl_refl.
    - destruct (H2 l Q1) as [[zs [-> [Hs Hf]]] Ht].
      destruct (delete_from_sub zs 0 (where_val 0 to_be_removed st)) as [zs' [Ez [Hi Hs']]].
      rewrite Ez in Q2. split.
      + split; [exact H1|]. split; [|exact Hv]. intros l0 El. unfold column in El; cbn in El.
        rewrite Q2 in El. injection El as <-. split; [|exact Ht].
        exists zs'. split; [reflexivity|]. split; [auto|]. rewrite Forall_forall in *. intros z Hz. apply Hf, Hi, Hz.
      + rewrite (ids_VZ (mkSC (c_types c) d v) zs' Q2), (ids_VZ c zs Q1). exact Hi. }
  destruct e; [apply (Hd (c_view c)); exact H3|apply Hd]. cbn. discriminate.
Qed.

Lemma py_get_last {A} (l : list A) x : py_get (l ++ [x]) (-1) = Ok x.
Proof.
  unfold py_get. rewrite py_pos_neg by (rewrite app_length; cbn; lia).
  rewrite app_length. cbn [length]. replace (Z.to_nat (-1 + Z.of_nat (length l + 1))) with (length l) by lia.
  rewrite nth_error_app2 by lia. rewrite Nat.sub_diag. reflexivity.
Qed.

(** The ids of the new elements: consecutive from the counter. *)
Lemma release_ids : forall rs iv c iv' c',
  IdInv iv c -> Forall (fun r => ~ In n_id (map fst (ri_writes r))) rs ->
  release_loop iv c rs = (iv', c', None) ->
  IdInv iv' c' /\ iv' = iv + Z.of_nat (rel_total rs) /\
  ids c' = ids c ++ zseq iv (rel_total rs).
Proof.
  induction rs as [|r rest IH]; intros iv c iv' c' HI Hw; cbn [release_loop].
  { intros [= <- <-]. unfold rel_total. cbn. rewrite app_nil_r, Z.add_0_r.
    destruct (id_inv_same iv c (put_view c []) HI eq_refl eq_refl) as [R1 R2]; [cbn; discriminate|].
    auto. }
  inversion Hw as [|? ? Hw1 Hw2]; subst.
  change (rel_total (r :: rest)) with (Z.to_nat (ri_n r) + rel_total rest)%nat.
  destruct (Z.leb_spec (ri_n r) 0) as [Hn|Hn].
  { intros H. destruct (IH _ _ _ _ HI Hw2 H) as [R1 [R2 R3]].
    replace (Z.to_nat (ri_n r)) with O by lia. auto. }
  destruct (append_arrays iv (c_types c) (ri_n r) (c_data c)) as [d e1] eqn:E1.
  destruct e1; [discriminate|].
  destruct (write_tails _ _ d) as [d2 e2] eqn:E2. destruct e2; [discriminate|].
  destruct (ri_fail r); [discriminate|].
  destruct (dget n_spill d2) as [sp|] eqn:Esp; [|discriminate].
  destruct (dget n_id d2) as [il|] eqn:Eid; [|discriminate].
  pose proof HI as [H1 [H2 H3]].
  destruct (append_get _ _ _ _ _ _ E1 H1) as [Hf Hs]. specialize (Hs eq_refl).
  assert (Eid' : dget n_id d = Some il).
  { rewrite <- Eid. symmetry. apply (write_tails_frame _ _ _ _ _ n_id E2).
    cbn [map fst In]. intros [Q|Q]; [unfold n_spill, n_id in Q; lia|contradiction]. }
  assert (Hold : exists l, column c n_id = Some l).
  { destruct (dget n_id (c_types c)) as [a|] eqn:Et.
    - destruct (Hs n_id a Et) as [l [Q1 _]]. exists l. exact Q1.
    - exists il. unfold column. rewrite <- Eid'. symmetry. apply Hf. rewrite dget_in_keys. intros [? ?]; congruence. }
  destruct Hold as [l El]. destruct (H2 l El) as [[zs [-> [Hss Hlt]]] [v Et]].
  destruct (Hs n_id _ Et) as [l' [Q1 Q2]]. unfold column in El. rewrite El in Q1. injection Q1 as <-.
  rewrite Eid' in Q2. injection Q2 as ->.
  unfold initialize in *. cbn [fst] in *. rewrite <- map_app in *.
  set (n := Z.to_nat (ri_n r)) in *.
  assert (En : exists k, n = S k) by (exists (pred n); lia). destruct En as [k Ek].
  (* the spill numbers are not empty *)
  assert (Hsp : sp <> []).
  { intros ->. cbn [write_tails] in E2. unfold write_tail in E2. fold n in E2.
    destruct (dget n_spill d) as [lsp|] eqn:Elsp; [|discriminate].
    destruct (Nat.eqb_spec (length (repeat (VZ (ri_idx r)) n)) (length (skipn (length lsp - n) lsp))) as [Q|]; [|discriminate].
    rewrite repeat_length, skipn_length in Q.
    apply write_tails_shape in E2. specialize (E2 n_spill). unfold shape in E2. rewrite Esp, dget_dset, Z.eqb_refl in E2.
    cbn in E2. injection E2 as E2. rewrite app_length, repeat_length in E2. lia. }
  destruct sp as [|s0 sp]; [contradiction|].
  assert (Elast : py_get (map VZ (zs ++ zseq iv n)) (-1) = Ok (VZ (iv + Z.of_nat k))).
  { rewrite Ek, zseq_snoc, app_assoc, map_app. cbn [map]. apply py_get_last. }
  rewrite Elast.
  assert (HI2 : IdInv (iv + Z.of_nat k + 1) (put_data c d2)).
  { split; [exact H1|]. split; [|exact H3]. intros l0 E0. unfold column in E0; cbn in E0. rewrite Eid in E0.
    injection E0 as <-. split; [|eauto]. exists (zs ++ zseq iv n). split; [reflexivity|]. split.
    - apply SS_app; [exact Hss|apply zseq_sorted|]. intros x y Hx Hy. apply zseq_In in Hy.
      rewrite Forall_forall in Hlt. apply Hlt in Hx. lia.
    - apply Forall_app. split.
      + eapply Forall_impl; [|exact Hlt]. cbn. intros; lia.
      + apply Forall_forall. intros y Hy. apply zseq_In in Hy. lia. }
  intros H. destruct (IH _ _ _ _ HI2 Hw2 H) as [R1 [R2 R3]].
  split; [exact R1|]. split; [lia|]. rewrite R3.
  rewrite (ids_VZ (put_data c d2) (zs ++ zseq iv n) Eid), (ids_VZ c zs El). rewrite <- app_assoc. f_equal.
  replace (iv + Z.of_nat k + 1) with (iv + Z.of_nat n) by lia.
  assert (Hz : forall a x y, zseq a x ++ zseq (a + Z.of_nat x) y = zseq a (x + y)).
  { clear. intros a x. revert a. induction x as [|x IHx]; intros a y; cbn [zseq app].
    - f_equal. lia.
    - change (S x + y)%nat with (S (x + y)). cbn [zseq]. f_equal. rewrite <- IHx. f_equal. f_equal. lia. }
  apply Hz.
Qed.

Lemma view_no_id_dset c f x :
  (forall g v, get_view c g = VCopy v -> ~ In n_id (map fst v)) ->
  (forall v, x = VCopy v -> ~ In n_id (map fst v)) ->
  forall g v, get_view (put_view c (dset f x (c_view c))) g = VCopy v -> ~ In n_id (map fst v).
Proof.
  intros H Hx g v. unfold get_view; cbn. rewrite dget_dset. destruct (Z.eqb_spec g f); [apply Hx|apply H].
Qed.

Lemma copy_true mask name : forall names data data' dst dst' e,
  copy_masked true mask names data dst = (data', dst', e) -> ~ In name names -> dget name data' = dget name data.
Proof.
  induction names as [|x r IH]; intros data data' dst dst' e; cbn [copy_masked].
  { intros [= <- <- <-] _. reflexivity. }
  intros H Hn. cbn in Hn. destruct (dget x data) as [l|] eqn:E; [|injection H as <- <- <-; reflexivity].
  destruct (Nat.eqb _ _); [|injection H as <- <- <-; reflexivity].
  rewrite (IH _ _ _ _ _ H) by tauto. rewrite dget_dset. destruct (Z.eqb_spec name x); [subst; tauto|reflexivity].
Qed.

Lemma no_id_key v : ~ In n_id (map fst v) <-> dget n_id (v : arrays) = None.
Proof.
  rewrite dget_in_keys. destruct (dget n_id v); split; intros; try congruence.
  - exfalso. apply H. eauto.
  - intros [? ?]; discriminate.
Qed.

Lemma ids_get iv c names f : IdInv iv c -> ~ In n_id names ->
  IdInv iv (fst (get_data c names f)) /\ ids (fst (get_data c names f)) = ids c.
Proof.
  intros HI Hn. pose proof HI as [_ [_ H3]]. unfold get_data.
  destruct (fate_mask c f) as [mask|]; [|auto].
  destruct (forallb _ mask).
  { cbn [fst]. apply id_inv_same; auto. apply view_no_id_dset; [exact H3|discriminate]. }
  destruct (get_view c f) as [| |v] eqn:Ev.
  - destruct (copy_masked false mask names (c_data c) []) as [[d v] e] eqn:E.
    apply copy_false in E. destruct E as [-> [_ [Hf _]]]. cbn [fst].
    apply id_inv_same; auto. apply view_no_id_dset; [exact H3|]. intros w [= <-]. apply no_id_key.
    rewrite (Hf n_id Hn). reflexivity.
  - destruct (copy_masked true mask names (c_data c) []) as [[d v] e] eqn:E. cbn [fst].
    apply id_inv_same; auto. apply (copy_true _ _ _ _ _ _ _ _ E Hn).
  - destruct (copy_masked false mask names (c_data c) v) as [[d v'] e] eqn:E.
    apply copy_false in E. destruct E as [-> [_ [Hf _]]]. cbn [fst].
    apply id_inv_same; auto. apply view_no_id_dset; [exact H3|]. intros w [= <-]. apply no_id_key.
    rewrite (Hf n_id Hn). apply no_id_key. apply (H3 f v Ev).
Qed.

Lemma ids_dset iv c name l : IdInv iv c -> name <> n_id ->
  IdInv iv (put_data c (dset name l (c_data c))) /\ ids (put_data c (dset name l (c_data c))) = ids c.
Proof.
  intros HI Hn. apply id_inv_same; auto.
  - unfold column; cbn. rewrite dget_dset. destruct (Z.eqb_spec n_id name); [congruence|reflexivity].
  - destruct HI as [_ [_ H3]]. exact H3.
Qed.

Lemma ids_write iv c name l : IdInv iv c -> name <> n_id ->
  IdInv iv (fst (write c name l)) /\ ids (fst (write c name l)) = ids c.
Proof.
  intros HI Hn. unfold write. destruct (dget name (c_data c)); [|auto].
  destruct (Nat.eqb _ _); [|auto]. apply ids_dset; auto.
Qed.

Lemma ids_set_item iv c name l : IdInv iv c -> name <> n_id ->
  IdInv iv (fst (set_item c name l)) /\ ids (fst (set_item c name l)) = ids c.
Proof.
  intros HI Hn. unfold set_item. destruct (dget name (c_data c));
  (destruct (Nat.eqb _ _); [apply ids_dset; auto|auto]).
Qed.

Lemma ids_modify iv c f name l : IdInv iv c -> name <> n_id ->
  IdInv iv (fst (modify c f name l)) /\ ids (fst (modify c f name l)) = ids c.
Proof.
  intros HI Hn. pose proof HI as [_ [_ H3]]. unfold modify.
  destruct (get_view c f) as [| |v] eqn:Ev; [auto|apply ids_write; auto|].
  destruct (dget name v); [|auto]. destruct (Nat.eqb _ _); [|auto]. cbn [fst].
  apply id_inv_same; auto. apply view_no_id_dset; [exact H3|]. intros w [= <-]. apply no_id_key.
  rewrite dget_dset. destruct (Z.eqb_spec n_id name); [congruence|]. apply no_id_key. apply (H3 f v Ev).
Qed.

Lemma sync_frame mask name : forall v d d' e, sync mask v d = (d', e) ->
  ~ In name (map fst v) -> dget name d' = dget name d.
Proof.
  induction v as [|[x vals] r IH]; intros d d' e; cbn [sync].
  { intros [= <- <-] _. reflexivity. }
  intros H Hn. cbn in Hn. destruct (dget x d) as [l|]; [|injection H as <- <-; reflexivity].
  destruct (scatter_masked mask vals l); [|injection H as <- <-; reflexivity].
  rewrite (IH _ _ _ H) by tauto. rewrite dget_dset. destruct (Z.eqb_spec name x); [subst; tauto|reflexivity].
Qed.

Lemma ids_update iv c f : IdInv iv c ->
  IdInv iv (fst (update_sc c f)) /\ ids (fst (update_sc c f)) = ids c.
Proof.
  intros HI. pose proof HI as [_ [_ H3]]. unfold update_sc. destruct (get_view c f) as [| |v] eqn:Ev; [auto| |].
  { apply id_inv_same; auto. cbn. discriminate. }
  destruct (fate_mask c f) as [mask|]; [|auto].
  destruct (sync mask v (c_data c)) as [d e] eqn:E.
  pose proof (sync_frame _ n_id _ _ _ _ E (H3 f v Ev)) as Q.
  destruct e; [apply id_inv_same; auto|]. cbn [fst].
  destruct (_ || _); apply id_inv_same; auto. cbn. discriminate.
Qed.

Lemma ids_op w o : IdInv (w_iv w) (container w (fst o)) -> keeps_ids w o ->
  exists iv' c' e, do_op (w_iv w) (container w (fst o)) (snd o) = (iv', c', e) /\
    w_iv w <= iv' /\ IdInv iv' c' /\
    forall i, In i (ids c') -> In i (ids (container w (fst o))) \/ w_iv w <= i.
Proof.
  intros HI Hk. set (c := container w (fst o)) in *. unfold keeps_ids, error in Hk. fold c in Hk.
  assert (Hsame : forall c', IdInv (w_iv w) c' /\ ids c' = ids c ->
     w_iv w <= w_iv w /\ IdInv (w_iv w) c' /\ forall i, In i (ids c') -> In i (ids c) \/ w_iv w <= i).
  { intros c' [Q1 Q2]. split; [lia|]. split; [exact Q1|]. rewrite Q2. auto. }
  destruct (snd o) as [ | |rs| | | | | | | ] eqn:Eo; cbn [do_op] in *.
  - eexists _, _, _. split; [reflexivity|]. split; [lia|]. split; [|cbn; tauto].
    split; [constructor|]. split; [discriminate|cbn; discriminate].
  - eexists _, _, _. split; [reflexivity|]. split; [lia|]. destruct Hk as [v Hk].
    assert (Ec : column (prepare_sc defaults ats c) n_id = Some []).
    { unfold column, prepare_sc; cbn. rewrite init_arrays_get. unfold dmem. rewrite Hk. reflexivity. }
    split; [|rewrite (ids_VZ _ [] Ec); cbn; tauto].
    split; [apply update_types_NoDup|]. split.
    + intros l El. rewrite Ec in El. injection El as <-. split; [|exists v; exact Hk].
      exists []. split; [reflexivity|]. split; constructor.
    + unfold prepare_sc, get_view; cbn. destruct (dmem n_fate _); [discriminate|]. apply HI.
  - destruct Hk as [Hk1 Hk2]. destruct (release_loop (w_iv w) c rs) as [[iv' c'] e] eqn:E.
    cbn in Hk2. subst e. destruct (release_ids _ _ _ _ _ HI Hk1 E) as [R1 [R2 R3]].
    exists iv', c', None. split; [reflexivity|]. split; [lia|]. split; [exact R1|].
    rewrite R3. intros i Hi. apply in_app_iff in Hi. destruct Hi as [Hi|Hi]; [auto|].
    apply zseq_In in Hi. right. lia.
  - eexists _, _, _. split; [reflexivity|]. destruct (ids_step_done _ _ HI) as [R1 R2].
    split; [lia|]. split; [exact R1|]. intros i Hi. left. apply R2, Hi.
  - contradiction.
  - eexists _, _, _. split; [reflexivity|]. apply Hsame, ids_set_item; auto.
  - eexists _, _, _. split; [reflexivity|]. apply Hsame, ids_write; auto.
  - eexists _, _, _. split; [reflexivity|]. apply Hsame, ids_get; auto.
  - eexists _, _, _. split; [reflexivity|]. apply Hsame, ids_modify; auto.
  - eexists _, _, _. split; [reflexivity|]. apply Hsame, ids_update; auto.
Qed.

Definition WInv (w : world) : Prop :=
  IdInv (w_iv w) (w_fc w) /\ IdInv (w_iv w) (w_unc w) /\
  forall i, In i (ids (w_fc w)) -> In i (ids (w_unc w)) -> False.

Lemma winv_step w o : WInv w -> keeps_ids w o ->
  WInv (do_world w o) /\ w_iv w <= w_iv (do_world w o) /\
  forall u i, In i (ids (container (do_world w o) u)) -> In i (ids (container w u)) \/ w_iv w <= i.
Proof.
  intros [Hf [Hu Hd]] Hk. destruct o as [[|] o]; unfold do_world.
  - destruct (ids_op w (true, o) Hu Hk) as [iv' [c' [e [E [Hle [HI Hi]]]]]]. cbn [fst snd container] in *.
    rewrite E. cbn [w_iv w_fc w_unc container]. split; [|split; [exact Hle|]].
    + split; [cbn; eapply id_inv_mono; eassumption|]. split; [exact HI|]. cbn. intros i H1 H2.
      apply Hi in H2. destruct H2 as [H2|H2]; [exact (Hd i H1 H2)|].
      destruct (id_inv_ids _ _ Hf) as [_ Q]. rewrite Forall_forall in Q. apply Q in H1. lia.
    + intros [|] i H; cbn in *; auto.
  - destruct (ids_op w (false, o) Hf Hk) as [iv' [c' [e [E [Hle [HI Hi]]]]]]. cbn [fst snd container] in *.
    rewrite E. cbn [w_iv w_fc w_unc container]. split; [|split; [exact Hle|]].
    + split; [exact HI|]. split; [cbn; eapply id_inv_mono; eassumption|]. cbn. intros i H1 H2.
      apply Hi in H1. destruct H1 as [H1|H1]; [exact (Hd i H1 H2)|].
      destruct (id_inv_ids _ _ Hu) as [_ Q]. rewrite Forall_forall in Q. apply Q in H2. lia.
    + intros [|] i H; cbn in *; auto.
Qed.

Lemma winv_run : forall os w, WInv w -> keeps_ids_run w os ->
  WInv (run_world w os) /\ w_iv w <= w_iv (run_world w os) /\
  forall u i, In i (ids (container (run_world w os) u)) -> In i (ids (container w u)) \/ w_iv w <= i.
Proof.
  induction os as [|o r IH]; intros w Hw Hk; cbn [keeps_ids_run] in Hk.
  { split; [exact Hw|]. cbn. split; [lia|]. auto. }
  destruct Hk as [H1 H2]. destruct (winv_step w o Hw H1) as [Q1 [Q2 Q3]].
  unfold run_world. cbn [fold_left]. destruct (IH (do_world w o) Q1 H2) as [R1 [R2 R3]].
  split; [exact R1|]. unfold run_world in *. split; [lia|]. intros u i Hi. apply R3 in Hi.
  destruct Hi as [Hi|Hi]; [apply Q3, Hi|right; lia].
Qed.

Lemma winv_new : WInv new_world.
Proof.
  assert (IdInv 0 empty_sc) as H.
  { split; [constructor|]. split; [discriminate|cbn; discriminate]. }
  split; [exact H|]. split; [exact H|]. cbn. tauto.
Qed.

Lemma keeps_ids_app : forall a b w, keeps_ids_run w (a ++ b) <-> keeps_ids_run w a /\ keeps_ids_run (run_world w a) b.
Proof.
  induction a as [|o r IH]; intros b w; cbn [app keeps_ids_run]; [cbn; tauto|].
  rewrite IH. unfold run_world. cbn [fold_left]. tauto.
Qed.

Lemma run_app a b w : run_world w (a ++ b) = run_world (run_world w a) b.
Proof. unfold run_world. apply fold_left_app. Qed.

Lemma ids_never_reused h1 h2 h3 u i :
  keeps_ids_run new_world (h1 ++ h2 ++ h3) ->
  In i (ids (container (run_world new_world h1) u)) ->
  ~ In i (ids (container (run_world new_world (h1 ++ h2)) u)) ->
  forall u', ~ In i (ids (container (run_world new_world (h1 ++ h2 ++ h3)) u')).
Proof.
  intros Hk Hin Hout u' Hc. apply keeps_ids_app in Hk. destruct Hk as [K1 K2].
  apply keeps_ids_app in K2. destruct K2 as [K2 K3].
  rewrite run_app in Hout. rewrite !run_app in Hc.
  set (w1 := run_world new_world h1) in *. set (w2 := run_world w1 h2) in *.
  destruct (winv_run h1 new_world winv_new K1) as [I1 _]. fold w1 in I1.
  destruct (winv_run h2 w1 I1 K2) as [I2 [L2 Q2]]. fold w2 in I2, L2, Q2.
  destruct (winv_run h3 w2 I2 K3) as [_ [_ Q3]].
  assert (Hlt : i < w_iv w1).
  { destruct I1 as [F [U _]]. destruct u; cbn in Hin;
      [destruct (id_inv_ids _ _ U) as [_ Q]|destruct (id_inv_ids _ _ F) as [_ Q]];
      rewrite Forall_forall in Q; apply Q, Hin. }
  apply Q3 in Hc. destruct Hc as [Hc|Hc]; [|lia].
  destruct (Bool.bool_dec u u') as [->|Hne]; [contradiction|].
  apply Q2 in Hc. destruct Hc as [Hc|Hc]; [|lia].
  destruct I1 as [_ [_ Hd]]. destruct u, u'; try congruence; cbn in Hin, Hc.
  - exact (Hd i Hc Hin).
  - exact (Hd i Hin Hc).
Qed.

Lemma ids_increasing os : keeps_ids_run new_world os ->
  let w := run_world new_world os in
  (forall u, StronglySorted Z.lt (ids (container w u))) /\
  forall i, In i (ids (container w false)) -> ~ In i (ids (container w true)).
Proof.
  intros Hk w. destruct (winv_run os new_world winv_new Hk) as [[F [U D]] _]. fold w in F, U, D. split.
  - intros [|]; cbn; [apply (id_inv_ids _ _ U)|apply (id_inv_ids _ _ F)].
  - intros i H1 H2. exact (D i H1 H2).
Qed.
