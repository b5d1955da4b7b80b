(** * Proofs about views and splitting *)
From Verif Require Import Py PyLemmas QLemmas ScModel ScSpec ScProofs.
Open Scope Z_scope.

(** ** Rows *)

Lemma rows_all {A} : forall sel (l : list A), (forall b, In b sel -> b = true) -> length l = length sel -> rows sel l = l.
Proof.
  induction sel as [|b s IH]; intros [|x r] H Hl; try discriminate; auto. cbn [rows].
  rewrite (H b (or_introl eq_refl)). f_equal. apply IH; [intros; apply H; right; auto|]. cbn in Hl. lia.
Qed.

Lemma rows_none {A} : forall sel (l : list A), (forall b, In b sel -> b = true) -> rows (map negb sel) l = [].
Proof.
  induction sel as [|b s IH]; intros [|x r] H; auto. cbn [map rows].
  rewrite (H b (or_introl eq_refl)). cbn. apply IH. intros; apply H; right; auto.
Qed.

Lemma rows_length {A} : forall sel (l : list A), length l = length sel -> length (rows sel l) = length (rows sel sel).
Proof.
  induction sel as [|b s IH]; intros [|x r] H; try discriminate; auto. cbn [rows].
  destruct b; cbn [length]; rewrite (IH r) by (cbn in H; lia); reflexivity.
Qed.

Lemma rows_all_length sel : (forall b, In b sel -> b = true) -> length (rows sel sel) = length sel.
Proof. intros H. rewrite rows_all; auto. Qed.

Lemma scatter_ok : forall sel vals l, length l = length sel -> length vals = length (rows sel sel) ->
  exists new, scatter_masked sel vals l = Some new /\ length new = length l /\
    rows sel new = vals /\ rows (map negb sel) new = rows (map negb sel) l.
Proof.
  induction sel as [|b s IH]; intros vals [|x r] Hl Hv; try discriminate.
  { destruct vals; [|discriminate]. exists []. auto. }
  cbn [length] in Hl. injection Hl as Hl. cbn [scatter_masked rows map].
  destruct b; cbn [rows length negb] in *.
  - destruct vals as [|v vs]; [discriminate|]. injection Hv as Hv.
    destruct (IH vs r Hl Hv) as [new [E [H1 [H2 H3]]]]. exists (v :: new). rewrite E. cbn.
    split; [reflexivity|]. split; [lia|]. split; [f_equal; exact H2|exact H3].
  - destruct (IH vals r Hl Hv) as [new [E [H1 [H2 H3]]]]. exists (x :: new). rewrite E. cbn.
    split; [reflexivity|]. split; [lia|]. split; [exact H2|f_equal; exact H3].
Qed.

(** ** Getting the data *)

Lemma copy_false_ok mask m data : length mask = m -> (forall name l, dget name data = Some l -> length l = m) ->
  forall names dst, (forall name, In name names -> exists l, dget name data = Some l) ->
  exists dst', copy_masked false mask names data dst = (data, dst', None).
Proof.
  intros Hm Hd. induction names as [|x r IH]; intros dst H; cbn [copy_masked]; [eauto|].
  destruct (H x (or_introl eq_refl)) as [l E]. rewrite E. rewrite Hm, (Hd x l E), Nat.eqb_refl.
  apply IH. intros name Hin. apply H. right. exact Hin.
Qed.

Lemma forallb_id_false l : forallb (fun b : bool => b) l = false -> ~ forall b, In b l -> b = true.
Proof. intros H Q. apply forallb_id in Q. congruence. Qed.

Lemma get_exact c f names sel :
  well_formed c -> in_view c f sel -> clean_view c f names sel ->
  (forall name, In name names -> exists l, column c name = Some l) ->
  exists c1, get_data c names f = (c1, None) /\ c_data c1 = c_data c /\ c_types c1 = c_types c /\ well_formed c1 /\
    (forall name l, In name names -> column c name = Some l -> seen c1 f name = Some (rows sel l)) /\
    ((get_view c1 f = VAlias /\ forall b, In b sel -> b = true) \/
     exists v, get_view c1 f = VCopy v /\ NoDup (map fst v) /\ forall name, In name (map fst v) <-> In name names).
Proof.
  intros Hw Hin Hcl Hn. pose proof Hw as [[m Ha] [_ [_ Hv]]].
  destruct (mask_sound c f sel m Ha (mask_complete c f sel m Ha Hin)) as [_ Hlen].
  destruct (wf_get c names f Hw) as [W1 [W2 [W3 _]]].
  { intros E. unfold clean_view in Hcl. rewrite E in Hcl. eauto. }
  assert (Hget : get_data c names f = (fst (get_data c names f), snd (get_data c names f))) by apply surjective_pairing.
  assert (Hset : forall x, get_view (put_view c (dset f x (c_view c))) f = x).
  { intros x. unfold get_view; cbn. rewrite dget_dset, Z.eqb_refl. reflexivity. }
  unfold get_data in *. rewrite (mask_complete c f sel m Ha Hin) in *.
  destruct (forallb (fun b => b) sel) eqn:Eall.
  { pose proof (proj1 (forallb_id sel) Eall) as Eall'. eexists. split; [reflexivity|]. cbn [fst] in *.
    split; [reflexivity|]. split; [reflexivity|]. split; [exact W1|]. split.
    - intros name l _ E. unfold seen. rewrite Hset. unfold column in *. cbn. rewrite E. f_equal. symmetry. apply rows_all; auto.
      rewrite (Ha name l E). symmetry. exact Hlen.
    - left. split; [apply Hset|exact Eall']. }
  assert (Hgen : forall dst, NoDup (map fst dst) -> (forall name, In name (map fst dst) -> In name names) ->
     exists v', copy_masked false sel names (c_data c) dst = (c_data c, v', None) /\
       NoDup (map fst v') /\ (forall name, In name (map fst v') <-> In name names) /\
       forall name l, In name names -> column c name = Some l -> dget name v' = Some (rows sel l)).
  { intros dst Hnd Hsub. destruct (copy_false_ok sel m (c_data c) Hlen Ha names dst Hn) as [v' E].
    exists v'. split; [exact E|]. apply copy_false in E. destruct E as [_ [E1 [E2 E3]]]. specialize (E3 eq_refl).
    split; [apply E1, Hnd|]. split.
    - intros name. split.
      + intros Hi. destruct (in_dec Z.eq_dec name names) as [|Hni]; auto. apply Hsub.
        rewrite dget_in_keys in *. rewrite (E2 name Hni) in Hi. exact Hi.
      + intros Hi. destruct (E3 name Hi) as [l [_ Q]]. apply dget_in_keys. eauto.
    - intros name l Hi El. destruct (E3 name Hi) as [l' [Q1 Q2]]. unfold column in El. congruence. }
  unfold clean_view in Hcl. destruct (get_view c f) as [| |v] eqn:Ev.
  - destruct (Hgen []) as [v' [E [G1 [G2 G3]]]]; [constructor|cbn; tauto|]. rewrite E in *. cbn [fst] in *.
    eexists. split; [reflexivity|]. split; [reflexivity|]. split; [reflexivity|]. split; [exact W1|]. split.
    + intros name l Hi El. unfold seen. rewrite Hset. apply G3; auto.
    + right. exists v'. rewrite Hset. auto.
  - exfalso. exact (forallb_id_false sel Eall Hcl).
  - destruct (Hgen v) as [v' [E [G1 [G2 G3]]]]; [apply (Hv f v Ev)|exact Hcl|]. rewrite E in *. cbn [fst] in *.
    eexists. split; [reflexivity|]. split; [reflexivity|]. split; [reflexivity|]. split; [exact W1|]. split.
    + intros name l Hi El. unfold seen. rewrite Hset. apply G3; auto.
    + right. exists v'. rewrite Hset. auto.
Qed.

(** ** Changing and writing back *)

(** While the view is the container's own dictionary. *)
Lemma modify_alias f names sel m : (forall b, In b sel -> b = true) -> length sel = m -> forall edits c,
  well_formed c -> aligned c m -> get_view c f = VAlias -> good_edits names sel edits ->
  (forall name, In name names -> exists l, column c name = Some l) ->
  exists c2, modify_all c f edits = (c2, None) /\ get_view c2 f = VAlias /\ well_formed c2 /\ aligned c2 m /\
    c_types c2 = c_types c /\
    (forall name l, column c name = Some l -> column c2 name = Some (last_edit name edits l)) /\
    (forall name, column c name = None -> column c2 name = None).
Proof.
  intros Hall Hlen. induction edits as [|[x l] r IH]; intros c Hw Ha Hv Hg Hn; cbn [modify_all].
  { exists c. split; [reflexivity|]. cbn. auto 10. }
  inversion Hg as [|? ? [Hx Hl] Hr]; subst. cbn [fst snd] in *. unfold modify. rewrite Hv. unfold write.
  destruct (Hn x Hx) as [old Eo]. pose proof Eo as Eo'. unfold column in Eo'. rewrite Eo'.
  assert (Hlo : length l = length old).
  { rewrite Hl, rows_all_length by auto. symmetry. apply (Ha x old Eo). }
  rewrite Hlo, Nat.eqb_refl.
  set (c' := put_data c (dset x l (c_data c))).
  assert (Hs : same_shape (dset x l (c_data c)) (c_data c)) by (apply (same_shape_dset _ _ _ old Eo' Hlo)).
  assert (Hcol : forall name, column c' name = if name =? x then Some l else column c name).
  { intros name. unfold c', column; cbn. apply dget_dset. }
  destruct (IH c') as [c2 [E [V2 [W2 [A2 [T2 [C2 N2]]]]]]].
  - apply wf_put_data; auto.
  - apply aligned_shape; auto.
  - exact Hv.
  - exact Hr.
  - intros name Hi. rewrite Hcol. destruct (name =? x); [eauto|apply Hn, Hi].
  - exists c2. split; [exact E|]. split; [exact V2|]. split; [exact W2|]. split; [exact A2|]. split; [exact T2|]. split.
    + intros name l0 E0. unfold last_edit. cbn [fold_left fst snd]. rewrite Z.eqb_sym.
      specialize (Hcol name). destruct (name =? x); apply C2; congruence.
    + intros name E0. apply N2. rewrite Hcol. destruct (Z.eqb_spec name x); [subst; congruence|exact E0].
Qed.

(** While it is a dictionary of copies. *)
Lemma modify_copy f names sel : forall edits c v,
  well_formed c -> get_view c f = VCopy v -> good_edits names sel edits ->
  (forall name vals, dget name v = Some vals -> length vals = length (rows sel sel)) ->
  (forall name, In name (map fst v) <-> In name names) ->
  exists c2 v2, modify_all c f edits = (c2, None) /\ get_view c2 f = VCopy v2 /\ well_formed c2 /\
    c_types c2 = c_types c /\ c_data c2 = c_data c /\
    (forall name, In name (map fst v2) <-> In name names) /\
    (forall name vals, dget name v = Some vals -> dget name v2 = Some (last_edit name edits vals)
                       /\ length (last_edit name edits vals) = length (rows sel sel)).
Proof.
  induction edits as [|[x l] r IH]; intros c v Hw Hv Hg Hlv Hk; cbn [modify_all].
  { exists c, v. split; [reflexivity|]. split; [exact Hv|]. split; [exact Hw|]. split; [reflexivity|]. split; [reflexivity|].
    split; [exact Hk|]. intros name vals E. cbn. split; [exact E|eauto]. }
  inversion Hg as [|? ? [Hx Hl] Hr]; subst. cbn [fst snd] in *. unfold modify at 1. rewrite Hv.
  assert (Ex : exists old, dget x v = Some old) by (apply dget_in_keys, Hk, Hx). destruct Ex as [old Eo].
  rewrite Eo. rewrite Hl, (Hlv x old Eo), Nat.eqb_refl.
  set (c' := put_view c (dset f (VCopy (dset x l v)) (c_view c))).
  destruct (IH c' (dset x l v)) as [c2 [v2 [E [V2 [W2 [T2 [D2 [K2 C2]]]]]]]].
  - apply wf_set_view; [exact Hw|]. intros w [= <-]. apply (dset_NoDup x l v).
    destruct Hw as [_ [_ [_ Hvv]]]. apply (Hvv f v Hv).
  - unfold c', get_view; cbn. rewrite dget_dset, Z.eqb_refl. reflexivity.
  - exact Hr.
  - intros name vals. rewrite dget_dset. destruct (Z.eqb_spec name x); [intros [= <-]; exact Hl|apply Hlv].
  - intros name. rewrite <- (Hk name). rewrite !dget_in_keys, dget_dset.
    destruct (Z.eqb_spec name x) as [->|]; [split; eauto|tauto].
  - exists c2, v2. split; [exact E|]. split; [exact V2|]. split; [exact W2|]. split; [exact T2|]. split; [exact D2|].
    split; [exact K2|]. intros name vals E0. unfold last_edit. cbn [fold_left fst snd]. rewrite (Z.eqb_sym x name).
    apply C2. rewrite dget_dset. destruct (Z.eqb_spec name x); [reflexivity|exact E0].
Qed.

Lemma sync_ok sel m : length sel = m -> forall v d,
  NoDup (map fst v) ->
  (forall name vals, dget name v = Some vals -> length vals = length (rows sel sel) /\
     exists l, dget name d = Some l /\ length l = m) ->
  exists d', sync sel v d = (d', None) /\
    (forall name, dget name v = None -> dget name d' = dget name d) /\
    (forall name vals l, dget name v = Some vals -> dget name d = Some l ->
       exists new, dget name d' = Some new /\ length new = length l /\
         rows sel new = vals /\ rows (map negb sel) new = rows (map negb sel) l).
Proof.
  intros Hm. induction v as [|[x vals] r IH]; intros d Hn H; cbn [sync].
  { exists d. split; [reflexivity|]. split; [auto|discriminate]. }
  inversion Hn as [|? ? Hx Hr]; subst.
  destruct (H x vals) as [Hv [l [El Hl]]]; [cbn; rewrite Z.eqb_refl; reflexivity|]. rewrite El.
  destruct (scatter_ok sel vals l Hl Hv) as [new [Es [N1 [N2 N3]]]]. rewrite Es.
  assert (Hxr : dget x r = None) by (apply (dget_None x r); exact Hx).
  destruct (IH (dset x new d)) as [d' [E [F1 F2]]].
  - exact Hr.
  - intros name w Ew. destruct (H name w) as [Q1 Q2].
    { cbn. destruct (Z.eqb_spec name x); [subst; congruence|exact Ew]. }
    split; [exact Q1|]. rewrite dget_dset. destruct (Z.eqb_spec name x); [subst; congruence|exact Q2].
  - exists d'. split; [exact E|]. split.
    + intros name En. cbn in En. destruct (Z.eqb_spec name x) as [Hne|Hne]; [discriminate|].
      rewrite (F1 name En), dget_dset. destruct (Z.eqb_spec name x); [contradiction|reflexivity].
    + intros name w l0 Ew El0. cbn in Ew. destruct (Z.eqb_spec name x) as [Hne|Hne].
      * injection Ew as <-. subst name. rewrite (F1 x Hxr), dget_dset, Z.eqb_refl. rewrite El in El0. injection El0 as <-. eauto.
      * apply (F2 name w l0 Ew). rewrite dget_dset. destruct (Z.eqb_spec name x); [contradiction|exact El0].
Qed.

Lemma write_back_exact c f names sel edits :
  well_formed c -> in_view c f sel -> clean_view c f names sel ->
  (forall name, In name names -> exists l, column c name = Some l) ->
  good_edits names sel edits ->
  exists c1 c2 c3, get_data c names f = (c1, None) /\ modify_all c1 f edits = (c2, None) /\
    update_sc c2 f = (c3, None) /\
    (forall name old, In name names -> column c name = Some old ->
       exists new, column c3 name = Some new /\ length new = length old /\
         rows sel new = last_edit name edits (rows sel old) /\
         rows (map negb sel) new = rows (map negb sel) old) /\
    (forall name, ~ In name names -> column c3 name = column c name) /\
    well_formed c3 /\ c_types c3 = c_types c /\ forall sel', clean_view c3 f names sel'.
Proof.
  intros Hw Hin Hcl Hn Hg. pose proof Hw as [[m Ha] _].
  destruct (mask_sound c f sel m Ha (mask_complete c f sel m Ha Hin)) as [_ Hlen].
  destruct (get_exact c f names sel Hw Hin Hcl Hn) as [c1 [E1 [D1 [T1 [W1 [S1 V1]]]]]].
  exists c1. assert (Hcol1 : forall name, column c1 name = column c name) by (intros; unfold column; rewrite D1; reflexivity).
  destruct V1 as [[V1 Hall]|[v [V1 [Nv Kv]]]].
  - destruct (modify_alias f names sel m Hall Hlen edits c1 W1) as [c2 [E2 [V2 [W2 [A2 [T2 [C2 N2]]]]]]]; auto.
    { intros name l E. rewrite Hcol1 in E. apply (Ha name l E). }
    { intros name Hi. rewrite Hcol1. apply Hn, Hi. }
    exists c2. unfold update_sc. rewrite V2. eexists. split; [exact E1|]. split; [exact E2|]. split; [reflexivity|].
    split; [|split; [|split; [|split]]].
    + intros name old Hi E. exists (last_edit name edits old).
      assert (Hll : length (last_edit name edits old) = length old).
      { assert (forall l, length l = m -> length (last_edit name edits l) = m) as Q.
        { unfold last_edit. clear - Hg Hlen Hall. induction Hg as [|[x w] r [_ Hx] _ IH]; intros l Hl; cbn [fold_left]; auto.
          apply IH. cbn [fst snd] in *. destruct (x =? name); [rewrite Hx, rows_all_length; auto|exact Hl]. }
        rewrite (Ha name old E). apply Q. apply (Ha name old E). }
      split; [unfold column; cbn; apply C2; rewrite Hcol1; exact E|]. split; [exact Hll|]. split.
      * rewrite rows_all; [|exact Hall|rewrite Hll, (Ha name old E), Hlen; reflexivity].
        rewrite rows_all; [reflexivity|exact Hall|rewrite (Ha name old E), Hlen; reflexivity].
      * rewrite !rows_none by exact Hall. reflexivity.
    + intros name Hni. unfold column at 1; cbn. change (column c2 name = column c name).
      destruct (column c name) as [l|] eqn:E.
      * rewrite (C2 name l) by (rewrite Hcol1; exact E). f_equal.
        unfold last_edit. clear - Hg Hni. revert l. induction Hg as [|[x w] r [Hx _] _ IH]; intros l; cbn [fold_left fst snd]; auto.
        destruct (Z.eqb_spec x name); [subst; contradiction|]. apply IH.
      * apply N2. rewrite Hcol1. exact E.
    + apply wf_put_view; [exact W2|]. cbn. discriminate.
    + cbn. congruence.
    + intros sel'. unfold clean_view, get_view. cbn. exact I.
  - assert (Hvl : forall name vals, dget name v = Some vals -> exists l, column c name = Some l /\ vals = rows sel l).
    { intros name vals E. assert (Hi : In name names) by (apply Kv, dget_in_keys; eauto).
      destruct (Hn name Hi) as [l El]. exists l. split; [exact El|]. specialize (S1 name l Hi El).
      unfold seen in S1. rewrite V1 in S1. congruence. }
    destruct (modify_copy f names sel edits c1 v W1 V1 Hg) as [c2 [v2 [E2 [V2 [W2 [T2 [D2 [K2 C2]]]]]]]].
    { intros name vals E. destruct (Hvl name vals E) as [l [El ->]]. apply rows_length. rewrite (Ha name l El). auto. }
    { exact Kv. }
    assert (Hcol2 : forall name, column c2 name = column c name).
    { intros name. unfold column. rewrite D2. apply Hcol1. }
    assert (Hmask : fate_mask c2 f = Ok sel).
    { apply (mask_complete c2 f sel m).
      - intros name l E. rewrite Hcol2 in E. apply (Ha name l E).
      - unfold in_view in *. rewrite !Hcol2. exact Hin. }
    exists c2. unfold update_sc. rewrite V2, Hmask.
    assert (Hv2 : forall name vals, dget name v2 = Some vals -> exists l, column c name = Some l /\
                    vals = last_edit name edits (rows sel l) /\ length vals = length (rows sel sel)).
    { intros name vals E. assert (Hi : In name names) by (apply K2, dget_in_keys; eauto).
      apply Kv in Hi. apply dget_in_keys in Hi. destruct Hi as [v0 E0].
      destruct (C2 name v0 E0) as [Q1 Q2]. destruct (Hvl name v0 E0) as [l [El ->]].
      exists l. rewrite E in Q1. injection Q1 as ->. auto. }
    destruct (sync_ok sel m Hlen v2 (c_data c2)) as [d' [Es [F1 F2]]].
    { destruct W2 as [_ [_ [_ Q]]]. apply (Q f v2 V2). }
    { intros name vals E. destruct (Hv2 name vals E) as [l [El [_ Hl]]]. split; [exact Hl|].
      exists l. rewrite <- Hcol2 in El. split; [exact El|]. rewrite Hcol2 in El. apply (Ha name l El). }
    rewrite Es. eexists. split; [exact E1|]. split; [exact E2|]. split; [reflexivity|].
    split; [|split; [|split; [|split]]].
    + intros name old Hi E. apply K2 in Hi. apply dget_in_keys in Hi. destruct Hi as [vals Ev].
      destruct (Hv2 name vals Ev) as [l [El [-> _]]]. rewrite E in El. injection El as <-.
      destruct (F2 name _ old Ev) as [new [G1 [G2 [G3 G4]]]]; [rewrite <- Hcol2 in E; exact E|].
      exists new. auto.
    + intros name Hni. unfold column at 1; cbn. rewrite F1; [apply Hcol2|].
      destruct (dget name v2) eqn:Ev; auto. exfalso. apply Hni, K2, dget_in_keys. eauto.
    + pose proof (wf_update c2 f W2) as Q. unfold update_sc in Q. rewrite V2, Hmask, Es in Q. exact Q.
    + cbn. congruence.
    + intros sel'. unfold clean_view. destruct (_ || _).
      * unfold get_view; cbn. exact I.
      * change (get_view _ f) with (get_view c2 f). rewrite V2. intros name. apply K2.
Qed.

Lemma read_back c f names sel edits c1 c2 c3 :
  well_formed c -> in_view c f sel -> clean_view c f names sel ->
  (forall name, In name names -> exists l, column c name = Some l) ->
  good_edits names sel edits ->
  get_data c names f = (c1, None) -> modify_all c1 f edits = (c2, None) -> update_sc c2 f = (c3, None) ->
  in_view c3 f sel ->
  exists c4, get_data c3 names f = (c4, None) /\
    forall name old, In name names -> column c name = Some old ->
      seen c4 f name = Some (last_edit name edits (rows sel old)).
Proof.
  intros Hw Hin Hcl Hn Hg E1 E2 E3 Hin3.
  destruct (write_back_exact c f names sel edits Hw Hin Hcl Hn Hg) as [d1 [d2 [d3 [Q1 [Q2 [Q3 [P1 [P2 [W3 [T3 C3]]]]]]]]]].
  rewrite E1 in Q1. injection Q1 as <-. rewrite E2 in Q2. injection Q2 as <-. rewrite E3 in Q3. injection Q3 as <-.
  destruct (get_exact c3 f names sel W3 Hin3 (C3 sel)) as [c4 [E4 [_ [_ [_ [S4 _]]]]]].
  { intros name Hi. destruct (Hn name Hi) as [l El]. destruct (P1 name l Hi El) as [new [N1 _]]. eauto. }
  exists c4. split; [exact E4|]. intros name old Hi E. destruct (P1 name old Hi E) as [new [N1 [_ [N3 _]]]].
  rewrite (S4 name new Hi N1). f_equal. exact N3.
Qed.

(** ** Releasing *)

Lemma write_tails_exact n old : 0 <= n -> forall ws d d' name tl, write_tails n ws d = (d', None) ->
  dget name d = Some (old ++ tl) -> length tl = Z.to_nat n ->
  dget name d' = Some (old ++ last_edit name ws tl) /\ length (last_edit name ws tl) = Z.to_nat n.
Proof.
  intros Hn. induction ws as [|[x vals] r IH]; intros d d' name tl H E Hl; cbn [write_tails] in H.
  { injection H as <-. cbn. auto. }
  unfold write_tail in H. destruct (dget x d) as [lx|] eqn:Ex; [|discriminate].
  destruct (Nat.eqb_spec (length vals) (length (skipn (length lx - Z.to_nat n) lx))) as [Hv|]; [|discriminate].
  unfold last_edit. cbn [fold_left fst snd]. destruct (Z.eqb_spec x name) as [->|Hne].
  - rewrite E in Ex. injection Ex as <-. rewrite app_length, Hl in *.
    replace (length old + Z.to_nat n - Z.to_nat n)%nat with (length old) in * by lia.
    rewrite firstn_app, Nat.sub_diag, firstn_all in H. cbn [firstn] in H. rewrite app_nil_r in H.
    rewrite skipn_app, skipn_all, Nat.sub_diag in Hv. cbn in Hv.
    apply (IH _ _ name vals H); [rewrite dget_dset, Z.eqb_refl; reflexivity|lia].
  - apply (IH _ _ name tl H); [|exact Hl]. rewrite dget_dset. destruct (Z.eqb_spec name x); [congruence|exact E].
Qed.

Lemma release_rows : forall rs iv c iv' c', well_formed c -> release_loop iv c rs = (iv', c', None) ->
  forall name k v l, dget name (c_types c) = Some (k, v) -> k <> IdKind -> column c name = Some l ->
  column c' name = Some (l ++ fresh_rows name v rs).
Proof.
  induction rs as [|r rest IH]; intros iv c iv' c' Hw H name k v l Et Hk El; cbn [release_loop] in H.
  { injection H as <- <-. unfold fresh_rows. cbn. rewrite app_nil_r. exact El. }
  unfold fresh_rows. cbn [flat_map]. fold (fresh_rows name v rest). destruct (Z.leb_spec (ri_n r) 0) as [Hn|Hn].
  { replace (Z.to_nat (ri_n r)) with O by lia. destruct (Z.ltb_spec 0 (ri_n r)); [lia|]. cbn [app].
    apply (IH _ _ _ _ Hw H name k v l Et Hk El). }
  destruct (Z.ltb_spec 0 (ri_n r)); [|lia].
  destruct (append_arrays iv (c_types c) (ri_n r) (c_data c)) as [d e1] eqn:E1. pose proof Hw as [[m Ha] _].
  destruct (wf_append c iv (ri_n r) d e1 m Hw Ha ltac:(lia) E1) as [-> [Hw1 Ha1]].
  destruct (append_get _ _ _ _ _ _ E1 (proj1 (proj2 (proj2 Hw)))) as [_ Hs]. specialize (Hs eq_refl name _ Et).
  destruct Hs as [l0 [Q1 Q2]]. unfold column in El. rewrite El in Q1. injection Q1 as <-.
  assert (Hi : initialize iv (k, v) (ri_n r) = repeat v (Z.to_nat (ri_n r))) by (destruct k; [|contradiction|]; reflexivity).
  rewrite Hi in Q2.
  set (ws := (n_spill, repeat (VZ (ri_idx r)) (Z.to_nat (ri_n r))) :: ri_writes r) in *.
  destruct (write_tails (ri_n r) ws d) as [d2 [|]] eqn:E2; [discriminate|].
  destruct (write_tails_exact (ri_n r) l ltac:(lia) ws d d2 name _ E2 Q2 (repeat_length _ _)) as [R1 _].
  destruct (ri_fail r); [discriminate|].
  pose proof (wf_put_data _ _ Hw1 (write_tails_shape _ _ _ _ _ E2)) as Hw2.
  change (put_data (put_data c d) d2) with (put_data c d2) in Hw2.
  assert (Hrest : forall jv, release_loop jv (put_data c d2) rest = (iv', c', None) ->
    column c' name = Some (l ++ last_edit name ws (repeat v (Z.to_nat (ri_n r))) ++ fresh_rows name v rest)).
  { intros jv H'. rewrite app_assoc. apply (IH _ _ _ _ Hw2 H' name k v _ Et Hk). exact R1. }
  destruct (dget n_spill d2) as [sp|]; [|discriminate]. destruct (dget n_id d2) as [il|]; [|discriminate].
  destruct sp; [apply (Hrest _ H)|]. destruct (py_get il (-1)) as [[i|q]|x]; [apply (Hrest _ H)|discriminate|discriminate].
Qed.

(** ** Splitting *)

Lemma comp_scale k q v : (comp k (scale q v) == comp k v * q)%Q.
Proof.
  unfold comp. destruct v as [z|l]; cbn [scale qrow].
  - destruct k as [|[|k]]; cbn; ring.
  - revert k. induction l as [|x r IH]; intros [|k]; cbn; try ring. apply IH.
Qed.

Lemma total_scale k v fr : (total k (map (fun q => scale q v) fr) == comp k v * qsum fr)%Q.
Proof.
  unfold total. induction fr as [|q r IH]; cbn [map qsum fold_right]; [ring|].
  change (fold_right Qplus 0%Q (map (comp k) (map (fun q0 => scale q0 v) r)))
    with (qsum (map (comp k) (map (fun q0 => scale q0 v) r))).
  change (fold_right Qplus 0%Q r) with (qsum r). rewrite IH, comp_scale. ring.
Qed.

Lemma qsum_repeat x n : (qsum (repeat x n) == inject_Z (Z.of_nat n) * x)%Q.
Proof.
  induction n as [|n IH]; [cbn; ring|]. cbn [repeat qsum fold_right].
  change (fold_right Qplus 0%Q (repeat x n)) with (qsum (repeat x n)). rewrite IH, inject_Z_nat_S. ring.
Qed.

Lemma map_repeat {A B} (f : A -> B) x n : map f (repeat x n) = repeat (f x) n.
Proof. induction n; cbn; f_equal; auto. Qed.

Lemma split_value_spec k num v frac parts : 2 <= num -> split_value k num v frac = Ok parts ->
  length parts = Z.to_nat num /\
  (k <> Divide -> parts = repeat v (Z.to_nat num)) /\
  (k = Divide -> match frac with
     | None => (forall p j, In p parts -> comp j p == comp j v / inject_Z num)%Q /\
               forall j, (total j parts == comp j v)%Q
     | Some l => (forall i q p j, nth_error l i = Some q -> nth_error parts i = Some p -> comp j p == comp j v * q)%Q /\
               forall j, (total j parts == comp j v * qsum l)%Q
     end).
Proof.
  intros Hn. unfold split_value. destruct (Z.ltb_spec num 2); [lia|].
  assert (Hnz : ~ (inject_Z num == 0)%Q).
  { intros Q. unfold Qeq in Q. cbn in Q. lia. }
  destruct k; [| |destruct frac as [l|]].
  - intros [= <-]. rewrite repeat_length. split; [reflexivity|]. split; [reflexivity|discriminate].
  - intros [= <-]. rewrite repeat_length. split; [reflexivity|]. split; [reflexivity|discriminate].
  - destruct (Z.eqb_spec (Z.of_nat (length l)) num) as [Hl|]; cbn [negb]; [|discriminate].
    destruct (close_to_1 (qsum l)); cbn [negb]; [|discriminate]. intros [= <-]. rewrite map_length.
    split; [lia|]. split; [congruence|]. intros _. split.
    + intros i q p j Hq Hp. rewrite (map_nth_error _ _ _ Hq) in Hp. injection Hp as <-. apply comp_scale.
    + intros j. apply total_scale.
  - intros [= <-]. rewrite repeat_length. split; [reflexivity|]. split; [congruence|]. intros _. split.
    + intros p j Hp. apply repeat_spec in Hp. subst p. rewrite comp_scale. field. exact Hnz.
    + intros j. unfold total. rewrite map_repeat, qsum_repeat, comp_scale. rewrite Z2Nat.id by lia. field. exact Hnz.
Qed.

Lemma is_val_true z v : is_val z v = true <-> v = VZ z.
Proof.
  destruct v; cbn; split; intros H; try discriminate.
  - apply Z.eqb_eq in H. congruence.
  - injection H as ->. apply Z.eqb_refl.
Qed.

Lemma where_first ix il idx : first_with ix il idx -> exists t, where_val 0 ix il = idx :: t.
Proof.
  intros [H1 H2]. pose proof (where_val_first ix il 0 _ eq_refl) as Q.
  destruct (where_val 0 ix il) as [|k t].
  - exfalso. specialize (Q (VZ ix) (nth_error_In _ _ H1)). cbn in Q. rewrite Z.eqb_refl in Q. discriminate.
  - destruct Q as [_ [[v [Q1 Q2]] Q3]]. rewrite Nat.sub_0_r in Q1. apply is_val_true in Q2. subst v.
    assert (k = idx) as ->; [|eauto]. destruct (Nat.lt_trichotomy k idx) as [H|[H|H]]; auto; exfalso.
    + exact (H2 k H Q1).
    + specialize (Q3 idx (VZ ix) H H1). cbn in Q3. rewrite Z.eqb_refl in Q3. discriminate.
Qed.

Lemma reset_empty ix : forall fates c, (forall f, get_view c f = VEmpty) -> reset_fatedata fates ix c = (c, None).
Proof. induction fates as [|f r IH]; intros c H; cbn [reset_fatedata]; auto. rewrite (H f). auto. Qed.

Lemma split_exact c ix num frac il idx :
  well_formed c -> (forall f, get_view c f <> VAlias) -> 2 <= num -> fractions_ok num frac ->
  column c n_id = Some il -> first_with ix il idx ->
  exists c' e, split_element c ix num frac = (c', e) /\
    ((forall f, get_view c f = VEmpty) -> e = None) /\
    c_types c' = c_types c /\ well_formed c' /\
    forall name k v0, dget name (c_types c) = Some (k, v0) ->
      exists l v parts, column c name = Some l /\ nth_error l idx = Some v /\
        column c' name = Some (firstn idx l ++ parts ++ skipn (S idx) l) /\
        length parts = Z.to_nat num /\
        (k <> Divide -> parts = repeat v (Z.to_nat num)) /\
        (k = Divide -> match frac with
           | None => (forall p j, In p parts -> comp j p == comp j v / inject_Z num)%Q /\
                     forall j, (total j parts == comp j v)%Q
           | Some fr => (forall i q p j, nth_error fr i = Some q -> nth_error parts i = Some p -> comp j p == comp j v * q)%Q /\
                     forall j, (total j parts == comp j v * qsum fr)%Q
           end).
Proof.
  intros Hw Hv Hn Hf Ei Hfirst. pose proof Hw as [[m Ha] [Hc [Hp _]]].
  destruct (where_first ix il idx Hfirst) as [t Et].
  assert (Hidx : (idx < m)%nat).
  { destruct Hfirst as [Q _]. rewrite <- (Ha n_id il Ei). apply nth_error_Some. rewrite Q. discriminate. }
  destruct (split_arrays_ok m idx num frac Hidx Hn Hf (c_types c) (c_data c) Hp) as [d [E [_ H2]]].
  { intros name Hin. apply Hc in Hin. destruct Hin as [l El]. exists l. split; [exact El|apply (Ha _ _ El)]. }
  destruct (wf_split_data c idx num frac d m Hw Ha Hidx Hn Hf E) as [Hw' _].
  destruct (reset_fatedata_spec ix all_fates (put_data c d) all_fates_NoDup Hw' (fun f _ => Hv f)) as [R1 [R2 R3]].
  exists (fst (reset_fatedata all_fates ix (put_data c d))), (snd (reset_fatedata all_fates ix (put_data c d))).
  split. { unfold split_element. unfold column in Ei. rewrite Ei, Et, E. apply surjective_pairing. }
  split. { intros He. rewrite (reset_empty ix all_fates (put_data c d) He). reflexivity. }
  split; [exact R3|]. split; [exact R1|].
  intros name k v0 Ht. destruct (H2 name (k, v0) Ht) as [l [v [parts [Q1 [Q2 [Q3 Q4]]]]]].
  exists l, v, parts. split; [exact Q1|]. split; [exact Q2|]. split.
  { unfold column. rewrite R2. exact Q4. }
  apply (split_value_spec k num v frac parts Hn Q3).
Qed.

Lemma split_missing c ix num frac il :
  column c n_id = Some il -> ~ In (VZ ix) il -> split_element c ix num frac = (c, Some IndexErr).
Proof.
  intros Ei Hni. unfold split_element. unfold column in Ei. rewrite Ei.
  pose proof (where_val_first ix il 0 _ eq_refl) as Q. destruct (where_val 0 ix il) as [|k t]; [reflexivity|].
  exfalso. destruct Q as [_ [[v [Q1 Q2]] _]]. apply is_val_true in Q2. subst v. apply Hni. apply (nth_error_In _ _ Q1).
Qed.

Lemma split_too_few c ix num frac il :
  well_formed c -> column c n_id = Some il -> In (VZ ix) il -> num < 2 ->
  split_element c ix num frac = (c, Some ValueErr).
Proof.
  intros Hw Ei Hin Hn. pose proof Hw as [[m Ha] [Hc [Hp _]]]. unfold split_element. unfold column in Ei. rewrite Ei.
  pose proof (where_val_first ix il 0 _ eq_refl) as Q. destruct (where_val 0 ix il) as [|k t].
  { exfalso. specialize (Q _ Hin). cbn in Q. rewrite Z.eqb_refl in Q. discriminate. }
  destruct Q as [Hk _]. rewrite (Ha n_id il Ei) in Hk.
  assert (Hne : In n_id (map fst (c_types c))) by (apply Hc; exists il; exact Ei).
  destruct (c_types c) as [|[x a] r] eqn:Et; [destruct Hne|]. cbn [split_arrays].
  assert (Hx : In x (map fst (c_types c))) by (rewrite Et; left; reflexivity).
  apply Hc in Hx. destruct Hx as [l El]. unfold column in El. rewrite El.
  destruct (nth_error l k) as [v|] eqn:Ek.
  2:{ apply nth_error_None in Ek. rewrite (Ha x l El) in Ek. lia. }
  unfold split_value. destruct (Z.ltb_spec num 2); [|lia]. destruct c; reflexivity.
Qed.
