(** * Proofs about operations on views *)
From Coq Require Import Lqa.
From Verif Require Import Py PyLemmas QLemmas ScModel ScSpec ScProofs RvwModel RvwSpec.
Open Scope Z_scope.

Lemma dget_dset_same {V} k (v : V) d : dget k (dset k v d) = Some v.
Proof. rewrite dget_dset, Z.eqb_refl. reflexivity. Qed.
Lemma dget_dset_other {V} k k' (v : V) d : k <> k' -> dget k (dset k' v d) = dget k d.
Proof. intros N. rewrite dget_dset. destruct (Z.eqb_spec k k'); [contradiction|reflexivity]. Qed.

Lemma floating_get c names : well_formed c -> all_floating c ->
  get_data c names f_surf = (put_view c (dset f_surf VAlias (c_view c)), None).
Proof.
  intros [[n A] _] (sel & IV & AL). unfold get_data. change f_surf with 2.
  rewrite (mask_complete c 2 sel n A IV).
  rewrite (proj2 (forallb_id sel) AL). reflexivity.
Qed.

Lemma view_set c f v : get_view (put_view c (dset f v (c_view c))) f = v.
Proof. unfold get_view. cbn [c_view put_view]. rewrite dget_dset_same. reflexivity. Qed.

Lemma mapM_number l ms : mapM number l = Ok ms -> map as_number l = ms.
Proof.
  revert ms. induction l as [|v r IH]; intros ms E; cbn in E; [now injection E as <-|].
  destruct v as [z|[|q [|? ?]]]; cbn in E; try discriminate.
  destruct (mapM number r); cbn in E; [|discriminate]. injection E as <-. cbn. now rewrite (IH _ eq_refl).
Qed.
Lemma mapM_vector l cs : mapM vector l = Ok cs -> map comps_of l = cs /\ l = map VQ cs.
Proof.
  revert cs. induction l as [|v r IH]; intros cs E; cbn in E; [injection E as <-; now split|].
  destruct v as [z|x]; cbn in E; try discriminate.
  destruct (mapM vector r); cbn in E; [|discriminate]. injection E as <-. cbn.
  destruct (IH _ eq_refl) as [A B]. rewrite A. split; [reflexivity|]. now rewrite B at 1.
Qed.

Lemma as_number_wrap l : map as_number (map (fun m => VQ [m]) l) = l.
Proof. rewrite map_map. apply map_id. Qed.

Lemma modify_alias c f name l c' : get_view c f = VAlias -> modify c f name l = (c', None) ->
  c' = put_data c (dset name l (c_data c)) /\ get_view c' f = VAlias /\
  exists old, column c name = Some old /\ length l = length old.
Proof.
  intros V. unfold modify, write, column. rewrite V. destruct (dget name (c_data c)) as [old|] eqn:D; [|discriminate].
  destruct (length l =? length old)%nat eqn:E; [|discriminate]. intros [= <-].
  split; [reflexivity|]. split; [exact V|]. exists old. split; [reflexivity|now apply Nat.eqb_eq].
Qed.

(** What a successful removal amounts to when every element floats. *)
Lemma take_floating c names amount c' actual :
  well_formed c -> all_floating c -> roc_take c names amount = (c', Ok actual) ->
  (mass_column c = [] /\ c_data c' = c_data c /\ actual = 0%Q) \/
  exists cs, mass_column c <> [] /\ column c n_comps = Some (map VQ cs) /\
    let '(ms', cs', a) := remove_simple (mass_column c) cs amount in
    actual = a /\ length ms' = length (mass_column c) /\
    c_data c' = dset n_mass (map (fun m => VQ [m]) ms') (dset n_comps (map VQ cs') (c_data c)).
Proof.
  intros W F E. unfold roc_take in E. rewrite (floating_get c names W F) in E.
  set (c1 := put_view c _) in *.
  assert (V1 : get_view c1 f_surf = VAlias) by apply view_set.
  assert (D1 : c_data c1 = c_data c) by reflexivity.
  assert (R : forall name, read c1 f_surf name = match dget name (c_data c) with Some l => Ok l | None => Raise KeyErr end).
  { intros name. unfold read. rewrite V1, D1. reflexivity. }
  rewrite !R in E. unfold mass_column, column.
  destruct (dget n_mass (c_data c)) as [lm|] eqn:M; cbn [bind] in E; [|discriminate].
  destruct (mapM number lm) as [ms|] eqn:NM; [|discriminate].
  pose proof (mapM_number _ _ NM) as <-.
  destruct (map as_number lm) as [|m0 mr] eqn:ML.
  - injection E as <- <-. left. now split.
  - right. rewrite <- ML in *.
    destruct (dget n_comps (c_data c)) as [lc|] eqn:C; cbn [bind] in E; [|discriminate].
    destruct (mapM vector lc) as [cs|] eqn:NC; [|discriminate].
    destruct (mapM_vector _ _ NC) as [_ ->].
    exists cs. split; [rewrite ML; discriminate|]. split; [reflexivity|].
    destruct (remove_simple (map as_number lm) cs amount) as [[ms' cs'] a] eqn:RS.
    cbn [modify_all] in E.
    destruct (modify c1 f_surf n_comps (map VQ cs')) as [c2 [e|]] eqn:MA; [discriminate|].
    destruct (modify_alias _ _ _ _ _ V1 MA) as (-> & V2 & _).
    destruct (modify (put_data c1 _) f_surf n_mass _) as [c3 [e|]] eqn:MB in E; [discriminate|].
    destruct (modify_alias _ _ _ _ _ V2 MB) as (-> & _ & old & O & L).
    injection E as <- <-. split; [reflexivity|]. split; [|reflexivity].
    unfold column in O. cbn [c_data put_data] in O. rewrite dget_dset_other in O by discriminate.
    rewrite D1, M in O. injection O as <-. rewrite map_length in L. now rewrite map_length.
Qed.

Lemma qsum_scale k l : (qsum (map (fun x => x * k) l) == qsum l * k)%Q.
Proof. induction l as [|a r IH]; cbn [map qsum fold_right]; [ring|]. fold (qsum (map (fun x => x * k)%Q r)) (qsum r). rewrite IH. ring. Qed.
Lemma qsum_rows k cs : (qsum (map qsum (map (map (fun x => x * k)) cs)) == qsum (map qsum cs) * k)%Q.
Proof.
  induction cs as [|x r IH]; cbn [map qsum fold_right]; [ring|].
  fold (qsum (map (fun y => y * k)%Q x)) (qsum x) (qsum (map qsum (map (map (fun y => y * k)%Q) r))) (qsum (map qsum r)).
  rewrite IH, qsum_scale. ring.
Qed.

(** ** Some element does not float *)

Lemma copy_false_data mask : forall names data dst, fst (fst (copy_masked false mask names data dst)) = data.
Proof.
  induction names as [|name r IH]; intros data dst; cbn [copy_masked]; [reflexivity|].
  destruct (dget name data) as [l|]; [|reflexivity]. destruct (_ =? _)%nat; [apply IH|reflexivity].
Qed.

Lemma mixed_get c names c1 e : well_formed c -> some_not_floating c -> get_view c f_surf <> VAlias ->
  get_data c names f_surf = (c1, e) ->
  c_data c1 = c_data c /\ c_types c1 = c_types c /\ (exists v, get_view c1 f_surf = VCopy v) /\
  (forall f, f <> f_surf -> get_view c1 f = get_view c f).
Proof.
  intros [[n A] _] (sel & IV & NF) NA E. unfold get_data in E. change f_surf with 2 in *.
  rewrite (mask_complete c 2 sel n A IV) in E.
  destruct (forallb (fun b => b) sel) eqn:FB.
  { exfalso. rewrite forallb_id in FB. specialize (FB _ NF). discriminate. }
  assert (K : forall v, get_view (put_view c (dset 2 (VCopy v) (c_view c))) 2 = VCopy v) by (intros; apply view_set).
  assert (K2 : forall v f, f <> 2 -> get_view (put_view c (dset 2 (VCopy v) (c_view c))) f = get_view c f).
  { intros v f NE. unfold get_view. cbn [c_view put_view]. rewrite dget_dset_other by congruence. reflexivity. }
  destruct (get_view c 2) as [| |v0] eqn:V; [|now destruct NA|].
  - destruct (copy_masked false sel names (c_data c) []) as [[d v] e0]. injection E as <- <-.
    repeat split; [exists v; apply K|intros; now apply K2].
  - destruct (copy_masked false sel names (c_data c) v0) as [[d v] e0]. injection E as <- <-.
    repeat split; [exists v; apply K|intros; now apply K2].
Qed.

Lemma modify_copy c f name l c' e v : get_view c f = VCopy v -> modify c f name l = (c', e) ->
  c_data c' = c_data c /\ c_types c' = c_types c /\ exists v', get_view c' f = VCopy v'.
Proof.
  intros V. unfold modify. rewrite V. destruct (dget name v) as [old|].
  - destruct (_ =? _)%nat; intros [= <- <-]; (split; [reflexivity|split; [reflexivity|]]).
    + exists (dset name l v). apply view_set.
    + now exists v.
  - intros [= <- <-]. repeat split. now exists v.
Qed.

Lemma take_mixed c names amount c' r :
  well_formed c -> some_not_floating c -> get_view c f_surf <> VAlias ->
  roc_take c names amount = (c', r) -> c_data c' = c_data c.
Proof.
  intros W M NA. unfold roc_take.
  destruct (get_data c names f_surf) as [c1 o] eqn:G.
  destruct (mixed_get _ _ _ _ W M NA G) as (D & _ & [v V] & _).
  destruct o as [e|]; [intros [= <- _]; exact D|].
  destruct (_ : res (list Q)) as [[|m ms]|e]; [intros [= <- _]; exact D| |intros [= <- _]; exact D].
  destruct (_ : res (list (list Q))) as [cs|e]; [|intros [= <- _]; exact D].
  destruct (remove_simple _ _ _) as [[ms' cs'] a]. cbn [modify_all].
  destruct (modify c1 f_surf n_comps _) as [c2 [e|]] eqn:M1;
    destruct (modify_copy _ _ _ _ _ _ _ V M1) as (D2 & _ & [v2 V2]);
    [intros [= <- _]; congruence|].
  destruct (modify c2 f_surf n_mass _) as [c3 [e|]] eqn:M2;
    destruct (modify_copy _ _ _ _ _ _ _ V2 M2) as (D3 & _);
    intros [= <- _]; congruence.
Qed.

(** ** Density *)

Lemma assign_copy c f name l v : get_view c f = VCopy v ->
  c_data (assign c f name l) = c_data c /\ c_types (assign c f name l) = c_types c /\
  (exists v', get_view (assign c f name l) f = VCopy v') /\
  (forall g, g <> f -> get_view (assign c f name l) g = get_view c g).
Proof.
  intros V. unfold assign. rewrite V. repeat split; [exists (dset name l v); apply view_set|].
  intros g NE. unfold get_view. cbn [c_view put_view]. rewrite dget_dset_other by congruence. reflexivity.
Qed.

Lemma update_empty c f : get_view c f = VEmpty -> c_data (fst (update_sc c f)) = c_data c.
Proof. intros V. unfold update_sc. rewrite V. reflexivity. Qed.

Lemma recalc_mixed c wb rho0 cds mfs water c' e :
  well_formed c -> some_not_floating c -> get_view c f_surf <> VAlias -> get_view c 0 = VEmpty ->
  recalc_density c wb rho0 cds mfs water = (c', e) -> c_data c' = c_data c.
Proof.
  intros W M NA V0. unfold recalc_density. destruct wb; cbn [negb].
  2:{ intros E. pose proof (update_empty c 0 V0) as H. rewrite E in H. exact H. }
  destruct (get_data c (map fst (c_types c)) f_surf) as [c1 o] eqn:G.
  destruct (mixed_get _ _ _ _ W M NA G) as (D & _ & [v V] & VO).
  assert (V01 : get_view c1 0 = VEmpty) by (rewrite VO by discriminate; exact V0).
  destruct o as [e1|]; [intros [= <- _]; exact D|].
  destruct (_ : res (list (Q * list Q * Q))) as [[|r rs]|e1]; [| |intros [= <- _]; exact D].
  - intros E. pose proof (update_empty c1 0 V01) as H. rewrite E in H. cbn [fst] in H. congruence.
  - intros E. cbv zeta in E.
    match type of E with update_sc (assign (assign _ _ _ ?x) _ _ ?y) 0 = _ => set (l2 := x) in E; set (l1 := y) in E end.
    destruct (assign_copy c1 f_surf n_density l2 v V) as (D2 & _ & [v2 V2] & VO2).
    destruct (assign_copy _ f_surf n_oil_density l1 v2 V2) as (D3 & _ & _ & VO3).
    match type of E with update_sc ?x 0 = _ => assert (X : get_view x 0 = VEmpty) end.
    { rewrite VO3 by discriminate. rewrite VO2 by discriminate. exact V01. }
    pose proof (update_empty _ 0 X) as H. rewrite E in H. cbn [fst] in H. congruence.
Qed.

Lemma zip3_map ms cs ws : length cs = length ms -> length ws = length ms ->
  forall i m mc w, nth_error ms i = Some m -> nth_error cs i = Some mc -> nth_error ws i = Some w ->
  nth_error (zip3 ms cs ws) i = Some (m, mc, w).
Proof.
  revert cs ws. induction ms as [|m r IH]; intros [|x cs] [|w ws] L1 L2 [|i] m0 mc w0 A B C; try discriminate.
  - cbn in *. congruence.
  - cbn in *. apply IH; auto.
Qed.
Lemma zip3_length : forall ms cs ws, length cs = length ms -> length ws = length ms -> length (zip3 ms cs ws) = length ms.
Proof.
  induction ms as [|m r IH]; intros [|x cs] [|w ws] L1 L2; try discriminate; [reflexivity|].
  cbn in *. f_equal. apply IH; lia.
Qed.

Lemma column_len c name l : well_formed c -> column c name = Some l ->
  forall name' l', column c name' = Some l' -> length l' = length l.
Proof. intros [[n A] _] E name' l' E'. rewrite (A _ _ E), (A _ _ E'). reflexivity. Qed.

Lemma mapM_number_nth l ms i v : mapM number l = Ok ms -> nth_error l i = Some v ->
  exists q, v = VQ [q] /\ nth_error ms i = Some q.
Proof.
  revert ms i. induction l as [|x r IH]; intros ms [|i] E N; try discriminate; cbn in E;
    destruct x as [z|[|q [|? ?]]]; cbn in E; try discriminate;
    destruct (mapM number r) as [ms0|]; cbn in E; try discriminate; injection E as <-.
  - cbn in N. injection N as <-. now exists q.
  - cbn in *. now apply IH.
Qed.
Lemma mapM_length {A B} (f : A -> res B) l r : mapM f l = Ok r -> length r = length l.
Proof.
  revert r. induction l as [|x l IH]; intros r E; cbn in E; [now injection E as <-|].
  destruct (f x); cbn in E; [|discriminate]. destruct (mapM f l); cbn in E; [|discriminate].
  injection E as <-. cbn. f_equal. now apply IH.
Qed.

Lemma recalc_floating c rho0 cds mfs water c' :
  well_formed c -> all_floating c -> get_view c 0 = VEmpty -> mass_column c <> [] ->
  recalc_density c true rho0 cds mfs water = (c', None) ->
  exists ms cs ws, column c n_mass = Some (map (fun q => VQ [q]) ms) /\ column c n_comps = Some (map VQ cs) /\
    column c n_fw = Some (map (fun q => VQ [q]) ws) /\ length cs = length ms /\ length ws = length ms /\
    let oil := map (fun '(m, mc, fw) => oil_rho (k_rho rho0 cds mfs) cds m mc) (zip3 ms cs ws) in
    let new := map (fun '(m, mc, fw) => new_rho water (oil_rho (k_rho rho0 cds mfs) cds m mc) fw) (zip3 ms cs ws) in
    c_data c' = dset n_oil_density (map (fun q => VQ [q]) oil) (dset n_density (map (fun q => VQ [q]) new) (c_data c)).
Proof.
  intros W F V0 NE E. unfold recalc_density in E. cbn [negb] in E. rewrite (floating_get _ _ W F) in E.
  set (c1 := put_view c _) in *.
  assert (V1 : get_view c1 f_surf = VAlias) by apply view_set.
  assert (V01 : get_view c1 0 = VEmpty).
  { unfold get_view, c1. cbn [c_view put_view]. rewrite dget_dset_other by discriminate. exact V0. }
  assert (R : forall name, read c1 f_surf name = match column c name with Some l => Ok l | None => Raise KeyErr end).
  { intros name. unfold read. rewrite V1. reflexivity. }
  rewrite !R in E.
  assert (VN : forall l ms, mapM number l = Ok ms -> l = map (fun q => VQ [q]) ms).
  { induction l as [|x r IH]; intros ms X; cbn in X; [now injection X as <-|].
    destruct x as [z|[|q [|? ?]]]; cbn in X; try discriminate.
    destruct (mapM number r); cbn in X; [|discriminate]. injection X as <-. cbn. now rewrite (IH _ eq_refl) at 1. }
  destruct (column c n_mass) as [lm|] eqn:M; cbn [bind] in E; [|discriminate].
  destruct (mapM number lm) as [ms|] eqn:NM; cbn [bind] in E; [|discriminate].
  destruct (column c n_comps) as [lc|] eqn:C; cbn [bind] in E; [|discriminate].
  destruct (mapM vector lc) as [cs|] eqn:NC; cbn [bind] in E; [|discriminate].
  destruct (column c n_fw) as [lw|] eqn:Wt; cbn [bind] in E; [|discriminate].
  destruct (mapM number lw) as [ws|] eqn:NW; cbn [bind] in E; [|discriminate].
  pose proof (mapM_length _ _ _ NM) as L1. pose proof (mapM_length _ _ _ NC) as L2. pose proof (mapM_length _ _ _ NW) as L3.
  pose proof (column_len _ _ _ W M _ _ C) as LC. pose proof (column_len _ _ _ W M _ _ Wt) as LW.
  exists ms, cs, ws. rewrite (VN _ _ NM), (VN _ _ NW), (proj2 (mapM_vector _ _ NC)) .
  do 3 (split; [reflexivity|]). split; [congruence|]. split; [congruence|].
  assert (ZL : length (zip3 ms cs ws) = length ms) by (apply zip3_length; congruence).
  destruct (zip3 ms cs ws) as [|z0 zr] eqn:Z.
  { exfalso. apply NE. unfold mass_column. rewrite M. destruct lm; [reflexivity|]. cbn in *. lia. }
  rewrite <- Z in *. clear Z z0 zr ZL.
  set (c2 := assign c1 f_surf n_density _) in E.
  assert (V2 : get_view c2 f_surf = VAlias) by (unfold c2, assign; rewrite V1; exact V1).
  assert (D2 : c_data c2 = dset n_density
    (map (fun q => VQ [q]) (map (fun '(m, mc, fw) => new_rho water (oil_rho (k_rho rho0 cds mfs) cds m mc) fw) (zip3 ms cs ws))) (c_data c))
    by (unfold c2, assign; rewrite V1; reflexivity).
  assert (V02 : get_view c2 0 = VEmpty) by (unfold c2, assign; rewrite V1; exact V01).
  set (c3 := assign c2 f_surf n_oil_density _) in E.
  assert (V03 : get_view c3 0 = VEmpty) by (unfold c3, assign; rewrite V2; exact V02).
  pose proof (update_empty _ 0 V03) as H. rewrite E in H. cbn [fst] in H. rewrite H.
  unfold c3, assign. rewrite V2. cbn [c_data put_data]. rewrite D2. reflexivity.
Qed.

(** ** Dispersing *)

Lemma clip01_range q : (0 <= clip01 q <= 1)%Q.
Proof.
  unfold clip01. destruct (Qle_bool q 0) eqn:A; [split; discriminate|].
  destruct (Qle_bool 1 q) eqn:B; [split; [discriminate|apply Qle_refl]|].
  split; apply Qlt_le_weak, Qnot_le_lt; rewrite <- Qle_bool_iff; congruence.
Qed.
