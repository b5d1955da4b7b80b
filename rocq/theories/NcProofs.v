(** * Lemmas about the NetCDF file *)
From Coq Require Import Lia PeanoNat Bool.
From Verif Require Import Py PyLemmas NcModel NcSpec.
Local Open Scope Z_scope.

Lemma dget_dset : forall (V : Type) k k' (v : V) d, dget k (dset k' v d) = if k =? k' then Some v else dget k d.
Proof.
  intros V k k' v d. induction d as [|[a u] d IH]; simpl.
  - reflexivity.
  - destruct (k' =? a) eqn:E; simpl.
    + apply Z.eqb_eq in E. subst a. destruct (k =? k'); reflexivity.
    + destruct (k =? a) eqn:F; [|exact IH]. apply Z.eqb_eq in F. subst a.
      rewrite Z.eqb_sym in E. rewrite E. reflexivity.
Qed.
Lemma dget_key : forall (V : Type) k (v : V) d, dget k d = Some v -> In k (map fst d).
Proof.
  intros V k v d. induction d as [|[a u] d IH]; simpl; [discriminate|].
  destruct (k =? a) eqn:E; [ apply Z.eqb_eq in E; auto | auto ].
Qed.
Lemma dget_none : forall (V : Type) k (d : list (Z * V)), dget k d = None <-> ~ In k (map fst d).
Proof.
  intros V k d. induction d as [|[a u] d IH]; simpl; [tauto|].
  destruct (k =? a) eqn:E; [ apply Z.eqb_eq in E; split; [discriminate|intros X; exfalso; apply X; left; auto] | ].
  apply Z.eqb_neq in E. rewrite IH. intuition congruence.
Qed.
Lemma dget_in_pair : forall (V : Type) k (v : V) d, dget k d = Some v -> In (k, v) d.
Proof.
  intros V k v d. induction d as [|[a u] d IH]; simpl; [discriminate|].
  destruct (k =? a) eqn:E; [ apply Z.eqb_eq in E; intros H; inversion H; subst; auto | auto ].
Qed.

(** ** The arrays chosen *)
Lemma add_in : forall s a b, In b (add_name s a) <-> In b s \/ b = a.
Proof.
  intros s a b. unfold add_name. destruct (zmem a s) eqn:E.
  - apply zmem_In in E. split; [auto|]. intros [H|H]; [auto|subst; auto].
  - rewrite in_app_iff. simpl. intuition.
Qed.
Lemma fold_add_in : forall l s b, In b (fold_left add_name l s) <-> In b s \/ In b l.
Proof.
  induction l as [|a l IH]; simpl; intros s b; [tauto|]. rewrite IH, add_in. intuition.
Qed.
Lemma fold_add_nodup : forall l s, NoDup s -> NoDup (fold_left add_name l s).
Proof.
  induction l as [|a l IH]; simpl; intros s N; [auto|]. apply IH. unfold add_name.
  destruct (zmem a s) eqn:E; [auto|].
  assert (M : ~ In a s) by (intros H; apply zmem_In in H; congruence).
  apply NoDup_Add with (a := a) (l := s); [|split; assumption].
  replace (s ++ [a]) with (s ++ a :: []) by reflexivity. rewrite <- (app_nil_r s) at 1. apply Add_app.
Qed.
Lemma nodup_filter : forall (f : Z -> bool) l, NoDup l -> NoDup (filter f l).
Proof. intros. apply NoDup_filter. assumption. Qed.

Lemma update_in : forall w arrays names a, In a (update_arrays w arrays names) <->
  (In a arrays \/ (w <> Standard /\ In a names /\ a <> POS)) /\ (w = Most -> ~ In a skipped) /\ (In a names \/ In a special).
Proof.
  intros w arrays names a. unfold update_arrays. rewrite filter_In, orb_true_iff, !zmem_In.
  destruct w.
  - intuition congruence.
  - rewrite filter_In, fold_add_in, filter_In, !negb_true_iff, Z.eqb_neq.
    assert (E : zmem a skipped = false <-> ~ In a skipped).
    { rewrite <- zmem_In. destruct (zmem a skipped); split; congruence. }
    rewrite E. intuition congruence.
  - rewrite fold_add_in, filter_In, negb_true_iff, Z.eqb_neq. intuition congruence.
Qed.
Lemma update_nodup : forall w arrays names, NoDup arrays -> NoDup (update_arrays w arrays names).
Proof.
  intros w arrays names N. unfold update_arrays. apply nodup_filter.
  destruct w; [exact N| |]; repeat apply nodup_filter; apply fold_add_nodup; exact N.
Qed.
Lemma update_twice : forall w arrays names a,
  In a (update_arrays w (update_arrays w arrays names) names) <-> In a (update_arrays w arrays names).
Proof. intros. rewrite update_in. rewrite update_in. tauto. Qed.

(** ** Writing *)
Lemma put_end : forall l d, put l (length l) d = l ++ map Some d.
Proof.
  intros l d. unfold put. rewrite Nat.sub_diag. simpl. rewrite app_nil_r, firstn_all.
  rewrite skipn_all2 by lia. rewrite app_nil_r. reflexivity.
Qed.
Lemma put_one : forall l i v, (length l <= i)%nat -> length (put l i [v]) = S i /\ nth i (put l i [v]) None = Some v /\
  forall j, (j < i)%nat -> nth j (put l i [v]) None = nth j l None.
Proof.
  intros l i v H. unfold put. rewrite skipn_all2 by (simpl; lia). rewrite app_nil_r.
  set (p := firstn i (l ++ repeat None (i - length l))).
  assert (L : length p = i).
  { unfold p. rewrite firstn_length, app_length, repeat_length. lia. }
  split; [rewrite app_length; simpl; lia|]. split.
  - rewrite app_nth2 by lia. rewrite L, Nat.sub_diag. reflexivity.
  - intros j J. rewrite app_nth1 by lia. unfold p.
    rewrite firstn_all2 by (rewrite app_length, repeat_length; lia).
    destruct (Nat.lt_ge_cases j (length l)).
    + apply app_nth1. assumption.
    + rewrite app_nth2 by lia. rewrite (nth_overflow l) by lia.
      destruct (Nat.lt_ge_cases (j - length l) (i - length l)).
      * apply nth_repeat.
      * apply nth_overflow. rewrite repeat_length. lia.
Qed.

Definition col (a : Z) (s : snap) : list Z := match column s a with Ok l => l | Raise _ => [] end.
Definition good (arrays : list Z) (s : snap) : Prop :=
  forall a, In a arrays -> column s a = Ok (col a s) /\ length (col a s) = length (s_pos s).

Lemma special_cases : forall a, In a special <-> a = LON \/ a = LAT \/ a = DEP.
Proof. intros a. unfold special. simpl. intuition. Qed.

Lemma col_holds : forall s a l, holds s a l -> column s a = Ok l.
Proof.
  intros s a l H. destruct H; try reflexivity. unfold column. rewrite special_cases in H.
  destruct (a =? LON) eqn:E1; [apply Z.eqb_eq in E1; tauto|].
  destruct (a =? LAT) eqn:E2; [apply Z.eqb_eq in E2; tauto|].
  destruct (a =? DEP) eqn:E3; [apply Z.eqb_eq in E3; tauto|]. rewrite H0. reflexivity.
Qed.

Lemma complete_good : forall names arrays s, complete names s ->
  (forall a, In a arrays -> a <> POS /\ (In a names \/ In a special)) -> good arrays s.
Proof.
  intros names arrays s C H a I. destruct (H a I) as [P [N|S]].
  - destruct (in_dec Z.eq_dec a special) as [S|S].
    + apply special_cases in S. destruct S as [->|[->| ->]]; unfold col, column; simpl; rewrite map_length; auto.
    + destruct (C a N P S) as (l & G & L). assert (E : column s a = Ok l) by (apply col_holds; constructor; assumption).
      unfold col. rewrite E. auto.
  - apply special_cases in S. destruct S as [->|[->| ->]]; unfold col, column; simpl; rewrite map_length; auto.
Qed.

Lemma write_vars_ok : forall arrays start s vars, NoDup arrays -> good arrays s ->
  (forall a, In a arrays -> exists l, dget a vars = Some l) ->
  exists vars', write_vars arrays start s vars = Ok vars' /\
    forall a, dget a vars' = if in_dec Z.eq_dec a arrays then
      match dget a vars with Some l => Some (put l start (col a s)) | None => None end else dget a vars.
Proof.
  induction arrays as [|a arrays IH]; intros start s vars N G D.
  - exists vars. split; [reflexivity|]. intros. destruct (in_dec Z.eq_dec a []) as [[]|]. reflexivity.
  - inversion N; subst. simpl write_vars. destruct (D a (or_introl eq_refl)) as [l L]. rewrite L.
    destruct (G a (or_introl eq_refl)) as [C E]. rewrite C. simpl bind. rewrite E, Nat.eqb_refl.
    destruct (IH start s (dset a (put l start (col a s)) vars)) as (vars' & W & P); auto.
    + intros b B. apply G. right. exact B.
    + intros b B. rewrite dget_dset. destruct (b =? a); [eauto|]. apply D. right. exact B.
    + exists vars'. split; [exact W|]. intros b. rewrite P, dget_dset.
      destruct (b =? a) eqn:Q.
      * apply Z.eqb_eq in Q. subst b. destruct (in_dec Z.eq_dec a arrays); [contradiction|].
        destruct (in_dec Z.eq_dec a (a :: arrays)) as [|X]; [|exfalso; apply X; left; reflexivity]. rewrite L. reflexivity.
      * apply Z.eqb_neq in Q. destruct (in_dec Z.eq_dec b arrays), (in_dec Z.eq_dec b (a :: arrays)); try reflexivity.
        -- exfalso. apply n. right. assumption.
        -- exfalso. destruct i; [congruence|contradiction].
Qed.

Definition stamp (st : Z) (s : snap) : cell := Some (s_time s - st).
(** What is in the group of the mass balance after the elements [h]. *)
Definition mb_inv (st : Z) (h : list snap) (g : list (Z * list cell)) : Prop :=
  dget TIME g = Some (map (stamp st) h) /\
  (forall k l, In (k, l) g -> (length l <= length h)%nat) /\
  NoDup (map fst g) /\
  (forall i s k v, nth_error h i = Some s -> dget k (s_mb s) = Some v -> k <> TIME ->
     exists l, dget k g = Some l /\ nth i l None = Some v).

Lemma dset_in : forall (V : Type) k k' (v v' : V) d, NoDup (map fst d) -> In (k, v) (dset k' v' d) -> (k = k' /\ v = v') \/ (k <> k' /\ In (k, v) d).
Proof.
  intros V k k' v v' d. induction d as [|[a u] d IH]; simpl; intros N H.
  - destruct H as [H|[]]. inversion H. auto.
  - inversion N; subst. destruct (k' =? a) eqn:E.
    + apply Z.eqb_eq in E. subst a. destruct H as [H|H]; [inversion H; auto|]. right. split; [|auto].
      intros ->. apply H2. apply in_map_iff. exists (k', v). auto.
    + apply Z.eqb_neq in E. destruct H as [H|H]; [inversion H; subst; right; auto|].
      destruct (IH H3 H) as [P|[P Q]]; auto.
Qed.
Lemma dset_keys : forall (V : Type) k (v : V) d b, In b (map fst (dset k v d)) -> b = k \/ In b (map fst d).
Proof.
  intros V k v d b. induction d as [|[a u] d IH]; simpl; [intuition|]. destruct (k =? a) eqn:E; simpl; intuition.
Qed.
Lemma dset_nodup : forall (V : Type) k (v : V) d, NoDup (map fst d) -> NoDup (map fst (dset k v d)).
Proof.
  intros V k v d. induction d as [|[a u] d IH]; simpl; intros N; [repeat constructor; auto|].
  inversion N; subst. destruct (k =? a) eqn:E; simpl.
  - apply Z.eqb_eq in E. subst. constructor; assumption.
  - apply Z.eqb_neq in E. constructor; [|auto]. intros H. apply dset_keys in H. destruct H; congruence.
Qed.

(** Writing some keys at the place [idx]. *)
Definition key_inv (idx : nat) (g g' : list (Z * list cell)) (done : list (Z * Z)) : Prop :=
  NoDup (map fst g') /\
  (forall k l, In (k, l) g' -> (length l <= S idx)%nat) /\
  (forall k, ~ In k (map fst done) -> dget k g' = dget k g) /\
  (forall k v, dget k done = Some v -> exists l', dget k g' = Some l' /\ nth idx l' None = Some v /\ length l' = S idx /\
     forall j, (j < idx)%nat -> nth j l' None = nth j (match dget k g with Some l => l | None => [] end) None).

Lemma write_keys : forall idx l g, NoDup (map fst l) -> NoDup (map fst g) ->
  (forall k m, In (k, m) g -> (length m <= S idx)%nat) ->
  (forall k m, In k (map fst l) -> dget k g = Some m -> (length m <= idx)%nat) ->
  key_inv idx g (fold_left (fun g kv => write_key idx (fst kv) (snd kv) g) l g) l.
Proof.
  intros idx l. induction l as [|[k v] l IH]; intros g N NG LG SG; simpl.
  - repeat split; auto. intros k v H. discriminate.
  - simpl in N. inversion N; subst.
    set (m := match dget k g with Some m => m | None => [] end).
    assert (Lm : (length m <= idx)%nat).
    { unfold m. destruct (dget k g) as [m'|] eqn:E; [|simpl; lia]. apply (SG k m'); simpl; auto. }
    destruct (put_one m idx v Lm) as (P1 & P2 & P3).
    set (g1 := write_key idx k v g).
    assert (G1 : forall b, dget b g1 = if b =? k then Some (put m idx [v]) else dget b g).
    { intros b. unfold g1, write_key. apply dget_dset. }
    destruct (IH g1) as (A & B & C & D).
    + assumption.
    + unfold g1, write_key. apply dset_nodup, NG.
    + intros b q Q. unfold g1, write_key in Q. apply dset_in in Q; [|exact NG].
      destruct Q as [[-> ->]|[_ Q]]; [fold m; lia|]. apply (LG b q Q).
    + intros b q Q R. rewrite G1 in R. destruct (b =? k) eqn:E.
      * apply Z.eqb_eq in E. subst b. contradiction.
      * apply (SG b q); simpl; auto.
    + split; [exact A|]. split; [exact B|]. split.
      * intros b Q. rewrite C by (intros X; apply Q; simpl; auto). rewrite G1. destruct (b =? k) eqn:E; [|reflexivity].
        apply Z.eqb_eq in E. subst b. exfalso. apply Q. left. reflexivity.
      * intros b u Q. simpl in Q. destruct (b =? k) eqn:E.
        -- inversion Q; subst u. apply Z.eqb_eq in E. subst b.
           exists (put m idx [v]). rewrite C by assumption. rewrite G1, Z.eqb_refl. repeat split; auto.
        -- destruct (D b u Q) as (l' & D1 & D2 & D3 & D4). exists l'. rewrite G1, E in D4. auto.
Qed.

Lemma write_mb_ok : forall st h s mb g, balanced mb s -> mb <> [] -> mb_inv st h g ->
  exists g', write_mb (length h) (s_time s - st) (s_mb s) (Some g) = Ok (Some g') /\ mb_inv st (h ++ [s]) g'.
Proof.
  intros st h s mb g (B1 & B2 & B3) M (T & L & N & V). unfold write_mb.
  destruct (s_mb s) as [|kv r] eqn:E; [ exfalso; apply M, B1; reflexivity | ]. rewrite T. rewrite <- E in *. clear E.
  set (idx := length h) in *.
  set (tl := map (stamp st) h) in *.
  assert (Lt : length tl = idx) by (unfold tl; apply map_length).
  destruct (put_one tl idx (s_time s - st)) as (P1 & P2 & P3); [lia|].
  set (g1 := write_key idx TIME (s_time s - st) g).
  assert (G1 : forall b, dget b g1 = if b =? TIME then Some (put tl idx [s_time s - st]) else dget b g).
  { intros b. unfold g1, write_key. rewrite T. apply dget_dset. }
  assert (I1 : forall b q, In (b, q) g1 -> (b = TIME /\ q = put tl idx [s_time s - st]) \/ (b <> TIME /\ In (b, q) g)).
  { intros b q Q. unfold g1, write_key in Q. rewrite T in Q. apply dset_in in Q; assumption. }
  destruct (write_keys idx (s_mb s) g1) as (A & B & C & D).
  - exact B2.
  - unfold g1, write_key. apply dset_nodup, N.
  - intros b q Q. destruct (I1 b q Q) as [[-> ->]|[_ R]]; [lia|]. specialize (L b q R). lia.
  - intros b q Q R. rewrite G1 in R. destruct (b =? TIME) eqn:E.
    + apply Z.eqb_eq in E. subst b. contradiction.
    + apply dget_in_pair in R. apply (L b q R).
  - eexists. split; [reflexivity|]. split; [|split; [|split]].
    + rewrite C by exact B3. rewrite G1, Z.eqb_refl. f_equal. rewrite <- Lt, put_end.
      unfold tl. rewrite map_app. reflexivity.
    + rewrite app_length. simpl. intros k l Q. specialize (B k l Q). fold idx. lia.
    + exact A.
    + intros i s' k v Hi Hv Hk. destruct (Nat.lt_ge_cases i idx) as [I|I].
      * rewrite nth_error_app1 in Hi by exact I. destruct (V i s' k v Hi Hv Hk) as (l & Q1 & Q2).
        destruct (dget k (s_mb s)) as [u|] eqn:U.
        -- destruct (D k u U) as (l' & D1 & D2 & D3 & D4). exists l'. split; [exact D1|]. rewrite D4 by exact I.
           rewrite G1. apply Z.eqb_neq in Hk. rewrite Hk, Q1. exact Q2.
        -- exists l. split; [|exact Q2]. rewrite C by (apply dget_none; exact U). rewrite G1. apply Z.eqb_neq in Hk. rewrite Hk. exact Q1.
      * rewrite nth_error_app2 in Hi by exact I. fold idx in Hi.
        assert (J : i = idx /\ s' = s).
        { destruct (i - idx)%nat as [|n] eqn:E; simpl in Hi; [ inversion Hi; split; [lia|reflexivity] | destruct n; discriminate ]. }
        destruct J as [-> ->]. destruct (D k v Hv) as (l' & D1 & D2 & _). eauto.
Qed.

(** ** The invariant of a file *)
Definition total (h : list snap) : nat := fold_right Nat.add O (map (fun s => length (s_pos s)) h).
Lemma total_app : forall h s, total (h ++ [s]) = (total h + length (s_pos s))%nat.
Proof. intros h s. unfold total. induction h; simpl in *; lia. Qed.

Record inv (st : Z) (arrays mb : list Z) (h : list snap) (f : file) : Prop := {
  i_start : f_start f = st;
  i_times : f_times f = map (fun s => s_time s - st) h;
  i_counts : f_counts f = map (fun s => length (s_pos s)) h;
  i_vars : forall a, dget a (f_vars f) = if in_dec Z.eq_dec a arrays then Some (map Some (flat_map (col a) h)) else None;
  i_keys : forall a, In a (map fst (f_vars f)) <-> In a arrays;
  i_mb : match f_mb f with None => mb = [] | Some g => mb <> [] /\ mb_inv st h g end }.

Lemma new_inv : forall st arrays mb, NoDup mb -> ~ In TIME mb -> inv st arrays mb [] (new_file st arrays mb).
Proof.
  intros st arrays mb N T. constructor; simpl; try reflexivity.
  - intros a. induction arrays as [|b r IH]; simpl; [reflexivity|].
    destruct (a =? b) eqn:E.
    + apply Z.eqb_eq in E. subst. destruct (Z.eq_dec b b); [reflexivity|congruence].
    + apply Z.eqb_neq in E. rewrite IH. destruct (Z.eq_dec b a); [congruence|]. destruct (in_dec Z.eq_dec a r); reflexivity.
  - intros a. rewrite map_map. simpl. rewrite map_id. tauto.
  - destruct mb as [|k r]; [reflexivity|]. split; [discriminate|].
    assert (K : map fst (map (fun k0 : Z => (k0, @nil cell)) (k :: r)) = k :: r) by (rewrite map_map; simpl; rewrite map_id; reflexivity).
    repeat split.
    + intros a l H. simpl in H. destruct H as [H|[H|H]]; [inversion H; simpl; lia|inversion H; simpl; lia|].
      apply in_map_iff in H. destruct H as (b & E & _). inversion E. simpl. lia.
    + simpl in *. constructor; [|rewrite map_map; simpl; rewrite map_id; exact N].
      rewrite map_map. simpl. rewrite map_id. exact T.
    + intros i s k0 v H. destruct i; discriminate.
Qed.

Lemma inv_ext : forall st arrays arrays' mb h f, (forall a, In a arrays <-> In a arrays') -> inv st arrays mb h f -> inv st arrays' mb h f.
Proof.
  intros st arrays arrays' mb h f E [A B C D K F]. constructor; try assumption.
  - intros a. rewrite D. destruct (in_dec Z.eq_dec a arrays) as [I|I], (in_dec Z.eq_dec a arrays') as [J|J]; try reflexivity.
    + apply E in I. contradiction.
    + apply E in J. contradiction.
  - intros a. rewrite K. apply E.
Qed.

Lemma write_vars_keys : forall arrays start s vars vars', write_vars arrays start s vars = Ok vars' ->
  forall a, In a (map fst vars') <-> In a (map fst vars).
Proof.
  intros arrays start s. induction arrays as [|b r IH]; simpl; intros vars vars' H a; [inversion H; tauto|].
  destruct (dget b vars) as [l|] eqn:E; [|discriminate].
  destruct (column s b) as [d|]; simpl in H; [|discriminate].
  destruct (length d =? length (s_pos s))%nat; [|discriminate].
  rewrite (IH _ _ H a). destruct (dget a vars) as [v|] eqn:G.
  - pose proof (dget_key _ _ _ _ G). split; [auto|]. intros _.
    destruct (dget a (dset b (put l start d) vars)) as [w|] eqn:W; [apply dget_key in W; exact W|].
    rewrite dget_dset in W. destruct (a =? b); [discriminate|congruence].
  - assert (N : ~ In a (map fst vars)) by (apply dget_none; exact G). split; [|contradiction].
    intros X. exfalso. apply dget_none in X; [contradiction|]. rewrite dget_dset.
    destruct (a =? b) eqn:Q; [|exact G]. apply Z.eqb_eq in Q. subst. congruence.
Qed.

Lemma col_length : forall arrays a h, In a arrays -> Forall (good arrays) h -> length (flat_map (col a) h) = total h.
Proof.
  intros arrays a h I F. induction F as [|s h G F IH]; [reflexivity|].
  simpl. rewrite app_length, IH. destruct (G a I) as [_ E]. rewrite E. reflexivity.
Qed.

Lemma write_one_ok : forall st arrays mb h f s, NoDup arrays -> Forall (good arrays) h -> good arrays s -> balanced mb s ->
  inv st arrays mb h f -> exists f', write_one arrays (total h) s f = Ok (f', total (h ++ [s])) /\ inv st arrays mb (h ++ [s]) f'.
Proof.
  intros st arrays mb h f s N Gh G B [A1 A2 A3 A4 A5 A6]. unfold write_one.
  destruct (write_vars_ok arrays (total h) s (f_vars f) N G) as (vars & W & P).
  { intros a I. rewrite A4. destruct (in_dec Z.eq_dec a arrays); [eauto|contradiction]. }
  assert (X : exists g', write_mb (length (f_times f)) (s_time s - f_start f) (s_mb s) (f_mb f) = Ok g' /\
    match g' with None => mb = [] | Some g => mb <> [] /\ mb_inv st (h ++ [s]) g end).
  { rewrite A1, A2, map_length. destruct (f_mb f) as [g|].
    - destruct A6 as [M I]. destruct (write_mb_ok st h s mb g B M I) as (g' & E & J). exists (Some g'). auto.
    - exists None. split; [|assumption]. unfold write_mb. destruct B as [B _].
      apply B in A6. rewrite A6. reflexivity. }
  destruct X as (g' & E & J). rewrite W. simpl. rewrite E. simpl. eexists. split; [rewrite total_app; reflexivity|].
  constructor; simpl.
  - exact A1.
  - rewrite A2, A1, map_app. reflexivity.
  - rewrite A3, map_app. reflexivity.
  - intros a. rewrite P, A4. destruct (in_dec Z.eq_dec a arrays) as [I|I]; [|reflexivity].
    f_equal. rewrite <- (col_length arrays a h I Gh), <- (map_length (@Some Z)), put_end.
    rewrite flat_map_app, map_app. simpl. rewrite app_nil_r. reflexivity.
  - intros a. rewrite (write_vars_keys _ _ _ _ _ W a). apply A5.
  - exact J.
Qed.

(** The whole run: both files hold what was written, when both containers
    always have as many elements. *)
Definition same_count (p : snap * option snap) : Prop :=
  match snd p with Some u => length (s_pos u) = length (s_pos (fst p)) | None => True end.
Definition unc_of (l : list (snap * option snap)) : list snap :=
  flat_map (fun p => match snd p with Some u => [u] | None => [] end) l.

Lemma write_all_ok : forall st arrays mb umb u l h hu f fu,
  NoDup arrays -> Forall (good arrays) h -> Forall (good arrays) hu -> total hu = total h \/ u = false ->
  Forall (fun p => good arrays (fst p) /\ balanced mb (fst p) /\ same_count p /\
    match snd p with Some s => u = true /\ good arrays s /\ balanced umb s | None => u = false end) l ->
  inv st arrays mb h f -> match fu with Some g => inv st arrays umb hu g | None => u = false end ->
  exists f' fu', write_all (Nco arrays (total h) (Some f) fu) l = Ok (Nco arrays (total (h ++ map fst l)) (Some f') fu') /\
    inv st arrays mb (h ++ map fst l) f' /\ match fu' with Some g => inv st arrays umb (hu ++ unc_of l) g | None => u = false end.
Proof.
  intros st arrays mb umb u l. induction l as [|p l IH]; intros h hu f fu N Gh Gu T F I Iu.
  - simpl. rewrite !app_nil_r. eauto.
  - inversion F as [|? ? (G1 & B1 & SC & U) F']; subst.
    destruct (write_one_ok st arrays mb h f (fst p) N Gh G1 B1 I) as (f1 & W1 & I1).
    simpl. unfold write_step. simpl. rewrite W1. simpl.
    assert (Gh' : Forall (good arrays) (h ++ [fst p])) by (apply Forall_app; auto).
    destruct p as [s [s'|]]; simpl in *.
    + destruct U as (-> & G2 & B2). destruct T as [T|T]; [|discriminate].
      destruct fu as [g|]; [|discriminate].
      destruct (write_one_ok st arrays umb hu g s' N Gu G2 B2 Iu) as (g1 & W2 & I2).
      rewrite T in W2. rewrite W2. simpl.
      assert (Gu' : Forall (good arrays) (hu ++ [s'])) by (apply Forall_app; auto).
      assert (T' : total (hu ++ [s']) = total (h ++ [s])).
      { rewrite !total_app, T. unfold same_count in SC. simpl in SC. lia. }
      rewrite T'.
      destruct (IH (h ++ [s]) (hu ++ [s']) f1 (Some g1) N Gh' Gu' (or_introl T') F' I1 I2) as (f' & fu' & W & J & Ju).
      exists f', fu'. rewrite <- app_assoc in W, J. simpl in W, J. split; [exact W|]. split; [exact J|].
      destruct fu'; [|exact Ju]. rewrite <- app_assoc in Ju. exact Ju.
    + subst u. destruct (IH (h ++ [s]) hu f1 fu N Gh' Gu (or_intror eq_refl) F' I1 Iu) as (f' & fu' & W & J & Ju).
      exists f', fu'. rewrite <- app_assoc in W, J. simpl in W, J. split; [exact W|]. split; [exact J|exact Ju].
Qed.

(** ** Reading *)
Lemma sum_counts_ok : forall h pre n, (n <= length h)%nat ->
  sum_counts (map (fun s => length (s_pos s)) (pre ++ h)) (Z.of_nat (length pre)) n = Ok (total (firstn n h)).
Proof.
  intros h. induction h as [|s h IH]; intros pre n L; destruct n; simpl in *; try reflexivity; try lia.
  assert (P : py_get (map (fun s => length (s_pos s)) (pre ++ s :: h)) (Z.of_nat (length pre)) = Ok (length (s_pos s))).
  { unfold py_get, py_pos. rewrite map_length, app_length. simpl length.
    destruct (0 <=? Z.of_nat (length pre)) eqn:E; [|apply Z.leb_gt in E; lia].
    destruct (Z.of_nat (length pre) <? Z.of_nat (length pre + S (length h))) eqn:G; [|apply Z.ltb_ge in G; lia].
    rewrite Nat2Z.id, map_app, nth_error_app2 by (rewrite map_length; lia).
    rewrite map_length, Nat.sub_diag. reflexivity. }
  rewrite P. simpl.
  replace (pre ++ s :: h) with ((pre ++ [s]) ++ h) by (rewrite <- app_assoc; reflexivity).
  replace (Z.of_nat (length pre) + 1) with (Z.of_nat (length (pre ++ [s]))) by (rewrite app_length; simpl; lia).
  rewrite IH by lia. reflexivity.
Qed.

Lemma py_get_nat : forall (A : Type) (l : list A) k x, nth_error l k = Some x -> py_get l (Z.of_nat k) = Ok x.
Proof.
  intros A l k x H. assert (L : (k < length l)%nat) by (apply nth_error_Some; congruence).
  unfold py_get, py_pos. destruct (0 <=? Z.of_nat k) eqn:E; [|apply Z.leb_gt in E; lia].
  destruct (Z.of_nat k <? Z.of_nat (length l)) eqn:G; [|apply Z.ltb_ge in G; lia]. rewrite Nat2Z.id, H. reflexivity.
Qed.

Lemma slice_mid : forall d pre mid post, (length pre + length mid <= d)%nat ->
  slice d (pre ++ mid ++ post) (length pre) (length pre + length mid) = mid.
Proof.
  intros d pre mid post D. unfold slice. rewrite Nat.min_l by lia.
  replace (length pre + length mid - length pre)%nat with (length mid) by lia.
  revert pre D. induction mid as [|x mid IH]; intros pre D; simpl; [reflexivity|]. f_equal.
  - rewrite app_nth2 by lia. rewrite Nat.sub_diag. reflexivity.
  - specialize (IH (pre ++ [x])). rewrite <- app_assoc in IH. simpl in IH. rewrite app_length in IH. simpl in IH.
    replace (length pre + 1)%nat with (S (length pre)) in IH by lia. apply IH. simpl in D. lia.
Qed.

Lemma dim_ge : forall a l vars, dget a vars = Some l -> (length l <= dim vars)%nat.
Proof.
  intros a l vars. unfold dim. induction vars as [|[b m] vars IH]; simpl; [discriminate|].
  destruct (a =? b); [intros H; inversion H; subst; lia|]. intros H. specialize (IH H). lia.
Qed.

(** The rows of the elements at [k] in a column. *)
Lemma slice_col : forall arrays a h k s d, In a arrays -> Forall (good arrays) h -> nth_error h k = Some s ->
  (total h <= d)%nat ->
  slice d (map Some (flat_map (col a) h)) (total (firstn k h)) (total (firstn k h) + length (s_pos s)) = map Some (col a s).
Proof.
  intros arrays a h k s d I F H D.
  apply nth_error_split in H. destruct H as (h1 & h2 & -> & K).
  assert (E : firstn k (h1 ++ s :: h2) = h1) by (rewrite <- K, firstn_app, Nat.sub_diag, firstn_all; simpl; apply app_nil_r).
  rewrite E. apply Forall_app in F. destruct F as [F1 F2]. inversion F2 as [|? ? G F3]; subst.
  rewrite flat_map_app, map_app. simpl. rewrite map_app.
  assert (L1 : total h1 = length (map Some (flat_map (col a) h1))) by (rewrite map_length; symmetry; apply (col_length arrays); assumption).
  assert (L2 : length (s_pos s) = length (map Some (col a s))) by (rewrite map_length; symmetry; apply G; assumption).
  assert (T : (total h1 + length (s_pos s) <= total (h1 ++ s :: h2))%nat).
  { clear. unfold total. induction h1; simpl; lia. }
  rewrite L1, L2. apply slice_mid. rewrite !map_length in *. rewrite <- L1, <- L2. lia.
Qed.

Lemma total_firstn : forall h k s, nth_error h k = Some s -> (total (firstn k h) + length (s_pos s) <= total h)%nat.
Proof.
  intros h k s H. apply nth_error_split in H. destruct H as (h1 & h2 & -> & K).
  assert (E : firstn k (h1 ++ s :: h2) = h1) by (rewrite <- K, firstn_app, Nat.sub_diag, firstn_all; simpl; apply app_nil_r).
  rewrite E. clear. unfold total. induction h1; simpl; lia.
Qed.

Lemma combine3 : forall (l : list (Z * Z * Z)),
  combine (combine (map Some (map (fun p => fst (fst p)) l)) (map Some (map (fun p => snd (fst p)) l))) (map Some (map (fun p => snd p) l))
  = map (fun p => (Some (fst (fst p)), Some (snd (fst p)), Some (snd p))) l.
Proof. induction l as [|p l IH]; simpl; [reflexivity|]. rewrite IH. reflexivity. Qed.

Section Read.
  Variables (st : Z) (arrays mb : list Z) (h : list snap) (f : file).
  Hypotheses (I : inv st arrays mb h f) (G : Forall (good arrays) h)
    (SP : forall a, In a special -> In a arrays).
  Variables (k : nat) (s : snap).
  Hypothesis H : nth_error h k = Some s.
  Notation lo := (total (firstn k h)).
  Notation n := (length (s_pos s)).

  Lemma dim_total : (total h <= dim (f_vars f))%nat.
  Proof.
    assert (L : In LON arrays) by (apply SP, special_cases; auto).
    pose proof (i_vars _ _ _ _ _ I LON) as V. destruct (in_dec Z.eq_dec LON arrays); [|contradiction].
    apply dim_ge in V. rewrite map_length, (col_length arrays) in V; assumption.
  Qed.
  Lemma slice_var : forall a, In a arrays -> exists l, dget a (f_vars f) = Some l /\ slice (dim (f_vars f)) l lo (lo + n) = map Some (col a s).
  Proof.
    intros a A. pose proof (i_vars _ _ _ _ _ I a) as V. destruct (in_dec Z.eq_dec a arrays); [|contradiction].
    eexists. split; [exact V|]. apply (slice_col arrays); auto. apply dim_total.
  Qed.
  Lemma read_col_ok : forall a, In a arrays -> read_col f a n lo (lo + n) = Ok (map Some (col a s)).
  Proof.
    intros a A. destruct (slice_var a A) as (l & D & E). unfold read_col. rewrite D, E, map_length.
    assert (Gs : good arrays s) by (rewrite Forall_forall in G; apply G; apply nth_error_In in H; exact H).
    destruct (Gs a A) as [_ L]. rewrite L, Nat.eqb_refl. reflexivity.
  Qed.
  Lemma read_pos_ok : read_pos f n lo (lo + n) =
    Ok (APos (map (fun p => (Some (fst (fst p)), Some (snd (fst p)), Some (snd p))) (s_pos s))).
  Proof.
    unfold read_pos. rewrite !read_col_ok by (apply SP, special_cases; auto). simpl.
    rewrite <- combine3. reflexivity.
  Qed.

  Lemma read_arrays_ok : forall names d, exists d', read_arrays f names n lo (lo + n) d = Ok d' /\
    forall a, dget a d' = if in_dec Z.eq_dec a names then
        if a =? POS then Some (APos (map (fun p => (Some (fst (fst p)), Some (snd (fst p)), Some (snd p))) (s_pos s)))
        else if in_dec Z.eq_dec a arrays then Some (ACol (map Some (col a s))) else dget a d
      else dget a d.
  Proof.
    induction names as [|b names IH]; intros d.
    - exists d. split; [reflexivity|]. intros a. destruct (in_dec Z.eq_dec a []) as [[]|]. reflexivity.
    - simpl read_arrays. destruct (b =? POS) eqn:E.
      + apply Z.eqb_eq in E. subst b. rewrite read_pos_ok. simpl bind.
        match goal with |- context [dset POS ?p d] => set (pp := p); destruct (IH (dset POS p d)) as (d' & R & P) end.
        exists d'. split; [exact R|]. intros a. rewrite P. rewrite dget_dset.
        destruct (in_dec Z.eq_dec a names), (in_dec Z.eq_dec a (POS :: names)) as [J|J]; destruct (a =? POS) eqn:Q; try reflexivity.
        * exfalso. apply J. right. assumption.
        * exfalso. apply J. right. assumption.
        * destruct J as [J|J]; [apply Z.eqb_neq in Q; congruence|contradiction].
        * apply Z.eqb_eq in Q. exfalso. apply J. left. congruence.
      + pose proof (i_vars _ _ _ _ _ I b) as V. destruct (in_dec Z.eq_dec b arrays) as [B|B].
        * destruct (slice_var b B) as (l & D & X). rewrite D, X.
          destruct (IH (dset b (ACol (map Some (col b s))) d)) as (d' & R & P).
          exists d'. split; [exact R|]. intros a. rewrite P. rewrite dget_dset.
          destruct (a =? b) eqn:Q.
          -- apply Z.eqb_eq in Q. subst a. rewrite E. destruct (in_dec Z.eq_dec b (b :: names)) as [J|J]; [|exfalso; apply J; left; reflexivity].
             destruct (in_dec Z.eq_dec b arrays); [|contradiction]. destruct (in_dec Z.eq_dec b names); reflexivity.
          -- apply Z.eqb_neq in Q. destruct (in_dec Z.eq_dec a names), (in_dec Z.eq_dec a (b :: names)) as [J|J]; try reflexivity.
             ++ exfalso. apply J. right. assumption.
             ++ destruct J as [J|J]; [congruence|contradiction].
        * rewrite V. destruct (IH d) as (d' & R & P). exists d'. split; [exact R|]. intros a. rewrite P.
          destruct (in_dec Z.eq_dec a names), (in_dec Z.eq_dec a (b :: names)) as [J|J]; try reflexivity.
          -- exfalso. apply J. right. assumption.
          -- destruct J as [J|J]; [subst a|contradiction]. rewrite E. destruct (in_dec Z.eq_dec b arrays); [contradiction|reflexivity].
  Qed.

  Lemma dim_mb : forall g, mb_inv st h g -> dim g = length h.
  Proof.
    intros g (T & L & N & V). apply dim_ge in T. rewrite map_length in T.
    assert (U : (dim g <= length h)%nat); [|lia].
    clear - L. unfold dim. induction g as [|[a l] g IH]; simpl; [lia|].
    assert (A : (length l <= length h)%nat) by (apply (L a); left; reflexivity).
    assert (B : (fold_right Nat.max 0 (map (fun kv : Z * list cell => length (snd kv)) g) <= length h)%nat).
    { apply IH. intros b m M. apply (L b). right. exact M. }
    lia.
  Qed.

  Lemma mapM_total : forall (A B : Type) (q : A -> res B) (r : A -> B) l, (forall a, In a l -> q a = Ok (r a)) -> mapM q l = Ok (map r l).
  Proof.
    intros A B q r l E. induction l as [|a l IH]; simpl; [reflexivity|].
    rewrite E by (left; reflexivity). simpl. rewrite IH by (intros; apply E; right; assumption). reflexivity.
  Qed.

  Lemma read_mb_ok : forall mb', balanced mb' s -> mb' = mb -> exists r, read_mb f (Z.of_nat k) = Ok r /\
    forall key v, dget key (s_mb s) = Some v -> dget key r = Some (Some v).
  Proof.
    intros mb' (B1 & B2 & B3) ->. pose proof (i_mb _ _ _ _ _ I) as M. unfold read_mb.
    destruct (f_mb f) as [g|].
    - destruct M as [NE M]. pose proof (dim_mb g M) as D. destruct M as (T & L & N & V).
      assert (K : (k < length h)%nat) by (apply nth_error_Some; congruence).
      match goal with |- context [mapM ?q ?l] => rewrite (mapM_total _ _ q (fun kv => (fst kv, nth k (snd kv) None)) l) end.
      + eexists. split; [reflexivity|]. intros key v E.
        assert (KT : key <> TIME) by (intros ->; apply B3; apply dget_key in E; exact E).
        destruct (V k s key v H E KT) as (l & P & Q).
        clear - P Q. induction g as [|[a m] g IH]; simpl in *; [discriminate|].
        destruct (key =? a); [inversion P; subst; rewrite Q; reflexivity|auto].
      + intros [a l] _. unfold item. rewrite D. unfold py_pos. simpl.
        destruct (0 <=? Z.of_nat k) eqn:E1; [|apply Z.leb_gt in E1; lia].
        destruct (Z.of_nat k <? Z.of_nat (length h)) eqn:E2; [|apply Z.ltb_ge in E2; lia].
        rewrite Nat2Z.id. reflexivity.
    - exists []. split; [reflexivity|]. intros key v E. apply B1 in M. rewrite M in E. discriminate.
  Qed.

  Lemma read_data_ok : forall w, w <> AMost -> ~ In POS arrays -> balanced mb s ->
    exists r, read_data f (ByIndex (Z.of_nat k)) w = Ok r /\ reads_as (fun a => In a arrays) s w r.
  Proof.
    intros w W NP B. unfold read_data, read_index.
    assert (K : (k < length h)%nat) by (apply nth_error_Some; congruence).
    destruct (Z.of_nat k <? 0) eqn:E0; [apply Z.ltb_lt in E0; lia|].
    simpl bind. rewrite Nat2Z.id.
    rewrite (i_counts _ _ _ _ _ I), (i_times _ _ _ _ _ I).
    pose proof (sum_counts_ok h [] k) as SC. simpl in SC. rewrite SC by lia. simpl bind.
    rewrite (py_get_nat _ _ k n) by (rewrite nth_error_map, H; reflexivity). simpl bind.
    rewrite (py_get_nat _ _ k (s_time s - st)) by (rewrite nth_error_map, H; reflexivity). simpl bind.
    destruct (read_arrays_ok (read_names f w) []) as (d' & R & P). rewrite R. simpl bind.
    destruct (read_mb_ok mb B eq_refl) as (r & RM & PM). rewrite RM. simpl bind.
    eexists. split; [reflexivity|]. unfold reads_as.
    assert (IN : forall a, In a (read_names f w) <-> (a = POS /\ requested w POS) \/ (a <> POS /\ requested w a /\ (w = AAll -> In a arrays))).
    { intros a. destruct w as [| | |l]; [ | | congruence | ]; unfold read_names, requested.
      - rewrite in_app_iff, filter_In, negb_true_iff. simpl.
        assert (Zm : zmem a special = false <-> ~ In a special) by (rewrite <- zmem_In; destruct (zmem a special); split; congruence).
        rewrite Zm. assert (PS : ~ In POS standard) by (vm_compute; intuition discriminate).
        split.
        + intros [[X Y]|[X|[]]]; [right|left; auto]. split; [intros ->; contradiction|]. split; [auto|congruence].
        + intros [[-> _]|(X & [Y|Y] & _)]; [auto|congruence|tauto].
      - rewrite in_app_iff, filter_In, negb_true_iff, (i_keys _ _ _ _ _ I). simpl.
        assert (Zm : zmem a special = false <-> ~ In a special) by (rewrite <- zmem_In; destruct (zmem a special); split; congruence).
        rewrite Zm. assert (PS : ~ In POS special) by (vm_compute; intuition discriminate).
        split.
        + intros [[X Y]|[X|[]]]; [|left; auto]. right. split; [intros ->; contradiction|]. split; [exact Y|auto].
        + intros [[-> _]|(X & Y & Q)]; [auto|]. left. split; [auto|exact Y].
      - split; [|intros [[-> X]|(_ & X & _)]; exact X].
        intros X. destruct (Z.eq_dec a POS); [subst; auto|]. right. split; [assumption|]. split; [exact X|discriminate]. }
    split; [rewrite (i_start _ _ _ _ _ I); lia|]. split; [|split; [|split]].
    - intros RP. rewrite P. destruct (in_dec Z.eq_dec POS (read_names f w)) as [J|J]; [reflexivity|].
      exfalso. apply J, IN. auto.
    - intros a l NA RA WA HA. rewrite P. assert (Q : (a =? POS) = false) by (apply Z.eqb_neq; exact NA). rewrite Q.
      destruct (in_dec Z.eq_dec a (read_names f w)) as [J|J]; [|exfalso; apply J, IN; right; auto].
      destruct (in_dec Z.eq_dec a arrays); [|contradiction]. apply col_holds in HA. unfold col. rewrite HA. reflexivity.
    - intros a C. rewrite P. destruct (in_dec Z.eq_dec a (read_names f w)) as [J|J]; [|reflexivity].
      apply IN in J. destruct (a =? POS) eqn:Q.
      + apply Z.eqb_eq in Q. exfalso. destruct J as [[_ J]|[J _]]; [|congruence]. subst a. destruct C as [C|[C _]]; auto.
      + apply Z.eqb_neq in Q. destruct J as [[J _]|(_ & J & _)]; [congruence|].
        destruct C as [C|[_ C]]; [contradiction|]. destruct (in_dec Z.eq_dec a arrays); [contradiction|reflexivity].
    - exact PM.
  Qed.
End Read.

(** ** Selecting by time *)
Lemma argmin_from_spec : forall l pre best bv, nth_error (pre ++ l) best = Some bv -> (best < length pre)%nat ->
  (forall j y, nth_error pre j = Some y -> bv <= y) -> (forall j y, (j < best)%nat -> nth_error pre j = Some y -> bv < y) ->
  exists x, nth_error (pre ++ l) (argmin_from best bv (length pre) l) = Some x /\
    (forall j y, nth_error (pre ++ l) j = Some y -> x <= y) /\
    (forall j y, (j < argmin_from best bv (length pre) l)%nat -> nth_error (pre ++ l) j = Some y -> x < y).
Proof.
  induction l as [|v l IH]; intros pre best bv B L M1 M2; simpl.
  - rewrite app_nil_r in *. eauto.
  - assert (E : pre ++ v :: l = (pre ++ [v]) ++ l) by (rewrite <- app_assoc; reflexivity).
    assert (Lp : length (pre ++ [v]) = S (length pre)) by (rewrite app_length; simpl; lia).
    assert (Nth : forall j y, nth_error (pre ++ [v]) j = Some y -> nth_error pre j = Some y \/ (j = length pre /\ y = v)).
    { intros j y Hj. destruct (Nat.lt_ge_cases j (length pre)); [rewrite nth_error_app1 in Hj by assumption; auto|].
      rewrite nth_error_app2 in Hj by assumption. destruct (j - length pre)%nat as [|q] eqn:Q; simpl in Hj; [|destruct q; discriminate].
      inversion Hj. right. split; [lia|reflexivity]. }
    destruct (v <? bv) eqn:V.
    + apply Z.ltb_lt in V. rewrite E, <- Lp. apply IH.
      * rewrite nth_error_app1 by lia. rewrite nth_error_app2, Nat.sub_diag by lia. reflexivity.
      * lia.
      * intros j y Hj. apply Nth in Hj. destruct Hj as [Hj|[_ ->]]; [specialize (M1 j y Hj); lia|lia].
      * intros j y J Hj. apply Nth in Hj. destruct Hj as [Hj|[-> _]]; [specialize (M1 j y Hj); lia|lia].
    + apply Z.ltb_ge in V. rewrite E, <- Lp. apply IH.
      * rewrite <- E. exact B.
      * lia.
      * intros j y Hj. apply Nth in Hj. destruct Hj as [Hj|[_ ->]]; [apply (M1 j y Hj)|exact V].
      * intros j y J Hj. apply Nth in Hj. destruct Hj as [Hj|[-> _]]; [apply (M2 j y J Hj)|lia].
Qed.

Lemma argmin_spec : forall l, l <> [] -> exists k x, argmin l = Ok (Z.of_nat k) /\ nth_error l k = Some x /\
  (forall j y, nth_error l j = Some y -> x <= y) /\ (forall j y, (j < k)%nat -> nth_error l j = Some y -> x < y).
Proof.
  intros [|v r] N; [congruence|]. clear N. unfold argmin.
  destruct (argmin_from_spec r [v] O v) as (x & A & B & C).
  - reflexivity.
  - simpl. lia.
  - intros j y Hj. destruct j; simpl in Hj; [inversion Hj; lia|destruct j; discriminate].
  - intros j y J. lia.
  - exists (argmin_from 0 v 1 r), x. auto.
Qed.

Lemma nearest_shift : forall times st t k, nearest (map (fun x => x - st) times) (t - st) k <-> nearest times t k.
Proof.
  intros times st t k. unfold nearest. split.
  - intros (x & A & B & C). rewrite nth_error_map in A. destruct (nth_error times k) as [x'|]; [|discriminate].
    simpl in A. inversion A; subst x. exists x'. split; [reflexivity|]. split.
    + intros j y Hj. specialize (B j (y - st)). rewrite nth_error_map, Hj in B. specialize (B eq_refl). lia.
    + intros j y J Hj. specialize (C j (y - st) J). rewrite nth_error_map, Hj in C. specialize (C eq_refl). lia.
  - intros (x & A & B & C). exists (x - st). rewrite nth_error_map, A. split; [reflexivity|]. split.
    + intros j y Hj. rewrite nth_error_map in Hj. destruct (nth_error times j) as [y'|] eqn:E; [|discriminate].
      simpl in Hj. inversion Hj; subst. specialize (B j y' E). lia.
    + intros j y J Hj. rewrite nth_error_map in Hj. destruct (nth_error times j) as [y'|] eqn:E; [|discriminate].
      simpl in Hj. inversion Hj; subst. specialize (C j y' J E). lia.
Qed.

Lemma nearest_fun : forall times t k k', nearest times t k -> nearest times t k' -> k = k'.
Proof.
  intros times t k k' (x & A & B & C) (x' & A' & B' & C').
  destruct (Nat.lt_trichotomy k k') as [L|[E|L]]; [|exact E|].
  - specialize (C' k x L A). specialize (B k' x' A'). lia.
  - specialize (C k' x' L A'). specialize (B' k x A). lia.
Qed.
