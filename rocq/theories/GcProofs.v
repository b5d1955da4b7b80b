(** * Lemmas about gridcur files *)
From Coq Require Import QArith Qabs Qround Lia Lqa Bool.
From Verif Require Import Py PyLemmas TimeModel GcModel GcSpec.
From Verif Require SetProofs.
Local Open Scope Z_scope.

Lemma number_float : forall w x, number w x -> py_float w = Ok x.
Proof. intros w x H. destruct H; reflexivity. Qed.
Lemma number_fun : forall w x y, number w x -> number w y -> x = y.
Proof. intros w x y A B. apply number_float in A. apply number_float in B. congruence. Qed.

(** ** Header and grid *)
Lemma read_header_ok : forall pre k u more rest, Forall before pre ->
  read_header (pre ++ (tag k :: u :: more) :: rest) = Ok (k, u, rest).
Proof.
  induction pre as [|l pre IH]; intros k u more rest F; simpl.
  - destruct k; reflexivity.
  - inversion F as [|? ? B F']; subst. destruct B as (w & ws & -> & N1 & N2). simpl.
    destruct w as [z|x|z]; try (apply IH; exact F').
    destruct (z =? GRIDCUR) eqn:E1; [apply Z.eqb_eq in E1; subst; congruence|].
    destruct (z =? GRIDWIND) eqn:E2; [apply Z.eqb_eq in E2; subst; congruence|]. apply IH, F'.
Qed.

Lemma says_mentions : forall g k x, says g k x -> mentions g k.
Proof.
  intros g k x H. induction H as [k w x ws r N M|l r k x S IH]; [exists (w :: ws); left; reflexivity|].
  destruct IH as [ws I]. exists ws. right. exact I.
Qed.
Lemma mentions_cons : forall k ws g k', mentions ((W k :: ws) :: g) k' -> k' = k \/ mentions g k'.
Proof. intros k ws g k' [ws' [E|I]]; [left; congruence|right; exists ws'; exact I]. Qed.
Lemma says_fun : forall g k x y, says g k x -> says g k y -> x = y.
Proof.
  induction g as [|l g IH]; intros k x y A B; inversion A; inversion B; subst; clear A B;
    try match goal with H : _ :: _ = _ :: _ |- _ => inversion H; subst end;
    try (eapply IH; eassumption);
    try match goal with H : ~ mentions _ _, H' : says _ _ _ |- _ => destruct (H (says_mentions _ _ _ H')) end.
  eapply number_fun; eassumption.
Qed.

Lemma read_grid_ok : forall g rest t0 info, Forall grid_line g -> is_time t0 = true ->
  exists info', read_grid (g ++ t0 :: rest) info = Ok (info', t0 :: rest) /\
    forall k, match dget k info' with
              | Some x => says g k x \/ (~ mentions g k /\ dget k info = Some x)
              | None => ~ mentions g k /\ dget k info = None
              end.
Proof.
  induction g as [|l g IH]; intros rest t0 info F T.
  - exists info. split; [cbn [app read_grid]; rewrite T; reflexivity|]. intros k. assert (N : ~ mentions [] k) by (intros [ws A]; inversion A).
    destruct (dget k info); auto.
  - inversion F as [|? ? B F']; subst. destruct B as (k & w & x & ws & -> & NT & NU).
    destruct (IH rest t0 (dset k x info) F' T) as (info' & R & S).
    exists info'. split.
    { cbn [app read_grid]. cbn [is_time]. destruct (k =? TIMETAG) eqn:E; [apply Z.eqb_eq in E; congruence|].
      rewrite (number_float _ _ NU). cbn [bind]. exact R. }
    intros k'. specialize (S k'). rewrite SetProofs.dget_dset in S.
    destruct (dget k' info') as [y|].
    + destruct S as [S|[S1 S2]]; [left; apply says_later; exact S|].
      destruct (k' =? k) eqn:E.
      * apply Z.eqb_eq in E. subst k'. inversion S2; subst y. left. apply says_here; assumption.
      * right. split; [|exact S2]. intros A. apply mentions_cons in A. destruct A as [A|A]; [apply Z.eqb_neq in E; exact (E A)|exact (S1 A)].
    + destruct S as [S1 S2]. destruct (k' =? k) eqn:E; [discriminate|]. split; [|exact S2].
      intros A. apply mentions_cons in A. destruct A as [A|A]; [apply Z.eqb_neq in E; exact (E A)|exact (S1 A)].
Qed.

Lemma info_says : forall g (info : list (Z * num)), (forall k, match dget k info with
              | Some x => says g k x \/ (~ mentions g k /\ dget k (@nil (Z * num)) = Some x)
              | None => ~ mentions g k /\ dget k (@nil (Z * num)) = None
              end) ->
  (forall k x, says g k x -> dget k info = Some x) /\ (forall k, ~ mentions g k -> dget k info = None).
Proof.
  intros g info H. split.
  - intros k x S. specialize (H k). destruct (dget k info) as [y|].
    + destruct H as [H|[H _]]; [f_equal; eapply says_fun; eassumption|destruct (H (says_mentions _ _ _ S))].
    + destruct H as [H _]. destruct (H (says_mentions _ _ _ S)).
  - intros k N. specialize (H k). destruct (dget k info) as [y|]; [|reflexivity].
    destruct H as [H|[_ H]]; [destruct (N (says_mentions _ _ _ H))|discriminate].
Qed.

(** ** Arrays *)
Lemma nth_repeat_lt : forall (A : Type) (x : A) n i, (i < n)%nat -> nth_error (repeat x n) i = Some x.
Proof. intros A x. induction n as [|n IH]; intros i H; [lia|]. destruct i; simpl; [reflexivity|]. apply IH. lia. Qed.
Lemma zeros_rect : forall nr nc, 0 <= nr -> 0 <= nc -> rect (Z.to_nat nr) (Z.to_nat nc) (zeros nr nc).
Proof.
  intros nr nc A B. split; [apply repeat_length|]. intros row H. apply repeat_spec in H. subst row. apply repeat_length.
Qed.
Lemma zeros_at : forall nr nc r c, (r < Z.to_nat nr)%nat -> (c < Z.to_nat nc)%nat -> at2 (zeros nr nc) r c (Some 0%Q).
Proof. intros nr nc r c R C. exists (repeat (Some 0%Q) (Z.to_nat nc)). split; apply nth_repeat_lt; assumption. Qed.

Lemma at2_fun : forall a r c x y, at2 a r c x -> at2 a r c y -> x = y.
Proof. intros a r c x y (p & A & B) (q & C & D). congruence. Qed.
Lemma rect_at : forall nr nc a r c, rect nr nc a -> (r < nr)%nat -> (c < nc)%nat -> exists x, at2 a r c x.
Proof.
  intros nr nc a r c [L R] A B. destruct (nth_error a r) as [row|] eqn:E; [|apply nth_error_None in E; lia].
  destruct (nth_error row c) as [x|] eqn:E'; [exists x, row; auto|]. apply nth_error_None in E'.
  rewrite (R row (nth_error_In _ _ E)) in E'. lia.
Qed.
Lemma rect_ext : forall nr nc a b, rect nr nc a -> rect nr nc b ->
  (forall r c x, at2 a r c x -> at2 b r c x) -> a = b.
Proof.
  intros nr nc a b [LA RA] [LB RB] H.
  assert (E : forall (A : Type) (l m : list A), length l = length m -> (forall i x y, nth_error l i = Some x -> nth_error m i = Some y -> x = y) -> l = m).
  { intros A. induction l as [|x l IH]; intros m L N; destruct m as [|y m]; simpl in L; try discriminate; [reflexivity|].
    f_equal; [apply (N 0%nat); reflexivity|]. apply IH; [lia|]. intros i. apply (N (S i)). }
  apply E; [congruence|]. intros i ra rb A B. apply E.
  - rewrite (RA ra), (RB rb); [reflexivity|eapply nth_error_In; eassumption..].
  - intros j x y X Y. apply (at2_fun b i j); [apply H; exists ra; auto|exists rb; auto].
Qed.

(** Setting one value. *)
Lemma set2_ok : forall nr nc a r c x, rect nr nc a -> (r < nr)%nat -> (c < nc)%nat ->
  exists a', set2 a (Z.of_nat r) (Z.of_nat c) x = Ok a' /\ rect nr nc a' /\ at2 a' r c x /\
    forall r' c' y, (r', c') <> (r, c) -> at2 a r' c' y -> at2 a' r' c' y.
Proof.
  intros nr nc a r c x [L R] A B. unfold set2, py_get, py_set.
  rewrite py_pos_nonneg by lia. rewrite Nat2Z.id.
  destruct (nth_error a r) as [row|] eqn:E; [|apply nth_error_None in E; lia]. simpl.
  assert (LR : length row = nc) by (apply R; eapply nth_error_In; eassumption).
  rewrite py_pos_nonneg by lia. rewrite Nat2Z.id. simpl.
  eexists. split; [reflexivity|]. split; [|split].
  - split; [rewrite set_nth_length; exact L|]. intros row' I. apply In_nth_error in I. destruct I as [i I].
    destruct (Nat.eq_dec i r) as [->|N].
    + rewrite nth_error_set_nth_eq in I by lia. inversion I. rewrite set_nth_length. exact LR.
    + rewrite nth_error_set_nth_ne in I by exact N. apply R. eapply nth_error_In; eassumption.
  - exists (set_nth c x row). split; apply nth_error_set_nth_eq; lia.
  - intros r' c' y N (p & P1 & P2). destruct (Nat.eq_dec r' r) as [->|NR].
    + exists (set_nth c x row). split; [apply nth_error_set_nth_eq; lia|].
      assert (c' <> c) by congruence. rewrite nth_error_set_nth_ne by assumption. congruence.
    + exists p. split; [rewrite nth_error_set_nth_ne by exact NR; exact P1|exact P2].
Qed.
Lemma set2_out : forall nr nc a r c x, rect nr nc a -> (r < - Z.of_nat nr \/ Z.of_nat nr <= r \/ c < - Z.of_nat nc \/ Z.of_nat nc <= c) ->
  exists e, set2 a r c x = Raise e.
Proof.
  intros nr nc a r c x [L R] H. unfold set2, py_get, py_set. rewrite L.
  destruct (py_pos nr r) as [k|] eqn:P; [|simpl; eauto].
  destruct (nth_error a k) as [row|] eqn:E; [|simpl; eauto]. simpl.
  assert (LR : length row = nc) by (apply R; eapply nth_error_In; eassumption). rewrite LR.
  assert (K : - Z.of_nat nr <= r < Z.of_nat nr).
  { destruct (Z_lt_dec r (- Z.of_nat nr)); [rewrite py_pos_out in P by lia; discriminate|].
    destruct (Z_lt_dec r (Z.of_nat nr)); [lia|rewrite py_pos_out in P by lia; discriminate]. }
  rewrite py_pos_out by lia. simpl. eauto.
Qed.

(** ** The data of a time *)
Lemma last_line_snoc : forall r c l e, last_line r c (l ++ [e]) =
  if at_place r c e then (let '(_, _, u, v) := e in Some (u, v)) else last_line r c l.
Proof.
  intros r c l e. unfold last_line. rewrite filter_app. simpl. destruct (at_place r c e) eqn:A.
  - rewrite rev_app_distr. simpl. destruct e as [[[? ?] ?] ?]. reflexivity.
  - rewrite app_nil_r. reflexivity.
Qed.

Lemma read_data_app : forall nr nc l rest done cur,
  (forall x, In x l -> is_time x = false) ->
  read_steps nr nc (l ++ rest) done cur =
  do s <- read_steps nr nc l [] cur; match s with [] => Raise RuntimeErr | c :: _ => read_steps nr nc rest done c end.
Proof.
  intros nr nc. induction l as [|x l IH]; intros rest done cur H; cbn [app read_steps]; [reflexivity|].
  rewrite (H x (or_introl eq_refl)).
  destruct x as [|a [|b [|u [|v w]]]]; try reflexivity.
  destruct (py_int a) as [z|]; [|reflexivity]. cbn [bind]. destruct (py_int b) as [z0|]; [|reflexivity]. cbn [bind].
  destruct (py_float u) as [n|]; [|reflexivity]. cbn [bind]. destruct (py_float v) as [n0|]; [|reflexivity]. cbn [bind].
  destruct cur as [[t U] V]. destruct (set2 U (z - 1) (z0 - 1) n); [|reflexivity]. cbn [bind].
  destruct (set2 V (z - 1) (z0 - 1) n0); [|reflexivity]. cbn [bind]. apply IH. intros y I. apply H. right. exact I.
Qed.

Lemma data_line_time : forall l x, In x (map data_line l) -> is_time x = false.
Proof. intros l x H. apply in_map_iff in H. destruct H as ([[[r c] u] v] & <- & _). reflexivity. Qed.

Lemma fill : forall nr nc l t, 0 <= nr -> 0 <= nc -> Forall (in_grid (Z.to_nat nr) (Z.to_nat nc)) l ->
  exists U V, read_steps nr nc (map data_line l) [] (t, zeros nr nc, zeros nr nc) = Ok [(t, U, V)] /\
    forall t', filled (Z.to_nat nr) (Z.to_nat nc) (Section_ t' l) U V.
Proof.
  intros nr nc l t NR NC. induction l as [|e l IH] using rev_ind; intros F.
  - exists (zeros nr nc), (zeros nr nc). split; [reflexivity|]. intros t'. split; [apply zeros_rect; assumption|]. split; [apply zeros_rect; assumption|].
    intros r c R C. cbn. split; apply zeros_at; assumption.
  - apply Forall_app in F. destruct F as [F FE]. inversion FE as [|? ? G _]; subst. clear FE.
    destruct (IH F) as (U & V & R & S). clear IH.
    destruct e as [[[r c] u] v]. destruct G as (G1 & G2 & (x & X) & (y & Y)).
    destruct (S t) as (RU & RV & SV).
    destruct (set2_ok _ _ U (Z.to_nat (r - 1)) (Z.to_nat (c - 1)) x RU ltac:(lia) ltac:(lia)) as (U' & E1 & RU' & AU & KU).
    destruct (set2_ok _ _ V (Z.to_nat (r - 1)) (Z.to_nat (c - 1)) y RV ltac:(lia) ltac:(lia)) as (V' & E2 & RV' & AV & KV).
    rewrite !Z2Nat.id in E1, E2 by lia.
    exists U', V'. split.
    + rewrite map_app, read_data_app by apply data_line_time. rewrite R. cbn [bind]. cbn [map read_steps data_line is_time].
      cbn [py_int bind]. rewrite (number_float _ _ X), (number_float _ _ Y). cbn [bind]. rewrite E1. cbn [bind]. rewrite E2. reflexivity.
    + intros t'. split; [exact RU'|]. split; [exact RV'|]. intros r' c' R' C'. cbn [s_data]. rewrite last_line_snoc.
      destruct (at_place (Z.of_nat r' + 1) (Z.of_nat c' + 1) (r, c, u, v)) eqn:A.
      * cbn [at_place] in A. apply andb_true_iff in A. destruct A as [A1 A2]. apply Z.eqb_eq in A1. apply Z.eqb_eq in A2.
        assert (Z.to_nat (r - 1) = r') by lia. assert (Z.to_nat (c - 1) = c') by lia. subst r' c'. exists x, y. auto.
      * assert (N : (r', c') <> (Z.to_nat (r - 1), Z.to_nat (c - 1))).
        { intros E. inversion E; subst. cbn [at_place] in A. rewrite !Z2Nat.id in A by lia.
          replace (r - 1 + 1) with r in A by lia. replace (c - 1 + 1) with c in A by lia. rewrite !Z.eqb_refl in A. discriminate. }
        specialize (SV r' c' R' C'). cbn [s_data] in SV. destruct (last_line (Z.of_nat r' + 1) (Z.of_nat c' + 1) l) as [[u0 v0]|].
        -- destruct SV as (x0 & y0 & P1 & P2 & P3 & P4). exists x0, y0. auto.
        -- destruct SV as [P1 P2]. auto.
Qed.

Lemma read_time_ok : forall t, minute t -> read_time (time_line t) = Ok t.
Proof.
  intros t (O & S & U). unfold read_time, time_line. simpl. destruct t as [y mo d h mi s us]. simpl in *. subst s us. rewrite O. reflexivity.
Qed.

Lemma read_sections : forall nr nc ss done t U V, 0 <= nr -> 0 <= nc ->
  (forall s, In s ss -> minute (s_time s) /\ Forall (in_grid (Z.to_nat nr) (Z.to_nat nc)) (s_data s)) ->
  exists steps, read_steps nr nc (concat (map section_lines ss)) done (t, U, V) = Ok (done ++ (t, U, V) :: steps) /\
    Forall2 (fun s x => fst (fst x) = s_time s /\ filled (Z.to_nat nr) (Z.to_nat nc) s (snd (fst x)) (snd x)) ss steps.
Proof.
  intros nr nc. induction ss as [|s ss IH]; intros done t U V NR NC H.
  - exists []. split; [reflexivity|constructor].
  - destruct (H s (or_introl eq_refl)) as [M F].
    destruct (fill nr nc (s_data s) (s_time s) NR NC F) as (U' & V' & R & S).
    destruct (IH (done ++ [(t, U, V)]) (s_time s) U' V' NR NC) as (steps & R' & S'); [intros s' I; apply H; right; exact I|].
    exists ((s_time s, U', V') :: steps). split.
    + cbn [map concat]. unfold section_lines at 1. cbn [app read_steps]. change (is_time (time_line (s_time s))) with true. cbn match.
      rewrite (read_time_ok _ M). cbn [bind]. rewrite read_data_app by apply data_line_time. rewrite R. cbn [bind].
      rewrite R'. rewrite <- app_assoc. reflexivity.
    + constructor; [|exact S']. cbn. split; [reflexivity|]. specialize (S (s_time s)). destruct s; exact S.
Qed.

(** ** The grid *)
Lemma trunc_whole : forall q n, (q == inject_Z (Z.of_nat n))%Q -> trunc (Some q) = Ok (Z.of_nat n).
Proof.
  intros q n E. unfold trunc. f_equal. destruct (Qle_bool 0 q).
  - rewrite (Qfloor_comp _ _ E). apply Qfloor_Z.
  - rewrite (Qceiling_comp _ _ E). apply Qceiling_Z.
Qed.
Lemma inject_nz : forall z, z <> 0 -> ~ (inject_Z z == 0)%Q.
Proof. intros z H E. apply H. apply (inject_Z_injective z 0). exact E. Qed.
Lemma nth_map_seq : forall (A : Type) (f : nat -> A) n i x, nth_error (map f (seq 0 n)) i = Some x -> (i < n)%nat /\ x = f i.
Proof.
  intros A f n i x H. rewrite nth_error_map in H. destruct (nth_error (seq 0 n) i) as [j|] eqn:E; [|discriminate]. simpl in H. inversion H.
  assert (L : (i < n)%nat) by (rewrite <- (seq_length n 0); apply nth_error_Some; congruence).
  split; [exact L|]. rewrite (nth_error_nth' _ 0%nat) in E by (rewrite seq_length; exact L). rewrite seq_nth in E by exact L. simpl in E. congruence.
Qed.
Lemma linspace_spaced : forall a b n d, (Z.of_nat n <> 1 -> (b - a == inject_Z (Z.of_nat n - 1) * d)%Q) ->
  spaced (linspace (Some a) (Some b) (Z.of_nat n)) n a d.
Proof.
  intros a b n d H. unfold linspace. destruct (Z.of_nat n =? 1) eqn:E.
  - apply Z.eqb_eq in E. assert (n = 1%nat) by lia. subst n. split; [reflexivity|]. intros i x N. destruct i as [|[|]]; simpl in N; inversion N.
    eexists. split; [reflexivity|]. ring.
  - apply Z.eqb_neq in E. rewrite Nat2Z.id. split; [rewrite map_length, seq_length; reflexivity|].
    intros i x N. apply nth_map_seq in N. destruct N as [L ->]. cbn [nsub nscale nadd]. eexists. split; [reflexivity|].
    rewrite (H E). field. apply inject_nz. lia.
Qed.

(** ** Files *)
Lemma read_text : forall pre k u more grid ss lon lat nr nc,
  Forall before pre -> Forall grid_line grid -> ss <> [] ->
  (forall s, In s ss -> minute (s_time s) /\ Forall (in_grid nr nc) (s_data s)) ->
  (forall info, (forall k x, says grid k x -> dget k info = Some x) -> (forall k, ~ mentions grid k -> dget k info = None) ->
     make_grid info = Ok (lon, lat, Z.of_nat nr, Z.of_nat nc)) ->
  exists us vs, read_file (text pre k (u :: more) grid ss) = Ok (Grd k u (map s_time ss) lon lat us vs) /\ all_filled nr nc ss us vs.
Proof.
  intros pre k u more grid ss lon lat nr nc B G NE H MG. destruct ss as [|s ss]; [congruence|]. clear NE.
  unfold read_file, read_lines, text. cbn [app]. rewrite read_header_ok by exact B. cbn [bind].
  cbn [map concat]. unfold section_lines at 1. cbn [app].
  destruct (read_grid_ok grid (map data_line (s_data s) ++ concat (map section_lines ss)) (time_line (s_time s)) [] G eq_refl) as (info & R & S).
  rewrite R. cbn [bind]. apply info_says in S. destruct S as [S1 S2].
  destruct (H s (or_introl eq_refl)) as [M F]. rewrite (read_time_ok _ M). cbn [bind]. rewrite (MG info S1 S2). cbn [bind].
  rewrite read_data_app by apply data_line_time.
  destruct (fill (Z.of_nat nr) (Z.of_nat nc) (s_data s) (s_time s) ltac:(lia) ltac:(lia)) as (U & V & RF & SF); [rewrite !Nat2Z.id; exact F|].
  rewrite RF. cbn [bind].
  destruct (read_sections (Z.of_nat nr) (Z.of_nat nc) ss [] (s_time s) U V ltac:(lia) ltac:(lia)) as (steps & RS & SS).
  { intros s' I. rewrite !Nat2Z.id. apply H. right. exact I. }
  rewrite RS. cbn [bind]. rewrite !Nat2Z.id in SF, SS. cbn [app map fst snd].
  assert (T : map (fun x : fields * arr * arr => fst (fst x)) steps = map s_time ss).
  { clear - SS. induction SS as [|s x ss steps [E _] _ IH]; simpl; [reflexivity|]. rewrite E, IH. reflexivity. }
  eexists _, _. split; [rewrite T; reflexivity|].
  assert (L : length steps = length ss) by (clear - SS; induction SS; simpl; congruence).
  split; [simpl; rewrite map_length; congruence|]. split; [simpl; rewrite map_length; congruence|].
  intros i s' U' V' N1 N2 N3. destruct i as [|i]; simpl in N1, N2, N3.
  - inversion N1; inversion N2; inversion N3; subst. specialize (SF (s_time s')). destruct s'; exact SF.
  - clear - SS N1 N2 N3. revert i N1 N2 N3. induction SS as [|s x ss steps [_ E] _ IH]; intros i N1 N2 N3; [destruct i; discriminate|].
    destruct i as [|i]; simpl in *; [inversion N1; inversion N2; inversion N3; subst; exact E|]. eapply IH; eassumption.
Qed.

Lemma key_ok : forall (info : list (Z * num)) k x, dget k info = Some x -> key info k = Ok x.
Proof. intros info k x H. unfold key. rewrite H. reflexivity. Qed.
Lemma dmem_some : forall (info : list (Z * num)) k x, dget k info = Some x -> dmem k info = true.
Proof. intros info k x H. unfold dmem. rewrite H. reflexivity. Qed.
Lemma dmem_none : forall (info : list (Z * num)) k, dget k info = None -> dmem k info = false.
Proof. intros info k H. unfold dmem. rewrite H. reflexivity. Qed.

Lemma nodes_grid : forall grid nr nc qr qc a b da db,
  says grid NUMROWS (Some qr) -> (qr == inject_Z (Z.of_nat nr))%Q -> says grid NUMCOLS (Some qc) -> (qc == inject_Z (Z.of_nat nc))%Q ->
  ~ mentions grid LOLAT -> says grid STARTLAT a -> says grid STARTLONG b -> says grid DLAT da -> says grid DLONG db ->
  forall info, (forall k x, says grid k x -> dget k info = Some x) -> (forall k, ~ mentions grid k -> dget k info = None) ->
  make_grid info = Ok (linspace b (nadd b (nscale (inject_Z (Z.of_nat nr - 1)) db)) (Z.of_nat nr),
                       linspace a (nadd a (nscale (inject_Z (Z.of_nat nc - 1)) da)) (Z.of_nat nc), Z.of_nat nr, Z.of_nat nc).
Proof.
  intros grid nr nc qr qc a b da db R ER C EC NL A B DA DB info I N. unfold make_grid.
  rewrite (key_ok _ _ _ (I _ _ R)). cbn [bind]. rewrite (trunc_whole _ _ ER). cbn [bind].
  rewrite (key_ok _ _ _ (I _ _ C)). cbn [bind]. rewrite (trunc_whole _ _ EC). cbn [bind].
  rewrite (dmem_none _ _ (N _ NL)). rewrite (dmem_some _ _ _ (I _ _ A)).
  rewrite (key_ok _ _ _ (I _ _ A)), (key_ok _ _ _ (I _ _ B)), (key_ok _ _ _ (I _ _ DA)), (key_ok _ _ _ (I _ _ DB)). cbn [bind].
  assert (E1 : (Z.of_nat nc <? 0) = false) by (apply Z.ltb_ge; lia). assert (E2 : (Z.of_nat nr <? 0) = false) by (apply Z.ltb_ge; lia).
  rewrite !E1, !E2. cbn [bind]. rewrite ?E1, ?E2. reflexivity.
Qed.
Lemma cells_grid : forall grid nr nc qr qc a b c d,
  says grid NUMROWS (Some qr) -> (qr == inject_Z (Z.of_nat nr))%Q -> says grid NUMCOLS (Some qc) -> (qc == inject_Z (Z.of_nat nc))%Q ->
  says grid LOLAT a -> says grid HILAT b -> says grid LOLONG c -> says grid HILONG d ->
  forall info, (forall k x, says grid k x -> dget k info = Some x) -> (forall k, ~ mentions grid k -> dget k info = None) ->
  make_grid info = Ok (linspace c d (Z.of_nat nr + 1), linspace a b (Z.of_nat nc + 1), Z.of_nat nr, Z.of_nat nc).
Proof.
  intros grid nr nc qr qc a b c d R ER C EC A B DA DB info I N. unfold make_grid.
  rewrite (key_ok _ _ _ (I _ _ R)). cbn [bind]. rewrite (trunc_whole _ _ ER). cbn [bind].
  rewrite (key_ok _ _ _ (I _ _ C)). cbn [bind]. rewrite (trunc_whole _ _ EC). cbn [bind].
  rewrite (dmem_some _ _ _ (I _ _ A)).
  rewrite (key_ok _ _ _ (I _ _ A)), (key_ok _ _ _ (I _ _ B)), (key_ok _ _ _ (I _ _ DA)), (key_ok _ _ _ (I _ _ DB)). cbn [bind].
  assert (E1 : (Z.of_nat nc <? 0) = false) by (apply Z.ltb_ge; lia). assert (E2 : (Z.of_nat nr <? 0) = false) by (apply Z.ltb_ge; lia).
  assert (E3 : (Z.of_nat nc + 1 <? 0) = false) by (apply Z.ltb_ge; lia). assert (E4 : (Z.of_nat nr + 1 <? 0) = false) by (apply Z.ltb_ge; lia).
  rewrite !E3, !E4. cbn [bind]. rewrite ?E1, ?E2. reflexivity.
Qed.

(** ** What the writer writes *)
Definition cell (a : arr) (r c : nat) : num := nth c (nth r a []) None.
Lemma cell_at : forall nr nc a r c, rect nr nc a -> (r < nr)%nat -> (c < nc)%nat -> at2 a r c (cell a r c).
Proof.
  intros nr nc a r c R A B. destruct (rect_at _ _ _ _ _ R A B) as (x & row & E1 & E2). unfold cell.
  rewrite (nth_error_nth _ _ _ E1), (nth_error_nth _ _ _ E2). exists row. auto.
Qed.
Definition entries (nr nc : nat) (U V : arr) : list (Z * Z * word * word) :=
  concat (map (fun r => map (fun c => (Z.of_nat r + 1, Z.of_nat c + 1, D (six (cell U r c)), D (six (cell V r c)))) (seq 0 nc)) (seq 0 nr)).

Lemma mapM_map : forall (A B : Type) (f : A -> res B) (g : A -> B) l, (forall x, In x l -> f x = Ok (g x)) -> mapM f l = Ok (map g l).
Proof.
  intros A B f g. induction l as [|x l IH]; intros H; simpl; [reflexivity|]. rewrite (H x (or_introl eq_refl)). simpl.
  rewrite IH; [reflexivity|]. intros y I. apply H. right. exact I.
Qed.
Lemma py_get_at : forall (A : Type) (l : list A) k x, nth_error l k = Some x -> py_get l (Z.of_nat k) = Ok x.
Proof.
  intros A l k x H. unfold py_get. assert (L : (k < length l)%nat) by (apply nth_error_Some; congruence).
  rewrite py_pos_nonneg by lia. rewrite Nat2Z.id, H. reflexivity.
Qed.

Lemma step_lines_ok : forall nr nc t U V, (1 <= nr)%nat -> rect nr nc U -> rect nr nc V ->
  step_lines t U V = Ok (section_lines (Section_ t (entries nr nc U V))).
Proof.
  intros nr nc t U V N RU RV. unfold step_lines.
  assert (S : shape U = (nr, nc)).
  { unfold shape. destruct RU as [L R]. rewrite L. destruct U as [|row U]; [simpl in L; lia|]. f_equal. apply R. left. reflexivity. }
  rewrite S.
  rewrite (mapM_map _ _ _ (fun r => map (fun c => data_line (Z.of_nat r + 1, Z.of_nat c + 1, D (six (cell U r c)), D (six (cell V r c)))) (seq 0 nc))).
  - cbn [bind]. f_equal. unfold section_lines. cbn [s_time s_data]. f_equal. unfold entries. rewrite concat_map, map_map. f_equal.
    apply map_ext. intros r. rewrite map_map. reflexivity.
  - intros r IR. apply in_seq in IR. apply mapM_map. intros c IC. apply in_seq in IC.
    destruct (cell_at nr nc U r c RU ltac:(lia) ltac:(lia)) as (p & P1 & P2). destruct (cell_at nr nc V r c RV ltac:(lia) ltac:(lia)) as (q & Q1 & Q2).
    rewrite (py_get_at _ _ _ _ P1). cbn [bind]. rewrite (py_get_at _ _ _ _ P2). cbn [bind].
    rewrite (py_get_at _ _ _ _ Q1). cbn [bind]. rewrite (py_get_at _ _ _ _ Q2). cbn [bind]. reflexivity.
Qed.

Lemma in_entries : forall nr nc U V e, In e (entries nr nc U V) <->
  exists r c, (r < nr)%nat /\ (c < nc)%nat /\ e = (Z.of_nat r + 1, Z.of_nat c + 1, D (six (cell U r c)), D (six (cell V r c))).
Proof.
  intros nr nc U V e. unfold entries. rewrite in_concat. split.
  - intros (l & IL & IE). apply in_map_iff in IL. destruct IL as (r & <- & IR). apply in_map_iff in IE. destruct IE as (c & <- & IC).
    apply in_seq in IR. apply in_seq in IC. exists r, c. split; [lia|]. split; [lia|reflexivity].
  - intros (r & c & R & C & ->). eexists. split; [apply in_map; apply in_seq; split; [lia|simpl; exact R]|].
    apply in_map_iff. exists c. split; [reflexivity|apply in_seq; simpl; lia].
Qed.
Lemma last_line_in : forall r c l u v, last_line r c l = Some (u, v) -> In (r, c, u, v) l.
Proof.
  intros r c l u v H. unfold last_line in H. destruct (rev (filter (at_place r c) l)) as [|[[[a b] x] y] m] eqn:E; [discriminate|]. inversion H; subst.
  assert (I : In (a, b, u, v) (filter (at_place r c) l)) by (rewrite in_rev, E; left; reflexivity).
  apply filter_In in I. destruct I as [I P]. cbn [at_place] in P. apply andb_true_iff in P. destruct P as [P1 P2].
  apply Z.eqb_eq in P1. apply Z.eqb_eq in P2. subst. exact I.
Qed.
Lemma last_line_none : forall r c l u v, last_line r c l = None -> ~ In (r, c, u, v) l.
Proof.
  intros r c l u v H I. unfold last_line in H. destruct (rev (filter (at_place r c) l)) as [|[[[a b] x] y] m] eqn:E; [|discriminate].
  assert (J : In (r, c, u, v) (filter (at_place r c) l)) by (apply filter_In; split; [exact I|cbn [at_place]; rewrite !Z.eqb_refl; reflexivity]).
  rewrite in_rev, E in J. exact J.
Qed.
Lemma last_entry : forall nr nc U V r c, (r < nr)%nat -> (c < nc)%nat ->
  last_line (Z.of_nat r + 1) (Z.of_nat c + 1) (entries nr nc U V) = Some (D (six (cell U r c)), D (six (cell V r c))).
Proof.
  intros nr nc U V r c R C. destruct (last_line _ _ _) as [[u v]|] eqn:L.
  - apply last_line_in in L. apply in_entries in L. destruct L as (r' & c' & _ & _ & E). inversion E.
    assert (r' = r) by lia. assert (c' = c) by lia. subst. reflexivity.
  - exfalso. apply (last_line_none _ _ _ (D (six (cell U r c))) (D (six (cell V r c))) L). apply in_entries. exists r, c. auto.
Qed.
Lemma entries_in_grid : forall nr nc U V, Forall (in_grid nr nc) (entries nr nc U V).
Proof.
  intros nr nc U V. apply Forall_forall. intros e I. apply in_entries in I. destruct I as (r & c & R & C & ->). cbn [in_grid].
  split; [lia|]. split; [lia|]. split; eexists; apply num_other.
Qed.

Lemma at2_map : forall (f : num -> num) a r c x, at2 a r c x -> at2 (map (map f) a) r c (f x).
Proof. intros f a r c x (row & A & B). exists (map f row). rewrite !nth_error_map, A, B. auto. Qed.
Lemma rect_map : forall (f : num -> num) nr nc a, rect nr nc a -> rect nr nc (map (map f) a).
Proof.
  intros f nr nc a [L R]. split; [rewrite map_length; exact L|]. intros row I. apply in_map_iff in I. destruct I as (row' & <- & I).
  rewrite map_length. apply R, I.
Qed.
Lemma filled_entries : forall nr nc t U V U' V', rect nr nc U -> rect nr nc V ->
  filled nr nc (Section_ t (entries nr nc U V)) U' V' -> U' = map (map six) U /\ V' = map (map six) V.
Proof.
  intros nr nc t U V U' V' RU RV (RU' & RV' & F).
  assert (K : forall r c x, at2 U' r c x \/ at2 V' r c x -> (r < nr)%nat /\ (c < nc)%nat).
  { intros r c x [H|H]; destruct H as (row & A & B);
      (assert (A' : (r < nr)%nat) by (destruct RU' as [<- _], RV' as [L _]; try (apply nth_error_Some; congruence); rewrite <- L; apply nth_error_Some; congruence)).
    - split; [exact A'|]. rewrite <- (proj2 RU' row) by (eapply nth_error_In; eassumption). apply nth_error_Some. congruence.
    - split; [exact A'|]. rewrite <- (proj2 RV' row) by (eapply nth_error_In; eassumption). apply nth_error_Some. congruence. }
  split; apply (rect_ext nr nc); try assumption; try (apply rect_map; assumption); intros r c x H.
  - destruct (K r c x (or_introl H)) as [R C]. specialize (F r c R C). cbn [s_data] in F. rewrite last_entry in F by assumption.
    destruct F as (x' & y' & X & Y & AX & AY). rewrite (at2_fun _ _ _ _ _ H AX). rewrite (number_fun _ _ _ X (num_other _)).
    apply at2_map. apply (cell_at nr nc); assumption.
  - destruct (K r c x (or_intror H)) as [R C]. specialize (F r c R C). cbn [s_data] in F. rewrite last_entry in F by assumption.
    destruct F as (x' & y' & X & Y & AX & AY). rewrite (at2_fun _ _ _ _ _ H AY). rewrite (number_fun _ _ _ Y (num_other _)).
    apply at2_map. apply (cell_at nr nc); assumption.
Qed.

Lemma six_written : forall x, written (six x) x.
Proof.
  intros [q|]; cbn [six]; [|split; [exact Logic.I|discriminate]].
  set (m := (q * inject_Z 1000000 + 1 / 2)%Q).
  split.
  - cbn [close]. pose proof (Qfloor_le m) as A. pose proof (Qlt_floor m) as B. rewrite inject_Z_plus in B.
    assert (E : (Qfloor m # 1000000 == inject_Z (Qfloor m) / inject_Z 1000000)%Q) by (rewrite Qmake_Qdiv; reflexivity).
    rewrite E. set (z := inject_Z (Qfloor m)) in *. clearbody z. unfold m in *. clear m E.
    change (inject_Z 1000000) with (1000000 # 1) in *. change (inject_Z 1) with 1%Q in B.
    assert (E2 : (z / (1000000 # 1) - q == (z - q * (1000000 # 1)) * (1 # 1000000))%Q) by field.
    rewrite E2. apply Qabs_Qle_condition. change (1 / 2)%Q with (1 # 2) in *. split; lra.
  - intros q' Q (z & S). inversion Q; subst q'. cbn [same_num].
    assert (F : Qfloor m = z).
    { assert (E : (m == inject_Z z + (1 # 2))%Q). { unfold m. rewrite S. change (inject_Z 1000000) with (1000000 # 1). rewrite Qmake_Qdiv. change (inject_Z 1000000) with (1000000 # 1). field. }
      rewrite (Qfloor_comp _ _ E). pose proof (Qfloor_le (inject_Z z + (1 # 2))) as A. pose proof (Qlt_floor (inject_Z z + (1 # 2))) as B.
      rewrite <- (Qfloor_comp _ _ E) in *. set (f := Qfloor m) in *. clearbody f.
      assert (f < z + 1) by (rewrite Zlt_Qlt, inject_Z_plus; change (inject_Z 1) with 1%Q; lra).
      assert (z < f + 1). { rewrite Zlt_Qlt. eapply Qlt_trans; [|exact B]. lra. }
      lia. }
    rewrite F, S. reflexivity.
Qed.

(** ** Lines outside the grid *)
Lemma set2_rect : forall nr nc a r c x a', rect nr nc a -> set2 a r c x = Ok a' -> rect nr nc a'.
Proof.
  intros nr nc a r c x a' [L R] H. unfold set2, py_get, py_set in H. rewrite L in H.
  destruct (py_pos nr r) as [k|] eqn:P; [|discriminate].
  destruct (nth_error a k) as [row|] eqn:E; [|discriminate]. cbn [bind] in H.
  assert (LR : length row = nc) by (apply R; eapply nth_error_In; eassumption). rewrite LR in H.
  destruct (py_pos nc c) as [j|] eqn:PC; [|discriminate]. cbn [bind] in H. inversion H; subst a'.
  split; [rewrite set_nth_length; exact L|]. intros row' I. apply In_nth_error in I. destruct I as [i I].
  apply py_pos_lt in P. destruct (Nat.eq_dec i k) as [->|N].
  - rewrite nth_error_set_nth_eq in I by lia. inversion I. rewrite set_nth_length. exact LR.
  - rewrite nth_error_set_nth_ne in I by exact N. apply R. eapply nth_error_In; eassumption.
Qed.
Lemma outside : forall nr nc l done t U V r c u v, 0 <= nr -> 0 <= nc -> rect (Z.to_nat nr) (Z.to_nat nc) U -> rect (Z.to_nat nr) (Z.to_nat nc) V ->
  In [I r; I c; u; v] l -> (nr < r \/ nc < c) -> exists e, read_steps nr nc l done (t, U, V) = Raise e.
Proof.
  intros nr nc. induction l as [|x l IH]; intros done t U V r c u v NR NC RU RV H B; [destruct H|].
  cbn [read_steps]. destruct (is_time x) eqn:T.
  - destruct H as [->|H]; [discriminate|]. destruct (read_time x) as [t'|e]; [|simpl; eauto]. cbn [bind].
    eapply IH; try eassumption; apply zeros_rect; assumption.
  - destruct H as [->|H].
    + cbn [py_int bind]. destruct (py_float u) as [u'|]; [|simpl; eauto]. cbn [bind]. destruct (py_float v) as [v'|]; [|simpl; eauto]. cbn [bind].
      destruct (set2_out _ _ U (r - 1) (c - 1) u' RU) as [e E]; [lia|]. rewrite E. simpl. eauto.
    + destruct x as [|a [|b [|u0 [|v0 w]]]]; try (eexists; reflexivity).
      destruct (py_int a) as [r0|]; [|simpl; eauto]. cbn [bind]. destruct (py_int b) as [c0|]; [|simpl; eauto]. cbn [bind].
      destruct (py_float u0) as [u'|]; [|simpl; eauto]. cbn [bind]. destruct (py_float v0) as [v'|]; [|simpl; eauto]. cbn [bind].
      destruct (set2 U (r0 - 1) (c0 - 1) u') as [U'|] eqn:EU; [|simpl; eauto]. cbn [bind].
      destruct (set2 V (r0 - 1) (c0 - 1) v') as [V'|] eqn:EV; [|simpl; eauto]. cbn [bind].
      apply (IH done t U' V' r c u v NR NC); [exact (set2_rect _ _ _ _ _ _ _ RU EU)|exact (set2_rect _ _ _ _ _ _ _ RV EV)|exact H|exact B].
Qed.
