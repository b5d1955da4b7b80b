(** * Proofs about the files of outputters *)
From Coq Require Import QArith Qround Lia Lqa Sorted.
From Verif Require SetProofs.
From Verif Require Import Py PyLemmas TimeModel TimeSpec TimeProofs OutModel OutSpec OutProofs FilModel FilSpec.
Open Scope Z_scope.

Lemma path_eqb_spec a b : path_eqb a b = true <-> a = b.
Proof.
  destruct a, b. unfold path_eqb. cbn. rewrite !andb_true_iff, !Z.eqb_eq, Bool.eqb_true_iff.
  split; [intros [[[-> ->] ->] ->]; reflexivity|intros [= -> -> -> ->]; auto].
Qed.
Lemma path_eqb_refl a : path_eqb a a = true.
Proof. apply path_eqb_spec. reflexivity. Qed.
Lemma path_neqb a b : a <> b -> path_eqb a b = false.
Proof. intros H. destruct (path_eqb a b) eqn:E; [|reflexivity]. apply path_eqb_spec in E. contradiction. Qed.

Section Bin.
Context {C : Type}.
Implicit Types (w : world C) (b : bin) (m : list (path * C)).

Lemma fget_none p m : (forall q c, In (q, c) m -> q <> p) -> fget C p m = None.
Proof.
  intros H. unfold fget. destruct (find _ m) as [[q c]|] eqn:E; [|reflexivity].
  apply find_some in E. destruct E as [Hin E]. cbn in E. apply path_eqb_spec in E. destruct (H q c Hin E).
Qed.
Lemma fget_none_inv p m : fget C p m = None -> forall q c, In (q, c) m -> q <> p.
Proof.
  unfold fget. intros H q c Hin ->. destruct (find _ m) as [[q' c']|] eqn:E; [discriminate|].
  pose proof (find_none _ _ E _ Hin) as K. cbn in K. rewrite path_eqb_refl in K. discriminate.
Qed.
Lemma fget_app p m m' : fget C p (m ++ m') = match fget C p m with Some c => Some c | None => fget C p m' end.
Proof.
  unfold fget. induction m as [|[q c] m IH]; [reflexivity|]. cbn [app find fst].
  destruct (path_eqb q p); [reflexivity|exact IH].
Qed.
Lemma fdel_app p m m' : fdel C p (m ++ m') = fdel C p m ++ fdel C p m'.
Proof. apply filter_app. Qed.
Lemma fdel_none p m : (forall q c, In (q, c) m -> q <> p) -> fdel C p m = m.
Proof.
  intros H. induction m as [|[q c] m IH]; [reflexivity|]. cbn [fdel filter fst].
  rewrite path_neqb by (apply (H q c); left; reflexivity). cbn [negb]. f_equal. apply IH.
  intros q' c' Hin. apply (H q' c'). right. exact Hin.
Qed.

(** No path of the outputter in a list. *)
Definition nowhere b m := forall p c, In (p, c) m -> ~ (p_dir p = b_dir b /\ p_stem p = b_stem b).

Lemma nowhere_own b m u i : nowhere b m -> forall q c, In (q, c) m -> q <> own b u i.
Proof. intros H q c Hin ->. apply (H _ _ Hin). cbn. auto. Qed.

Lemma in_members i (l : list (list (bool * C))) x : In x (members i l) -> i <= snd (fst x).
Proof.
  revert i. induction l as [|scs l IH]; cbn [members]; intros i; [intros []|].
  rewrite in_app_iff, in_map_iff. intros [[uc [<- _]]|H]; [cbn; lia|]. apply IH in H. lia.
Qed.
Lemma in_members_hi i (l : list (list (bool * C))) x : In x (members i l) -> snd (fst x) < i + Z.of_nat (length l).
Proof.
  revert i. induction l as [|scs l IH]; cbn [members length]; intros i; [intros []|].
  rewrite in_app_iff, in_map_iff. intros [[uc [<- _]]|H]; [cbn; lia|]. apply IH in H. lia.
Qed.
Lemma in_loose b (x : list (bool * Z * C)) p c : In (p, c) (loose b x) ->
  exists u i, p = own b u i /\ In (u, i, c) x.
Proof. unfold loose. rewrite in_map_iff. intros [[[u i] c'] [[= <- <-] H]]. exists u, i. auto. Qed.
Lemma members_app (l l' : list (list (bool * C))) : forall i,
  members i (l ++ l') = members i l ++ members (i + Z.of_nat (length l)) l'.
Proof.
  induction l as [|scs l IH]; intros i; cbn [app members length]; [f_equal; lia|].
  rewrite IH, <- app_assoc. do 2 f_equal. f_equal. lia.
Qed.
Lemma loose_app b (x y : list (bool * Z * C)) : loose b (x ++ y) = loose b x ++ loose b y.
Proof. apply map_app. Qed.

Lemma write_scs_ok b scs : forall w,
  NoDup (map fst scs) ->
  (forall u, fget C (own b u (b_num b)) (w_loose w) = None \/ ~ In u (map fst scs)) ->
  write_scs C b scs w = (World (w_loose w ++ loose b (map (fun uc => (fst uc, b_num b, snd uc)) scs)) (w_zip w), None).
Proof.
  induction scs as [|[u c] scs IH]; intros w Hn Hf; cbn [write_scs].
  - cbn. rewrite app_nil_r. destruct w. reflexivity.
  - destruct (Hf u) as [E|N]; [|exfalso; apply N; left; reflexivity]. rewrite E.
    cbn [map fst] in Hn. inversion Hn; subst. rewrite IH; cbn [w_loose w_zip map fst].
    + rewrite <- app_assoc. reflexivity.
    + assumption.
    + intros v. destruct (Hf v) as [E'|N'].
      * destruct (Bool.eqb u v) eqn:Euv.
        -- apply Bool.eqb_prop in Euv. subst v. right. assumption.
        -- left. rewrite fget_app, E'. unfold fget. cbn [find fst].
           rewrite path_neqb; [reflexivity|]. intros K. injection K as ->. rewrite Bool.eqb_reflx in Euv. discriminate.
      * right. intros K. apply N'. right. exact K.
Qed.

Lemma shaped_cases unc (scs : list (bool * C)) : shaped unc scs ->
  (unc = false /\ exists c, scs = [(false, c)]) \/ (unc = true /\ exists c u, scs = [(false, c); (true, u)]).
Proof.
  unfold shaped. destruct unc; destruct scs as [|[u1 c1] [|[u2 c2] [|]]]; cbn; try discriminate.
  - intros [= -> ->]. right. eauto.
  - intros [= ->]. left. eauto.
Qed.
Lemma shaped_nodup unc (scs : list (bool * C)) : shaped unc scs -> NoDup (map fst scs).
Proof.
  unfold shaped. intros ->. destruct unc; repeat constructor; cbn; intuition discriminate.
Qed.

Lemma zip_key_spec a k : zip_key_eqb a k = true <-> a = k.
Proof.
  destruct a, k. unfold zip_key_eqb. cbn. rewrite andb_true_iff, !Z.eqb_eq.
  split; [intros [-> ->]; reflexivity|intros [= -> ->]; auto].
Qed.

(** Archives with that of the outputter in front. *)
Definition zips b acc (rest : list ((Z * Z) * list (bool * Z * C))) := ((b_dir b, b_stem b), acc) :: rest.
Definition clear b (rest : list ((Z * Z) * list (bool * Z * C))) :=
  forall k v, In (k, v) rest -> zip_key_eqb k (b_dir b, b_stem b) = false.

Lemma zip_new_shape b w : exists rest, zip_new C (b_dir b, b_stem b) w = World (w_loose w) (zips b [] rest) /\ clear b rest /\
  rest = filter (fun kv => negb (zip_key_eqb (fst kv) (b_dir b, b_stem b))) (w_zip w).
Proof.
  eexists. split; [reflexivity|]. split; [|reflexivity]. intros k v Hin. apply filter_In in Hin. cbn in Hin.
  destruct Hin as [_ H]. apply negb_true_iff in H. exact H.
Qed.
Lemma zip_add_head b e lo acc rest : clear b rest ->
  zip_add C (b_dir b, b_stem b) e (World lo (zips b acc rest)) = World lo (zips b (acc ++ [e]) rest).
Proof.
  intros H. unfold zip_add, zips. cbn [w_loose w_zip map fst snd].
  rewrite (proj2 (zip_key_spec _ _) eq_refl). do 2 f_equal.
  rewrite <- (map_id rest) at 2. apply map_ext_in. intros [k v] Hin. cbn [fst]. rewrite (H k v Hin). reflexivity.
Qed.

Lemma move_ok b u i c lo1 lo2 acc rest : clear b rest ->
  (forall q d, In (q, d) lo1 -> q <> own b u i) -> (forall q d, In (q, d) lo2 -> q <> own b u i) ->
  move_file C b u i (World (lo1 ++ (own b u i, c) :: lo2) (zips b acc rest))
  = (World (lo1 ++ lo2) (zips b (acc ++ [(u, i, c)]) rest), None).
Proof.
  intros Hc H1 H2. unfold move_file. cbn [w_loose]. rewrite fget_app, fget_none by exact H1.
  unfold fget. cbn [find fst]. rewrite path_eqb_refl. cbn [snd]. rewrite zip_add_head by exact Hc. cbn [w_loose w_zip].
  rewrite fdel_app, fdel_none by exact H1. cbn [fdel filter fst]. rewrite path_eqb_refl. cbn [negb].
  fold (fdel C (own b u i) lo2). rewrite fdel_none by exact H2. reflexivity.
Qed.

Lemma zip_from_ok b rest base (m : nat) : clear b rest -> nowhere b base ->
  forall (l : list (list (bool * C))) i acc, Forall (shaped (b_unc b)) l ->
  zip_from C b (length l + m) i (World (base ++ loose b (members i l)) (zips b acc rest))
  = zip_from C b m (i + Z.of_nat (length l)) (World base (zips b (acc ++ members i l) rest)).
Proof.
  intros Hc Hb. induction l as [|scs l IH]; intros i acc Hs; cbn [members length Nat.add].
  - cbn [loose map]. rewrite !app_nil_r. f_equal. lia.
  - inversion Hs as [|? ? H1 H2]; subst. cbn [zip_from].
    assert (Hlater : forall u j q d, j <= i -> In (q, d) (loose b (members (i + 1) l)) -> q <> own b u j).
    { intros u j q d Hj Hin ->. apply in_loose in Hin. destruct Hin as (u' & i' & [= -> ->] & Hin).
      apply in_members in Hin. cbn in Hin. lia. }
    destruct (shaped_cases _ _ H1) as [[Hu [c ->]]|[Hu (c & u & ->)]]; rewrite Hu in *; cbn [map fst snd app loose].
    + fold (loose b (members (i + 1) l)). change (Path (b_dir b) (b_stem b) false i) with (own b false i).
      rewrite move_ok; [|exact Hc|apply nowhere_own; exact Hb|intros q d; apply Hlater; lia].
      rewrite IH by exact H2. rewrite <- app_assoc. cbn [app]. f_equal. lia.
    + fold (loose b (members (i + 1) l)). change (Path (b_dir b) (b_stem b) false i) with (own b false i).
      change (Path (b_dir b) (b_stem b) true i) with (own b true i).
      rewrite move_ok; [|exact Hc|apply nowhere_own; exact Hb|].
      2:{ intros q d [[= <- <-]|Hin]; [discriminate|revert Hin; apply Hlater; lia]. }
      rewrite move_ok; [|exact Hc|apply nowhere_own; exact Hb|intros q d; apply Hlater; lia].
      rewrite IH by exact H2. rewrite <- !app_assoc. cbn [app]. f_equal. lia.
Qed.

(** The state after writing the steps [l]. *)
Definition state b base zs (l : list (list (bool * C))) w b' :=
  w = World (base ++ loose b (members 0 l)) zs /\ b' = set_num b (Z.of_nat (length l)).

Lemma own_absent b base (l : list (list (bool * C))) u : nowhere b base ->
  fget C (own b u (Z.of_nat (length l))) (base ++ loose b (members 0 l)) = None.
Proof.
  intros Hb. apply fget_none. intros q c Hin. apply in_app_or in Hin. destruct Hin as [Hin|Hin].
  - revert q c Hin. apply nowhere_own. exact Hb.
  - apply in_loose in Hin. destruct Hin as (u' & i' & -> & Hin). apply in_members_hi in Hin. cbn in Hin.
    intros [= _ ->]. lia.
Qed.

Lemma write_step_ok b base zs l flag scs w b' :
  b_on b = true -> nowhere b base -> shaped (b_unc b) scs -> state b base zs l w b' ->
  exists w2 b2, bin_write C false flag scs w b' = (w2, b2, None) /\
    state b base zs (l ++ if flag then [scs] else []) w2 b2.
Proof.
  intros Hon Hb Hs [-> ->]. unfold bin_write. cbn [b_on set_num]. rewrite Hon. cbn [negb]. destruct flag.
  - rewrite write_scs_ok.
    + cbn [b_num set_num w_loose w_zip]. do 2 eexists. split; [reflexivity|]. split.
      * rewrite members_app, loose_app, app_assoc. cbn [members]. rewrite app_nil_r. reflexivity.
      * unfold set_num. cbn. f_equal. rewrite app_length. cbn. lia.
    + eapply shaped_nodup. exact Hs.
    + intros u. left. cbn [b_num set_num w_loose]. apply (own_absent b base l u Hb).
  - do 2 eexists. split; [reflexivity|]. rewrite app_nil_r. split; reflexivity.
Qed.

Definition sdue (fs : bool * list (bool * C)) := if fst fs then [snd fs] else [].
Lemma due_steps_cons fs l : due_steps (fs :: l) = sdue fs ++ due_steps l.
Proof. unfold due_steps, sdue. cbn [filter]. destruct (fst fs); reflexivity. Qed.
Lemma due_steps_app (l l' : list (bool * list (bool * C))) : due_steps (l ++ l') = due_steps l ++ due_steps l'.
Proof. unfold due_steps. rewrite filter_app, map_app. reflexivity. Qed.

(** Steps before the last. *)
Lemma run_steps_ok b base zs n evs : b_on b = true -> nowhere b base ->
  forall l k done w b', Forall (fun fs => shaped (b_unc b) (snd fs)) l ->
  k + Z.of_nat (length l) <= n - 1 -> state b base zs done w b' ->
  exists w2 b2, run_from C n k (map Some l ++ evs) w b' = run_from C n (k + Z.of_nat (length l)) evs w2 b2 /\
    state b base zs (done ++ due_steps l) w2 b2.
Proof.
  intros Hon Hb. induction l as [|[flag scs] l IH]; intros k done w b' Hs Hk Hst.
  - exists w, b'. cbn [map app length]. rewrite app_nil_r. split; [f_equal; lia|exact Hst].
  - inversion Hs as [|? ? H1 H2]; subst. cbn [length] in Hk.
    destruct (write_step_ok b base zs done flag scs w b' Hon Hb H1 Hst) as (w2 & b2 & Ew & Hst2).
    destruct (IH (k + 1) _ w2 b2 H2 ltac:(lia) Hst2) as (w3 & b3 & Er & Hst3).
    exists w3, b3. cbn [map app run_from]. replace (k =? n - 1) with false by (symmetry; apply Z.eqb_neq; lia).
    rewrite Ew. split.
    + rewrite Er. f_equal. cbn [length]. lia.
    + rewrite due_steps_cons, app_assoc. exact Hst3.
Qed.

Lemma prepare_state b w unc : b_on b = true ->
  exists b1, bin_prepare C unc w (bin_rewind b) = (World (elsewhere b w) (w_zip w), b1) /\
    b1 = Bin (b_dir b) (b_stem b) (b_zip b) true 0 unc false.
Proof.
  intros Hon. unfold bin_prepare, bin_rewind, clean, elsewhere. cbn [b_on set_done b_dir b_stem b_zip b_done]. rewrite Hon. cbn [negb].
  destruct (b_dir b =? 0) eqn:E; cbn [orb].
  - eexists. split; [|reflexivity]. f_equal. destruct w as [lo z]. cbn [w_loose w_zip]. f_equal.
    symmetry. clear. induction lo as [|x lo IH]; [reflexivity|]. cbn. rewrite IH. reflexivity.
  - eexists. split; reflexivity.
Qed.

Lemma elsewhere_free b w : (b_dir b = 0 -> free b w) -> nowhere b (elsewhere b w).
Proof.
  intros H p c Hin [E1 E2]. apply filter_In in Hin. destruct Hin as [Hin K]. cbn in K.
  apply orb_true_iff in K. destruct K as [K|K].
  - apply Z.eqb_eq in K. apply (H K p c Hin). auto.
  - apply negb_true_iff, Z.eqb_neq in K. auto.
Qed.

Lemma archive_zips b acc rest lo : archive (b_dir b) (b_stem b) (World lo (zips b acc rest)) = Some acc.
Proof. unfold archive, zips. cbn. rewrite !Z.eqb_refl. reflexivity. Qed.

Lemma others_zips b w lo acc rest :
  rest = filter (fun kv => negb (zip_key_eqb (fst kv) (b_dir b, b_stem b))) (w_zip w) ->
  others_same b w (World lo (zips b acc rest)).
Proof.
  intros -> d s Hne. unfold archive, zips. cbn [w_zip find fst snd].
  replace ((b_dir b =? d) && (b_stem b =? s)) with false.
  2:{ symmetry. apply andb_false_iff. rewrite !Z.eqb_neq. destruct (Z.eq_dec (b_dir b) d); [|left; assumption].
      right. intros Es. apply Hne. congruence. }
  f_equal. induction (w_zip w) as [|[[d' s'] v] z IH]; [reflexivity|]. cbn [filter fst snd].
  destruct (zip_key_eqb (d', s') (b_dir b, b_stem b)) eqn:E; cbn [negb find fst snd].
  - apply zip_key_spec in E. injection E as -> ->. rewrite IH.
    replace ((b_dir b =? d) && (b_stem b =? s)) with false; [reflexivity|].
    symmetry. apply andb_false_iff. rewrite !Z.eqb_neq. destruct (Z.eq_dec (b_dir b) d); [|left; assumption].
    right. intros Es. apply Hne. congruence.
  - destruct ((d' =? d) && (s' =? s)); [reflexivity|exact IH].
Qed.

Lemma due_shaped unc (l : list (bool * list (bool * C))) :
  Forall (fun fs => shaped unc (snd fs)) l -> Forall (shaped unc) (due_steps l).
Proof.
  intros H. unfold due_steps. apply Forall_forall. intros x Hx. apply in_map_iff in Hx.
  destruct Hx as [fs [<- Hx]]. apply filter_In in Hx. rewrite Forall_forall in H. apply H. tauto.
Qed.

Section Run.
Variables (b : bin) (w : world C) (unc : bool) (n : Z).
Hypothesis Hon : b_on b = true.
Hypothesis Hfree : b_dir b = 0 -> free b w.

Lemma zip_files_ok b1 base (l : list (list (bool * C))) zs :
  b_zip b1 = true -> nowhere b1 base -> Forall (shaped (b_unc b1)) l ->
  exists rest, zip_files C b1 (Z.of_nat (length l)) (World (base ++ loose b1 (members 0 l)) zs)
    = (World base (zips b1 (members 0 l) rest), None) /\
    rest = filter (fun kv => negb (zip_key_eqb (fst kv) (b_dir b1, b_stem b1))) zs.
Proof.
  intros Hz Hb Hs. unfold zip_files. rewrite Hz.
  destruct (zip_new_shape b1 (World (base ++ loose b1 (members 0 l)) zs)) as (rest & -> & Hc & Hr).
  exists rest. split; [|exact Hr]. rewrite Nat2Z.id. cbn [w_loose].
  rewrite <- (Nat.add_0_r (length l)).
  rewrite (zip_from_ok b1 rest base 0 Hc Hb l 0 [] Hs). reflexivity.
Qed.

Lemma zip_files_short b1 base (l : list (list (bool * C))) zs :
  b_zip b1 = true -> nowhere b1 base -> Forall (shaped (b_unc b1)) l ->
  exists rest, zip_files C b1 (Z.of_nat (length l) + 1) (World (base ++ loose b1 (members 0 l)) zs)
    = (World base (zips b1 (members 0 l) rest), Some OSErr) /\
    rest = filter (fun kv => negb (zip_key_eqb (fst kv) (b_dir b1, b_stem b1))) zs.
Proof.
  intros Hz Hb Hs. unfold zip_files. rewrite Hz.
  destruct (zip_new_shape b1 (World (base ++ loose b1 (members 0 l)) zs)) as (rest & -> & Hc & Hr).
  exists rest. split; [|exact Hr].
  replace (Z.to_nat (Z.of_nat (length l) + 1)) with (length l + 1)%nat by lia. cbn [w_loose].
  rewrite (zip_from_ok b1 rest base 1 Hc Hb l 0 [] Hs). cbn [zip_from].
  unfold move_file. cbn [w_loose]. rewrite fget_none by (apply nowhere_own; exact Hb). reflexivity.
Qed.

(** The last step, written. *)
Lemma last_written b1 base zs done scs w1 b1' :
  b_on b1 = true -> b_zip b1 = true -> b_done b1 = false -> nowhere b1 base -> shaped (b_unc b1) scs ->
  Forall (shaped (b_unc b1)) done -> state b1 base zs done w1 b1' ->
  exists rest b2, bin_write C true true scs w1 b1'
    = (World base (zips b1 (members 0 (done ++ [scs])) rest), b2, None) /\
    rest = filter (fun kv => negb (zip_key_eqb (fst kv) (b_dir b1, b_stem b1))) zs /\ b_done b2 = true.
Proof.
  intros Ho Hz Hd Hb Hs Hsd [-> ->]. unfold bin_write. cbn [b_on set_num]. rewrite Ho. cbn [negb].
  rewrite write_scs_ok; [|eapply shaped_nodup; exact Hs|intros u; left; cbn [b_num set_num w_loose]; apply (own_absent b1 base done u Hb)].
  cbn [b_num set_num w_loose w_zip].
  set (b1' := Bin (b_dir b1) (b_stem b1) (b_zip b1) (b_on b1) (Z.of_nat (length done)) (b_unc b1) (b_done b1)).
  assert (E : (base ++ loose b1 (members 0 done)) ++ loose b1 (map (fun uc => (fst uc, Z.of_nat (length done), snd uc)) scs)
    = base ++ loose b1' (members 0 (done ++ [scs]))).
  { rewrite members_app, <- app_assoc. f_equal. change (loose b1') with (@loose C b1). rewrite loose_app. cbn [members]. rewrite app_nil_r. reflexivity. }
  destruct (zip_files_ok b1' base (done ++ [scs]) zs Hz Hb) as (rest & Er & Hr).
  { apply Forall_app. split; [exact Hsd|constructor; [exact Hs|constructor]]. }
  rewrite app_length in Er. cbn [length] in Er.
  replace (Z.of_nat (length done + 1)) with (Z.of_nat (length done) + 1) in Er by lia.
  unfold set_num. fold b1'. change (loose b1') with (@loose C b1) in E |- *. change (loose b1') with (@loose C b1) in Er.
  rewrite E. rewrite Er. exists rest. eexists. split; [reflexivity|]. split; [exact Hr|reflexivity].
Qed.

Theorem archive_complete l scs :
  b_zip b = true -> n = Z.of_nat (length l) + 1 ->
  Forall (fun fs => shaped unc (snd fs)) (l ++ [(true, scs)]) ->
  exists w' b', bin_run C unc n (map Some (l ++ [(true, scs)])) w b = (w', b', None) /\
    archive (b_dir b) (b_stem b) w' = Some (members 0 (due_steps (l ++ [(true, scs)]))) /\
    w_loose w' = elsewhere b w /\ others_same b w w'.
Proof.
  intros Hz Hn Hs. unfold bin_run. destruct (prepare_state b w unc Hon) as (b1 & -> & E1).
  assert (Hb1 : nowhere b1 (elsewhere b w)) by (subst b1; exact (elsewhere_free b w Hfree)).
  assert (Hst : state b1 (elsewhere b w) (w_zip w) [] (World (elsewhere b w) (w_zip w)) b1).
  { split; [cbn; rewrite app_nil_r; reflexivity|subst b1; reflexivity]. }
  apply Forall_app in Hs. destruct Hs as [Hs Hl]. inversion Hl as [|? ? Hl1 _]; subst x l0. cbn [snd] in Hl1.
  assert (Hu : b_unc b1 = unc) by (subst b1; reflexivity).
  rewrite map_app. cbn [map].
  destruct (run_steps_ok b1 (elsewhere b w) (w_zip w) n [Some (true, scs)] ltac:(subst b1; reflexivity) Hb1 l 0 [] _ b1 ltac:(rewrite Hu; exact Hs) ltac:(lia) Hst)
    as (w2 & b2 & -> & Hst2).
  cbn [app] in Hst2. cbn [run_from]. replace (0 + Z.of_nat (length l) =? n - 1) with true by (symmetry; apply Z.eqb_eq; lia).
  destruct (last_written b1 (elsewhere b w) (w_zip w) (due_steps l) scs w2 b2) as (rest & b3 & Ew & Hr & Hd3);
    try (subst b1; reflexivity); try exact Hb1; try exact Hst2.
  { subst b1. exact Hz. } { rewrite Hu. exact Hl1. } { rewrite Hu. apply due_shaped. exact Hs. }
  rewrite Ew. replace (0 + Z.of_nat (length l) + 1 =? n) with true by (symmetry; apply Z.eqb_eq; lia).
  unfold bin_post. rewrite Hd3. exists (World (elsewhere b w) (zips b1 (members 0 (due_steps l ++ [scs])) rest)), b3.
  split; [destruct (negb (b_on b3)); reflexivity|]. rewrite due_steps_app. unfold due_steps at 4. cbn [filter map fst snd].
  subst b1. split; [apply (archive_zips (Bin (b_dir b) (b_stem b) (b_zip b) true 0 unc false))|].
  split; [reflexivity|].
  apply (others_zips b w (elsewhere b w) (members 0 (due_steps l ++ [scs])) rest Hr).
Qed.

(** Something fails after at least one step. *)
Theorem archive_broken l evs :
  b_zip b = true -> l <> [] -> Z.of_nat (length l) < n ->
  Forall (fun fs => shaped unc (snd fs)) l ->
  exists w' b', bin_run C unc n (map Some l ++ None :: evs) w b = (w', b', Some RuntimeErr) /\
    archive (b_dir b) (b_stem b) w' = Some (members 0 (due_steps l)) /\
    w_loose w' = elsewhere b w /\ others_same b w w'.
Proof.
  intros Hz Hne Hn Hs. unfold bin_run. destruct (prepare_state b w unc Hon) as (b1 & -> & E1).
  assert (Hb1 : nowhere b1 (elsewhere b w)) by (subst b1; exact (elsewhere_free b w Hfree)).
  assert (Hst : state b1 (elsewhere b w) (w_zip w) [] (World (elsewhere b w) (w_zip w)) b1).
  { split; [cbn; rewrite app_nil_r; reflexivity|subst b1; reflexivity]. }
  assert (Hu : b_unc b1 = unc) by (subst b1; reflexivity).
  destruct (run_steps_ok b1 (elsewhere b w) (w_zip w) n (None :: evs) ltac:(subst b1; reflexivity) Hb1 l 0 [] _ b1 ltac:(rewrite Hu; exact Hs) ltac:(lia) Hst)
    as (w2 & b2 & -> & Hst2).
  cbn [app] in Hst2. cbn [run_from]. destruct l as [|fs l]; [contradiction|].
  replace (0 + Z.of_nat (length (fs :: l)) =? 0) with false by (symmetry; apply Z.eqb_neq; cbn [length]; lia).
  destruct Hst2 as [-> ->]. unfold bin_post. subst b1. cbn [b_on set_num negb b_done b_num].
  match goal with |- context [zip_files C ?B _ _] => set (b2 := B) end.
  destruct (zip_files_ok b2 (elsewhere b w) (due_steps (fs :: l)) (w_zip w) Hz Hb1) as (rest & Er & Hr).
  { apply due_shaped. exact Hs. }
  change (loose b2) with (@loose C (Bin (b_dir b) (b_stem b) (b_zip b) true 0 unc false)) in Er.
  change (b_num b2) with (Z.of_nat (length (due_steps (fs :: l)))). rewrite Er. do 2 eexists. split; [reflexivity|].
  split; [apply (archive_zips b)|]. split; [reflexivity|].
  apply (others_zips b w _ _ rest Hr).
Qed.

(** The last step is not due: everything is lost. *)
Theorem archive_lost l scs :
  b_zip b = true -> l <> [] -> n = Z.of_nat (length l) + 1 ->
  Forall (fun fs => shaped unc (snd fs)) l ->
  exists w' b', bin_run C unc n (map Some (l ++ [(false, scs)])) w b = (w', b', Some OSErr) /\
    archive (b_dir b) (b_stem b) w' = Some [] /\ w_loose w' = elsewhere b w.
Proof.
  intros Hz Hne Hn Hs. unfold bin_run. destruct (prepare_state b w unc Hon) as (b1 & -> & E1).
  assert (Hb1 : nowhere b1 (elsewhere b w)) by (subst b1; exact (elsewhere_free b w Hfree)).
  assert (Hst : state b1 (elsewhere b w) (w_zip w) [] (World (elsewhere b w) (w_zip w)) b1).
  { split; [cbn; rewrite app_nil_r; reflexivity|subst b1; reflexivity]. }
  assert (Hu : b_unc b1 = unc) by (subst b1; reflexivity).
  rewrite map_app. cbn [map].
  destruct (run_steps_ok b1 (elsewhere b w) (w_zip w) n [Some (false, scs)] ltac:(subst b1; reflexivity) Hb1 l 0 [] _ b1 ltac:(rewrite Hu; exact Hs) ltac:(lia) Hst)
    as (w2 & b2 & -> & Hst2).
  cbn [app] in Hst2. cbn [run_from]. replace (0 + Z.of_nat (length l) =? n - 1) with true by (symmetry; apply Z.eqb_eq; lia).
  destruct Hst2 as [-> ->]. subst b1. unfold bin_write. cbn [b_on set_num negb b_num b_dir b_stem b_zip b_unc b_done].
  match goal with |- context [zip_files C ?B _ _] => set (b2 := B) end.
  destruct (zip_files_short b2 (elsewhere b w) (due_steps l) (w_zip w) Hz Hb1) as (rest & Er & Hr).
  { apply due_shaped. exact Hs. }
  change (loose b2) with (@loose C (Bin (b_dir b) (b_stem b) (b_zip b) true 0 unc false)) in Er. rewrite Er.
  destruct l as [|fs l]; [contradiction|].
  replace (0 + Z.of_nat (length (fs :: l)) =? 0) with false by (symmetry; apply Z.eqb_neq; cbn [length]; lia).
  unfold bin_post. cbn [b_on b2 negb b_done b_num]. fold b2.
  unfold zip_files. change (b_zip b2) with (b_zip b). rewrite Hz.
  match goal with |- context [zip_new C ?K ?W] => destruct (zip_new_shape b2 W) as (rest2 & E2 & Hc2 & _) end.
  cbn [w_loose] in E2. rewrite E2. change (b_num b2) with (Z.of_nat (length (due_steps (fs :: l)))). rewrite Nat2Z.id. destruct (length (due_steps (fs :: l))) eqn:El.
  - cbn [zip_from]. do 2 eexists. split; [reflexivity|]. split; [apply (archive_zips b)|reflexivity].
  - cbn [zip_from]. unfold move_file. cbn [w_loose]. rewrite fget_none by (apply nowhere_own; exact Hb1).
    do 2 eexists. split; [reflexivity|]. split; [apply (archive_zips b)|reflexivity].
Qed.

(** Without an archive the files stay. *)
Theorem loose_complete l : b_zip b = false -> n = Z.of_nat (length l) ->
  Forall (fun fs => shaped unc (snd fs)) l ->
  exists w' b', bin_run C unc n (map Some l) w b = (w', b', None) /\
    w_loose w' = elsewhere b w ++ loose b (members 0 (due_steps l)) /\ w_zip w' = w_zip w.
Proof.
  intros Hz Hn Hs. unfold bin_run. destruct (prepare_state b w unc Hon) as (b1 & -> & E1).
  assert (Hb1 : nowhere b1 (elsewhere b w)) by (subst b1; exact (elsewhere_free b w Hfree)).
  assert (Hst : state b1 (elsewhere b w) (w_zip w) [] (World (elsewhere b w) (w_zip w)) b1).
  { split; [cbn; rewrite app_nil_r; reflexivity|subst b1; reflexivity]. }
  assert (Hu : b_unc b1 = unc) by (subst b1; reflexivity).
  destruct l as [|fs0 l0] using rev_ind.
  { subst n. cbn. unfold bin_post. subst b1. cbn [b_on negb b_done]. unfold zip_files. cbn [b_zip]. rewrite Hz.
    do 2 eexists. split; [reflexivity|]. cbn. rewrite app_nil_r. auto. }
  clear IHl0. destruct fs0 as [flag scs]. rewrite map_app. cbn [map]. rewrite app_length in Hn. cbn [length] in Hn.
  apply Forall_app in Hs. destruct Hs as [Hs Hl]. inversion Hl as [|? ? Hl1 _]; subst x l. cbn [snd] in Hl1.
  destruct (run_steps_ok b1 (elsewhere b w) (w_zip w) n [Some (flag, scs)] ltac:(subst b1; reflexivity) Hb1 l0 0 [] _ b1 ltac:(rewrite Hu; exact Hs) ltac:(lia) Hst)
    as (w2 & b2 & -> & Hst2).
  cbn [app] in Hst2. cbn [run_from]. replace (0 + Z.of_nat (length l0) =? n - 1) with true by (symmetry; apply Z.eqb_eq; lia).
  rewrite <- Hu in Hl1. assert (Hon1 : b_on b1 = true) by (subst b1; reflexivity).
  destruct (write_step_ok b1 (elsewhere b w) (w_zip w) (due_steps l0) flag scs w2 b2 Hon1 Hb1 Hl1 Hst2) as (w3 & b3 & Ew & Hst3).
  unfold bin_write in *. destruct Hst2 as [-> ->]. cbn [b_on set_num] in *. rewrite Hon1 in *. cbn [negb] in *.
  destruct (if flag then write_scs C (set_num b1 (Z.of_nat (length (due_steps l0)))) scs _ else _) as [wx ex] eqn:Ex.
  destruct ex; [discriminate|]. injection Ew as <- _.
  unfold zip_files. cbn [b_zip set_num]. replace (b_zip b1) with false by (subst b1; symmetry; exact Hz).
  replace (0 + Z.of_nat (length l0) + 1 =? n) with true by (symmetry; apply Z.eqb_eq; lia).
  destruct Hst3 as [-> _]. unfold bin_post.
  assert (Ed : due_steps (l0 ++ [(flag, scs)]) = due_steps l0 ++ (if flag then [scs] else [])).
  { rewrite due_steps_app. f_equal. unfold due_steps. cbn. destruct flag; reflexivity. }
  rewrite Ed. subst b1.
  destruct flag; cbn [b_on set_num set_done negb b_done]; do 2 eexists; (split; [reflexivity|]); split; reflexivity.
Qed.

(** A name that is taken. *)
Theorem second_refused l scs :
  b_dir b = 0 -> (exists u c0, In (Path 0 (b_stem b) u 0, c0) (w_loose w) /\ In u (map fst scs)) ->
  shaped unc scs -> 0 < n ->
  exists w' b', bin_run C unc n (Some (true, scs) :: l) w b = (w', b', Some ValueErr).
Proof.
  intros Hd (u & c0 & Hin & Hu) Hs Hn. unfold bin_run. destruct (prepare_state b w unc Hon) as (b1 & -> & E1).
  cbn [run_from]. unfold bin_write. subst b1. cbn [b_on negb].
  match goal with |- context [write_scs C ?B scs ?W] => set (b1 := B); set (w1 := W) end.
  assert (G : forall scs w2, (forall x, In x (w_loose w1) -> In x (w_loose w2)) -> In u (map fst scs) ->
    exists w3, write_scs C b1 scs w2 = (w3, Some ValueErr)).
  { intros scs0. induction scs0 as [|[v d] r IH]; intros w2 Hsub; [intros []|]. cbn [map fst write_scs].
    intros Hv. destruct (fget C (own b1 v (b_num b1)) (w_loose w2)) eqn:E; [eauto|].
    destruct Hv as [->|Hv].
    - exfalso. assert (H0 : In (Path 0 (b_stem b) u 0, c0) (w_loose w2)).
      { apply Hsub. unfold w1. cbn [w_loose]. unfold elsewhere. apply filter_In. split; [exact Hin|]. rewrite Hd. reflexivity. }
      pose proof (fget_none_inv _ _ E _ _ H0) as K. apply K. unfold own, b1. cbn. rewrite Hd. reflexivity.
    - apply IH; [|exact Hv]. intros x Hx. cbn [w_loose]. apply in_or_app. left. apply Hsub. exact Hx. }
  destruct (G scs w1 (fun x H => H) Hu) as [w3 ->]. do 2 eexists. reflexivity.
Qed.
End Run.
End Bin.

(** ** Contents of a binary file *)

Lemma ref_year y : y - y mod 4 = 4 * (y / 4).
Proof. pose proof (Z.div_mod y 4 ltac:(lia)). lia. Qed.

Lemma encode_ok f l : real_date f -> 4 <= f_y f ->
  exists h es, encode f l = Ok (h, es) /\
    (h_d h, h_mo h, h_y h, h_h h, h_mi h) = (f_d f, f_mo f, f_y f, f_h f, f_mi f) /\
    h_n h = Z.of_nat (length l) /\
    (h_time h * 3600 == inject_Z (fields_us f / sec_us - cycle_start (f_y f) / sec_us))%Q /\
    Forall2 (fun e x => same_elem (decode_elem h e) x) es l /\
    Forall2 (fun e x => 0 <= x_age x -> (e_agerel e == 0)%Q) es l.
Proof.
  intros Hr Hy. unfold encode, datetime_new.
  assert (Hok : fields_ok (mkFields (f_y f - f_y f mod 4) 1 1 0 0 0 0) = true).
  { unfold fields_ok, in_range. cbn [f_y f_mo f_d f_h f_mi f_s f_us].
    assert (1 <= f_y f - f_y f mod 4 <= 9999).
    { unfold real_date in Hr. rewrite ref_year. pose proof (Z.div_mod (f_y f) 4 ltac:(lia)).
      pose proof (Z.mod_pos_bound (f_y f) 4 ltac:(lia)). lia. }
    rewrite !andb_true_iff, !Z.leb_le. cbn. repeat split; lia. }
  rewrite Hok. cbn [bind]. rewrite ref_year.
  change (fields_us (mkFields (4 * (f_y f / 4)) 1 1 0 0 0 0)) with (cycle_start (f_y f)).
  set (S0 := fields_us f / sec_us). set (R0 := cycle_start (f_y f) / sec_us).
  do 2 eexists. split; [reflexivity|]. cbn [h_d h_mo h_y h_h h_mi h_n h_time]. split; [reflexivity|]. split; [reflexivity|].
  split; [field|]. split.
  - generalize (Z.of_nat (length l)). intros N. induction l as [|x l IH]; cbn [map]; constructor; [|exact IH].
    unfold same_elem, decode_elem. cbn [fst snd e_lon e_lat e_rel e_beach h_time]. split; [split; [|split]|split].
    + ring.
    + reflexivity.
    + unfold Z.sub. rewrite !inject_Z_plus, !inject_Z_opp. field.
    + intros H. destruct (x_status x =? ON_LAND) eqn:E; [apply Z.eqb_eq in E; exact E|]. cbn in H. discriminate.
    + intros ->. reflexivity.
  - clear. induction l as [|x l IH]; cbn [map]; constructor; [|exact IH]. intros Hx. cbn [e_agerel]. unfold clip0.
    destruct (Qle_bool _ _) eqn:E; [|reflexivity]. apply Qle_bool_iff in E.
    assert (E2 : (0 - (inject_Z (S0 - R0) / 3600 - inject_Z (S0 - x_age x - R0) / 3600) == - (inject_Z (x_age x) / 3600))%Q).
    { unfold Z.sub. rewrite !inject_Z_plus, !inject_Z_opp. field. }
    rewrite E2 in E |- *. assert (Ha : (0 <= inject_Z (x_age x))%Q) by (rewrite <- (Zle_Qle 0); exact Hx).
    unfold Qdiv in *. change (/ 3600)%Q with (1 # 3600)%Q in *. lra.
Qed.

Lemma encode_early f l : f_y f < 4 -> 0 <= f_y f -> encode f l = Raise ValueErr.
Proof.
  intros H H0. unfold encode, datetime_new. rewrite ref_year. replace (f_y f / 4) with 0 by (symmetry; apply Z.div_small; lia). reflexivity.
Qed.

(** The time in the file stays within a leap cycle. *)
Lemma dby_upto4 y : days_before_year (4 * (y / 4)) <= days_before_year y /\
  days_before_year (y + 1) <= days_before_year (4 * (y / 4)) + 1461.
Proof.
  set (q := 4 * (y / 4)).
  assert (Hq : q <= y <= q + 3).
  { unfold q. pose proof (Z.div_mod y 4 ltac:(lia)). pose proof (Z.mod_pos_bound y 4 ltac:(lia)). lia. }
  split; [apply dby_mono; lia|].
  transitivity (days_before_year (q + 4)); [apply dby_mono; lia|].
  assert (L : forall k, 1 <= k <= 3 -> leap (q + k) = false).
  { intros k Hk. unfold leap. replace ((q + k) mod 4 =? 0) with false; [reflexivity|].
    symmetry. apply Z.eqb_neq. unfold q. rewrite Z.add_comm, Z.mul_comm, Z.mod_add by lia. rewrite Z.mod_small; lia. }
  pose proof (dby_step q). pose proof (dby_step (q + 1)). pose proof (dby_step (q + 2)). pose proof (dby_step (q + 3)).
  rewrite (L 1) in * by lia. rewrite (L 2) in * by lia. rewrite (L 3) in * by lia.
  replace (q + 1 + 1) with (q + 2) in * by lia. replace (q + 2 + 1) with (q + 3) in * by lia. replace (q + 3 + 1) with (q + 4) in * by lia.
  pose proof (b2z_range (leap q)). cbn [b2z] in *. lia.
Qed.

Lemma cycle_bound f : real_date f ->
  0 <= fields_us f / sec_us - cycle_start (f_y f) / sec_us < 1461 * 86400.
Proof.
  intros Hr. pose proof (tod_range f Hr) as Ht. unfold cycle_start, fields_us in *. cbn [f_y f_mo f_d f_h f_mi f_s f_us].
  unfold ymd2ord. change (days_before_month (4 * (f_y f / 4)) 1) with 0.
  destruct (dby_upto4 (f_y f)) as [H1 H2]. rewrite dby_step in H2.
  assert (Hm : 1 <= f_mo f <= 12 /\ 1 <= f_d f <= days_in_month (f_y f) (f_mo f)) by (unfold real_date in Hr; tauto).
  pose proof (dbm_le_year (f_y f) (f_mo f) (f_d f) (proj1 Hm) (proj2 Hm)).
  pose proof (dbm_nonneg (f_y f) (f_mo f) (proj1 Hm)).
  set (A := days_before_year (f_y f)) in *. set (B := days_before_year (4 * (f_y f / 4))) in *.
  set (D := days_before_month (f_y f) (f_mo f)) in *. set (K := ymd2ord 1970 1 1).
  replace (days_before_year 1970 + days_before_month 1970 1 + 1) with K by reflexivity.
  clearbody A B D K. unfold day_us, sec_us in *.
  set (tod := ((f_h f * 60 + f_mi f) * 60 + f_s f) * 1000000 + f_us f) in *.
  rewrite <- Z.add_assoc. fold tod.
  replace ((A + D + f_d f - K) * (86400 * 1000000) + tod) with (tod + (A + D + f_d f - K) * 86400 * 1000000) by ring.
  replace ((B + 0 + 1 - K) * (86400 * 1000000) + ((0 * 60 + 0) * 60 + 0) * 1000000 + 0) with (0 + (B + 0 + 1 - K) * 86400 * 1000000) by ring.
  rewrite !Z.div_add by lia. assert (0 <= tod / 1000000 < 86400).
  { split; [apply Z.div_pos; lia|apply Z.div_lt_upper_bound; lia]. }
  change (0 / 1000000) with 0. lia.
Qed.

(** ** The oil budget *)

Lemma row_hours_ok us : exists m, (row_hours us == inject_Z m / 60)%Q /\ m * (60 * sec_us) <= us < (m + 1) * (60 * sec_us).
Proof.
  unfold row_hours, sec_us. set (h := us / (3600 * 1000000)).
  exists (h * 60 + (us - h * (3600 * 1000000)) / (60 * 1000000)). split.
  - rewrite inject_Z_plus, inject_Z_mult. field.
  - pose proof (Z.div_mod (us - h * (3600 * 1000000)) (60 * 1000000) ltac:(lia)).
    pose proof (Z.mod_pos_bound (us - h * (3600 * 1000000)) (60 * 1000000) ltac:(lia)). lia.
Qed.

Lemma row_hours_minutes m : (row_hours (m * (60 * sec_us)) == inject_Z m / 60)%Q.
Proof.
  destruct (row_hours_ok (m * (60 * sec_us))) as (m' & E & H). unfold sec_us in *. replace m' with m in E by lia. exact E.
Qed.

Lemma row_hours_inj a b : (row_hours a == row_hours b)%Q -> Z.abs (a - b) < 60 * sec_us.
Proof.
  intros E. destruct (row_hours_ok a) as (m1 & E1 & H1). destruct (row_hours_ok b) as (m2 & E2 & H2).
  rewrite E1, E2 in E. assert (m1 = m2).
  { assert (E3 : (inject_Z m1 == inject_Z m2)%Q).
    { transitivity ((inject_Z m1 / 60) * 60)%Q; [field|]. rewrite E. field. }
    rewrite inject_Z_injective in E3. exact E3. }
  subst. unfold sec_us in *. lia.
Qed.

Lemma budget_ok on T s0 mstart ts n mbs : 0 < ts -> (forall T', T = Some T' -> 0 < T') ->
  exists l rows, budget_run (budget_cfg on T) s0 mstart ts n mbs = Ok rows /\
    rows = map (fun k => (mstart + k * ts * sec_us, row_hours (k * ts * sec_us), map (fun c => dget c (mbs k)) categories)) l /\
    StronglySorted Z.lt l /\ forall k, In k l <-> budget_due T ts (Z.of_nat n) k.
Proof.
  intros Hts HT. unfold budget_run.
  destruct (live_run_ok (budget_cfg on T) s0 mstart ts 0 n Hts HT) as (l & -> & Hs & Hl); [reflexivity|reflexivity|].
  cbn [bind]. exists l. eexists. split; [reflexivity|]. split.
  { apply map_ext. intros k. unfold budget_row. do 2 f_equal. f_equal. lia. }
  split; [exact Hs|]. intros k. rewrite Hl. unfold scheduled, budget_due, due. cbn [c_on c_zero c_last c_single c_ts budget_cfg].
  split.
  - intros (Hk & _ & [[-> _]|[[-> _]|(H1 & [->|(H2 & _ & H3)])]]); split; auto.
    right. right. destruct T as [T|]; [|exact I]. rewrite !Z.sub_0_r in H3. exact H3.
  - intros (Hk & H). split; [exact Hk|]. split; [reflexivity|].
    destruct (Z.eq_dec k 0) as [->|N]; [left; auto|]. destruct H as [->|[->|H]]; [lia|right; left; auto|].
    right. right. split; [lia|]. right. split; [lia|]. split; [reflexivity|]. destruct T as [T|]; [|exact I].
    rewrite !Z.sub_0_r. exact H.
Qed.

(** ** GeoJSON *)

Lemma rint_ok x : (Qabs.Qabs (inject_Z (rint x) - x) <= 1 # 2)%Q.
Proof.
  apply Qabs.Qabs_Qle_condition. unfold rint. pose proof (Qfloor_le x). pose proof (Qlt_floor x).
  rewrite inject_Z_plus in *. change (inject_Z 1) with 1%Q in *.
  destruct (Qcompare_spec (x - inject_Z (Qfloor x)) (1 # 2)) as [E|E|E].
  - destruct (Z.even _); rewrite ?inject_Z_plus; change (inject_Z 1) with 1%Q; split; lra.
  - split; lra.
  - rewrite inject_Z_plus. change (inject_Z 1) with 1%Q. split; lra.
Qed.

Lemma np_round_ok k x : 0 <= k -> (Qabs.Qabs (np_round k x - x) * inject_Z (10 ^ k) <= 1 # 2)%Q.
Proof.
  intros Hk. unfold np_round. set (p := 10 ^ k). assert (Hp : (0 < inject_Z p)%Q).
  { change 0%Q with (inject_Z 0). rewrite <- Zlt_Qlt. unfold p. apply Z.pow_pos_nonneg; lia. }
  rewrite <- (Qabs.Qabs_pos (inject_Z p)) at 3 by lra. rewrite <- Qabs.Qabs_Qmult.
  setoid_replace ((inject_Z (rint (x * inject_Z p)) / inject_Z p - x) * inject_Z p)%Q
    with (inject_Z (rint (x * inject_Z p)) - x * inject_Z p)%Q.
  - apply rint_ok.
  - field. lra.
Qed.

Lemma geo_steps_ok g : g_dir g = true -> forall steps k fs j,
  dget j (geo_steps g k steps fs) =
    match nth_error steps (Z.to_nat (j - k)) with
    | Some (true, scs) => if k <=? j then Some (feats g true scs) else dget j fs
    | _ => dget j fs
    end.
Proof.
  intros Hd. induction steps as [|[flag scs] r IH]; intros k fs j; cbn [geo_steps].
  - destruct (Z.to_nat (j - k)); reflexivity.
  - rewrite IH. destruct (Z.leb_spec k j) as [H|H].
    + destruct (Z.eq_dec j k) as [->|N].
      * rewrite Z.sub_diag. cbn [Z.to_nat nth_error]. replace (Z.to_nat (k - (k + 1))) with O by lia.
        replace (k + 1 <=? k) with false by (symmetry; apply Z.leb_gt; lia).
        assert (E : dget k (snd (geo_write g flag k scs fs)) = if flag then Some (feats g true scs) else dget k fs).
        { unfold geo_write. destruct flag; cbn [negb]; [|reflexivity]. rewrite Hd. cbn [snd]. unfold geo_file.
          rewrite SetProofs.dget_dset, Z.eqb_refl. reflexivity. }
        rewrite E. destruct flag; destruct r as [|[[|] ?] ?]; cbn [nth_error]; reflexivity.
      * replace (Z.to_nat (j - k)) with (S (Z.to_nat (j - (k + 1)))) by lia. cbn [nth_error].
        replace (k + 1 <=? j) with true by (symmetry; apply Z.leb_le; lia).
        assert (E : dget j (snd (geo_write g flag k scs fs)) = dget j fs).
        { unfold geo_write. destruct flag; cbn [negb]; [|reflexivity]. rewrite Hd. cbn [snd]. unfold geo_file.
          rewrite !SetProofs.dget_dset. replace (j =? k) with false by (symmetry; apply Z.eqb_neq; lia). reflexivity. }
        rewrite E. reflexivity.
    + replace (Z.to_nat (j - k)) with O by lia. replace (Z.to_nat (j - (k + 1))) with O by lia. cbn [nth_error].
      replace (k + 1 <=? j) with false by (symmetry; apply Z.leb_gt; lia).
      assert (E : dget j (snd (geo_write g flag k scs fs)) = dget j fs).
      { unfold geo_write. destruct flag; cbn [negb]; [|reflexivity]. rewrite Hd. cbn [snd]. unfold geo_file.
        rewrite !SetProofs.dget_dset. replace (j =? k) with false by (symmetry; apply Z.eqb_neq; lia). reflexivity. }
      rewrite E. destruct flag; destruct r as [|[[|] ?] ?]; reflexivity.
Qed.

(** ** Outputters that are off *)

Lemma att_write_on c k il a : a_cache a = true -> a_single a = Some (o_single0 (a_ost a)) ->
  att_write c k il a = Ok (Oatt true (a_single a) (o_write_output c k il (a_ost a))).
Proof.
  intros Hc Hs. unfold att_write, o_write_output. rewrite Hc, Hs.
  destruct (k =? 0), (c_zero c); cbn [bind orb]; rewrite ?andb_false_r; reflexivity.
Qed.
Lemma o_prepare_step_single c ts mt s s1 : o_prepare_step c ts mt s = Ok s1 -> o_single0 s1 = o_single0 s.
Proof.
  unfold o_prepare_step, o_schedule. intros H.
  repeat match type of H with
  | context [if ?b then _ else _] => destruct b
  | context [match ?o with Some _ => _ | None => _ end] => destruct o
  end; try discriminate; injection H as <-; reflexivity.
Qed.
Lemma o_write_single c k il s : o_single0 (o_write_output c k il s) = o_single0 s.
Proof. unfold o_write_output. destruct (k =? 0), (il && c_last c); reflexivity. Qed.

Lemma kind_steps_on kd c ts mstart n : c_on c = true -> forall fuel k s,
  kind_steps kd c ts mstart n fuel k (Oatt true (Some (o_single0 s)) s) = steps c ts mstart n fuel k s.
Proof.
  intros Hon. induction fuel as [|fuel IH]; intros k s; cbn [kind_steps steps]; [reflexivity|].
  cbn [a_ost a_cache a_single]. destruct (o_prepare_step _ _ _ _) as [s1|e] eqn:E; cbn [bind]; [|reflexivity].
  pose proof (o_prepare_step_single _ _ _ _ _ E) as E1.
  rewrite att_write_on; cbn [a_cache a_single a_ost bind]; [|reflexivity|rewrite E1; reflexivity].
  rewrite <- E1. rewrite <- (o_write_single c k (k =? n - 1) s1). rewrite IH.
  destruct (steps _ _ _ _ _ _ _); cbn [bind]; [|reflexivity].
  rewrite Hon. destruct kd; reflexivity.
Qed.
Lemma kind_run_on kd c a mstart ts n : c_on c = true ->
  kind_run kd c a mstart ts n = live_run c (a_ost a) mstart ts n.
Proof.
  intros Hon. unfold kind_run, live_run. destruct n as [|m]; [reflexivity|]. unfold att_prepare.
  replace (prepares kd (c_on c)) with true by (rewrite Hon; destruct kd; reflexivity).
  rewrite att_write_on; [|reflexivity|reflexivity]. cbn [bind a_single a_ost].
  match goal with |- context [o_write_output c 0 ?il ?s] => rewrite <- (o_write_single c 0 il s) end.
  rewrite kind_steps_on by exact Hon.
  destruct (steps _ _ _ _ _ _ _); cbn [bind]; [|reflexivity]. rewrite Hon. destruct kd; reflexivity.
Qed.

Definition heeds_on (kd : kind) : Prop := kd <> KGeoJson /\ kd <> KWeathering.
Lemma writes_off kd flag : heeds_on kd -> writes kd false flag = false.
Proof. intros [H1 H2]. destruct kd; try reflexivity; contradiction. Qed.

Lemma off_steps kd c ts mstart n : c_on c = false -> heeds_on kd -> forall fuel k a,
  1 <= k -> a_cache a = true -> kind_steps kd c ts mstart n fuel k a = Ok [].
Proof.
  intros Hon Hk. induction fuel as [|fuel IH]; intros k a H1 Hc; cbn [kind_steps]; [reflexivity|].
  unfold o_prepare_step. rewrite Hon. cbn [negb bind]. unfold att_write.
  replace (k =? 0) with false by (symmetry; apply Z.eqb_neq; lia). cbn [bind a_cache a_ost]. rewrite Hc.
  rewrite andb_false_r. cbn [bind]. rewrite IH by (try reflexivity; lia). cbn [bind]. rewrite writes_off by exact Hk. reflexivity.
Qed.
Lemma off_run kd c a mstart ts n : c_on c = false -> heeds_on kd ->
  (prepares kd false = false -> a_cache a = true /\ (c_zero c = true \/ a_single a <> None)) ->
  kind_run kd c a mstart ts n = Ok [].
Proof.
  intros Hon Hk Ha. unfold kind_run. destruct n as [|m]; [reflexivity|]. unfold att_prepare. rewrite Hon.
  destruct (prepares kd false).
  - rewrite att_write_on; [|reflexivity|reflexivity]. cbn [bind]. rewrite off_steps by (auto; lia). cbn [bind].
    rewrite writes_off by exact Hk. reflexivity.
  - destruct (Ha eq_refl) as [Hc Hz]. unfold att_write. cbn [Z.eqb a_cache a_single a_ost].
    destruct (c_zero c) eqn:Ez; cbn [bind]; rewrite ?Hc, ?andb_false_r.
    + cbn [bind]. rewrite off_steps by (auto; lia). cbn [bind]. rewrite writes_off by exact Hk. reflexivity.
    + destruct Hz as [Hz|Hz]; [discriminate|]. destruct (a_single a); [|contradiction]. cbn [bind]. rewrite andb_false_r. cbn [bind].
      rewrite off_steps by (auto; lia). cbn [bind]. rewrite writes_off by exact Hk. reflexivity.
Qed.

Lemma deaf_steps kd c ts mstart n : c_on c = false -> ~ heeds_on kd -> forall fuel k a,
  1 <= k -> a_cache a = true -> o_write (a_ost a) = true ->
  kind_steps kd c ts mstart n fuel k a = Ok (map (fun i => k + Z.of_nat i) (seq 0 fuel)).
Proof.
  intros Hon Hk. assert (W : forall f, writes kd false f = f).
  { intros f. destruct kd; try reflexivity; exfalso; apply Hk; split; discriminate. }
  induction fuel as [|fuel IH]; intros k a H1 Hc Hw; cbn [kind_steps seq map]; [reflexivity|].
  unfold o_prepare_step. rewrite Hon. cbn [negb bind]. unfold att_write.
  replace (k =? 0) with false by (symmetry; apply Z.eqb_neq; lia). cbn [bind a_cache a_ost]. rewrite Hc.
  rewrite andb_false_r. cbn [bind a_ost]. rewrite W.
  assert (Hw2 : o_write (if (k =? n - 1) && c_last c then set_write (a_ost a) true else a_ost a) = true)
    by (destruct ((k =? n - 1) && c_last c); [reflexivity|exact Hw]).
  rewrite IH by (try reflexivity; try exact Hw2; lia). cbn [bind]. rewrite Hw2. do 2 f_equal; [lia|].
  rewrite <- seq_shift, map_map. apply map_ext. intros i. lia.
Qed.
Lemma deaf_run kd c a mstart ts n : c_on c = false -> ~ heeds_on kd -> c_zero c = true ->
  kind_run kd c a mstart ts n = Ok (map Z.of_nat (seq 0 n)).
Proof.
  intros Hon Hk Hz. unfold kind_run. destruct n as [|m]; [reflexivity|]. unfold att_prepare.
  replace (prepares kd (c_on c)) with true by (rewrite Hon; destruct kd; try reflexivity; exfalso; apply Hk; split; discriminate).
  rewrite att_write_on; [|reflexivity|reflexivity]. cbn [bind a_ost a_single].
  match goal with |- context [Oatt true ?x ?s] => set (s1 := s); set (x1 := x) end.
  assert (Hw : o_write s1 = true).
  { unfold s1, o_write_output. rewrite Hz. cbn [Z.eqb orb]. destruct (_ && c_last c); reflexivity. }
  rewrite (deaf_steps kd c ts mstart _ Hon Hk m 1 (Oatt true x1 s1)) by (try reflexivity; try exact Hw; lia). cbn [bind].
  assert (W : forall f, writes kd (c_on c) f = f).
  { intros f. rewrite Hon. destruct kd; try reflexivity; exfalso; apply Hk; split; discriminate. }
  rewrite W, Hw. cbn [seq map]. do 2 f_equal. rewrite <- seq_shift, map_map. apply map_ext. intros i. lia.
Qed.

(** ** KMZ *)
Section KmzP.
Variables (T : option Z) (dt mstart n : Z).

Notation klayers := (klayers T dt mstart).

Lemma kmz_steps_ok evs : forall l k z, z_done z = false -> k + Z.of_nat (length l) <= n - 1 ->
  exists z', kmz_steps T dt mstart n k (map Some l ++ evs) z = kmz_steps T dt mstart n (k + Z.of_nat (length l)) evs z' /\
    z_kml z' = z_kml z ++ map PLayer (klayers k l) /\ z_done z' = false /\ z_file z' = z_file z.
Proof.
  induction l as [|[flag scs] l IH]; intros k z Hd Hk.
  - exists z. cbn. rewrite app_nil_r. split; [f_equal; lia|auto].
  - cbn [length] in Hk. cbn [map app kmz_steps klayers]. unfold kmz_write.
    replace (k =? n - 1) with false by (symmetry; apply Z.eqb_neq; lia).
    match goal with |- context [kmz_steps T dt mstart n (k + 1) _ ?Z] => destruct (IH (k + 1) Z) as (z' & E & H1 & H2 & H3) end.
    + destruct flag; exact Hd.
    + lia.
    + exists z'. split; [rewrite E; f_equal; cbn [length]; lia|]. split; [|split; [exact H2|rewrite H3; destruct flag; reflexivity]].
      rewrite H1. destruct flag; cbn [z_kml app]; [|reflexivity]. rewrite map_app, app_assoc. reflexivity.
Qed.

Lemma klayers_app l l' : forall k, klayers k (l ++ l') = klayers k l ++ klayers (k + Z.of_nat (length l)) l'.
Proof.
  induction l as [|[flag scs] l IH]; intros k; cbn [app klayers length]; [f_equal; lia|].
  rewrite IH, <- app_assoc. do 2 f_equal. f_equal. lia.
Qed.

Lemma kmz_complete l z : n = Z.of_nat (length l) -> l <> [] ->
  z_file (kmz_run T dt mstart n (map Some l) z) = Some (PHead :: map PLayer (klayers 0 l) ++ [PFoot]).
Proof.
  intros Hn Hne. unfold kmz_run. destruct l as [|[flag scs] l0] using rev_ind; [contradiction|]. clear IHl0.
  rewrite app_length in Hn. cbn [length] in Hn. rewrite map_app. cbn [map].
  destruct (kmz_steps_ok [Some (flag, scs)] l0 0 (kmz_prepare z) eq_refl ltac:(lia)) as (z' & -> & H1 & H2 & H3).
  cbn [kmz_steps]. replace (0 + Z.of_nat (length l0) =? n - 1) with true by (symmetry; apply Z.eqb_eq; lia).
  replace (0 + Z.of_nat (length l0) + 1 =? n) with true by (symmetry; apply Z.eqb_eq; lia).
  rewrite klayers_app. cbn [klayers]. unfold kmz_write, kmz_post, kmz_finish. cbn [z_done z_file].
  f_equal. rewrite app_nil_r. destruct flag; cbn [z_kml]; rewrite H1; cbn [kmz_prepare z_kml app].
  - rewrite map_app. reflexivity.
  - rewrite app_nil_r. reflexivity.
Qed.

Lemma kmz_broken l z evs : l <> [] -> Z.of_nat (length l) < n ->
  z_file (kmz_run T dt mstart n (map Some l ++ None :: evs) z) = Some (PHead :: map PLayer (klayers 0 l) ++ [PFoot]).
Proof.
  intros Hne Hn. unfold kmz_run.
  destruct (kmz_steps_ok (None :: evs) l 0 (kmz_prepare z) eq_refl ltac:(lia)) as (z' & -> & H1 & H2 & H3).
  cbn [kmz_steps]. destruct l as [|x l]; [contradiction|].
  replace (0 + Z.of_nat (length (x :: l)) =? 0) with false by (symmetry; apply Z.eqb_neq; cbn [length]; lia).
  unfold kmz_post. rewrite H2. cbn [kmz_finish z_file]. rewrite H1. reflexivity.
Qed.

Lemma kmz_stopped l z : Z.of_nat (length l) < n ->
  z_file (kmz_run T dt mstart n (map Some l) z) = None.
Proof.
  intros Hn. unfold kmz_run. rewrite <- (app_nil_r (map Some l)).
  destruct (kmz_steps_ok [] l 0 (kmz_prepare z) eq_refl ltac:(lia)) as (z' & -> & H1 & H2 & H3).
  cbn [kmz_steps]. replace (0 + Z.of_nat (length l) =? n) with false by (symmetry; apply Z.eqb_neq; lia). rewrite H3. reflexivity.
Qed.
End KmzP.

Lemma layers_meet T last s0 mstart ts n l k1 k2 : 0 < ts -> (forall T', T = Some T' -> 0 < T' /\ (ts | T')) ->
  live_run (mkCfg true T true last false None) s0 mstart ts n = Ok l -> next_in l k1 k2 ->
  let t k := mstart + k * ts * sec_us in
  t k2 <= layer_end T ts (t k1) /\ (k2 <> Z.of_nat n - 1 \/ last = false -> layer_end T ts (t k1) = t k2).
Proof.
  intros Hts HT Hl (H1 & H2 & Hlt & Hno) t. set (c := mkCfg true T true last false None) in *.
  destruct (live_run_ok c s0 mstart ts 0 n Hts (fun T' E => proj1 (HT T' E))) as (l' & El & _ & Hin); [reflexivity|reflexivity|].
  rewrite Hl in El. injection El as <-. unfold layer_end, t.
  destruct T as [T|].
  - destruct (HT T eq_refl) as [HTp [q Hq]]. assert (Hqp : 0 < q) by nia.
    assert (D : forall k, 1 <= k -> (due c ts 0 k <-> (q | k))).
    { intros k Hk. unfold due. cbn [c_single c_ts c]. rewrite !Z.sub_0_r. split.
      - intros [->|(_ & _ & m & Hm)]; [lia|]. exists m. nia.
      - intros [m ->]. right. split; [lia|]. split; [reflexivity|]. exists m. nia. }
    assert (In1 : forall k, 0 <= k < Z.of_nat n -> (q | k) -> In k l).
    { intros k Hk Hd. apply Hin. unfold scheduled. split; [exact Hk|]. split; [reflexivity|].
      destruct (Z.eq_dec k 0) as [->|]; [left; auto|]. right. right. split; [lia|]. apply D; [lia|exact Hd]. }
    assert (Out : forall k, In k l -> (q | k) \/ (k = Z.of_nat n - 1 /\ last = true)).
    { intros k Hk. apply Hin in Hk. destruct Hk as (_ & _ & [[-> _]|[H|[Hk Hd]]]); [left; apply Z.divide_0_r|right; exact H|].
      left. apply D; assumption. }
    assert (R2 : 0 <= k1 /\ k2 < Z.of_nat n) by (apply Hin in H1; apply Hin in H2; destruct H1, H2; lia).
    destruct (Out k1 H1) as [[m1 E1]|[E1 _]]; [|lia].
    assert (Hle : k2 <= k1 + q).
    { destruct (Z_le_gt_dec k2 (k1 + q)); [assumption|]. exfalso. apply (Hno (k1 + q)); [|lia].
      apply In1; [lia|]. exists (m1 + 1). lia. }
    unfold sec_us. split; [nia|]. intros Hk2. assert (k2 = k1 + q); [|nia].
    destruct (Out k2 H2) as [[m2 E2]|[E2 E3]]; [|destruct Hk2; [contradiction|congruence]].
    assert (m1 < m2) by nia. assert (m2 <= m1 + 1) by nia. nia.
  - assert (k2 = k1 + 1).
    { assert (R2 : 0 <= k1 /\ k2 < Z.of_nat n) by (apply Hin in H1; apply Hin in H2; destruct H1, H2; lia).
      destruct (Z.eq_dec k2 (k1 + 1)); [assumption|]. exfalso. apply (Hno (k1 + 1)); [|lia].
      apply Hin. unfold scheduled. split; [lia|]. split; [reflexivity|]. right. right. split; [lia|].
      right. cbn. split; [lia|auto]. }
    subst k2. unfold sec_us. split; [lia|]. intros _. lia.
Qed.
