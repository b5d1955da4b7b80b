(** * Proofs about hulls, contours and the JSON output of spills *)

From Coq Require Import ZArith List Bool Lia Permutation.
From Verif Require Import Py PyLemmas HulModel HulSpec.
Import ListNotations.
Open Scope Z_scope.

Lemma for_cutoff_spec cuts i x : for_cutoff_b cuts i x = true <-> for_cutoff cuts i x.
Proof.
  unfold for_cutoff_b, for_cutoff. rewrite !andb_true_iff, orb_true_iff, andb_true_iff, negb_true_iff, Nat.ltb_lt, Nat.eqb_neq, Nat.eqb_eq.
  assert (U : match nth_error cuts i with Some c => x <=? c | None => false end = true <-> exists c, nth_error cuts i = Some c /\ x <= c).
  { destruct (nth_error cuts i) as [c |]; [rewrite Z.leb_le; split; [intros H; exists c; auto | intros (c' & E & H); injection E as ->; exact H] |].
    split; [discriminate | intros (c & E & _); discriminate]. }
  rewrite U. destruct i as [| j]; [tauto |].
  assert (L : match nth_error cuts j with Some p => p <=? x | None => false end = true <-> exists p, nth_error cuts j = Some p /\ p <= x).
  { destruct (nth_error cuts j) as [c |]; [rewrite Z.leb_le; split; [intros H; exists c; auto | intros (c' & E & H); injection E as ->; exact H] |].
    split; [discriminate | intros (c & E & _); discriminate]. }
  rewrite L. tauto.
Qed.

(** The walk over the cutoffs is the sum of the contours of each. *)
Lemma spill_contours_eq s n p els all : forall rest pre, all = pre ++ rest ->
  spill_contours s n p els (match rev pre with [] => None | c :: _ => Some (c_cut c) end) rest =
  flat_map (fun i => match nth_error all i with
                     | None => []
                     | Some c => match filter (fun e => for_cutoff_b (map c_cut all) i (e_val e p)) els with
                                 | [] => []
                                 | these => match area s (map e_pos these) with Some g => [Contour n c g] | None => [] end
                                 end
                     end) (seq (length pre) (length rest)).
Proof.
  induction rest as [| c rest IH]; intros pre E; [reflexivity |]. cbn [length seq flat_map spill_contours]. cbv zeta.
  assert (N : nth_error all (length pre) = Some c) by (rewrite E, nth_error_app2, Nat.sub_diag by lia; reflexivity).
  rewrite N. specialize (IH (pre ++ [c])). rewrite rev_app_distr in IH. cbn [rev app] in IH. rewrite app_length, Nat.add_1_r in IH. rewrite IH by (rewrite <- app_assoc; exact E).
  assert (B : forall x, in_bin (match rev pre with [] => None | c0 :: _ => Some (c_cut c0) end) c rest x = for_cutoff_b (map c_cut all) (length pre) x).
  { intros x. unfold for_cutoff_b. rewrite map_length, nth_error_map, N. cbn [option_map].
    assert (L : (length pre <? length all)%nat = true) by (apply Nat.ltb_lt; rewrite E, app_length; cbn [length]; lia). rewrite L. cbn [andb].
    destruct pre as [| c0 pre] using rev_ind; [cbn [length rev in_bin Nat.eqb negb andb orb]; reflexivity |]. clear IHpre.
    rewrite rev_app_distr. cbn [rev app in_bin]. rewrite app_length, Nat.add_1_r. cbn [Nat.eqb negb andb].
    assert (N0 : nth_error all (length pre) = Some c0) by (rewrite E, <- app_assoc, nth_error_app2, Nat.sub_diag by lia; reflexivity).
    rewrite nth_error_map, N0. cbn [option_map].
    destruct rest as [| c1 rest].
    - assert (Q : (S (S (length pre)) =? length all)%nat = true) by (apply Nat.eqb_eq; rewrite E, !app_length; cbn [length]; lia).
      cbn [Nat.eqb] in Q. rewrite Q. cbn [orb]. rewrite andb_true_r. reflexivity.
    - assert (Q : (S (S (length pre)) =? length all)%nat = false) by (apply Nat.eqb_neq; rewrite E, !app_length; cbn [length]; lia).
      cbn [Nat.eqb] in Q. rewrite Q. cbn [orb]. apply andb_comm. }
  rewrite (filter_ext _ _ (fun e => B (e_val e p))).
  destruct (filter (fun e => for_cutoff_b (map c_cut all) (length pre) (e_val e p)) els) as [| e1 es]; [reflexivity |].
  destruct (area s (map e_pos (e1 :: es))); reflexivity.
Qed.

Lemma all_contours_ok s has els cs : (forall n st, In (n, st) cs -> t_cuts st <> [] -> has (t_param st) = true) ->
  all_contours s has els cs = Ok (flat_map (contours_of s els) cs).
Proof.
  induction cs as [| (n, st) t IH]; intros H; [reflexivity |]. cbn [all_contours flat_map]. rewrite IH by (intros a b I; apply (H a b); right; exact I).
  assert (E : (match t_cuts st with [] => Ok tt | _ :: _ => if has (t_param st) then Ok tt else Raise KeyErr end) = Ok tt).
  { destruct (t_cuts st) eqn:Q; [reflexivity |]. rewrite (H n st (or_introl eq_refl)); [reflexivity | congruence]. }
  rewrite E. cbn [bind]. f_equal. f_equal. unfold contours_of. cbn [fst snd].
  exact (spill_contours_eq s n (t_param st) (of_spill n els) (t_cuts st) (t_cuts st) [] eq_refl).
Qed.

Lemma all_contours_key s has els cs : (exists n st, In (n, st) cs /\ t_cuts st <> [] /\ has (t_param st) = false) ->
  all_contours s has els cs = Raise KeyErr.
Proof.
  induction cs as [| (n, st) t IH]; intros (n1 & st1 & I & C & F); [destruct I |]. cbn [all_contours].
  destruct I as [I | I].
  - injection I as -> ->. destruct (t_cuts st1); [contradiction |]. rewrite F. reflexivity.
  - destruct (match t_cuts st with [] => Ok tt | _ :: _ => if has (t_param st) then Ok tt else Raise KeyErr end) as [[] | e] eqn:Q; cbn [bind].
    + rewrite IH by (exists n1, st1; auto). reflexivity.
    + destruct (t_cuts st); [discriminate |]. destruct (has (t_param st)); [discriminate |]. injection Q as <-. reflexivity.
Qed.

(** Different values in order. *)
Lemma zmem_In x l : zmem x l = true <-> In x l.
Proof. unfold zmem. rewrite existsb_exists. split; [intros (y & I & E); apply Z.eqb_eq in E; subst; exact I | intros I; exists x; split; [exact I | apply Z.eqb_refl]]. Qed.

Lemma uniq_firsts l : forall acc seen, (forall x, zmem x seen = zmem x acc) ->
  fold_left (fun a x => if zmem x a then a else a ++ [x]) l acc = acc ++ uniq seen l.
Proof.
  induction l as [| x t IH]; intros acc seen H; cbn [fold_left uniq]; [rewrite app_nil_r; reflexivity |]. rewrite H. destruct (zmem x acc) eqn:M.
  - apply IH. exact H.
  - rewrite (IH (acc ++ [x]) (x :: seen)); [rewrite <- app_assoc; reflexivity |]. intros y. apply eq_true_iff_eq. rewrite !zmem_In, in_app_iff. cbn [In].
    rewrite <- (zmem_In y seen), H, zmem_In. tauto.
Qed.

Lemma firsts_eq l : uniq [] l = firsts l.
Proof. unfold firsts. rewrite (uniq_firsts l [] []) by reflexivity. reflexivity. Qed.

Lemma uniq_NoDup l : forall seen, NoDup (uniq seen l) /\ (forall x, In x (uniq seen l) <-> In x l /\ ~ In x seen).
Proof.
  induction l as [| x t IH]; intros seen; cbn [uniq]; [split; [constructor | intros y; cbn; tauto] |]. destruct (zmem x seen) eqn:M.
  - destruct (IH seen) as (N & H). split; [exact N |]. intros y. rewrite H. cbn [In]. apply zmem_In in M. split; [tauto |]. intros ([-> | I] & K); [contradiction | tauto].
  - destruct (IH (x :: seen)) as (N & H). assert (NI : ~ In x seen) by (intros I; apply zmem_In in I; congruence). split.
    + constructor; [rewrite H; cbn [In]; tauto | exact N].
    + intros y. cbn [In]. rewrite H. cbn [In]. destruct (Z.eq_dec x y) as [-> | D]; [tauto |]. tauto.
Qed.

(** Splitting a list by a key is a rearrangement of it. *)
Lemma split_perm {A} (key : A -> Z) (ks : list Z) : NoDup ks -> forall l : list A, (forall a, In a l -> In (key a) ks) ->
  Permutation (flat_map (fun k => filter (fun a => key a =? k) l) ks) l.
Proof.
  intros ND. induction ks as [| k ks IH]; intros l H.
  - destruct l as [| a l]; [constructor | destruct (H a (or_introl eq_refl))].
  - inversion ND as [| ? ? N1 N2]; subst. cbn [flat_map].
    set (r := filter (fun a => negb (key a =? k)) l).
    assert (E : flat_map (fun k0 => filter (fun a => key a =? k0) l) ks = flat_map (fun k0 => filter (fun a => key a =? k0) r) ks).
    { assert (Q : forall k0, In k0 ks -> filter (fun a => key a =? k0) l = filter (fun a => key a =? k0) r).
      { intros k0 I. unfold r. clear -I N1. induction l as [| a l IHl]; [reflexivity |]. cbn [filter].
        destruct (Z.eqb_spec (key a) k) as [E1 | E1]; cbn [negb filter]; destruct (Z.eqb_spec (key a) k0) as [E2 | E2]; try (rewrite IHl; reflexivity).
        exfalso. apply N1. congruence. }
      clear -Q. induction ks as [| k0 ks IHk]; [reflexivity |]. cbn [flat_map]. rewrite (Q k0 (or_introl eq_refl)), IHk; [reflexivity | intros k1 I; apply Q; right; exact I]. }
    rewrite E. assert (P : Permutation (flat_map (fun k0 => filter (fun a => key a =? k0) r) ks) r).
    { apply (IH N2). intros a I. unfold r in I. apply filter_In in I. destruct I as (I & B). destruct (H a I) as [Q | Q]; [| exact Q].
      rewrite <- Q, Z.eqb_refl in B. discriminate. }
    transitivity (filter (fun a => key a =? k) l ++ r); [apply Permutation_app_head; exact P |].
    unfold r. clear. induction l as [| a l IHl]; [constructor |]. cbn [filter]. destruct (key a =? k); cbn [negb app].
    + constructor. exact IHl.
    + transitivity (a :: filter (fun a0 => key a0 =? k) l ++ filter (fun a0 => negb (key a0 =? k)) l); [apply Permutation_sym, Permutation_middle | constructor; exact IHl].
Qed.

Lemma spill_hulls_eq s els nums : spill_hulls s els nums = flat_map (hull_of s els) nums.
Proof.
  induction nums as [| n t IH]; [reflexivity |]. cbn [spill_hulls flat_map]. unfold hull_of at 1, elements_of. fold (of_spill n els). rewrite IH.
  destruct (area s (map e_pos (of_spill n els))); reflexivity.
Qed.

(** Cutoffs from a colour map. *)
Lemma cuts_from_ok vals labels colors : forall idx, (idx + length vals <= length labels)%nat -> (idx + length vals <= length colors)%nat ->
  exists cs, cuts_from idx vals labels colors = Ok cs /\ map c_cut cs = vals /\ map c_id cs = map Z.of_nat (seq idx (length vals)) /\
    map c_label cs = firstn (length vals) (skipn idx labels) /\ map c_color cs = firstn (length vals) (skipn idx colors).
Proof.
  induction vals as [| v t IH]; intros idx L1 L2; cbn [cuts_from length] in *; [exists []; repeat split |].
  assert (SK : forall (l : list Z) x, nth_error l idx = Some x -> skipn idx l = x :: skipn (S idx) l).
  { clear. revert idx. induction idx as [| i IHi]; intros [| a l] x N; cbn [nth_error] in N; try discriminate; [injection N as ->; reflexivity |]. cbn [skipn]. rewrite (IHi l x N). reflexivity. }
  destruct (nth_error labels idx) as [lb |] eqn:E1; [| apply nth_error_None in E1; lia].
  destruct (nth_error colors idx) as [co |] eqn:E2; [| apply nth_error_None in E2; lia].
  destruct (IH (S idx)) as (cs & E & A & B & C & D); [lia | lia |]. rewrite E. cbn [bind]. eexists. split; [reflexivity |].
  cbn [map c_cut c_id c_label c_color seq]. rewrite A, B, C, D, (SK labels lb E1), (SK colors co E2). repeat split.
Qed.

Lemma cuts_from_short vals labels colors : forall idx cs, cuts_from idx vals labels colors = Ok cs -> vals <> [] ->
  (idx + length vals <= length labels)%nat /\ (idx + length vals <= length colors)%nat.
Proof.
  induction vals as [| v t IH]; intros idx cs E NE; [contradiction |]. cbn [cuts_from] in E.
  destruct (nth_error labels idx) as [lb |] eqn:E1; [| discriminate]. destruct (nth_error colors idx) as [co |] eqn:E2; [| discriminate].
  assert (I1 : (idx < length labels)%nat) by (apply nth_error_Some; congruence). assert (I2 : (idx < length colors)%nat) by (apply nth_error_Some; congruence).
  destruct t as [| v' t]; [cbn [length]; lia |]. destruct (cuts_from (S idx) (v' :: t) labels colors) as [r | e] eqn:Q; cbn [bind] in E; [| discriminate].
  destruct (IH (S idx) r Q); [discriminate |]. cbn [length] in *. lia.
Qed.

Lemma last_cons {A} (l : list A) : l <> [] -> exists b m, l = b ++ [m] /\ rev l = m :: rev b.
Proof. intros N. destruct (exists_last N) as (b & m & ->). exists b, m. rewrite rev_app_distr. auto. Qed.

Lemma style_ok k : complete k -> exists st, style_of k = Ok st /\ styled k st.
Proof.
  intros (D & N & L1 & L2). unfold style_of, styled. destruct (l_data k) as [p |]; [| contradiction]. destruct (last_cons _ N) as (b & m & E & R). rewrite R.
  destruct (cuts_from_ok (l_cutoffs k ++ [m]) (l_labels k) (l_colors k) 0) as (cs & Q & A & B & C & F); [rewrite app_length; cbn [length]; lia | rewrite app_length; cbn [length]; lia |].
  rewrite Q. cbn [bind]. eexists. split; [reflexivity |]. cbn [t_param t_cuts]. split; [reflexivity |]. exists m, b. rewrite app_length, Nat.add_1_r in *. cbn [skipn] in *. auto.
Qed.

Lemma style_complete k st : style_of k = Ok st -> complete k.
Proof.
  unfold style_of, complete. destruct (l_data k) as [p |]; [| discriminate]. destruct (rev (l_numbers k)) as [| m r] eqn:R; [discriminate |].
  destruct (cuts_from 0 (l_cutoffs k ++ [m]) (l_labels k) (l_colors k)) as [cs | e] eqn:Q; cbn [bind]; [| discriminate]. intros _.
  destruct (cuts_from_short _ _ _ _ _ Q) as (A & B); [destruct (l_cutoffs k); discriminate |]. rewrite app_length in *. cbn [length] in *.
  split; [discriminate |]. split; [intros E; rewrite E in R; discriminate |]. lia.
Qed.

Lemma style_fun k st : style_of k = Ok st -> styled k st.
Proof. intros E. destruct (style_ok k (style_complete k st E)) as (st' & E' & H). congruence. Qed.

Lemma struct_ok any spills : forall idx r, cutoff_struct any idx spills = Ok r ->
  (forall i st, In (i, st) r <-> exists j k, i = idx + Z.of_nat j /\ (exists o, nth_error spills j = Some o /\ wanted any o k) /\ style_of k = Ok st) /\
  (forall j k, (exists o, nth_error spills j = Some o /\ wanted any o k) -> exists st, style_of k = Ok st).
Proof.
  induction spills as [| o t IH]; intros idx r E; cbn [cutoff_struct] in E.
  - injection E as <-. split.
    + intros i st. split; [intros [] | intros (j & k & _ & (o & N & _) & _); destruct j; discriminate].
    + intros j k (o & N & _). destruct j; discriminate.
  - assert (SH : forall j, idx + Z.of_nat (S j) = (idx + 1) + Z.of_nat j) by (intros; lia).
    assert (SKIP : (forall k, ~ wanted any o k) -> cutoff_struct any (idx + 1) t = Ok r ->
      (forall i st, In (i, st) r <-> exists j k, i = idx + Z.of_nat j /\ (exists o', nth_error (o :: t) j = Some o' /\ wanted any o' k) /\ style_of k = Ok st) /\
      (forall j k, (exists o', nth_error (o :: t) j = Some o' /\ wanted any o' k) -> exists st, style_of k = Ok st)).
    { intros NW E'. destruct (IH _ _ E') as (H1 & H2). split.
      - intros i st. rewrite H1. split.
        + intros (j & k & -> & W & S1). exists (S j), k. rewrite SH. auto.
        + intros ([| j] & k & -> & (o' & N & W) & S1); [cbn [nth_error] in N; injection N as <-; destruct (NW k W) |]. exists j, k. rewrite SH. split; [reflexivity |]. split; [exists o'; auto | exact S1].
      - intros [| j] k (o' & N & W); [cbn [nth_error] in N; injection N as <-; destruct (NW k W) |]. apply (H2 j k). exists o'. auto. }
    destruct o as [k0 |]; [| apply SKIP; [intros k (W & _); discriminate | exact E]].
    destruct (any || l_contours k0) eqn:B.
    + destruct (style_of k0) as [st0 | e] eqn:S0; cbn [bind] in E; [| discriminate].
      destruct (cutoff_struct any (idx + 1) t) as [r0 | e] eqn:E'; cbn [bind] in E; [| discriminate]. injection E as <-.
      destruct (IH _ _ E') as (H1 & H2). apply orb_prop in B. split.
      * intros i st. cbn [In]. rewrite H1. split.
        -- intros [Q | (j & k & -> & W & S1)].
           ++ injection Q as <- <-. exists O, k0. split; [lia |]. split; [exists (Some k0); split; [reflexivity | split; [reflexivity | exact B]] | exact S0].
           ++ exists (S j), k. rewrite SH. auto.
        -- intros ([| j] & k & -> & (o' & N & W) & S1).
           ++ left. cbn [nth_error] in N. injection N as <-. destruct W as (W & _). injection W as ->. f_equal; [lia | congruence].
           ++ right. exists j, k. rewrite SH. split; [reflexivity |]. split; [exists o'; auto | exact S1].
      * intros [| j] k (o' & N & W).
        -- cbn [nth_error] in N. injection N as <-. destruct W as (W & _). injection W as ->. exists st0. exact S0.
        -- apply (H2 j k). exists o'. auto.
    + apply SKIP; [| exact E]. intros k (W & C). injection W as ->. apply orb_false_iff in B. destruct B, C; congruence.
Qed.

Lemma struct_total any spills : (forall j k, (exists o, nth_error spills j = Some o /\ wanted any o k) -> complete k) ->
  forall idx, exists r, cutoff_struct any idx spills = Ok r.
Proof.
  induction spills as [| o t IH]; intros H idx; cbn [cutoff_struct]; [exists []; reflexivity |].
  assert (H' : forall j k, (exists o, nth_error t j = Some o /\ wanted any o k) -> complete k) by (intros j k W; exact (H (S j) k W)).
  destruct (IH H' (idx + 1)) as (r & E). destruct o as [k |]; [| exists r; exact E]. destruct (any || l_contours k) eqn:B; [| exists r; exact E].
  destruct (style_ok k) as (st & Q & _). { apply (H O k). exists (Some k). split; [reflexivity | split; [reflexivity | apply orb_prop in B; exact B]]. }
  rewrite Q, E. eexists. reflexivity.
Qed.

Lemma struct_keys any spills : forall idx r, cutoff_struct any idx spills = Ok r -> NoDup (map fst r) /\ forall i, In i (map fst r) -> idx <= i.
Proof.
  induction spills as [| o t IH]; intros idx r E; cbn [cutoff_struct] in E.
  - injection E as <-. split; [constructor | intros i []].
  - assert (SK : cutoff_struct any (idx + 1) t = Ok r -> NoDup (map fst r) /\ forall i, In i (map fst r) -> idx <= i).
    { intros E'. destruct (IH _ _ E') as (A & B). split; [exact A |]. intros i I. specialize (B i I). lia. }
    destruct o as [k |]; [| exact (SK E)]. destruct (any || l_contours k); [| exact (SK E)].
    destruct (style_of k) as [st |]; cbn [bind] in E; [| discriminate]. destruct (cutoff_struct any (idx + 1) t) as [r0 |] eqn:E'; cbn [bind] in E; [| discriminate].
    injection E as <-. destruct (IH _ _ E') as (A & B). cbn [map fst]. split; [constructor; [| exact A] | intros i [<- | I]; [lia | specialize (B i I); lia]].
    intros I. specialize (B idx I). lia.
Qed.

(** The records of the output. *)
Lemma collect_ok s bounds cs all l : forall out out', collect s bounds cs all l out = Ok out' ->
  o_certain out' = o_certain out ++ map (fun k => record_of (k_els k)) (filter (fun k => negb (k_uncertain k)) l) /\
  o_uncertain out' = o_uncertain out ++ map (fun k => record_of (k_els k)) (filter k_uncertain l) /\
  o_bounds out' = o_bounds out ++ (if bounds then map (fun _ => calculate_hull s (map k_els all) true true) (filter k_uncertain l) else []) /\
  o_time out' = last (map k_time l) (o_time out) /\
  exists cts, o_contours out' = o_contours out ++ map by_spill cts /\
    Forall2 (fun k c => calculate_contours s (k_surf k) (k_visc k) (k_els k) cs = Ok c) (filter (fun k => negb (k_uncertain k)) l) cts.
Proof.
  induction l as [| k t IH]; intros out out' E; cbn [collect] in E.
  - injection E as <-. cbn [filter map last]. rewrite !app_nil_r. repeat split; [destruct bounds; rewrite app_nil_r; reflexivity |].
    exists []. rewrite app_nil_r. split; [reflexivity | constructor].
  - cbv zeta in E. assert (LT : forall d, last (map k_time (k :: t)) d = last (map k_time t) (k_time k)).
    { intros d. cbn [map]. generalize (k_time k). clear. induction t as [| x t IHt]; intros z; [reflexivity |]. cbn [map]. change (last (k_time x :: map k_time t) d = last (k_time x :: map k_time t) z).
      rewrite IHt. symmetry. destruct t as [| y t]; [reflexivity |]. cbn [map]. change (last (k_time y :: map k_time t) z = last (k_time y :: map k_time t) (k_time x)). generalize (map k_time t). generalize (k_time y).
      intros a l. clear. revert a. induction l as [| b l IHl]; intros a; [reflexivity | apply (IHl b)]. }
    cbn [filter]. destruct (k_uncertain k) eqn:U; cbn [negb].
    + apply IH in E. cbn [o_certain o_uncertain o_bounds o_time o_contours] in E. destruct E as (A & B & C & D & cts & F & G). rewrite LT.
      cbn [map]. rewrite A, B, C, D, <- !app_assoc. repeat split; [destruct bounds; [rewrite <- app_assoc; reflexivity | reflexivity] |].
      exists cts. auto.
    + destruct (calculate_contours s (k_surf k) (k_visc k) (k_els k) cs) as [c | e] eqn:Q; cbn [bind] in E; [| discriminate].
      apply IH in E. cbn [o_certain o_uncertain o_bounds o_time o_contours] in E. destruct E as (A & B & C & D & cts & F & G). rewrite LT.
      cbn [map]. rewrite A, B, C, D, <- !app_assoc. repeat split. exists (c :: cts). rewrite F, <- app_assoc. split; [reflexivity | constructor; assumption].
Qed.
