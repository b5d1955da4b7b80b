(** * Proofs about queries on spill data *)
From Coq Require Import String.
From Verif Require Import Py PyLemmas QLemmas PipModel StrModel StrLemmas QryModel QrySpec.
Open Scope Z_scope.

(** ** Splitting *)
Lemma lsplit2_ne c s : lsplit2 c s <> [].
Proof.
  destruct s as [|a [|b r]]; cbn; try discriminate. destruct (_ && _); [discriminate|].
  destruct (match r with [] => _ | _ => _ end); discriminate.
Qed.
Lemma lsplit2_cons c a s : a <> c -> lsplit2 c (a :: s) = match lsplit2 c s with w :: ws => (a :: w) :: ws | [] => [[a]] end.
Proof.
  intros H. destruct s as [|b r]; [reflexivity|]. cbn [lsplit2]. destruct (Z.eqb_spec a c); [contradiction|]. reflexivity.
Qed.
Lemma lsplit2_none c : forall x, ~ In c x -> lsplit2 c x = [x].
Proof.
  induction x as [|a r IH]; intros H; [reflexivity|]. rewrite lsplit2_cons by (intros ->; apply H; left; reflexivity).
  rewrite IH by (intros X; apply H; right; exact X). reflexivity.
Qed.
Lemma lsplit2_app c y : forall x, ~ In c x -> lsplit2 c (x ++ c :: c :: y) = x :: lsplit2 c y.
Proof.
  induction x as [|a r IH]; intros H; cbn [app].
  - cbn [lsplit2]. rewrite Z.eqb_refl. reflexivity.
  - rewrite lsplit2_cons by (intros ->; apply H; left; reflexivity).
    rewrite IH by (intros X; apply H; right; exact X). reflexivity.
Qed.
Lemma lsplit2_join c : forall l, l <> [] -> Forall (fun x => ~ In c x) l -> lsplit2 c (join [c; c] l) = l.
Proof.
  induction l as [|a r IH]; intros Hne H; [congruence|]. inversion H; subst. destruct r as [|b r].
  - cbn. apply lsplit2_none. auto.
  - change (join [c; c] (a :: b :: r)) with (a ++ c :: c :: join [c; c] (b :: r)). rewrite lsplit2_app by auto.
    rewrite IH; auto. discriminate.
Qed.
Lemma join_app sep : forall l1 l2, l1 <> [] -> l2 <> [] -> join sep (l1 ++ l2) = join sep l1 ++ sep ++ join sep l2.
Proof.
  induction l1 as [|a r IH]; intros l2 H1 H2; [congruence|]. destruct r as [|b r].
  - cbn [app join]. destruct l2; [congruence|]. reflexivity.
  - change (join sep ((a :: b :: r) ++ l2)) with (a ++ sep ++ join sep ((b :: r) ++ l2)). rewrite IH by (auto; discriminate).
    change (join sep (a :: b :: r)) with (a ++ sep ++ join sep (b :: r)). rewrite <- !app_assoc. reflexivity.
Qed.
Lemma rev_join c : forall l, rev (join [c; c] l) = join [c; c] (rev (map (@rev Z) l)).
Proof.
  induction l as [|a r IH]; [reflexivity|]. destruct r as [|b r].
  - reflexivity.
  - change (join [c; c] (a :: b :: r)) with (a ++ [c; c] ++ join [c; c] (b :: r)). rewrite !rev_app_distr, IH.
    change (map (@rev Z) (a :: b :: r)) with (rev a :: map (@rev Z) (b :: r)). cbn [rev].
    change (rev (map (rev (A:=Z)) (b :: r)) ++ [rev a]) with (rev (map (rev (A:=Z)) (b :: r)) ++ [rev a]).
    rewrite join_app; [rewrite <- app_assoc; reflexivity| |discriminate].
    cbn [map rev]. destruct (rev (map (rev (A:=Z)) r)); discriminate.
Qed.
Lemma rsplit2_join c l : l <> [] -> Forall (fun x => ~ In c x) l -> rsplit2 c (join [c; c] l) = l.
Proof.
  intros Hne H. unfold rsplit2. rewrite rev_join, lsplit2_join.
  - rewrite map_rev, rev_involutive, map_map. rewrite <- (map_id l) at 2. apply map_ext. intros. apply rev_involutive.
  - destruct l as [|x y]; [congruence|]. cbn. destruct (rev (map (rev (A:=Z)) y)); discriminate.
  - apply Forall_rev. rewrite Forall_map. eapply Forall_impl; [|exact H]. cbn beta. intros x Hx. rewrite <- in_rev. exact Hx.
Qed.

(** ** Words *)
Lemma words_from_word r : forall w cur, Forall (fun c => is_space c = false) w -> forall s, is_space s = true ->
  words_from cur (w ++ s :: r) = flush (cur ++ w) ++ words_from [] r.
Proof.
  induction w as [|c w IH]; intros cur H s Hs; cbn [app words_from].
  - rewrite Hs, app_nil_r. reflexivity.
  - inversion H as [|? ? Hc Hw]; subst. rewrite Hc, IH by auto. rewrite <- app_assoc. reflexivity.
Qed.
Lemma flush_ne w : w <> [] -> flush w = [w].
Proof. destruct w; [congruence|reflexivity]. Qed.
Lemma words_atom a b c : a <> [] -> b <> [] -> c <> [] ->
  Forall (fun x => is_space x = false) a -> Forall (fun x => is_space x = false) b -> Forall (fun x => is_space x = false) c ->
  words ([32] ++ a ++ [32] ++ b ++ [32] ++ c ++ [32]) = [a; b; c].
Proof.
  intros. unfold words. cbn [app words_from]. change (is_space 32) with true. cbn [flush app].
  rewrite words_from_word by auto. cbn [app]. rewrite flush_ne by auto. cbn [app]. f_equal.
  rewrite words_from_word by auto. cbn [app]. rewrite flush_ne by auto. cbn [app]. f_equal.
  rewrite words_from_word by auto. cbn [app]. rewrite flush_ne by auto. reflexivity.
Qed.

(** ** Numbers *)
Lemma horner_value : forall ds acc, fold_left (fun a c => 10 * a + (c - 48)) (text_of ds) acc = int_value acc ds.
Proof.
  induction ds as [|d r IH]; intros acc; cbn [text_of map fold_left int_value]; auto.
  fold (text_of r). rewrite IH. f_equal. lia.
Qed.
Lemma power10_pos s : Zpos (power10 s) = 10 ^ Z.of_nat (length s).
Proof. induction s as [|c r IH]; [reflexivity|]. cbn [power10 length]. rewrite Nat2Z.inj_succ, Z.pow_succ_r, <- IH by lia. lia. Qed.
Lemma int_value_acc : forall ds acc, int_value acc ds = acc * 10 ^ Z.of_nat (length ds) + int_value 0 ds.
Proof.
  induction ds as [|d r IH]; intros acc; cbn [int_value length]; [cbn; lia|].
  rewrite IH, (IH (10 * 0 + d)). rewrite Nat2Z.inj_succ, Z.pow_succ_r by lia. lia.
Qed.
Lemma frac_eq : forall ds, (int_value 0 ds # power10 (text_of ds) == frac_value ds)%Q.
Proof.
  induction ds as [|d r IH]; [reflexivity|]. cbn [frac_value int_value].
  rewrite <- IH. rewrite int_value_acc. cbn [text_of map power10]. fold (text_of r).
  unfold Qdiv, Qeq, Qmult, Qplus, Qinv, inject_Z. cbn [Qnum Qden]. pose proof (power10_pos (text_of r)) as P.
  unfold text_of in P at 2. rewrite map_length in P. rewrite <- P. lia.
Qed.
Lemma text_digits ds : Forall digit ds -> forallb is_digit (text_of ds) = true.
Proof.
  induction 1 as [|d r [H1 H2] _ IH]; [reflexivity|]. unfold text_of in *. cbn [map forallb]. rewrite IH, andb_true_r. unfold is_digit.
  destruct (Z.leb_spec 48 (48 + d)), (Z.leb_spec (48 + d) 57); auto; lia.
Qed.
Lemma text_no_dot ds : Forall digit ds -> ~ In dot (text_of ds).
Proof.
  intros H X. apply in_map_iff in X as [d [E Hd]]. rewrite Forall_forall in H. specialize (H d Hd). unfold digit, dot in *. lia.
Qed.
Lemma plain_text ds : Forall digit ds -> ds <> [] -> (forall r, ds = 0 :: r -> r = []) -> plain_int (text_of ds) = true.
Proof.
  intros H1 H2 H3. unfold plain_int, all_digits. rewrite text_digits by auto.
  destruct ds as [|d r]; [congruence|]. cbn [truthy text_of map andb].
  destruct (Z.eq_dec d 0) as [->|Hd].
  - rewrite (H3 r eq_refl). reflexivity.
  - inversion H1 as [|? ? [Ha Hb] _]; subst.
    assert (X : 48 + d = 49 \/ 48 + d = 50 \/ 48 + d = 51 \/ 48 + d = 52 \/ 48 + d = 53 \/ 48 + d = 54 \/ 48 + d = 55 \/ 48 + d = 56 \/ 48 + d = 57) by lia.
    repeat destruct X as [X|X]; rewrite X; reflexivity.
Qed.
Lemma unsigned_text w f : Forall digit w -> Forall digit f -> w <> [] -> (forall r, w = 0 :: r -> r = []) ->
  exists q, unsigned (text_of w ++ match f with [] => [] | _ => 46 :: text_of f end) = Some q /\
    (q == inject_Z (int_value 0 w) + frac_value f)%Q.
Proof.
  intros Hw Hf H1 H2. unfold unsigned. destruct f as [|d f].
  - rewrite app_nil_r, split_none by (apply text_no_dot; auto). rewrite plain_text by auto. eexists. split; [reflexivity|].
    unfold horner. rewrite horner_value. cbn [frac_value]. rewrite Qplus_0_r. reflexivity.
  - change 46 with dot. rewrite split_app, !split_none by (apply text_no_dot; auto). cbn [app].
    rewrite plain_text by auto. assert (all_digits (text_of (d :: f)) = true) as ->.
    { unfold all_digits. rewrite text_digits by auto. reflexivity. }
    cbn [andb]. eexists. split; [reflexivity|]. unfold horner. rewrite !horner_value, frac_eq. reflexivity.
Qed.
Lemma text_head w rest : Forall digit w -> w <> [] -> exists c r, text_of w ++ rest = c :: r /\ 48 <= c <= 57.
Proof. intros H1 H2. destruct w as [|d w]; [congruence|]. inversion H1; subst. unfold digit in *. eexists. eexists. split; [reflexivity|lia]. Qed.
Lemma numeral_text n : proper n -> exists q, numeral (numb_text n) = Some q /\ (q == numb_value n)%Q.
Proof.
  intros [H1 [H2 [H3 H4]]]. destruct (unsigned_text _ _ H1 H2 H3 H4) as [q [E Q]].
  assert (EE : match fract n with [] => [] | f => 46 :: text_of f end = match fract n with [] => [] | _ => 46 :: text_of (fract n) end) by (destruct (fract n); reflexivity).
  unfold numb_text, numb_value. destruct (minus n).
  - cbn [app]. unfold numeral. rewrite EE, E. eexists. split; [reflexivity|]. rewrite Q. ring.
  - cbn [app]. destruct (text_head (whole n) (match fract n with [] => [] | _ => 46 :: text_of (fract n) end) H1 H3) as [c [r [Ec Hc]]].
    exists q. split; [|rewrite Q; ring]. rewrite <- E.
    rewrite EE, Ec. unfold numeral.
    assert (X : c = 48 \/ c = 49 \/ c = 50 \/ c = 51 \/ c = 52 \/ c = 53 \/ c = 54 \/ c = 55 \/ c = 56 \/ c = 57) by lia.
    repeat destruct X as [X|X]; rewrite X; reflexivity.
Qed.

(** Characters of the printed condition. *)
Lemma numb_chars n : proper n -> Forall (fun c => is_space c = false /\ c <> 38 /\ c <> 124) (numb_text n).
Proof.
  intros [H1 [H2 _]]. unfold numb_text. apply Forall_app. split; [destruct (minus n); repeat constructor; discriminate|].
  assert (D : forall ds, Forall digit ds -> Forall (fun c => is_space c = false /\ c <> 38 /\ c <> 124) (text_of ds)).
  { intros ds H. unfold text_of. rewrite Forall_map. eapply Forall_impl; [|exact H]. cbn beta. unfold digit. intros d Hd.
    split; [|lia]. unfold is_space.
    destruct (Z.leb_spec 9 (48 + d)), (Z.leb_spec (48 + d) 13), (Z.leb_spec 28 (48 + d)), (Z.leb_spec (48 + d) 32); auto; lia. }
  apply Forall_app. split; [auto|]. destruct (fract n) eqn:E; constructor; [repeat split; discriminate|]. apply D. exact H2.
Qed.
Lemma numb_ne n : proper n -> numb_text n <> [].
Proof.
  intros [H1 [_ [H3 _]]]. unfold numb_text. destruct (text_head (whole n) (match fract n with [] => [] | f => 46 :: text_of f end) H1 H3) as [c [r [E _]]].
  rewrite E. destruct (minus n); discriminate.
Qed.
Lemma op_chars o : op_text o <> [] /\ Forall (fun c => is_space c = false /\ c <> 38 /\ c <> 124) (op_text o).
Proof. destruct o; (split; [discriminate|]); repeat constructor; discriminate. Qed.
Definition good_atom (a : atom) : Prop := name (prop a) /\ proper (const a).
Lemma atom_words a : good_atom a -> words (atom_text a) = [prop a; op_text (aop a); numb_text (const a)].
Proof.
  intros [[H1 H2] H3]. unfold atom_text. apply words_atom; auto.
  - apply op_chars.
  - apply numb_ne; auto.
  - eapply Forall_impl; [|exact H2]. cbn beta. tauto.
  - eapply Forall_impl; [|apply op_chars]. cbn beta. tauto.
  - eapply Forall_impl; [|apply numb_chars; auto]. cbn beta. tauto.
Qed.
Lemma atom_chars a x : good_atom a -> x = 38 \/ x = 124 -> ~ In x (atom_text a).
Proof.
  intros [[_ H1] H2] Hx H. unfold atom_text in H.
  assert (G : forall l, Forall (fun c => is_space c = false /\ c <> 38 /\ c <> 124) l -> ~ In x l).
  { intros l Hl Hi. rewrite Forall_forall in Hl. specialize (Hl x Hi). destruct Hx; subst; tauto. }
  repeat (rewrite in_app_iff in H). pose proof (G _ H1). pose proof (G _ (proj2 (op_chars (aop a)))). pose proof (G _ (numb_chars _ H2)).
  cbn in H. destruct Hx; subst; intuition discriminate.
Qed.
Lemma in_join c sep : ~ In c sep -> forall l, In c (join sep l) -> exists x, In x l /\ In c x.
Proof.
  intros H. induction l as [|a r IH]; [intros []|]. destruct r as [|b r].
  - intros X. exists a. split; [left; reflexivity|exact X].
  - change (join sep (a :: b :: r)) with (a ++ sep ++ join sep (b :: r)). rewrite !in_app_iff. intros [X|[X|X]].
    + exists a. split; [left; reflexivity|exact X].
    + contradiction.
    + destruct (IH X) as [x [H1 H2]]. exists x. split; [right; exact H1|exact H2].
Qed.
Lemma phrases_of cnf : cnf <> [] -> Forall (fun cl => cl <> [] /\ Forall good_atom cl) cnf ->
  map (rsplit2 124) (rsplit2 38 (cond_text cnf)) = map (map atom_text) cnf.
Proof.
  intros Hne H. unfold cond_text. rewrite rsplit2_join.
  - rewrite map_map. apply map_ext_in. intros cl Hcl. rewrite Forall_forall in H. destruct (H cl Hcl) as [H1 H2].
    unfold clause_text. apply rsplit2_join.
    + destruct cl; [congruence|discriminate].
    + rewrite Forall_map. eapply Forall_impl; [|exact H2]. cbn beta. intros a Ha. apply atom_chars; auto.
  - destruct cnf; [congruence|discriminate].
  - rewrite Forall_map. eapply Forall_impl; [|exact H]. cbn beta. intros cl [H1 H2] X.
    unfold clause_text in X. apply in_join in X as [x [X1 X2]]; [|intros [Y|[Y|[]]]; discriminate].
    apply in_map_iff in X1 as [a [<- Ha]]. rewrite Forall_forall in H2. apply (atom_chars a 38); auto.
Qed.

(** ** Tests *)
Definition trunc_holds (cols : columns) (i : nat) (a : atom) : Prop :=
  exists q, number_at cols (prop a) i q /\ holds (aop a) (inject_Z (qtrunc q)) (numb_value (const a)).
Lemma test_op q o n : proper n -> exists b, test (Num q) (op_text o) (numb_text n) = Ok b /\
  (b = true <-> holds o (inject_Z (qtrunc q)) (numb_value n)).
Proof.
  intros H. destruct (numeral_text n H) as [v [E V]]. unfold test.
  destruct o; match goal with |- context[smem ?a ?b] => change (smem a b) with true end; cbn [py_int bind]; rewrite E; eexists;
    (split; [reflexivity|]); cbn [holds]; rewrite <- V;
    repeat match goal with |- context[seqb ?a ?b] => first [change (seqb a b) with true | change (seqb a b) with false] end; cbn iota.
  - unfold Qltb. rewrite negb_true_iff. rewrite <- not_true_iff_false, Qle_bool_iff. split; [apply Qnot_le_lt|apply Qlt_not_le].
  - apply Qle_bool_iff.
  - unfold Qltb. rewrite negb_true_iff. rewrite <- not_true_iff_false, Qle_bool_iff. split; [apply Qnot_le_lt|apply Qlt_not_le].
  - apply Qle_bool_iff.
  - apply Qeq_bool_iff.
Qed.
Definition numeric (n : nat) (cols : columns) (p : str) : Prop :=
  exists c, sget p cols = Some c /\ length c = n /\ Forall (fun v => exists q, v = Num q) c.
Lemma phrase_ok n cols i : (i < n)%nat -> forall cl, Forall good_atom cl -> Forall (fun a => numeric n cols (prop a)) cl ->
  exists b, test_phrase cols i (map atom_text cl) = Ok b /\ (b = true <-> Exists (trunc_holds cols i) cl).
Proof.
  intros Hi. induction cl as [|a r IH]; intros H1 H2.
  - exists false. split; [reflexivity|]. split; [discriminate|intros X; inversion X].
  - inversion H1 as [|? ? Ga Gr]; inversion H2 as [|? ? Na Nr]; subst. destruct (IH Gr Nr) as [b [E B]].
    cbn [map test_phrase]. rewrite (atom_words a Ga). cbn [nth_error bind].
    destruct Na as [c [Ec [Lc Fc]]]. unfold elem_val. rewrite Ec.
    destruct (nth_error c i) as [v|] eqn:Ev; [|apply nth_error_None in Ev; lia].
    pose proof Ev as Ev'. apply nth_error_In in Ev'. rewrite Forall_forall in Fc. destruct (Fc v Ev') as [q ->].
    cbn [bind]. destruct (test_op q (aop a) (const a) (proj2 Ga)) as [b1 [E1 B1]]. rewrite E1. cbn [bind].
    assert (T : trunc_holds cols i a <-> b1 = true).
    { rewrite B1. split.
      - intros [q' [[c' [Ec' En']] Hh]]. rewrite Ec in Ec'. injection Ec' as <-. rewrite Ev in En'. injection En' as <-. exact Hh.
      - intros Hh. exists q. split; [exists c; auto|exact Hh]. }
    destruct b1.
    + exists true. split; [reflexivity|]. split; auto. intros _. constructor. apply T. reflexivity.
    + exists b. split; [exact E|]. rewrite B. split; [intros X; apply Exists_cons_tl; exact X|].
      intros X. inversion X as [? ? Y|? ? Y]; subst; [apply T in Y; discriminate|exact Y].
Qed.
Lemma all_ok n cols i : (i < n)%nat -> forall cnf,
  Forall (fun cl => Forall good_atom cl /\ Forall (fun a => numeric n cols (prop a)) cl) cnf ->
  exists b, test_all cols i (map (map atom_text) cnf) = Ok b /\ (b = true <-> Forall (fun cl => Exists (trunc_holds cols i) cl) cnf).
Proof.
  intros Hi. induction cnf as [|cl r IH]; intros H.
  - exists true. split; [reflexivity|]. split; auto.
  - inversion H as [|? ? [H1 H2] H3]; subst. destruct (IH H3) as [b [E B]]. destruct (phrase_ok n cols i Hi cl H1 H2) as [b1 [E1 B1]].
    cbn [map test_all]. rewrite E1. cbn [bind]. destruct b1.
    + exists b. split; [exact E|]. rewrite B. split; intros X; [constructor; auto; apply B1; reflexivity|inversion X; auto].
    + exists false. split; [reflexivity|]. split; [discriminate|]. intros X. inversion X as [|? ? Y _]; subst. apply B1 in Y. discriminate.
Qed.

(** ** The loop *)
Lemma append_ok n cols i result : (i < n)%nat -> rectangular n cols -> Forall (fun kl : str * list val => In (fst kl) (map fst cols)) result ->
  exists r', append_elem cols i result = Ok r' /\
    Forall2 (fun kl kl' => fst kl' = fst kl /\ exists v c, snd kl' = snd kl ++ [v] /\ sget (fst kl) cols = Some c /\ nth_error c i = Some v) result r'.
Proof.
  intros Hi HR. induction result as [|[k l] r IH]; intros H.
  - exists []. split; [reflexivity|constructor].
  - inversion H as [|? ? Hk Hr]; subst. cbn [fst] in Hk. destruct (IH Hr) as [r' [E F]]. unfold append_elem in *. cbn [mapM fst snd].
    unfold elem_val at 1. destruct (sget k cols) as [c|] eqn:Ec; [|apply sget_none in Ec; contradiction].
    assert (length c = n).
    { apply sget_In in Ec. unfold rectangular in HR. rewrite Forall_forall in HR. apply (HR _ Ec). }
    destruct (nth_error c i) as [v|] eqn:Ev; [|apply nth_error_None in Ev; lia].
    cbn [bind]. rewrite E. cbn [bind]. eexists. split; [reflexivity|]. constructor; auto. cbn [fst snd]. split; auto.
    exists v, c. auto.
Qed.

Lemma loop_ok N cols cnf : rectangular N cols ->
  Forall (fun cl => Forall good_atom cl /\ Forall (fun a => numeric N cols (prop a)) cl) cnf ->
  forall n i result, (i + n = N)%nat -> Forall (fun kl : str * list val => In (fst kl) (map fst cols)) result ->
  exists r f, loop cols (map (map atom_text) cnf) i n result = Ok r /\
    (forall j, (i <= j < N)%nat -> (f j = true <-> Forall (fun cl => Exists (trunc_holds cols j) cl) cnf)) /\
    Forall2 (fun kl kl' => fst kl' = fst kl /\ exists l, snd kl' = snd kl ++ l /\ values_at cols (fst kl) (filter f (seq i n)) l) result r.
Proof.
  intros HR HC. induction n as [|n IH]; intros i result HN HF.
  - exists result, (fun _ => false). split; [reflexivity|]. split; [lia|].
    clear. induction result as [|kl r IH]; constructor; auto. split; auto. exists []. rewrite app_nil_r. split; auto. constructor.
  - cbn [loop]. destruct (all_ok N cols i ltac:(lia) cnf HC) as [b [E B]]. rewrite E. cbn [bind].
    destruct b.
    + destruct (append_ok N cols i result ltac:(lia) HR HF) as [r1 [E1 F1]]. rewrite E1. cbn [bind].
      assert (HF1 : Forall (fun kl : str * list val => In (fst kl) (map fst cols)) r1).
      { clear -F1 HF. induction F1 as [|x y l l' [H1 _] _ IHF]; constructor; inversion HF; subst; [rewrite H1; auto|auto]. }
      destruct (IH (S i) r1 ltac:(lia) HF1) as [r [f [E2 [F2 F3]]]].
      exists r, (fun j => if Nat.eqb j i then true else f j). split; [exact E2|]. split.
      * intros j Hj. destruct (Nat.eqb_spec j i) as [->|X]; [rewrite <- B; tauto|apply F2; lia].
      * assert (G : filter (fun j => if Nat.eqb j i then true else f j) (seq i (S n)) = i :: filter f (seq (S i) n)).
        { cbn [seq filter]. rewrite Nat.eqb_refl. f_equal. apply filter_ext_in. intros j Hj. apply in_seq in Hj.
          destruct (Nat.eqb_spec j i); [lia|reflexivity]. }
        rewrite G. clear -F1 F3. revert r F3. induction F1 as [|x y l l' [H1 [v [c [H2 [H3 H4]]]]] _ IHF]; intros r F3; inversion F3 as [|? z ? r' [K1 [lz [K2 K3]]] K4]; subst; constructor; auto.
        split; [congruence|]. exists (v :: lz). split; [rewrite K2, H2, <- app_assoc; reflexivity|].
        constructor; [exists c; auto|]. rewrite <- H1. exact K3.
    + cbn [bind]. destruct (IH (S i) result ltac:(lia) HF) as [r [f [E2 [F2 F3]]]].
      exists r, (fun j => if Nat.eqb j i then false else f j). split; [exact E2|]. split.
      * intros j Hj. destruct (Nat.eqb_spec j i) as [->|X]; [rewrite <- B; tauto|apply F2; lia].
      * assert (G : filter (fun j => if Nat.eqb j i then false else f j) (seq i (S n)) = filter f (seq (S i) n)).
        { cbn [seq filter]. rewrite Nat.eqb_refl. apply filter_ext_in. intros j Hj. apply in_seq in Hj.
          destruct (Nat.eqb_spec j i); [lia|reflexivity]. }
        rewrite G. exact F3.
Qed.

Lemma initial_result : forall targets d, NoDup (map fst d ++ targets) ->
  fold_left (fun (d : list (str * list val)) t => sset t [] d) targets d = d ++ map (fun t => (t, [])) targets.
Proof.
  induction targets as [|t r IH]; intros d H; cbn [fold_left map]; [rewrite app_nil_r; reflexivity|].
  rewrite sset_new.
  - rewrite IH; [rewrite <- app_assoc; reflexivity|]. rewrite map_app. cbn [map fst]. rewrite <- app_assoc. exact H.
  - apply sget_none. intros X. apply NoDup_remove_2 in H. apply H. apply in_or_app. left. exact X.
Qed.

Lemma qtrunc_whole z : qtrunc (inject_Z z) = z.
Proof. unfold qtrunc, inject_Z. cbn [Qnum Qden]. apply Z.quot_1_r. Qed.

Lemma query_ok containers ucert n cols targets cnf :
  py_get containers ucert = Ok (n, cols) -> rectangular n cols -> cnf <> [] ->
  Forall (fun cl => cl <> [] /\ Forall good_atom cl /\ Forall (fun a => numeric n cols (prop a)) cl) cnf ->
  NoDup targets -> Forall (fun t => In t (map fst cols)) targets ->
  exists r f, get_spill_data containers targets (cond_text cnf) ucert = Ok r /\ map fst r = targets /\
    (forall i, (i < n)%nat -> (f i = true <-> Forall (fun cl => Exists (trunc_holds cols i) cl) cnf)) /\
    Forall (fun kl => values_at cols (fst kl) (chosen f n) (snd kl)) r.
Proof.
  intros EG HR Hne HC HN HT. unfold get_spill_data. rewrite phrases_of; auto.
  2:{ eapply Forall_impl; [|exact HC]. cbn beta. tauto. }
  rewrite EG. cbn [bind fst snd]. rewrite initial_result by (cbn; exact HN). cbn [app].
  destruct (loop_ok n cols cnf HR) with (n := n) (i := 0%nat) (result := map (fun t : str => (t, @nil val)) targets) as [r [f [E [F1 F2]]]]; auto.
  - eapply Forall_impl; [|exact HC]. cbn beta. tauto.
  - rewrite Forall_map. exact HT.
  - exists r, f. split; [exact E|]. split; [|split].
    + clear -F2. revert r F2. induction targets as [|t l IH]; intros r F2; inversion F2 as [|? y ? r' [H1 _] H2]; subst; cbn; auto.
      f_equal; [exact H1|apply IH; exact H2].
    + intros i Hi. apply F1. lia.
    + unfold chosen. clear -F2. revert r F2. induction targets as [|t l IH]; intros r F2; inversion F2 as [|? y ? r' [H1 [lv [H2 H3]]] H4]; subst; constructor.
      * cbn [fst snd app] in *. rewrite H2, H1. exact H3.
      * apply IH. exact H4.
Qed.
