(** * Proofs about the broadcaster *)
From Verif Require Import Py PyLemmas BcModel BcSpec.

Lemma pair_eqb_iff a b : pair_eqb a b = true <-> a = b.
Proof. unfold pair_eqb. rewrite andb_true_iff, !Z.eqb_eq. destruct a, b; cbn. split; [intros [-> ->]; auto|intros H; injection H; auto]. Qed.
Lemma pair_eqb_refl a : pair_eqb a a = true.
Proof. apply pair_eqb_iff. reflexivity. Qed.
Lemma pair_eqb_ne a b : a <> b -> pair_eqb a b = false.
Proof. intros H. destruct (pair_eqb a b) eqn:E; auto. apply pair_eqb_iff in E. contradiction. Qed.
Lemma lget_lset k k' v d : lget k (lset k' v d) = if pair_eqb k k' then Some v else lget k d.
Proof.
  induction d as [|[k2 v2] r IH]; cbn [lset lget]; [destruct (pair_eqb k k'); reflexivity|].
  destruct (pair_eqb k' k2) eqn:E.
  - apply pair_eqb_iff in E. subst k2. cbn [lget]. destruct (pair_eqb k k'); reflexivity.
  - cbn [lget]. rewrite IH. destruct (pair_eqb k k2) eqn:E2; [|reflexivity]. apply pair_eqb_iff in E2. subst k2.
    destruct (pair_eqb k k') eqn:E3; [|reflexivity]. apply pair_eqb_iff in E3. subst k'. rewrite pair_eqb_refl in E. discriminate.
Qed.

Lemma ports_from P : forall a d, NoDup P -> let D := fold_left (fun d ik => lset (snd ik) (fst ik) d) (combine (zseq a (length P)) P) d in
  (forall p k, nth_error P p = Some k -> lget k D = Some (a + Z.of_nat p)) /\ (forall k, ~ In k P -> lget k D = lget k d).
Proof.
  induction P as [|x r IH]; intros a d H; cbn [length zseq combine fold_left fst snd]; [split; [intros [|p]; discriminate|auto]|].
  inversion H as [|? ? H1 H2]; subst. destruct (IH (a + 1) (lset x a d) H2) as [I1 I2]. cbv zeta in *. split.
  - intros [|p] k Hp; cbn [nth_error] in Hp.
    + injection Hp as <-. rewrite I2 by auto. rewrite lget_lset, pair_eqb_refl. f_equal. lia.
    + rewrite (I1 p k Hp). f_equal. lia.
  - intros k Hk. rewrite I2 by (intros C; apply Hk; right; auto). rewrite lget_lset, pair_eqb_ne; auto. intros ->. apply Hk. left. auto.
Qed.
Lemma nodup_app2 {A} (a b : list A) : NoDup a -> NoDup b -> (forall x, In x a -> ~ In x b) -> NoDup (a ++ b).
Proof.
  intros Ha Hb D. induction Ha as [|x q Hx Ha IH]; [exact Hb|]. cbn [app]. constructor.
  - intros C. apply in_app_or in C as [C|C]; [contradiction|]. apply (D x); [left; auto|exact C].
  - apply IH. intros y Hy. apply D. right. auto.
Qed.
Lemma pairs_nodup ws ss : NoDup ws -> NoDup ss -> NoDup (pairs ws ss).
Proof.
  intros Hw Hs. unfold pairs. induction Hw as [|w r Hw Hr IH]; [constructor|]. cbn [flat_map]. apply nodup_app2; auto.
  - clear - Hs. induction Hs; constructor; auto. intros C. apply in_map_iff in C as [y [Y1 Y2]]. injection Y1 as ->. contradiction.
  - intros x Hx C. apply in_map_iff in Hx as [s [<- _]]. apply in_flat_map in C as [w' [C1 C2]]. apply in_map_iff in C2 as [s' [C2 _]]. injection C2 as -> _. contradiction.
Qed.
Lemma pairs_nth ss : forall ws i j w s, nth_error ws i = Some w -> nth_error ss j = Some s -> nth_error (pairs ws ss) (i * length ss + j) = Some (w, s).
Proof.
  unfold pairs. induction ws as [|x r IH]; intros i j w s Hi Hj; [destruct i; discriminate|]. cbn [flat_map].
  assert (Lj : (j < length ss)%nat) by (apply nth_error_Some; congruence). destruct i as [|i]; cbn [nth_error] in Hi.
  - injection Hi as ->. cbn [Nat.mul Nat.add]. rewrite nth_error_app1 by (rewrite map_length; exact Lj). apply map_nth_error. exact Hj.
  - rewrite nth_error_app2 by (rewrite map_length; cbn [Nat.mul]; lia). rewrite map_length. replace (S i * length ss + j - length ss)%nat with (i * length ss + j)%nat by (cbn [Nat.mul]; lia).
    apply IH; auto.
Qed.
Lemma pairs_length ws ss : length (pairs ws ss) = (length ws * length ss)%nat.
Proof. unfold pairs. induction ws as [|w r IH]; [reflexivity|]. cbn [flat_map length Nat.mul]. rewrite app_length, map_length, IH. reflexivity. Qed.
Lemma pairs_In ws ss k : In k (pairs ws ss) <-> In (fst k) ws /\ In (snd k) ss.
Proof.
  unfold pairs. rewrite in_flat_map. split.
  - intros [w [H1 H2]]. apply in_map_iff in H2 as [s [<- H2]]. auto.
  - intros [H1 H2]. exists (fst k). split; auto. apply in_map_iff. exists (snd k). destruct k; auto.
Qed.

Section P.
  Context {T V : Type}.
  Variable handle : T -> command -> T * option V.
  Notation cmd := (cmd handle).

  Lemma pos_iff n i q : py_pos n i = Some q <-> (q < n)%nat /\ (i = Z.of_nat q \/ i = Z.of_nat q - Z.of_nat n).
  Proof.
    destruct (Z_lt_le_dec i (- Z.of_nat n)) as [H|H]; [rewrite py_pos_out by lia; split; [discriminate|lia]|].
    destruct (Z_lt_le_dec i 0) as [H2|H2].
    - rewrite py_pos_neg by lia. split; [intros E; injection E as <-; lia|intros [E1 [E2|E2]]; f_equal; lia].
    - destruct (Z_lt_le_dec i (Z.of_nat n)) as [H3|H3]; [|rewrite py_pos_out by lia; split; [discriminate|lia]].
      rewrite py_pos_nonneg by lia. split; [intros E; injection E as <-; lia|intros [E1 [E2|E2]]; f_equal; lia].
  Qed.
  Lemma send_ok b i c b' o : send handle b i c = (b', Ok o) ->
    lookup b' = lookup b /\ length (tasks b') = length (tasks b) /\
    exists q t t' v, py_pos (length (tasks b)) i = Some q /\ nth_error (tasks b) q = Some t /\ handle t c = (t', Some v) /\ o = OOne v /\ tasks b' = set_nth q t' (tasks b).
  Proof.
    unfold send, py_get, py_set. destruct (py_pos (length (tasks b)) i) as [q|] eqn:E; [|discriminate].
    destruct (nth_error (tasks b) q) as [t|] eqn:N; [|discriminate]. destruct (handle t c) as [t' [v|]] eqn:Hh; [|discriminate].
    intros H. injection H as <- <-. cbn [lookup tasks]. rewrite set_nth_length. split; [reflexivity|]. split; [reflexivity|]. exists q, t, t', v. auto.
  Qed.
  (** One call that succeeds: the model of each pair gets it or not. *)
  Lemma cmd_step P b c uv idx b' o : NoDup P -> length (tasks b) = length P ->
    (forall p k, nth_error P p = Some k -> lget k (lookup b) = Some (Z.of_nat p)) -> (forall k, ~ In k P -> lget k (lookup b) = None) ->
    cmd b c uv idx = (b', Ok o) ->
    lookup b' = lookup b /\ length (tasks b') = length (tasks b) /\
    forall p k t, nth_error P p = Some k -> nth_error (tasks b) p = Some t ->
      nth_error (tasks b') p = Some (if is_for (Z.of_nat (length P)) (Z.of_nat p) k (c, uv, idx) then fst (handle t c) else t).
  Proof.
    intros HN HL H1 H2 H. unfold BcModel.cmd in H. destruct (tasks b) as [|t0 ts0] eqn:ET.
    { injection H as <- <-. rewrite ET. split; [reflexivity|]. split; [reflexivity|]. intros p k t Hp Ht. destruct p; discriminate. }
    rewrite <- ET in *. clear t0 ts0 ET.
    assert (S : forall i (Q : nat -> Z * Z -> bool), (forall p k, nth_error P p = Some k -> (py_pos (length P) i = Some p <-> Q p k = true)) -> send handle b i c = (b', Ok o) ->
      lookup b' = lookup b /\ length (tasks b') = length (tasks b) /\
      forall p k t, nth_error P p = Some k -> nth_error (tasks b) p = Some t -> nth_error (tasks b') p = Some (if Q p k then fst (handle t c) else t)).
    { intros i Q HQ Hs. destruct (send_ok _ _ _ _ _ Hs) as [S1 [S2 [q [t [t' [v [S3 [S4 [S5 [S6 S7]]]]]]]]]]. split; [exact S1|]. split; [exact S2|].
      intros p k u Hp Hu. rewrite S7. specialize (HQ p k Hp). rewrite HL in S3. destruct (Nat.eq_dec p q) as [->|Ne].
      - rewrite nth_error_set_nth_eq by (apply nth_error_Some; congruence). rewrite S4 in Hu. injection Hu as <-.
        destruct (Q q k) eqn:EQ; [rewrite S5; reflexivity|]. apply HQ in S3. congruence.
      - rewrite nth_error_set_nth_ne by auto. destruct (Q p k) eqn:EQ; [|exact Hu]. pose proof (proj2 HQ eq_refl). congruence. }
    destruct idx as [i|].
    - apply (S i (fun p k => is_for (Z.of_nat (length P)) (Z.of_nat p) k (c, uv, Some i))); auto.
      intros p k Hp. unfold is_for; cbn [fst snd]. assert ((p < length P)%nat) by (apply nth_error_Some; congruence). rewrite pos_iff, orb_true_iff, !Z.eqb_eq. lia.
    - destruct uv as [k0|].
      + destruct (lget k0 (lookup b)) as [i|] eqn:EL; [|discriminate]. apply (S i (fun p k => pair_eqb k k0)); auto.
        intros p k Hp. assert (Lp : (p < length P)%nat) by (apply nth_error_Some; congruence). rewrite pos_iff, pair_eqb_iff.
        assert (In k0 P) as I0.
        { destruct (in_dec (fun x y : Z * Z => ltac:(decide equality; apply Z.eq_dec)) k0 P) as [I|I]; auto. apply H2 in I. congruence. }
        apply In_nth_error in I0 as [p0 Hp0]. pose proof (H1 _ _ Hp0) as E0. rewrite EL in E0. injection E0 as ->.
        assert (Lp0 : (p0 < length P)%nat) by (apply nth_error_Some; congruence).
        split.
        * intros [_ [E|E]]; [|lia]. apply Nat2Z.inj in E. subst p0. congruence.
        * intros ->. split; [exact Lp|left]. f_equal. eapply NoDup_nth_error; eauto. congruence.
      + set (rs := map (fun t => handle t c) (tasks b)) in *.
        destruct (mapM _ rs) as [vs|] eqn:EM; [|discriminate]. injection H as <- <-. cbn [lookup tasks]. split; [reflexivity|].
        unfold rs. rewrite !map_length. split; [reflexivity|]. intros p k t Hp Ht. cbn [is_for]. rewrite map_map. apply map_nth_error with (f := fun t => fst (handle t c)). exact Ht.
  Qed.
  Lemma calls_run P : NoDup P -> forall h b, length (tasks b) = length P ->
    (forall p k, nth_error P p = Some k -> lget k (lookup b) = Some (Z.of_nat p)) -> (forall k, ~ In k P -> lget k (lookup b) = None) ->
    forallb is_ok (snd (calls handle b h)) = true ->
    let b' := fst (calls handle b h) in lookup b' = lookup b /\ length (tasks b') = length (tasks b) /\
    forall p k t, nth_error P p = Some k -> nth_error (tasks b) p = Some t ->
      nth_error (tasks b') p = Some (alone handle t (commands_for (Z.of_nat (length P)) (Z.of_nat p) k h)).
  Proof.
    intros HN. induction h as [|[[c uv] idx] h IH]; intros b HL H1 H2 Hok; [cbn; auto|].
    cbn [calls] in *. destruct (cmd b c uv idx) as [b1 o] eqn:E1. destruct (calls handle b1 h) as [b2 os] eqn:E2. cbn [snd forallb] in Hok.
    apply andb_true_iff in Hok as [Ho Hok]. destruct o as [o|]; [|discriminate].
    destruct (cmd_step P b c uv idx b1 o HN HL H1 H2 E1) as [S1 [S2 S3]].
    specialize (IH b1). rewrite E2 in IH. cbn [fst snd] in IH. rewrite S1, S2 in IH. destruct (IH HL H1 H2 Hok) as [I1 [I2 I3]].
    cbn [fst]. split; [congruence|]. split; [congruence|]. intros p k t Hp Ht. specialize (S3 p k t Hp Ht). specialize (I3 p k _ Hp S3).
    rewrite I3. f_equal. unfold commands_for. cbn [filter]. destruct (is_for _ _ _ (c, uv, idx)); reflexivity.
  Qed.
  Definition as_call (x : Z * command) : call := (snd x, None, Some (fst x)).
  Lemma send_all_calls l : forall b b', send_all handle b l = Ok b' -> fst (calls handle b (map as_call l)) = b' /\ forallb is_ok (snd (calls handle b (map as_call l))) = true.
  Proof.
    induction l as [|[i c] l IH]; intros b b' H; cbn [send_all] in H; [injection H as <-; auto|]. cbn [map as_call fst snd calls].
    destruct (cmd b c None (Some i)) as [b1 [o|e]]; [|discriminate]. destruct (IH b1 b' H) as [I1 I2]. destruct (calls handle b1 (map as_call l)) as [b2 os].
    cbn [fst snd] in *. split; auto.
  Qed.
  (** The commands of a list sent to tasks one after another that reach the task [p]. *)
  Lemma commands_for_index {K} (F : K -> list command) n p k : forall Q a m, m = length Q -> 0 <= a -> a + Z.of_nat m <= n -> 0 <= p < n ->
    commands_for n p k (map as_call (flat_map (fun ik => map (fun c => (fst ik, c)) (F (snd ik))) (combine (zseq a m) Q))) =
    match (if p <? a then None else nth_error Q (Z.to_nat (p - a))) with Some x => F x | None => [] end.
  Proof.
    intros Q. induction Q as [|x Q IH]; intros a m -> Ha Hm Hp; cbn [length zseq combine flat_map].
    - cbn. destruct (p <? a); auto. destruct (Z.to_nat (p - a)); reflexivity.
    - cbn [length] in Hm. rewrite map_app. cbn [fst snd].
      assert (A : forall u v, commands_for n p k (u ++ v) = commands_for n p k u ++ commands_for n p k v) by (intros; unfold commands_for; rewrite filter_app; apply map_app).
      rewrite A. unfold commands_for at 1.
      rewrite IH by (auto; lia).
      assert (G : forall cs, filter (is_for n p k) (map as_call (map (fun c => (a, c)) cs)) = if p =? a then map as_call (map (fun c => (a, c)) cs) else []).
      { induction cs as [|c cs IHc]; cbn [map filter]; [destruct (p =? a); reflexivity|]. rewrite IHc. cbn [as_call fst snd is_for].
        destruct (Z.eqb_spec p a) as [->|N]; [rewrite Z.eqb_refl; reflexivity|]. destruct (Z.eqb_spec a p); [lia|]. destruct (Z.eqb_spec a (p - n)); [lia|]. reflexivity. }
      rewrite G. destruct (Z.eqb_spec p a) as [->|N].
      + assert (E : (a <? a + 1) = true) by lia. rewrite E. rewrite Z.ltb_irrefl, Z.sub_diag. cbn [Z.to_nat nth_error]. rewrite app_nil_r. rewrite !map_map. cbn. apply map_id.
      + cbn [map app]. destruct (Z.ltb_spec p a), (Z.ltb_spec p (a + 1)); try lia; auto.
        replace (Z.to_nat (p - a)) with (S (Z.to_nat (p - (a + 1)))) by lia. reflexivity.
  Qed.
  Lemma alone_app t a b : alone handle t (a ++ b) = alone handle (alone handle t a) b.
  Proof. unfold alone. apply fold_left_app. Qed.

  Definition setup_of (k : Z * Z) : list command := [SetContainer false; SetWind (fst k); SetSpill (snd k)].
  Lemma setup_list P lk : (forall p k, nth_error P p = Some k -> lget k lk = Some (Z.of_nat p)) ->
    exists l1, mapM (set_uncertainty lk) P = Ok l1 /\
    concat l1 = flat_map (fun ik => map (fun c => (fst ik, c)) (setup_of (snd ik))) (combine (zseq 0 (length P)) P).
  Proof.
    intros H. assert (G : forall Q a, (forall p k, nth_error Q p = Some k -> lget k lk = Some (a + Z.of_nat p)) -> exists l1, mapM (set_uncertainty lk) Q = Ok l1 /\
      concat l1 = flat_map (fun ik => map (fun c => (fst ik, c)) (setup_of (snd ik))) (combine (zseq a (length Q)) Q)).
    { induction Q as [|k Q IH]; intros a HQ; [exists []; auto|]. destruct (IH (a + 1)) as [l1 [E1 E2]].
      - intros p k' Hp. rewrite (HQ (S p) k' Hp). f_equal. lia.
      - cbn [mapM]. unfold set_uncertainty at 1. rewrite (HQ 0%nat k eq_refl). cbn [bind]. rewrite E1. cbn [bind]. eexists. split; [reflexivity|].
        cbn [concat length zseq combine flat_map fst snd]. rewrite E2. unfold setup_of at 1. cbn [map]. replace (a + Z.of_nat 0) with a by lia. reflexivity. }
    apply G. intros p k Hp. rewrite (H p k Hp). reflexivity.
  Qed.
  Lemma ports_get ws ss : NoDup ws -> NoDup ss ->
    (forall p k, nth_error (pairs ws ss) p = Some k -> lget k (ports ws ss) = Some (Z.of_nat p)) /\ (forall k, ~ In k (pairs ws ss) -> lget k (ports ws ss) = None).
  Proof.
    intros Hw Hs. destruct (ports_from (pairs ws ss) 0 [] (pairs_nodup ws ss Hw Hs)) as [H1 H2]. split.
    - intros p k Hp. exact (H1 p k Hp).
    - intros k Hk. exact (H2 k Hk).
  Qed.
  Lemma finish_flat n : flat_map finish (zseq 0 n) = flat_map (fun ik : Z * unit => map (fun c => (fst ik, c)) [NewCache; CacheEnabled false; WeatheringOnly]) (combine (zseq 0 n) (repeat tt n)).
  Proof. generalize 0. induction n as [|n IH]; intros a; [reflexivity|]. cbn [zseq flat_map repeat combine]. rewrite IH. reflexivity. Qed.
  Lemma make_ok t0 ws ss b : NoDup ws -> NoDup ss -> make handle t0 ws ss = Ok b ->
    lookup b = ports ws ss /\ length (tasks b) = length (pairs ws ss) /\
    forall p k, nth_error (pairs ws ss) p = Some k -> nth_error (tasks b) p = Some (alone handle t0 (prepared k)).
  Proof.
    intros Hw Hs H. destruct (ports_get ws ss Hw Hs) as [P1 P2]. set (P := pairs ws ss) in *. assert (HN : NoDup P) by (apply pairs_nodup; auto).
    unfold make in H. fold P in H. destruct (setup_list P (ports ws ss) P1) as [l1 [E1 E2]]. rewrite E1 in H. cbn [bind] in H. rewrite E2 in H.
    set (b0 := mkB (map (fun _ => t0) P) (ports ws ss)) in *. destruct (send_all handle b0 _) as [b1|] eqn:S1; [|discriminate]. cbn [bind] in H.
    apply send_all_calls in S1 as [C1 C2]. apply send_all_calls in H as [D1 D2].
    assert (L0 : length (tasks b0) = length P) by (cbn [b0 tasks]; apply map_length).
    destruct (calls_run P HN _ b0 L0 P1 P2 C2) as [R1 [R2 R3]]. rewrite C1 in R1, R2, R3.
    assert (L1 : length (tasks b1) = length P) by congruence.
    assert (P1' : forall p k, nth_error P p = Some k -> lget k (lookup b1) = Some (Z.of_nat p)) by (rewrite R1; exact P1).
    assert (P2' : forall k, ~ In k P -> lget k (lookup b1) = None) by (rewrite R1; exact P2).
    destruct (calls_run P HN _ b1 L1 P1' P2' D2) as [Q1 [Q2 Q3]]. rewrite D1 in Q1, Q2, Q3.
    split; [rewrite Q1, R1; reflexivity|]. split; [congruence|]. intros p k Hp.
    assert (Lp : (p < length P)%nat) by (apply nth_error_Some; congruence).
    assert (T0 : nth_error (tasks b0) p = Some t0) by (cbn [b0 tasks]; rewrite (map_nth_error _ _ _ Hp); reflexivity).
    specialize (R3 p k t0 Hp T0). specialize (Q3 p k _ Hp R3). rewrite Q3. f_equal.
    rewrite (commands_for_index setup_of) by lia. rewrite L1, finish_flat.
    rewrite (commands_for_index (fun _ : unit => [NewCache; CacheEnabled false; WeatheringOnly]) _ _ _ (repeat tt (length P)) 0 (length P)) by (rewrite ?repeat_length; lia).
    destruct (Z.ltb_spec (Z.of_nat p) 0); [lia|]. rewrite Z.sub_0_r, Nat2Z.id, Hp.
    rewrite (nth_error_repeat tt Lp). rewrite <- alone_app. reflexivity.
  Qed.
  Lemma send_all_total l : (forall t c, snd (handle t c) <> None) -> forall b, (forall x, In x l -> 0 <= fst x < Z.of_nat (length (tasks b))) -> exists b', send_all handle b l = Ok b' /\ length (tasks b') = length (tasks b).
  Proof.
    intros Hh. induction l as [|[i c] l IH]; intros b Hl; [eexists; cbn; eauto|]. cbn [send_all].
    assert (Hi : 0 <= i < Z.of_nat (length (tasks b))) by (apply (Hl (i, c)); left; auto).
    unfold BcModel.cmd. destruct (tasks b) as [|t0 ts] eqn:E; [cbn in Hi; lia|]. rewrite <- E in *. unfold send, py_get, py_set. rewrite py_pos_nonneg by auto.
    destruct (nth_error (tasks b) (Z.to_nat i)) as [t|] eqn:N; [|apply nth_error_None in N; lia].
    destruct (handle t c) as [t' [v|]] eqn:Eh; [|exfalso; apply (Hh t c); rewrite Eh; reflexivity].
    destruct (IH (mkB (set_nth (Z.to_nat i) t' (tasks b)) (lookup b))) as [b' [E1 E2]].
    - intros x Hx. cbn [tasks]. rewrite set_nth_length. apply Hl. right. auto.
    - exists b'. split; [exact E1|]. rewrite E2. cbn [tasks]. apply set_nth_length.
  Qed.
End P.
