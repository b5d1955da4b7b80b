From Coq Require Import QArith Qabs Qminmax Lqa Qfield.
From Verif Require Import Py PyLemmas QLemmas TsModel TsSpec.
Open Scope Z_scope.

Lemma asc_cons : forall p (l : list pt), ascending (p :: l) -> ascending l.
Proof. intros p l H l1 a b l2 E. apply (H (p :: l1) a b l2). rewrite E. reflexivity. Qed.
Lemma asc_lt : forall (l : list pt), ascending l -> forall i j p q, (i < j)%nat -> nth_error l i = Some p -> nth_error l j = Some q -> fst p < fst q.
Proof.
  induction l as [|a l IH]; intros A i j p q L Hi Hj; [destruct i; discriminate|].
  destruct j as [|j]; [lia|]. destruct i as [|i].
  - cbn in Hi. injection Hi as <-. destruct l as [|b l]; [destruct j; discriminate|].
    pose proof (A [] a b l eq_refl) as Lab. destruct j as [|j]; [cbn in Hj; injection Hj as <-; exact Lab|].
    specialize (IH (asc_cons _ _ A) 0%nat (S j) b q ltac:(lia) eq_refl Hj). lia.
  - apply (IH (asc_cons _ _ A) i j p q); [lia|exact Hi|exact Hj].
Qed.
Lemma asc_le : forall (l : list pt), ascending l -> forall i j p q, (i <= j)%nat -> nth_error l i = Some p -> nth_error l j = Some q -> fst p <= fst q.
Proof.
  intros l A i j p q L Hi Hj. destruct (Nat.eq_dec i j) as [->|N]; [rewrite Hi in Hj; injection Hj as <-; lia|].
  pose proof (asc_lt l A i j p q ltac:(lia) Hi Hj). lia.
Qed.
Lemma rd_ok : forall (l : list pt) i p, nth_error l i = Some p -> rd l i = Ok p.
Proof. intros l i p H. unfold rd. rewrite H. reflexivity. Qed.
Lemma nth_ex : forall (l : list pt) i, (i < length l)%nat -> exists p, nth_error l i = Some p.
Proof. intros l i H. destruct (nth_error l i) as [p|] eqn:E; [exists p; reflexivity|]. apply nth_error_None in E. lia. Qed.
Lemma nth_lt : forall (l : list pt) i p, nth_error l i = Some p -> (i < length l)%nat.
Proof. intros l i p H. apply nth_error_Some. congruence. Qed.

(** ** The search *)
Lemma narrow_ok : forall (l : list pt) t fuel s e, (e < length l)%nat -> (s <= e)%nat -> (e - s <= fuel)%nat ->
  (s = 0%nat \/ exists p, nth_error l s = Some p /\ fst p < t) ->
  exists s', narrow fuel l t s e = Ok s' /\ (s' <= e)%nat /\ (s' = 0%nat \/ exists p, nth_error l s' = Some p /\ fst p < t).
Proof.
  intros l t fuel. induction fuel as [|f IH]; intros s e Le Ls Lf I; cbn [narrow]; destruct (Nat.ltb_spec 3 (e - s)) as [G|G]; try lia; try (exists s; split; [reflexivity|split; [lia|exact I]]).
  assert (M : (s < (s + e) / 2 /\ (s + e) / 2 < e)%nat).
  { pose proof (Nat.div_mod (s + e) 2 ltac:(lia)) as D. pose proof (Nat.mod_upper_bound (s + e) 2 ltac:(lia)). lia. }
  set (mid := ((s + e) / 2)%nat) in *. clearbody mid.
  destruct (nth_ex l mid ltac:(lia)) as [p Hp]. rewrite (rd_ok _ _ _ Hp). cbn [bind].
  destruct (Z.leb_spec t (fst p)).
  - destruct (IH s mid ltac:(lia) ltac:(lia) ltac:(lia) I) as [s' [E [L I']]]. exists s'. split; [exact E|split; [lia|exact I']].
  - apply (IH mid e Le ltac:(lia) ltac:(lia)). right. exists p. split; [exact Hp|lia].
Qed.
Lemma scan_ok : forall (l : list pt) t m i, (m = length l - i)%nat -> (exists j p, (i <= j)%nat /\ nth_error l j = Some p /\ t <= fst p) ->
  exists j p, scan m l t i = Ok j /\ (i <= j)%nat /\ nth_error l j = Some p /\ t <= fst p /\ forall k q, (i <= k < j)%nat -> nth_error l k = Some q -> fst q < t.
Proof.
  intros l t m. induction m as [|m IH]; intros i E [j [p [Lj [Hj Tj]]]]; cbn [scan].
  - pose proof (nth_lt _ _ _ Hj). lia.
  - destruct (nth_ex l i ltac:(lia)) as [q Hq]. rewrite (rd_ok _ _ _ Hq). cbn [bind]. destruct (Z.leb_spec t (fst q)).
    + exists i, q. split; [reflexivity|]. split; [lia|]. split; [exact Hq|]. split; [lia|]. intros k x Lk. lia.
    + destruct (IH (S i) ltac:(lia)) as [j' [p' [S' [L' [H' [T' N']]]]]].
      { exists j, p. split; [|split; [exact Hj|exact Tj]]. destruct (Nat.eq_dec i j) as [->|Nij]; [|lia]. rewrite Hq in Hj. injection Hj as <-. lia. }
      exists j', p'. split; [exact S'|]. split; [lia|]. split; [exact H'|]. split; [exact T'|].
      intros k x Lk Hk. destruct (Nat.eq_dec i k) as [<-|Nk]; [rewrite Hq in Hk; injection Hk as <-; lia|]. apply (N' k x); [lia|exact Hk].
Qed.
Lemma search_ok : forall (l : list pt) t, ascending l -> (1 <= length l)%nat -> forall last, nth_error l (length l - 1) = Some last -> t <= fst last ->
  exists s i p, narrow (length l) l t 0 (length l - 1) = Ok s /\ scan (length l - s) l t s = Ok i /\ nth_error l i = Some p /\ t <= fst p /\
    forall k q, (k < i)%nat -> nth_error l k = Some q -> fst q < t.
Proof.
  intros l t A L last Hl Tl. destruct (narrow_ok l t (length l) 0 (length l - 1) ltac:(lia) ltac:(lia) ltac:(lia) (or_introl eq_refl)) as [s [Ns [Ls Is]]].
  destruct (scan_ok l t (length l - s) s eq_refl) as [i [p [Sc [Li [Hi [Ti Bi]]]]]]; [exists (length l - 1)%nat, last; split; [lia|split; [exact Hl|exact Tl]]|].
  exists s, i, p. split; [exact Ns|]. split; [exact Sc|]. split; [exact Hi|]. split; [exact Ti|].
  intros k q Lk Hk. destruct (Nat.le_gt_cases s k) as [G|G]; [apply (Bi k q); [lia|exact Hk]|].
  destruct Is as [->|[x [Hx Tx]]]; [lia|]. pose proof (asc_lt l A k s q x G Hk Hx). lia.
Qed.

(** ** Segments *)
Open Scope Q_scope.
Lemma injZ_pos : forall z, (0 < z)%Z -> 0 < inject_Z z.
Proof. intros z H. change 0 with (inject_Z 0). rewrite <- Zlt_Qlt. exact H. Qed.
Lemma weight : forall ta tb t, (ta < tb)%Z -> (ta <= t <= tb)%Z -> 0 <= inject_Z (t - ta) / inject_Z (tb - ta) <= 1.
Proof.
  intros ta tb t H [A B]. pose proof (injZ_pos (tb - ta) ltac:(lia)) as P.
  split.
  - apply Qle_shift_div_l; [exact P|]. rewrite Qmult_0_l. change 0 with (inject_Z 0). rewrite <- Zle_Qle. lia.
  - apply Qle_shift_div_r; [exact P|]. rewrite Qmult_1_l. rewrite <- Zle_Qle. lia.
Qed.
Lemma straight_start : forall a b ta tb, straight a b ta tb ta == a.
Proof. intros. unfold straight. rewrite Z.sub_diag. unfold Qdiv. ring. Qed.
Lemma straight_end : forall a b ta tb, (ta < tb)%Z -> straight a b ta tb tb == b.
Proof.
  intros a b ta tb H. unfold straight. pose proof (injZ_pos (tb - ta) ltac:(lia)) as P. field. intros C. rewrite C in P. apply (Qlt_irrefl 0). exact P.
Qed.
Lemma straight_between : forall a b ta tb t, (ta < tb)%Z -> (ta <= t <= tb)%Z -> Qmin a b <= straight a b ta tb t /\ straight a b ta tb t <= Qmax a b.
Proof.
  intros a b ta tb t H B. pose proof (weight ta tb t H B) as [W0 W1]. unfold straight. set (w := inject_Z (t - ta) / inject_Z (tb - ta)) in *. clearbody w.
  destruct (Qlt_le_dec a b) as [L|L].
  - rewrite Q.min_l, Q.max_r by (apply Qlt_le_weak; exact L). split; nra.
  - rewrite Q.min_r, Q.max_l by exact L. split; nra.
Qed.
Lemma seg_start : forall a b ta tb x, (ta < tb)%Z -> x == a -> on_segment a b ta tb ta x.
Proof.
  intros a b ta tb x H E. split; [|split; [|split]].
  - rewrite E. destruct (straight_between a b ta tb ta H ltac:(lia)) as [A B]. rewrite straight_start in *. split; [exact A|]. split; [exact B|].
    setoid_replace (a - a) with 0 by ring. reflexivity.
  - intros _. rewrite straight_start. exact E.
  - intros _. exact E.
  - intros C. lia.
Qed.
Lemma seg_end : forall a b ta tb x, (ta < tb)%Z -> x == b -> on_segment a b ta tb tb x.
Proof.
  intros a b ta tb x H E. split; [|split; [|split]].
  - rewrite E. destruct (straight_between a b ta tb tb H ltac:(lia)) as [A B]. rewrite (straight_end a b ta tb H) in *. split; [exact A|]. split; [exact B|].
    setoid_replace (b - b) with 0 by ring. reflexivity.
  - intros _. rewrite (straight_end a b ta tb H). exact E.
  - intros C. lia.
  - intros _. exact E.
Qed.
Lemma seg_line : forall a b ta tb t x, (ta < tb)%Z -> (ta <= t <= tb)%Z -> x == straight a b ta tb t -> on_segment a b ta tb t x.
Proof.
  intros a b ta tb t x H B E. split; [|split; [|split]].
  - rewrite E. destruct (straight_between a b ta tb t H B) as [A1 A2]. split; [exact A1|]. split; [exact A2|].
    setoid_replace (straight a b ta tb t - straight a b ta tb t) with 0 by ring. reflexivity.
  - intros _. exact E.
  - intros ->. rewrite E. apply straight_start.
  - intros ->. rewrite E. apply straight_end. exact H.
Qed.
Lemma seg_flat : forall a b ta tb t x, (ta < tb)%Z -> (ta < t < tb)%Z -> Qabs (b - a) < (1 # 100000) -> x == b -> on_segment a b ta tb t x.
Proof.
  intros a b ta tb t x H B S E. split; [|split; [|split]].
  - rewrite E. split; [apply Q.le_min_r|]. split; [apply Q.le_max_r|].
    pose proof (weight ta tb t H ltac:(lia)) as [W0 W1]. unfold straight. set (w := inject_Z (t - ta) / inject_Z (tb - ta)) in *. clearbody w.
    setoid_replace (b - (a + (b - a) * w)) with ((b - a) * (1 - w)) by ring. rewrite Qabs_Qmult. rewrite (Qabs_pos (1 - w)) by lra.
    pose proof (Qabs_nonneg (b - a)). nra.
  - intros C. exfalso. apply (Qlt_not_le _ _ S C).
  - intros C. lia.
  - intros C. lia.
Qed.
Lemma on_line_ok : forall (l : list pt) t c a pa pb, nth_error l a = Some pa -> nth_error l (S a) = Some pb -> (fst pa < fst pb)%Z ->
  exists x, on_line l t c a (S a) = Ok x /\ x == straight (UorV (snd pa) c) (UorV (snd pb) c) (fst pa) (fst pb) t.
Proof.
  intros l t c a pa pb Ha Hb L. unfold on_line, get_time_change. rewrite (rd_ok _ _ _ Ha), (rd_ok _ _ _ Hb). cbn [bind].
  replace (a <? S a)%nat with true by (symmetry; apply Nat.ltb_lt; lia). destruct (Z.eqb_spec (fst pb - fst pa) 0) as [C|C]; [lia|]. cbn [bind].
  eexists. split; [reflexivity|]. unfold straight. set (u := UorV (snd pa) c). set (v := UorV (snd pb) c). clearbody u v.
  unfold Zminus. rewrite !inject_Z_plus, !inject_Z_opp. field. intros Z0.
  assert (P : 0 < inject_Z (fst pb - fst pa)) by (apply injZ_pos; lia). unfold Zminus in P. rewrite inject_Z_plus, inject_Z_opp in P. rewrite Z0 in P. apply (Qlt_irrefl 0). exact P.
Qed.

Lemma component_ok : forall (l : list pt) k p q t c, ascending l -> nth_error l k = Some p -> nth_error l (S k) = Some q -> (fst p <= t <= fst q)%Z ->
  exists x, get_component l t c = Ok x /\ on_segment (UorV (snd p) c) (UorV (snd q) c) (fst p) (fst q) t x.
Proof.
  intros l k p q t c A Hp Hq [Tp Tq]. pose proof (nth_lt _ _ _ Hq) as Lq. pose proof (asc_lt l A k (S k) p q ltac:(lia) Hp Hq) as Lpq.
  unfold get_component. replace (length l =? 1)%nat with false by (symmetry; apply Nat.eqb_neq; lia).
  destruct (nth_ex l 0 ltac:(lia)) as [f Hf]. destruct (nth_ex l (length l - 1) ltac:(lia)) as [g Hg]. rewrite (rd_ok _ _ _ Hf), (rd_ok _ _ _ Hg). cbn [bind].
  pose proof (asc_le l A 0 k f p ltac:(lia) Hf Hp) as Lf. pose proof (asc_le l A (S k) (length l - 1) q g ltac:(lia) Hq Hg) as Lg.
  destruct (Z.ltb_spec t (fst f)); [lia|]. destruct (Z.ltb_spec (fst g) t); [lia|].
  destruct (Nat.eqb_spec (length l) 2) as [E2|E2].
  - assert (k = 0)%nat by lia. subst k. destruct (on_line_ok l t c 0 p q Hp Hq Lpq) as [x [E X]]. exists x. split; [exact E|]. apply seg_line; [exact Lpq|lia|exact X].
  - destruct (search_ok l t A ltac:(lia) g Hg ltac:(lia)) as [s [i [r [-> [S2 [Hi [Ti Bi]]]]]]]. cbn [bind]. rewrite S2. cbn [bind]. rewrite (rd_ok _ _ _ Hi). cbn [bind].
    destruct (Z.eq_dec t (fst p)) as [Ep|Np].
    + assert (i = k).
      { destruct (Nat.lt_trichotomy i k) as [L|[L|L]]; [|exact L|].
        - pose proof (asc_lt l A i k r p L Hi Hp). lia.
        - specialize (Bi k p L Hp). lia. }
      subst i. rewrite Hp in Hi. injection Hi as <-. subst t. rewrite Z.sub_diag.
      replace (Qle_bool (inject_Z 0) tolerance) with true by (symmetry; reflexivity). eexists. split; [reflexivity|]. apply seg_start; [exact Lpq|reflexivity].
    + assert (i = S k).
      { destruct (Nat.lt_trichotomy i (S k)) as [L|[L|L]]; [|exact L|].
        - pose proof (asc_le l A i k r p ltac:(lia) Hi Hp). lia.
        - specialize (Bi (S k) q L Hq). lia. }
      subst i. rewrite Hq in Hi. injection Hi as <-. destruct (Z.eq_dec t (fst q)) as [Eq|Nq].
      * subst t. rewrite Z.sub_diag. replace (Qle_bool (inject_Z 0) tolerance) with true by (symmetry; reflexivity).
        eexists. split; [reflexivity|]. apply seg_end; [exact Lpq|reflexivity].
      * replace (Qle_bool (inject_Z (fst q - t)) tolerance) with false.
        2:{ symmetry. apply Qle_bool_false. apply Qlt_le_trans with (inject_Z 1); [reflexivity|]. rewrite <- Zle_Qle. lia. }
        rewrite (rd_ok _ _ _ Hp). cbn [bind]. destruct (Qle_bool_spec tolerance (Qabs (UorV (snd q) c - UorV (snd p) c))) as [V|V]; cbn [negb].
        -- destruct (on_line_ok l t c k p q Hp Hq Lpq) as [x [E X]]. exists x. split; [exact E|]. apply seg_line; [exact Lpq|lia|exact X].
        -- eexists. split; [reflexivity|]. apply seg_flat; [exact Lpq|lia|exact V|reflexivity].
Qed.
Lemma component_single : forall p t c, get_component [p] t c = Ok (UorV (snd p) c).
Proof. reflexivity. Qed.
Lemma component_out : forall (l : list pt) t c, (2 <= length l)%nat -> (forall p, In p l -> t < fst p)%Z \/ (forall p, In p l -> fst p < t)%Z -> get_component l t c = Raise IndexErr.
Proof.
  intros l t c L H. unfold get_component. replace (length l =? 1)%nat with false by (symmetry; apply Nat.eqb_neq; lia).
  destruct (nth_ex l 0 ltac:(lia)) as [f Hf]. destruct (nth_ex l (length l - 1) ltac:(lia)) as [g Hg]. rewrite (rd_ok _ _ _ Hf), (rd_ok _ _ _ Hg). cbn [bind].
  apply nth_error_In in Hf. apply nth_error_In in Hg. destruct (Z.ltb_spec t (fst f)); [reflexivity|]. destruct (Z.ltb_spec (fst g) t); [reflexivity|].
  destruct H as [H|H]; [specialize (H f Hf)|specialize (H g Hg)]; lia.
Qed.

(** ** The value of both components *)
Lemma value_ok : forall (l : list pt) k p q t old, ascending l -> nth_error l k = Some p -> nth_error l (S k) = Some q -> (fst p <= t <= fst q)%Z ->
  exists w, (forall e, get_value (mkTs l e) t old = (None, w)) /\ between p q t w.
Proof.
  intros l k p q t old A Hp Hq T. destruct (component_ok l k p q t 0 A Hp Hq T) as [u [Eu Su]]. destruct (component_ok l k p q t 1 A Hp Hq T) as [v [Ev Sv]].
  pose proof (nth_lt _ _ _ Hq) as Lq. exists (u, v). split; [|split; [exact Su|exact Sv]].
  intros e. unfold get_value. cbn [pts extrap]. destruct l as [|a l]; [cbn in Lq; lia|].
  assert (C : (if e then clamp (a :: l) t else Ok t) = Ok t).
  { destruct e; [|reflexivity]. unfold clamp. destruct (nth_ex (a :: l) 0 ltac:(lia)) as [f Hf]. destruct (nth_ex (a :: l) (length (a :: l) - 1) ltac:(lia)) as [g Hg].
    rewrite (rd_ok _ _ _ Hf), (rd_ok _ _ _ Hg). cbn [bind].
    pose proof (asc_le _ A 0 k f p ltac:(lia) Hf Hp). pose proof (asc_le _ A (S k) (length (a :: l) - 1) q g ltac:(lia) Hq Hg).
    destruct (Z.ltb_spec t (fst f)); [lia|]. destruct (Z.ltb_spec (fst g) t); [lia|]. reflexivity. }
  rewrite C, Eu, Ev. reflexivity.
Qed.

(** ** Outside the series *)
Open Scope Z_scope.
Lemma hd_first : forall l f, first_time l = Some f -> exists p, nth_error l 0 = Some p /\ fst p = f.
Proof. intros [|p l] f H; [discriminate|]. injection H as <-. exists p. split; reflexivity. Qed.
Lemma last_idx : forall (l : list pt) x, nth_error (l ++ [x]) (length (l ++ [x]) - 1) = Some x.
Proof. intros l x. rewrite app_length. cbn [length]. rewrite nth_error_app2 by lia. replace (length l + 1 - 1 - length l)%nat with 0%nat by lia. reflexivity. Qed.
Lemma tl_last : forall l f, last_time l = Some f -> exists p, nth_error l (length l - 1) = Some p /\ fst p = f.
Proof.
  intros l f H. unfold last_time in H. destruct (rev l) as [|p r] eqn:R; [discriminate|]. injection H as <-.
  apply (f_equal (@rev pt)) in R. rewrite rev_involutive in R. cbn [rev] in R. subst l. exists p. split; [apply last_idx|reflexivity].
Qed.
Lemma find_seg : forall (l : list pt), ascending l -> (2 <= length l)%nat -> forall f g t, nth_error l 0 = Some f -> nth_error l (length l - 1) = Some g -> fst f <= t <= fst g ->
  exists k p q, nth_error l k = Some p /\ nth_error l (S k) = Some q /\ fst p <= t <= fst q.
Proof.
  intros l A L f g t Hf Hg [T1 T2]. destruct (search_ok l t A ltac:(lia) g Hg T2) as [s [i [r [_ [_ [Hi [Ti Bi]]]]]]].
  destruct i as [|i].
  - rewrite Hf in Hi. injection Hi as <-. destruct (nth_ex l 1 ltac:(lia)) as [q Hq]. exists 0%nat, f, q. split; [exact Hf|]. split; [exact Hq|].
    pose proof (asc_lt l A 0 1 f q ltac:(lia) Hf Hq). lia.
  - destruct (nth_ex l i) as [p Hp]; [pose proof (nth_lt _ _ _ Hi); lia|]. exists i, p, r. split; [exact Hp|]. split; [exact Hi|]. specialize (Bi i p ltac:(lia) Hp). lia.
Qed.
(** With extrapolation there is a value at every time, whatever the variable held. *)
Lemma held_ok : forall (l : list pt), ascending l -> l <> [] -> forall t, exists w, forall old, get_value (mkTs l true) t old = (None, w).
Proof.
  intros l A N t. destruct l as [|a l]; [contradiction|]. destruct (nth_ex (a :: l) 0) as [f Hf]; [cbn; lia|].
  destruct (nth_ex (a :: l) (length (a :: l) - 1)) as [g Hg]; [cbn; lia|].
  unfold get_value. cbn [pts extrap]. unfold clamp. rewrite (rd_ok _ _ _ Hf), (rd_ok _ _ _ Hg). cbn [bind].
  set (t' := if t <? fst f then fst f else if fst g <? t then fst g else t).
  pose proof (asc_le _ A 0 (length (a :: l) - 1) f g ltac:(lia) Hf Hg) as Lfg.
  assert (T : fst f <= t' <= fst g). { unfold t'. destruct (Z.ltb_spec t (fst f)); [lia|]. destruct (Z.ltb_spec (fst g) t); lia. }
  clearbody t'. destruct l as [|b l].
  - exists (UorV (snd a) 0, UorV (snd a) 1). reflexivity.
  - destruct (find_seg (a :: b :: l) A ltac:(cbn; lia) f g t' Hf Hg T) as [k [p [q [Hp [Hq Tk]]]]].
    destruct (component_ok _ k p q t' 0 A Hp Hq Tk) as [u [Eu _]]. destruct (component_ok _ k p q t' 1 A Hp Hq Tk) as [v [Ev _]].
    exists (u, v). intros old. rewrite Eu, Ev. reflexivity.
Qed.
(** Without extrapolation, before the end: the value held, or an error before the beginning. *)
Lemma unheld : forall (l : list pt) f g t w, ascending l -> nth_error l 0 = Some f -> nth_error l (length l - 1) = Some g -> t <= fst g ->
  (forall old, get_value (mkTs l true) t old = (None, w)) -> forall old,
  (get_value (mkTs l false) t old = (None, w)) \/
  (fst (get_value (mkTs l false) t old) = Some IndexErr /\ t < fst f /\ forall o, get_value (mkTs l false) (fst f) o = (None, w)).
Proof.
  intros l f g t w A Hf Hg T W old. destruct l as [|a l]; [destruct (0%nat); discriminate|].
  unfold get_value in *. cbn [pts extrap] in *. unfold clamp in W. rewrite (rd_ok _ _ _ Hf), (rd_ok _ _ _ Hg) in W. cbn [bind] in W.
  destruct (Z.ltb_spec (fst g) t) as [C|_]; [lia|]. destruct (Z.ltb_spec t (fst f)) as [B|B].
  - destruct l as [|b l].
    + left. exact (W old).
    + right. rewrite component_out; [|cbn; lia|left; intros p Ip; apply In_nth_error in Ip; destruct Ip as [k Hk]; pose proof (asc_le _ A 0 k f p ltac:(lia) Hf Hk); lia].
      split; [reflexivity|]. split; [exact B|]. exact W.
  - left. exact (W old).
Qed.

(** ** The running average *)
Lemma avg_step_ok : forall (l : list pt), ascending l -> forall s, 0 < s -> 0 < avg_step l s /\ avg_step l s <= s /\
  (forall l1 p q l2, l = l1 ++ p :: q :: l2 -> avg_step l s <= fst q - fst p) /\
  (avg_step l s = s \/ exists l1 p q l2, l = l1 ++ p :: q :: l2 /\ avg_step l s = fst q - fst p).
Proof.
  induction l as [|a l IH]; intros A s S; [cbn; split; [exact S|split; [lia|split; [intros [|x l1] p q l2 E; discriminate|left; reflexivity]]]|].
  destruct l as [|b l]; [cbn; split; [exact S|split; [lia|split; [intros [|x [|y l1]] p q l2 E; discriminate|left; reflexivity]]]|].
  change (avg_step (a :: b :: l) s) with (avg_step (b :: l) (if (fst b - fst a <? s) && (0 <? s) then fst b - fst a else s)).
  pose proof (A [] a b l eq_refl) as Lab. rewrite (proj2 (Z.ltb_lt 0 s) S). rewrite Bool.andb_true_r.
  set (s' := if fst b - fst a <? s then fst b - fst a else s).
  assert (S' : 0 < s' /\ s' <= s /\ s' <= fst b - fst a /\ (s' = s \/ s' = fst b - fst a)). { unfold s'. destruct (Z.ltb_spec (fst b - fst a) s); lia. }
  clearbody s'. destruct (IH (asc_cons _ _ A) s' ltac:(lia)) as [I1 [I2 [I3 I4]]].
  split; [exact I1|]. split; [lia|]. split.
  - intros [|x l1] p q l2 E; cbn [app] in E; [injection E; intros; subst; lia|]. apply (I3 l1 p q l2). injection E. intros E' _. exact E'.
  - destruct I4 as [I4|[l1 [p [q [l2 [E I4]]]]]].
    + destruct S' as [_ [_ [_ [-> | ->]]]]; [left; exact I4|]. right. exists [], a, b, l. split; [reflexivity|exact I4].
    + right. exists (a :: l1), p, q, l2. split; [rewrite E; reflexivity|exact I4].
Qed.

Section Avg.
  Variable mag : vel -> Q.
  Variable l : list pt.
  Variable e : bool.
  Variable mt : Z.
  Variables f g : pt.
  Hypothesis A : ascending l.
  Hypothesis Hf : nth_error l 0 = Some f.
  Hypothesis Hg : nth_error l (length l - 1) = Some g.
  Hypothesis C : e = true \/ mt < fst f.
  Variable hold : Z -> vel.
  Hypothesis Hold : forall t old, get_value (mkTs l true) t old = (None, hold t).

  Lemma loop_step : forall m cur j sp s1 v, (cur - j * 3600 <= fst g) ->
    avg_loop mag (S m) (mkTs l e) mt cur j (sp, s1, v) =
    avg_loop mag m (mkTs l e) mt cur (j + 1) ((if 0 <? j then (sp + (s1 + mag (hold (cur - j * 3600))) / 2)%Q else sp), mag (hold (cur - j * 3600)), hold (cur - j * 3600)).
  Proof.
    intros m cur j sp s1 v T. cbn [avg_loop].
    destruct (get_value (mkTs l e) (cur - j * 3600) v) as [err w] eqn:G.
    assert (X : err = None /\ w = hold (cur - j * 3600) \/ err = Some IndexErr /\ e = false /\ forall o, get_value (mkTs l e) (fst f) o = (None, hold (cur - j * 3600))).
    { destruct e.
      - rewrite Hold in G. injection G as <- <-. left. split; reflexivity.
      - destruct (unheld l f g (cur - j * 3600) (hold (cur - j * 3600)) A Hf Hg T (Hold _) v) as [U|[U [_ V]]].
        + rewrite U in G. injection G as <- <-. left. split; reflexivity.
        + rewrite G in U. cbn in U. right. split; [exact U|]. split; [reflexivity|exact V]. }
    cbn [fst snd pts]. destruct X as [[-> ->]|[-> [E V]]]; [reflexivity|].
    rewrite (rd_ok _ _ _ Hf), (rd_ok _ _ _ Hg). cbn [bind]. destruct C as [C'|C']; [congruence|].
    rewrite (proj2 (Z.ltb_lt _ _) C'), V. cbn [fst snd].
    pose proof (asc_le l A 0 (length l - 1) f g ltac:(lia) Hf Hg). destruct (Z.ltb_spec (fst g) mt); [lia|]. reflexivity.
  Qed.

  Lemma loop_ok : forall m cur k sp v, cur <= fst g -> (sp == trapezoid (fun t => mag (hold t)) cur k)%Q ->
    exists sp' s1' v', avg_loop mag m (mkTs l e) mt cur (Z.of_nat (S k)) (sp, mag (hold (cur - Z.of_nat k * 3600)), v) = Ok (sp', s1', v') /\
      (sp' == trapezoid (fun t => mag (hold t)) cur (k + m))%Q.
  Proof.
    induction m as [|m IH]; intros cur k sp v T S.
    - exists sp, (mag (hold (cur - Z.of_nat k * 3600))), v. split; [reflexivity|]. rewrite Nat.add_0_r. exact S.
    - rewrite loop_step by lia. replace (0 <? Z.of_nat (Datatypes.S k)) with true by (symmetry; apply Z.ltb_lt; lia).
      replace (Z.of_nat (Datatypes.S k) + 1) with (Z.of_nat (Datatypes.S (Datatypes.S k))) by lia.
      destruct (IH cur (Datatypes.S k) (sp + (mag (hold (cur - Z.of_nat k * 3600)) + mag (hold (cur - Z.of_nat (Datatypes.S k) * 3600))) / 2)%Q (hold (cur - Z.of_nat (Datatypes.S k) * 3600)) T) as [sp' [s1' [v' [E' S']]]].
      { cbn [trapezoid]. rewrite S. reflexivity. }
      exists sp', s1', v'. split; [exact E'|]. replace (k + Datatypes.S m)%nat with (Datatypes.S k + m)%nat by lia. exact S'.
  Qed.

  Lemma values_ok : forall past start step m i v, 0 < past -> 0 < step -> 0 <= i -> (forall k, i <= k < i + Z.of_nat m -> start + k * step <= fst g) ->
    exists r, avg_values mag m (mkTs l e) past mt start step i v = Ok r /\ length r = m /\
      forall k x, nth_error r k = Some x -> fst x = start + (i + Z.of_nat k) * step /\ snd (snd x) = 0%Q /\
        (fst (snd x) == trapezoid (fun t => mag (hold t)) (fst x) (Z.to_nat past) / inject_Z past)%Q.
  Proof.
    intros past start step m. induction m as [|m IH]; intros i v P S I B.
    - exists []. split; [reflexivity|]. split; [reflexivity|]. intros [|k] x H; discriminate.
    - cbn [avg_values]. assert (T : start + i * step <= fst g) by (apply B; lia).
      replace (Z.to_nat (past + 1)) with (Datatypes.S (Z.to_nat past)) by lia.
      destruct (loop_ok (Z.to_nat past) (start + i * step) 0 0%Q (hold (start + i * step)) T ltac:(reflexivity)) as [sp' [s1' [v' [E' S']]]].
      rewrite loop_step by lia. change (0 <? 0) with false. change (0 + 1) with (Z.of_nat 1).
      replace (start + i * step - 0 * 3600) with (start + i * step) by lia. replace (start + i * step - Z.of_nat 0 * 3600) with (start + i * step) in E' by lia.
      rewrite E'. cbn [bind fst snd]. destruct (IH (i + 1) v' P S ltac:(lia)) as [r [Er [Lr Fr]]]; [intros k Hk; apply B; lia|].
      rewrite Er. cbn [bind]. eexists. split; [reflexivity|]. split; [cbn; lia|].
      intros [|k] x H; cbn in H.
      + injection H as <-. cbn [fst snd]. split; [f_equal; lia|]. split; [reflexivity|]. rewrite S'. reflexivity.
      + destruct (Fr k x H) as [F1 F2]. split; [rewrite F1; f_equal; f_equal; lia|exact F2].
  Qed.
End Avg.

Lemma trapezoid_bounds : forall (sp : Z -> Q) lo hi t, (forall x, lo <= sp x /\ sp x <= hi)%Q -> forall h,
  (inject_Z (Z.of_nat h) * lo <= trapezoid sp t h /\ trapezoid sp t h <= inject_Z (Z.of_nat h) * hi)%Q.
Proof.
  intros sp lo hi t B h. induction h as [|h IH]; [cbn [trapezoid]; change (inject_Z (Z.of_nat 0)) with 0%Q; split; lra|].
  cbn [trapezoid]. rewrite Nat2Z.inj_succ, <- Z.add_1_r, inject_Z_plus. change (inject_Z 1) with 1%Q.
  pose proof (B (t - Z.of_nat h * 3600)) as B1. pose proof (B (t - Z.of_nat (S h) * 3600)) as B2. rewrite Nat2Z.inj_succ, <- Z.add_1_r in B2.
  set (a := sp (t - Z.of_nat h * 3600)) in *. set (b := sp (t - (Z.of_nat h + 1) * 3600)) in *. set (n := inject_Z (Z.of_nat h)) in *. set (T := trapezoid sp t h) in *. clearbody a b n T.
  assert (M : ((a + b) / 2 == a * (1 # 2) + b * (1 # 2))%Q) by (field). rewrite M. split; lra.
Qed.
Lemma Ok_inj0 : forall A (x y : A), Ok x = Ok y -> x = y.
Proof. intros A x y H. injection H as ->. reflexivity. Qed.
Lemma exists_last_or : forall (l : list pt), l = [] \/ exists m x, l = m ++ [x].
Proof. intros l. destruct l as [|a r]; [left; reflexivity|right]. destruct (exists_last (l := a :: r) ltac:(discriminate)) as [m [z E]]. exists m, z. exact E. Qed.
