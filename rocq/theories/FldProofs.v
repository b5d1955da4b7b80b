(** * Proofs about saved values *)
From Coq Require Import QArith Qround Qabs Qpower Lqa Lia Sorted Permutation.
From Verif Require Import Py PyLemmas QLemmas StrModel PipModel PolyModel PolyProofs TimeModel PrlSpec PrlProofs FldModel FldSpec.
Open Scope Q_scope.

(** ** Powers of ten *)
Lemma p10_pos k : 0 < p10 k.
Proof. apply Qpower_0_lt. reflexivity. Qed.
Lemma p10_plus a b : p10 (a + b) == p10 a * p10 b.
Proof. apply Qpower_plus. discriminate. Qed.
Lemma p10_S k : p10 (k + 1) == 10 * p10 k.
Proof. rewrite p10_plus. change (p10 1) with (10 # 1). ring. Qed.
Lemma p10_le a b : (a <= b)%Z -> p10 a <= p10 b.
Proof. intros H. apply Qpower_le_compat_l; [exact H|discriminate]. Qed.
Lemma p10_nat k : (0 <= k)%Z -> p10 k == inject_Z (10 ^ k).
Proof.
  intros H. pattern k. apply natlike_ind; [reflexivity| |exact H]. intros x Hx IH. change (Z.succ x) with (x + 1)%Z.
  rewrite p10_S, IH, Z.pow_add_r, inject_Z_mult by lia. change (inject_Z (10 ^ 1)) with (10 # 1). ring.
Qed.
Lemma p10_inv k : p10 k * p10 (- k) == 1.
Proof. rewrite <- p10_plus. replace (k + - k)%Z with 0%Z by lia. reflexivity. Qed.
Lemma p2_le_p10 k : (0 <= k)%Z -> inject_Z (2 ^ k) <= p10 k.
Proof. intros H. rewrite p10_nat by exact H. rewrite <- Zle_Qle. apply Z.pow_le_mono_l. lia. Qed.

Lemma Qabs_cases a : (0 <= a /\ Qabs a == a) \/ (a < 0 /\ Qabs a == - a).
Proof. destruct (Qlt_le_dec a 0) as [H|H]; [right|left]; (split; [exact H|]); [apply Qabs_neg; lra|apply Qabs_pos, H]. Qed.
Ltac qabs := repeat match goal with
  | H : context [Qabs ?a] |- _ => let E := fresh in let F := fresh in destruct (Qabs_cases a) as [(E & F)|(E & F)]; rewrite F in *; clear F
  | |- context [Qabs ?a] => let E := fresh in let F := fresh in destruct (Qabs_cases a) as [(E & F)|(E & F)]; rewrite F in *; clear F
  end.

(** ** The first digit *)
Lemma find_mag_spec : forall n k x, p10 k <= x -> x < p10 (k + Z.of_nat n + 1) ->
  p10 (find_mag n k x) <= x < p10 (find_mag n k x + 1).
Proof.
  induction n as [|n IH]; intros k x A B; cbn [find_mag].
  - replace (k + Z.of_nat 0 + 1)%Z with (k + 1)%Z in B by lia. split; assumption.
  - destruct (Qle_bool (p10 (k + 1)) x) eqn:E.
    + apply Qle_bool_iff in E. apply IH; [exact E|]. replace (k + 1 + Z.of_nat n + 1)%Z with (k + Z.of_nat (S n) + 1)%Z by lia. exact B.
    + apply Qle_bool_false in E. split; assumption.
Qed.

Lemma mag_spec : forall x, 0 < x -> p10 (mag x) <= x < p10 (mag x + 1).
Proof.
  intros x H. unfold mag. set (ld := Z.log2 (Z.pos (Qden x))). assert (N : (0 < Qnum x)%Z) by (unfold Qlt in H; cbn in H; lia).
  pose proof (Z.log2_nonneg (Z.pos (Qden x))) as L0. fold ld in L0. pose proof (Z.log2_nonneg (Qnum x)) as N0.
  pose proof (Z.log2_spec (Z.pos (Qden x)) eq_refl) as (D1 & D2). fold ld in D1, D2. pose proof (Z.log2_spec _ N) as (N1 & N2). set (ln := Z.log2 (Qnum x)) in *.
  assert (XE : x * inject_Z (Z.pos (Qden x)) == inject_Z (Qnum x)). { unfold Qeq, Qmult, inject_Z. cbn [Qnum Qden]. rewrite Pos.mul_1_r. lia. }
  assert (DP : 1 <= inject_Z (Z.pos (Qden x))) by (change 1 with (inject_Z 1); rewrite <- Zle_Qle; lia).
  assert (NP : 1 <= inject_Z (Qnum x)) by (change 1 with (inject_Z 1); rewrite <- Zle_Qle; lia).
  apply find_mag_spec.
  - assert (X1 : inject_Z (Z.pos (Qden x)) <= p10 (ld + 1)). { eapply Qle_trans; [|apply p2_le_p10; lia]. rewrite <- Zle_Qle. change (ld + 1)%Z with (Z.succ ld). lia. }
    pose proof (p10_inv (ld + 1)) as PI. pose proof (p10_pos (ld + 1)) as P1. pose proof (p10_pos (- (ld + 1))) as P2. set (P := p10 (ld + 1)) in *. set (P' := p10 (- (ld + 1))) in *. set (D := inject_Z (Z.pos (Qden x))) in *.
    apply Qmult_lt_0_le_reg_r with (z := D); [lra|]. rewrite XE. assert (P' * D <= P' * P) by (apply Qmult_le_l; lra). lra.
  - rewrite Z2Nat.id by lia. replace (- (ld + 1) + (ln + ld + 3) + 1)%Z with (ln + 1 + 1 + 1)%Z by lia. rewrite !p10_S.
    assert (X1 : inject_Z (Qnum x) < p10 (ln + 1)). { eapply Qlt_le_trans; [|apply p2_le_p10; lia]. rewrite <- Zlt_Qlt. change (ln + 1)%Z with (Z.succ ln). lia. }
    assert (X2 : x <= inject_Z (Qnum x)). { rewrite <- XE. setoid_replace x with (x * 1) at 1 by ring. apply Qmult_le_l; lra. } rewrite p10_S in X1. pose proof (p10_pos ln). lra.
Qed.

(** ** A nearest number of [n] digits *)
Lemma round_grid : forall x e k, Qabs (x - inject_Z (np_round (x / p10 e)) * p10 e) <= Qabs (x - inject_Z k * p10 e).
Proof.
  intros x e k. pose proof (p10_pos e) as P. set (p := p10 e) in *. assert (XE : x == (x / p) * p) by (field; lra). pose proof (np_round_nearest (x / p)) as N. unfold nearest in N.
  set (q := x / p) in *. clearbody q. set (m := np_round q) in *. clearbody m.
  assert (T : Qabs (q - inject_Z m) <= Qabs (q - inject_Z k)).
  { destruct (Z.eq_dec m k) as [->|NE]; [apply Qle_refl|]. assert (K : (k <= m - 1 \/ m + 1 <= k)%Z) by lia. destruct K as [K|K]; rewrite Zle_Qle in K; rewrite ?inject_Z_plus in K; unfold Z.sub in K; rewrite ?inject_Z_plus, ?inject_Z_opp in K; change (inject_Z 1) with 1 in K; qabs; lra. }
  setoid_replace (x - inject_Z m * p) with ((q - inject_Z m) * p) by (rewrite XE; ring). setoid_replace (x - inject_Z k * p) with ((q - inject_Z k) * p) by (rewrite XE; ring).
  rewrite !Qabs_Qmult, (Qabs_pos p) by lra. apply Qmult_le_compat_r; lra.
Qed.

Lemma on_grid : forall m e e', (e <= e')%Z -> exists k, inject_Z m * p10 e' == inject_Z k * p10 e.
Proof.
  intros m e e' H. exists (m * 10 ^ (e' - e))%Z. rewrite inject_Z_mult, <- p10_nat by lia. rewrite <- Qmult_assoc, <- p10_plus. replace (e' - e + e)%Z with e' by lia. reflexivity.
Qed.

Lemma digits_le : forall n d, digits n d -> exists m e, d == inject_Z m * p10 e /\ (Z.abs m <= 10 ^ n)%Z.
Proof. intros n d (m & e & E & L). exists m, e. split; assumption. Qed.

Lemma dec_pos_facts : forall n x, (1 <= n)%Z -> 0 < x -> exists m e, dec_pos n x == inject_Z m * p10 e /\ (10 ^ (n - 1) <= m <= 10 ^ n)%Z /\ p10 (e + n - 1) <= x < p10 (e + n)
  /\ (forall k, Qabs (x - dec_pos n x) <= Qabs (x - inject_Z k * p10 e)) /\ Qabs (x - dec_pos n x) <= (1 # 2) * p10 e.
Proof.
  intros n x N H. pose proof (mag_spec x H) as (A & B). unfold dec_pos. cbv zeta. set (e := (mag x - (n - 1))%Z). exists (np_round (x / p10 e)), e.
  replace (e + n - 1)%Z with (mag x) by (unfold e; lia). replace (e + n)%Z with (mag x + 1)%Z by (unfold e; lia).
  pose proof (p10_pos e) as P. pose proof (np_round_nearest (x / p10 e)) as NR. unfold nearest in NR.
  assert (E1 : p10 (mag x) == inject_Z (10 ^ (n - 1)) * p10 e). { rewrite <- p10_nat, <- p10_plus by lia. replace (n - 1 + e)%Z with (mag x) by (unfold e; lia). reflexivity. }
  assert (E2 : p10 (mag x + 1) == inject_Z (10 ^ n) * p10 e). { rewrite <- p10_nat, <- p10_plus by lia. replace (n + e)%Z with (mag x + 1)%Z by (unfold e; lia). reflexivity. }
  split; [reflexivity|]. split; [|split; [split; assumption|split]].
  - rewrite E1 in A. rewrite E2 in B. assert (A' : inject_Z (10 ^ (n - 1)) <= x / p10 e) by (apply Qle_shift_div_l; lra). assert (B' : x / p10 e < inject_Z (10 ^ n)) by (apply Qlt_shift_div_r; lra).
    set (q := x / p10 e) in *. clearbody q. set (m := np_round q) in *. clearbody m. apply Qabs_Qle_condition in NR. split.
    + assert (X : inject_Z (10 ^ (n - 1)) < inject_Z m + 1) by lra. change 1 with (inject_Z 1) in X. rewrite <- inject_Z_plus, <- Zlt_Qlt in X. lia.
    + assert (X : inject_Z m < inject_Z (10 ^ n) + 1) by lra. change 1 with (inject_Z 1) in X. rewrite <- inject_Z_plus, <- Zlt_Qlt in X. lia.
  - intros k. apply round_grid.
  - assert (XE : x == (x / p10 e) * p10 e) by (field; lra). set (q := x / p10 e) in *. clearbody q. setoid_replace (x - inject_Z (np_round q) * p10 e) with ((q - inject_Z (np_round q)) * p10 e) by (rewrite XE; ring).
    rewrite Qabs_Qmult, (Qabs_pos (p10 e)) by lra. apply Qmult_le_compat_r; [|lra]. apply Qabs_Qle_condition in NR. apply Qabs_Qle_condition. lra.
Qed.

Lemma dec_pos_nearest : forall n x, (1 <= n)%Z -> 0 < x -> nearest_digits n x (dec_pos n x).
Proof.
  intros n x N H. destruct (dec_pos_facts n x N H) as (m & e & E & M & (A & B) & G & _). split.
  - exists m, e. split; [exact E|]. assert (0 < 10 ^ (n - 1))%Z by (apply Z.pow_pos_nonneg; lia). lia.
  - intros d' D. destruct (digits_le _ _ D) as (m' & e' & E' & L'). destruct (Z_le_gt_dec e e') as [LE|GT].
    + destruct (on_grid m' e e' LE) as (k & K). rewrite E', K. apply G.
    + pose proof (G (10 ^ (n - 1))%Z) as G1. assert (P1 : inject_Z (10 ^ (n - 1)) * p10 e == p10 (e + n - 1)). { rewrite <- p10_nat, <- p10_plus by lia. replace (n - 1 + e)%Z with (e + n - 1)%Z by lia. reflexivity. }
      rewrite P1 in G1. eapply Qle_trans; [exact G1|]. assert (U : d' <= p10 (e + n - 1)).
      { rewrite E'. eapply Qle_trans with (inject_Z (10 ^ n) * p10 e'). { apply Qmult_le_compat_r; [rewrite <- Zle_Qle; lia|]. pose proof (p10_pos e'). lra. }
        rewrite <- p10_nat, <- p10_plus by lia. apply p10_le. lia. }
      qabs; lra.
Qed.

Lemma digits_opp : forall n d, digits n d -> digits n (- d).
Proof. intros n d (m & e & E & L). exists (- m)%Z, e. split; [rewrite E, inject_Z_opp; ring|lia]. Qed.
Lemma digits_eq : forall n a b, a == b -> digits n a -> digits n b.
Proof. intros n a b E (m & e & F & L). exists m, e. split; [rewrite <- E; exact F|exact L]. Qed.

Lemma dec_round_nearest : forall n x, (1 <= n)%Z -> nearest_digits n x (dec_round n x).
Proof.
  intros n x N. unfold dec_round. destruct (Qcompare_spec x 0) as [E|L|G].
  - split; [exists 0%Z, 0%Z; split; [reflexivity|]; assert (0 < 10 ^ n)%Z by (apply Z.pow_pos_nonneg; lia); lia|]. intros d' _. rewrite E. qabs; lra.
  - assert (P : 0 < - x) by lra. destruct (dec_pos_nearest n (- x) N P) as (D & M). split; [apply digits_opp, D|]. intros d' D'. specialize (M (- d') (digits_opp _ _ D')).
    setoid_replace (- x - dec_pos n (- x)) with (- (x - - dec_pos n (- x))) in M by ring. setoid_replace (- x - - d') with (- (x - d')) in M by ring. rewrite !Qabs_opp in M. exact M.
  - apply dec_pos_nearest; assumption.
Qed.

Lemma dec_pos_rel : forall n x, (1 <= n)%Z -> 0 < x -> Qabs (dec_pos n x - x) <= x * ((1 # 2) * p10 (1 - n)).
Proof.
  intros n x N H. destruct (dec_pos_facts n x N H) as (m & e & E & M & (A & B) & G & HH). rewrite <- Qabs_opp. setoid_replace (- (dec_pos n x - x)) with (x - dec_pos n x) by ring.
  eapply Qle_trans; [exact HH|]. replace (e + n - 1)%Z with (e + (n - 1))%Z in A by lia. rewrite p10_plus in A. pose proof (p10_inv (n - 1)) as PI. replace (- (n - 1))%Z with (1 - n)%Z in PI by lia. pose proof (p10_pos (1 - n)) as P3.
  assert (X : p10 e * p10 (n - 1) * p10 (1 - n) <= x * p10 (1 - n)) by (apply Qmult_le_compat_r; lra). rewrite <- Qmult_assoc, PI in X. lra.
Qed.

Lemma dec_round_rel : forall n x, (1 <= n)%Z -> Qabs (dec_round n x - x) <= Qabs x * ((1 # 2) * p10 (1 - n)).
Proof.
  intros n x N. unfold dec_round. destruct (Qcompare_spec x 0) as [E|L|G].
  - rewrite E. change (Qabs (0 - 0)) with 0. change (Qabs 0) with 0. lra.
  - assert (P : 0 < - x) by lra. pose proof (dec_pos_rel n (- x) N P) as X. rewrite (Qabs_neg x) by lra. rewrite <- Qabs_opp. setoid_replace (- (- dec_pos n (- x) - x)) with (dec_pos n (- x) - - x) by ring. exact X.
  - rewrite (Qabs_pos x) by lra. apply dec_pos_rel; assumption.
Qed.

(** ** Numbers of [n] digits are apart *)
Lemma apart : forall n d d', (1 <= n)%Z -> digits n d -> digits n d' -> Qabs (d' - d) < Qabs d * p10 (- n) -> d' == d.
Proof.
  assert (POS : forall n d d', (1 <= n)%Z -> 0 < d -> digits n d -> digits n d' -> Qabs (d' - d) < d * p10 (- n) -> d' == d).
  { intros n d d' N H D D' A.
    (* d written with n digits *)
    pose proof (mag_spec d H) as (M1 & M2). set (k := mag d) in *. clearbody k.
    assert (DG : exists m, d == inject_Z m * p10 (k + 1 - n)).
    { destruct (digits_le _ _ D) as (m & e & E & L). destruct (Z_le_gt_dec (k + 1 - n) e) as [LE|GT].
      - destruct (on_grid m (k + 1 - n) e LE) as (j & J). exists j. rewrite E. exact J.
      - assert (U : d <= p10 k). { rewrite E. eapply Qle_trans with (inject_Z (10 ^ n) * p10 e). { apply Qmult_le_compat_r; [rewrite <- Zle_Qle; lia|]. pose proof (p10_pos e). lra. }
          rewrite <- p10_nat, <- p10_plus by lia. apply p10_le. lia. }
        destruct (on_grid 1 (k + 1 - n) k) as (j & J); [lia|]. exists j. rewrite <- J. change (inject_Z 1) with 1. lra. }
    destruct DG as (m & DM). set (e := (k + 1 - n)%Z) in *.
    pose proof (p10_pos e) as PE. pose proof (p10_pos (- n)) as PN.
    assert (SM : d * p10 (- n) < p10 e). { assert (X : d * p10 (- n) < p10 (k + 1) * p10 (- n)) by (apply Qmult_lt_compat_r; assumption). rewrite <- p10_plus in X. replace (k + 1 + - n)%Z with e in X by (unfold e; lia). exact X. }
    destruct (digits_le _ _ D') as (m' & e' & E' & L'). destruct (Z_le_gt_dec e e') as [LE|GT].
    - destruct (on_grid m' e e' LE) as (j & J). rewrite J in E'. 
      assert (X : Qabs (inject_Z (j - m)) * p10 e < 1 * p10 e). { rewrite <- (Qabs_pos (p10 e)) at 1 by lra. rewrite <- Qabs_Qmult. setoid_replace (inject_Z (j - m) * p10 e) with (d' - d) by (rewrite E', DM; unfold Z.sub; rewrite inject_Z_plus, inject_Z_opp; ring). lra. }
      apply Qmult_lt_r in X; [|exact PE]. change (Qabs (inject_Z (j - m))) with (inject_Z (Z.abs (j - m))) in X. change 1 with (inject_Z 1) in X. rewrite <- Zlt_Qlt in X. assert (j = m) by lia. subst j. rewrite E', DM. reflexivity.
    - assert (U : d' <= p10 (e' + n)). { rewrite E'. eapply Qle_trans with (inject_Z (10 ^ n) * p10 e'). { apply Qmult_le_compat_r; [rewrite <- Zle_Qle; lia|]. pose proof (p10_pos e'). lra. }
        rewrite <- p10_nat, <- p10_plus by lia. apply p10_le. lia. }
      assert (KE : k = (e + (n - 1))%Z) by (unfold e; lia).
      destruct (Z.eq_dec e' (e - 1)) as [EE|NE].
      + destruct (on_grid m e' e) as (j & J); [lia|]. rewrite J in DM. assert (U2 : d' <= p10 k) by (eapply Qle_trans; [exact U|]; apply p10_le; lia). 
        pose proof (p10_pos e') as PE'. destruct (Z.eq_dec m' j) as [->|NJ]; [rewrite E', DM; reflexivity|]. exfalso.
        assert (D1 : 1 * p10 e' <= Qabs (d' - d)). { setoid_replace (d' - d) with (inject_Z (m' - j) * p10 e') by (rewrite E', DM; unfold Z.sub; rewrite inject_Z_plus, inject_Z_opp; ring). rewrite Qabs_Qmult, (Qabs_pos (p10 e')) by lra. apply Qmult_le_compat_r; [|lra]. change (Qabs (inject_Z (m' - j))) with (inject_Z (Z.abs (m' - j))). change 1 with (inject_Z 1). rewrite <- Zle_Qle. lia. }
        assert (D2 : d * p10 (- n) <= p10 e' \/ p10 e <= d - p10 k).
        { destruct (Qlt_le_dec (p10 k) d) as [GT'|LE'].
          - right. (* both on the grid e *) destruct (on_grid 1 e k) as (i & I1); [lia|]. change (inject_Z 1) with 1 in I1. assert (KI : p10 k == inject_Z i * p10 e) by lra. rewrite <- J in DM. rewrite DM, KI in GT' |- *. apply Qmult_lt_r in GT'; [|exact PE]. rewrite <- Zlt_Qlt in GT'. assert (X : inject_Z i + 1 <= inject_Z m) by (change 1 with (inject_Z 1); rewrite <- inject_Z_plus, <- Zle_Qle; lia).
            assert (Y : (inject_Z i + 1) * p10 e <= inject_Z m * p10 e) by (apply Qmult_le_compat_r; lra). lra.
          - left. assert (d == p10 k) as -> by lra. rewrite <- p10_plus. apply p10_le. lia. }
        destruct D2 as [D2|D2]; [lra|]. assert (Y : d - d' <= Qabs (d' - d)) by (qabs; lra). lra.
      + exfalso. assert (U2 : d' <= p10 (k - 1)) by (eapply Qle_trans; [exact U|]; apply p10_le; lia). pose proof (p10_S (k - 1)) as PS. replace (k - 1 + 1)%Z with k in PS by lia.
        assert (SN : p10 (- n) <= (1 # 10)). { change (1 # 10) with (p10 (-1)). apply p10_le. lia. } pose proof (p10_pos (k - 1)). assert (X : d * p10 (- n) <= d * (1 # 10)) by (apply Qmult_le_l; lra).
        assert (Y : d - d' <= Qabs (d' - d)) by (qabs; lra). lra. }
  intros n d d' N D D' A. destruct (Qlt_le_dec 0 d) as [H|H]; [apply (POS n d d'); auto; rewrite (Qabs_pos d) in A by lra; exact A|].
  destruct (Qlt_le_dec d 0) as [H2|H2].
  - assert (X : - d' == - d). { apply (POS n); [exact N|lra|apply digits_opp, D|apply digits_opp, D'|]. rewrite (Qabs_neg d) in A by lra. setoid_replace (- d' - - d) with (- (d' - d)) by ring. rewrite Qabs_opp. exact A. } lra.
  - exfalso. assert (D0 : d == 0) by lra. rewrite D0 in A. change (Qabs 0) with 0 in A. pose proof (Qabs_nonneg (d' - 0)). lra.
Qed.

Lemma dec_round_eq : forall n a b, (1 <= n)%Z -> a == b -> dec_round n a == dec_round n b.
Proof.
  assert (P : forall n a b, (1 <= n)%Z -> 0 < a -> a == b -> dec_pos n a == dec_pos n b).
  { intros n a b N H E. assert (Hb : 0 < b) by lra. pose proof (mag_spec a H) as (A1 & A2). pose proof (mag_spec b Hb) as (B1 & B2).
    assert (M : mag a = mag b). { destruct (Z.lt_trichotomy (mag a) (mag b)) as [L|[L|L]]; [|exact L|]; exfalso.
      - pose proof (p10_le (mag a + 1) (mag b) ltac:(lia)). lra.
      - pose proof (p10_le (mag b + 1) (mag a) ltac:(lia)). lra. }
    unfold dec_pos. rewrite M. cbv zeta. set (e := (mag b - (n - 1))%Z). clearbody e. assert (X : a / p10 e == b / p10 e) by (rewrite E; reflexivity). rewrite X. reflexivity. }
  intros n a b N E. unfold dec_round. destruct (Qcompare_spec a 0) as [Ea|La|Ga]; destruct (Qcompare_spec b 0) as [Eb|Lb|Gb]; try (exfalso; lra); [reflexivity| |apply P; auto].
  rewrite (P n (- a) (- b)); [reflexivity|exact N|lra|rewrite E; reflexivity].
Qed.

Lemma dec_round_mono : forall n a b, (1 <= n)%Z -> a <= b -> dec_round n a <= dec_round n b.
Proof.
  intros n a b N H. destruct (Qlt_le_dec (dec_round n b) (dec_round n a)) as [L|L]; [|exact L].
  destruct (dec_round_nearest n a N) as (Da & Ma). destruct (dec_round_nearest n b N) as (Db & Mb). specialize (Ma _ Db). specialize (Mb _ Da).
  destruct (Qlt_le_dec a b) as [AB|AB]; [|assert (E : a == b) by lra; rewrite (dec_round_eq n a b N E) in L; lra].
  exfalso. set (x := dec_round n a) in *. set (y := dec_round n b) in *. clearbody x y. clear Da Db. qabs; lra.
Qed.

(** The number written is stable: what is read back is written the same way. *)
Lemma stable : forall fl n x, float_ok fl -> (1 <= n <= 15)%Z -> dec_round n (fl (dec_round n x)) == dec_round n x.
Proof.
  intros fl n x F N. destruct (dec_round_nearest n x ltac:(lia)) as (D & _). set (d := dec_round n x) in *. clearbody d. pose proof (fl_err _ F d) as E. set (y := fl d) in *. clearbody y.
  destruct (Qeq_dec d 0) as [Z0|NZ].
  - rewrite Z0 in *. change (Qabs 0) with 0 in E. assert (Y0 : y == 0) by (qabs; lra). rewrite (dec_round_eq n y 0 ltac:(lia) Y0). reflexivity.
  - destruct (dec_round_nearest n y ltac:(lia)) as (D2 & M2). specialize (M2 d D). set (d2 := dec_round n y) in *. clearbody d2.
    apply (apart n); [lia|exact D|exact D2|]. assert (AP : 0 < Qabs d) by (destruct (Qlt_le_dec 0 d); [rewrite Qabs_pos; lra|rewrite Qabs_neg; lra]).
    assert (S15 : p10 (-15) <= p10 (- n)) by (apply p10_le; lia). assert (X : Qabs d * p10 (-15) <= Qabs d * p10 (- n)) by (apply Qmult_le_l; assumption).
    change (p10 (-15)) with (1 # 1000000000000000) in X. assert (T : Qabs (d2 - d) <= 2 * (Qabs d * (1 # 9007199254740992))).
    { assert (T1 : Qabs (d2 - d) <= Qabs (y - d2) + Qabs (y - d)) by (clear; qabs; lra). lra. }
    set (a := Qabs d) in *. clearbody a. lra.
Qed.

(** ** Arrays *)
Lemma mapM_ok : forall {A B} (f : A -> res B) (g : A -> B), (forall a, f a = Ok (g a)) -> forall l, mapM f l = Ok (map g l).
Proof. intros A B f g H l. induction l as [|a r IH]; [reflexivity|]. cbn [mapM map]. rewrite H, IH. reflexivity. Qed.

Definition rnd (fl : Q -> Q) (n : Z) (v : fval) : fval := match v with Fin q => Fin (fl (dec_round n q)) | _ => v end.
Lemma round_sf_ok : forall fl n l, (1 <= n)%Z -> round_sf_array fl n l = Ok (map (rnd fl n) l).
Proof.
  intros fl n l N. apply mapM_ok. intros a. unfold round_sf_float, rnd. assert (X : (n <? 0)%Z = false) by (apply Z.ltb_ge; lia). rewrite X. destruct a; try reflexivity. replace (Z.max n 1) with n by lia. reflexivity.
Qed.
Lemma ser_ok : forall fl l, ser_array fl (Seq l) = Ok (map (rnd fl 8) l).
Proof. intros fl l. apply round_sf_ok. lia. Qed.

Lemma rnd_close : forall fl v, float_ok fl -> close (51 # 1000000000) v (rnd fl 8 v).
Proof.
  intros fl [q| |p] F; cbn [rnd close]; auto. pose proof (dec_round_rel 8 q ltac:(lia)) as R. change ((1 # 2) * p10 (1 - 8)) with (1 # 20000000) in R. pose proof (fl_err _ F (dec_round 8 q)) as E.
  set (d := dec_round 8 q) in *. clearbody d. set (y := fl d) in *. clearbody y. qabs; lra.
Qed.
Lemma rnd_stable : forall fl v, float_ok fl -> same (rnd fl 8 (rnd fl 8 v)) (rnd fl 8 v).
Proof. intros fl [q| |p] F; cbn [rnd same]; auto. apply (fl_eq _ F). apply stable; [exact F|lia]. Qed.

Lemma Forall2_map_r : forall {A B} (P : A -> B -> Prop) (f : A -> B), (forall a, P a (f a)) -> forall l, Forall2 P l (map f l).
Proof. intros A B P f H l. induction l; constructor; auto. Qed.

(** ** Time series *)
Lemma nodup_len : forall l : list Z, (length (nodup Z.eq_dec l) <= length l)%nat.
Proof. induction l as [|a r IH]; cbn [nodup length]; [lia|]. destruct (in_dec Z.eq_dec a r); cbn [length]; lia. Qed.
Lemma nodup_iff : forall l : list Z, length (nodup Z.eq_dec l) = length l <-> NoDup l.
Proof.
  induction l as [|a r IH]; cbn [nodup length]; [split; [constructor|reflexivity]|]. pose proof (nodup_len r) as L. destruct (in_dec Z.eq_dec a r) as [I1|I1].
  - split; [intros H; lia|intros H; inversion H; contradiction].
  - cbn [length]. split; [intros H; constructor; [exact I1|apply IH; lia]|intros H; inversion H; f_equal; apply IH; assumption].
Qed.
Lemma no_dup_iff : forall l, no_duplicates l = true <-> NoDup l.
Proof. intros l. unfold no_duplicates. rewrite Z.eqb_eq. rewrite <- nodup_iff. lia. Qed.
Lemma all_eq_iff : forall a b, length a = length b -> (all_eq a b = true <-> a = b).
Proof.
  induction a as [|x r IH]; intros [|y s] L; cbn [all_eq] in *; try discriminate; [split; reflexivity|].
  rewrite andb_true_iff, Z.eqb_eq, IH by (cbn in L; lia). split; [intros (-> & ->); reflexivity|intros E; injection E; auto].
Qed.
Lemma sorted_zsort : forall l, StronglySorted Z.lt l -> zsort l = l.
Proof.
  induction l as [|a r IH]; intros H; [reflexivity|]. inversion H as [|? ? HS HF]. cbn [zsort]. rewrite IH by assumption. destruct r as [|b s]; [reflexivity|]. cbn [zinsert]. inversion HF. assert (X : (a <=? b)%Z = true) by (apply Z.leb_le; lia). rewrite X. reflexivity.
Qed.
Lemma sorted_nodup : forall l, StronglySorted Z.lt l -> NoDup l.
Proof. induction 1 as [|a l H1 H2 H3]; constructor; [|assumption]. intros I1. rewrite Forall_forall in H3. specialize (H3 _ I1). lia. Qed.
Lemma valid_iff : forall l, no_duplicates l = true /\ ascending_times l = true <-> StronglySorted Z.lt l.
Proof.
  intros l. rewrite no_dup_iff. unfold ascending_times. rewrite all_eq_iff by apply zsort_length. split.
  - intros (H1 & H2). rewrite <- H2. apply zsort_lt, H1.
  - intros H. split; [apply sorted_nodup, H|apply sorted_zsort, H].
Qed.
Lemma deser_series_iff : forall {V} (l : list (Z * V)) r, deser_series l = Some r <-> r = to_seconds l /\ StronglySorted Z.lt (map fst r).
Proof.
  intros V l r. unfold deser_series. cbv zeta. set (a := to_seconds l). destruct (no_duplicates (map fst a)) eqn:E1; cbn [negb]; [destruct (ascending_times (map fst a)) eqn:E2; cbn [negb]|].
  - split; [intros H; injection H as <-; split; [reflexivity|apply valid_iff; auto]|intros (-> & _); reflexivity].
  - split; [discriminate|]. intros (-> & H). apply valid_iff in H. destruct H. congruence.
  - split; [discriminate|]. intros (-> & H). apply valid_iff in H. destruct H. congruence.
Qed.

(** ** Durations *)
Lemma delta_round : forall fl us, float_ok fl -> (Z.abs us < 4503599627370496)%Z -> deser_delta (ser_delta fl us) = us.
Proof.
  intros fl us F H. unfold deser_delta, ser_delta. pose proof (fl_err _ F (inject_Z us / inject_Z sec_us)) as E. set (s := fl (inject_Z us / inject_Z sec_us)) in *. clearbody s.
  change (inject_Z sec_us) with (1000000 # 1) in *. set (u := inject_Z us) in *. assert (UE : u / (1000000 # 1) == u * (1 # 1000000)) by (field). rewrite UE in E. rewrite Qabs_Qmult in E. change (Qabs (1 # 1000000)) with (1 # 1000000) in E.
  assert (UA : Qabs u <= inject_Z 4503599627370495). { unfold u. change (Qabs (inject_Z us)) with (inject_Z (Z.abs us)). rewrite <- Zle_Qle. lia. }
  change (inject_Z 4503599627370495) with (4503599627370495 # 1) in UA.
  pose proof (np_round_nearest (s * (1000000 # 1))) as N. unfold nearest in N. set (m := np_round (s * (1000000 # 1))) in *. clearbody m. apply Qabs_Qle_condition in N. apply Qabs_Qle_condition in E. set (a := Qabs u) in *. 
  assert (X1 : inject_Z m < u + 1) by lra. assert (X2 : u < inject_Z m + 1) by lra. unfold u in X1, X2. change 1 with (inject_Z 1) in X1, X2. rewrite <- inject_Z_plus, <- Zlt_Qlt in X1, X2. lia.
Qed.
