(** * Proofs about plumes *)
From Coq Require Import QArith Qround Qabs Lia Lqa Bool Permutation.
From Verif Require Import Py PyLemmas PlmModel PlmSpec.
Open Scope Z_scope.

Lemma quot_floor : forall q, (0 <= q)%Q -> Z.quot (Qnum q) (Zpos (Qden q)) = Qfloor q.
Proof.
  intros [n d] H. unfold Qle in H; simpl in H. simpl. rewrite Z.quot_div_nonneg by lia. reflexivity.
Qed.
Lemma floor_nonneg : forall q, (0 <= q)%Q -> 0 <= Qfloor q.
Proof. intros q H. change 0 with (Qfloor 0). apply Qfloor_resp_le; assumption. Qed.
Lemma floor_lt_int : forall q z, (q < inject_Z z)%Q -> Qfloor q < z.
Proof. intros q z H. rewrite Zlt_Qlt. eapply Qle_lt_trans; [apply Qfloor_le|exact H]. Qed.
Lemma floor_le_int : forall q z, (q <= inject_Z z)%Q -> Qfloor q <= z.
Proof. intros q z H. rewrite Zle_Qle. eapply Qle_trans; [apply Qfloor_le|exact H]. Qed.

Lemma to_int32_ok : forall q, (0 <= q)%Q -> (q < inject_Z (2 ^ 31))%Q -> to_int32 q = Some (Qfloor q).
Proof.
  intros q P L. unfold to_int32. rewrite quot_floor by exact P.
  pose proof (floor_nonneg q P) as F. pose proof (floor_lt_int q _ L) as G.
  assert (E1 : (- 2 ^ 31 <=? Qfloor q) = true) by (apply Z.leb_le; lia).
  assert (E2 : (Qfloor q <? 2 ^ 31) = true) by (apply Z.ltb_lt; lia).
  rewrite E1, E2. reflexivity.
Qed.
Lemma to_int32_inv : forall q z, (0 <= q)%Q -> to_int32 q = Some z -> z = Qfloor q /\ (q < inject_Z (2 ^ 31))%Q.
Proof.
  intros q z P H. unfold to_int32 in H. rewrite quot_floor in H by exact P.
  destruct (- 2 ^ 31 <=? Qfloor q); [|discriminate]. destruct (Qfloor q <? 2 ^ 31) eqn:E; [|discriminate]. simpl in H. inversion H; subst.
  split; [reflexivity|]. apply Z.ltb_lt in E. eapply Qlt_le_trans; [apply Qlt_floor|]. rewrite <- Zle_Qle. lia.
Qed.

Lemma mapO_some : forall (A B : Type) (f : A -> option B) (g : A -> B) l, (forall x, In x l -> f x = Some (g x)) -> mapO f l = Some (map g l).
Proof.
  intros A B f g. induction l as [|x l IH]; intros H; simpl; [reflexivity|]. rewrite (H x) by (left; reflexivity).
  rewrite IH; [reflexivity|]. intros y I. apply H. right; exact I.
Qed.
Lemma mapO_inv : forall (A B : Type) (f : A -> option B) l r, mapO f l = Some r -> Forall2 (fun x y => f x = Some y) l r.
Proof.
  intros A B f. induction l as [|x l IH]; intros r H; simpl in H; [inversion H; constructor|].
  destruct (f x) eqn:E; [|discriminate]. destruct (mapO f l) eqn:E2; [|discriminate]. inversion H; subst. constructor; [exact E|]. apply IH; reflexivity.
Qed.

(** A generator with a mass, without negative fluxes, whose end is not before its beginning *)
Definition sane (g : gen) (m : Q) : Prop :=
  g_mass g = Some m /\ (0 < m)%Q /\ Forall (fun f => (0 <= f)%Q) (pl_flux (g_plume g)) /\
  match g_end g with Some e => g_rel g <= e | None => True end /\
  length (pl_coords (g_plume g)) = length (pl_flux (g_plume g)).

Definition quota (g : gen) (m : Q) (t : Z) (f : Q) : Q := (f * seconds g t / m)%Q.
Definition outs (g : gen) (m : Q) (t : Z) : list Z := map (fun f => Qfloor (quota g m t f)) (pl_flux (g_plume g)).

Lemma clamp_ge : forall g m t, sane g m -> g_rel g <= clamp g t.
Proof.
  intros g m t (_ & _ & _ & S & _). unfold clamp. destruct (t <? g_rel g) eqn:E; [lia|]. apply Z.ltb_ge in E.
  destruct (g_end g) as [e|]; [|exact E]. destruct (e <? t); lia.
Qed.
Lemma clamp_mono : forall g t u, t <= u -> match g_end g with Some e => g_rel g <= e | None => True end -> clamp g t <= clamp g u.
Proof.
  intros g t u L S. unfold clamp. destruct (t <? g_rel g) eqn:E; destruct (u <? g_rel g) eqn:F;
    apply Z.ltb_lt in E || apply Z.ltb_ge in E; apply Z.ltb_lt in F || apply Z.ltb_ge in F; try lia;
    destruct (g_end g) as [e|]; try lia.
  - destruct (e <? u); lia.
  - destruct (e <? t) eqn:X; destruct (e <? u) eqn:Y; apply Z.ltb_lt in X || apply Z.ltb_ge in X; apply Z.ltb_lt in Y || apply Z.ltb_ge in Y; lia.
Qed.
Lemma secs_mono : forall a b, a <= b -> (secs a <= secs b)%Q.
Proof.
  intros a b H. unfold secs, Qdiv. apply Qmult_le_compat_r; [rewrite <- Zle_Qle; exact H|]. vm_compute; discriminate.
Qed.
Lemma secs_0 : (secs 0 == 0)%Q.
Proof. vm_compute; reflexivity. Qed.
Lemma secs_pos : forall a, 0 < a -> (0 < secs a)%Q.
Proof.
  intros a H. unfold secs. apply Qlt_shift_div_l; [vm_compute; reflexivity|].
  rewrite Qmult_0_l. change 0%Q with (inject_Z 0). rewrite <- Zlt_Qlt. exact H.
Qed.
Lemma seconds_nonneg : forall g m t, sane g m -> (0 <= seconds g t)%Q.
Proof.
  intros g m t S. unfold seconds. rewrite <- secs_0. apply secs_mono. pose proof (clamp_ge g m t S). lia.
Qed.
Lemma seconds_mono : forall g m t u, sane g m -> t <= u -> (seconds g t <= seconds g u)%Q.
Proof.
  intros g m t u S L. unfold seconds. apply secs_mono. destruct S as (_ & _ & _ & E & _). pose proof (clamp_mono g t u L E). lia.
Qed.
Lemma quota_nonneg : forall g m t f, sane g m -> (0 <= f)%Q -> (0 <= quota g m t f)%Q.
Proof.
  intros g m t f S F. unfold quota. pose proof (seconds_nonneg g m t S). destruct S as (_ & M & _).
  apply Qle_shift_div_l; [exact M|]. rewrite Qmult_0_l. apply Qmult_le_0_compat; assumption.
Qed.
Lemma quota_mono : forall g m t u f, sane g m -> (0 <= f)%Q -> t <= u -> (quota g m t f <= quota g m u f)%Q.
Proof.
  intros g m t u f S F L. unfold quota. pose proof (seconds_mono g m t u S L) as H. destruct S as (_ & M & _).
  unfold Qdiv. apply Qmult_le_compat_r; [|apply Qlt_le_weak, Qinv_lt_0_compat; exact M].
  rewrite (Qmult_comm f), (Qmult_comm f). apply Qmult_le_compat_r; assumption.
Qed.

Lemma sane_m : forall g m, sane g m -> Qeq_bool m 0 = false.
Proof.
  intros g m (_ & M & _). destruct (Qeq_bool m 0) eqn:E; [|reflexivity]. apply Qeq_bool_iff in E. rewrite E in M. inversion M.
Qed.
Lemma elems_from_ok : forall g m t, sane g m ->
  Forall (fun f => (quota g m t f < inject_Z (2 ^ 31))%Q) (pl_flux (g_plume g)) -> elems_from g t = Some (outs g m t).
Proof.
  intros g m t S B. unfold elems_from, mass_to_elems, outs. pose proof S as (E & M & P & _). rewrite E, (sane_m g m S).
  rewrite (mapO_some _ _ _ (fun x => Qfloor (x / m))).
  - rewrite map_map. reflexivity.
  - intros x I. apply in_map_iff in I. destruct I as (f & <- & I). rewrite Forall_forall in P, B.
    apply to_int32_ok; [apply (quota_nonneg g m t f S), P, I|apply B, I].
Qed.
Lemma elems_from_inv : forall g m t l, sane g m -> elems_from g t = Some l ->
  l = outs g m t /\ Forall (fun f => (quota g m t f < inject_Z (2 ^ 31))%Q) (pl_flux (g_plume g)).
Proof.
  intros g m t l S H. unfold elems_from, mass_to_elems in H. pose proof S as (E & M & P & _). rewrite E, (sane_m g m S) in H.
  unfold outs. apply mapO_inv in H. revert l H. induction (pl_flux (g_plume g)) as [|f fs IH]; intros l H; simpl in H; inversion H; subst; [split; [reflexivity|constructor]|].
  inversion P; subst. destruct (IH H5 _ H4) as (A & B). destruct (to_int32_inv _ _ (quota_nonneg g m t f S H3) H2) as (C & D).
  split; [cbn [map]; rewrite A, C; reflexivity|constructor; [exact D|exact B]].
Qed.
(** Numbers for a time mean numbers for all times before. *)
Lemma elems_from_back : forall g m t u l, sane g m -> t <= u -> elems_from g u = Some l -> elems_from g t = Some (outs g m t).
Proof.
  intros g m t u l S L H. destruct (elems_from_inv g m u l S H) as (_ & B). apply elems_from_ok; [exact S|].
  pose proof S as (_ & _ & P & _). rewrite Forall_forall in *. intros f I. eapply Qle_lt_trans; [apply quota_mono; [exact S|apply P, I|exact L]|apply B, I].
Qed.
Lemma elems_in_ok : forall g m t u l, sane g m -> t <= u -> elems_from g u = Some l ->
  elems_in g t u = Some (sub2 (outs g m u) (outs g m t)).
Proof.
  intros g m t u l S L H. unfold elems_in. rewrite H, (elems_from_back g m t u l S L H). destruct (elems_from_inv g m u l S H) as (-> & _). reflexivity.
Qed.

Lemma outs_length : forall g m t, length (outs g m t) = length (pl_flux (g_plume g)).
Proof. intros. apply map_length. Qed.
Lemma sub2_length : forall a b, length a = length b -> length (sub2 a b) = length a.
Proof. induction a; destruct b; simpl; intros H; try discriminate; auto. Qed.
Lemma sub2_nth : forall a b i x y, nth_error a i = Some x -> nth_error b i = Some y -> nth_error (sub2 a b) i = Some (x - y).
Proof.
  induction a as [|u a IH]; intros b i x y A B; destruct i; destruct b; simpl in *; try discriminate.
  - inversion A; inversion B; reflexivity.
  - apply IH; assumption.
Qed.
Lemma outs_nth : forall g m t i f, nth_error (pl_flux (g_plume g)) i = Some f -> nth_error (outs g m t) i = Some (Qfloor (quota g m t f)).
Proof. intros. unfold outs. apply map_nth_error with (f := fun f => Qfloor (quota g m t f)). assumption. Qed.
Lemma floor_mono : forall g m t u f, sane g m -> (0 <= f)%Q -> t <= u -> Qfloor (quota g m t f) <= Qfloor (quota g m u f).
Proof. intros. apply Qfloor_resp_le, quota_mono; assumption. Qed.
Lemma sub2_nonneg : forall g m t u, sane g m -> t <= u -> Forall (fun n => 0 <= n) (sub2 (outs g m u) (outs g m t)).
Proof.
  intros g m t u S L. pose proof S as (_ & _ & P & _). unfold outs. induction (pl_flux (g_plume g)) as [|f fs IH]; cbn [map sub2]; constructor.
  - inversion P; subst. pose proof (floor_mono g m t u f S H1 L). lia.
  - inversion P; subst. apply IH; assumption.
Qed.
Lemma combine_fst : forall (A B : Type) (a : list A) (b : list B), length a = length b -> map fst (combine a b) = a.
Proof. induction a; destruct b; simpl; intros H; try discriminate; [reflexivity|]. f_equal. apply IHa. congruence. Qed.
Lemma combine_snd : forall (A B : Type) (a : list A) (b : list B), length a = length b -> map snd (combine a b) = b.
Proof. induction a; destruct b; simpl; intros H; try discriminate; [reflexivity|]. f_equal. apply IHa. congruence. Qed.
Lemma combine_nth_error : forall (A B : Type) (a : list A) (b : list B) i x y, nth_error a i = Some x -> nth_error b i = Some y -> nth_error (combine a b) i = Some (x, y).
Proof.
  induction a as [|u a IH]; intros b i x y P Q; destruct i; destruct b; simpl in *; try discriminate.
  - inversion P; inversion Q; reflexivity.
  - apply IH; assumption.
Qed.

(** One round *)
Lemma item_ok : forall g m k l, sane g m -> 0 <= g_dt g -> elems_from g (g_rel g + g_dt g * (k + 1)) = Some l ->
  snd (item g k) = Some (combine (pl_coords (g_plume g)) (sub2 (outs g m (g_rel g + g_dt g * (k + 1))) (outs g m (g_rel g + g_dt g * k)))).
Proof.
  intros g m k l S D H. unfold item. simpl. replace (g_rel g + g_dt g * k + g_dt g) with (g_rel g + g_dt g * (k + 1)) by lia.
  rewrite (elems_in_ok g m _ _ l S) by (try lia; exact H). reflexivity.
Qed.
Lemma item_at : forall g m k l i f, sane g m -> 0 <= g_dt g -> elems_from g (g_rel g + g_dt g * (k + 1)) = Some l ->
  nth_error (pl_flux (g_plume g)) i = Some f ->
  at_point i (item g k) = Qfloor (quota g m (g_rel g + g_dt g * (k + 1)) f) - Qfloor (quota g m (g_rel g + g_dt g * k) f).
Proof.
  intros g m k l i f S D H N. unfold at_point. rewrite (item_ok g m k l S D H).
  destruct (nth_error (pl_coords (g_plume g)) i) as [c|] eqn:C.
  - erewrite combine_nth_error; [|exact C|apply sub2_nth; apply outs_nth; exact N]. reflexivity.
  - apply nth_error_None in C. pose proof S as (_ & _ & _ & _ & L). rewrite L in C. apply nth_error_None in C. congruence.
Qed.
Lemma seconds_rel : forall g m, sane g m -> (seconds g (g_rel g) == 0)%Q.
Proof.
  intros g m S. unfold seconds, clamp. rewrite Z.ltb_irrefl. pose proof S as (_ & _ & _ & E & _). destruct (g_end g) as [e|].
  - destruct (e <? g_rel g) eqn:X; [apply Z.ltb_lt in X; lia|]. rewrite Z.sub_diag. apply secs_0.
  - rewrite Z.sub_diag. apply secs_0.
Qed.
Lemma quota_rel : forall g m f, sane g m -> Qfloor (quota g m (g_rel g) f) = 0.
Proof.
  intros g m f S. change 0 with (Qfloor 0). apply Qfloor_comp. unfold quota. rewrite (seconds_rel g m S). unfold Qdiv. ring.
Qed.

Definition rounds (g : gen) (n : nat) := map (fun k => item g (Z.of_nat k)) (seq 0 n).
Lemma point_total_app : forall i a b, point_total i (a ++ b) = point_total i a + point_total i b.
Proof. induction a; intros b; simpl; [reflexivity|]. rewrite IHa. lia. Qed.
Lemma rounds_total : forall g m n l i f, sane g m -> 0 <= g_dt g -> elems_from g (g_rel g + g_dt g * Z.of_nat n) = Some l ->
  nth_error (pl_flux (g_plume g)) i = Some f ->
  point_total i (rounds g n) = Qfloor (quota g m (g_rel g + g_dt g * Z.of_nat n) f).
Proof.
  intros g m. induction n as [|n IH]; intros l i f S D H N.
  - simpl. rewrite Z.mul_0_r, Z.add_0_r. symmetry; apply quota_rel; exact S.
  - unfold rounds in *. rewrite seq_S, map_app, point_total_app. simpl map. simpl point_total.
    assert (B : elems_from g (g_rel g + g_dt g * Z.of_nat n) = Some (outs g m (g_rel g + g_dt g * Z.of_nat n))).
    { apply (elems_from_back g m _ _ l S) with (2 := H). nia. }
    rewrite (IH _ i f S D B N). simpl plus. rewrite Nat2Z.inj_succ in H |- *. unfold Z.succ in *.
    rewrite (item_at g m _ l i f S D H N). lia.
Qed.
Lemma rounds_proper : forall g m n l place data, sane g m -> 0 <= g_dt g -> g_plume g = new_plume place data ->
  elems_from g (g_rel g + g_dt g * Z.of_nat n) = Some l -> proper_rounds place data (rounds g n).
Proof.
  intros g m n l place data S D P H. unfold proper_rounds, rounds. apply Forall_forall. intros it I. apply in_map_iff in I. destruct I as (k & <- & I).
  apply in_seq in I.
  assert (B : elems_from g (g_rel g + g_dt g * (Z.of_nat k + 1)) = Some (outs g m (g_rel g + g_dt g * (Z.of_nat k + 1)))).
  { apply (elems_from_back g m _ _ l S) with (2 := H). nia. }
  eexists. split; [exact (item_ok g m _ _ S D B)|]. pose proof S as (_ & _ & _ & _ & L).
  assert (LL : length (pl_coords (g_plume g)) = length (sub2 (outs g m (g_rel g + g_dt g * (Z.of_nat k + 1))) (outs g m (g_rel g + g_dt g * Z.of_nat k)))).
  { rewrite sub2_length; rewrite !outs_length; [exact L|reflexivity]. }
  split; [rewrite combine_fst by exact LL; rewrite P; destruct place as [[lon lat] z]; reflexivity|].
  rewrite <- (Forall_map snd (fun n => 0 <= n)). rewrite combine_snd by exact LL. apply sub2_nonneg; [exact S|nia].
Qed.

(** Sums over the points *)
Lemma total_of_bounds : forall items n data (S : Q) (lo : Q), (0 < S)%Q -> (S == flux_sum data)%Q ->
  (forall i d, nth_error data i = Some d -> point_total i items = Qfloor (n * snd d / lo)) -> (0 < lo)%Q -> data <> [] ->
  (inject_Z (total_of items (length data)) <= n * S / lo < inject_Z (total_of items (length data) + Z.of_nat (length data)))%Q.
Proof.
  intros items n data S lo SP SE H LP NE.
  assert (G : forall p q, data = p ++ q ->
     (inject_Z (total_of items (length p)) <= n * flux_sum p / lo)%Q /\ (n * flux_sum p / lo <= inject_Z (total_of items (length p) + Z.of_nat (length p)))%Q /\
     (p <> [] -> (n * flux_sum p / lo < inject_Z (total_of items (length p) + Z.of_nat (length p)))%Q)).
  { intros p. induction p as [|d p IH] using rev_ind; intros q E.
    - simpl. assert (X : (n * 0 / lo == 0)%Q) by (unfold Qdiv; ring). rewrite X. split; [apply Qle_refl|]. split; [apply Qle_refl|congruence].
    - destruct (IH (d :: q)) as (A & B & _); [rewrite E, <- app_assoc; reflexivity|].
      assert (FS : forall a b, (flux_sum (a ++ b) == flux_sum a + flux_sum b)%Q).
      { induction a as [|x a IHa]; intros b; simpl; [ring|]. rewrite IHa. ring. }
      rewrite app_length. simpl length. rewrite Nat.add_1_r. simpl total_of.
      assert (N : nth_error data (length p) = Some d) by (rewrite E, <- app_assoc; simpl; rewrite nth_error_app2, Nat.sub_diag by lia; reflexivity).
      rewrite (H _ _ N).
      assert (Y : (n * flux_sum (p ++ [d]) / lo == n * flux_sum p / lo + n * snd d / lo)%Q).
      { rewrite FS. simpl. unfold Qdiv. ring. }
      pose proof (Qfloor_le (n * snd d / lo)) as C. pose proof (Qlt_floor (n * snd d / lo)) as D. rewrite inject_Z_plus in D.
      rewrite Y. rewrite !inject_Z_plus. rewrite Nat2Z.inj_succ. unfold Z.succ. rewrite !inject_Z_plus. rewrite inject_Z_plus in B.
      revert A B C D. generalize (n * snd d / lo)%Q (n * flux_sum p / lo)%Q (inject_Z (total_of items (length p))) (inject_Z (Z.of_nat (length p))) (inject_Z (Qfloor (n * snd d / lo))).
      intros a b c d0 e A B C D. split; [lra|]. split; [lra|]. intros _; lra. }
  destruct (G data []) as (A & B & C); [rewrite app_nil_r; reflexivity|]. rewrite SE. split; [exact A|apply C; exact NE].
Qed.

Lemma qsum_flux : forall data, qsum (map snd data) = flux_sum data.
Proof. induction data as [|d data IH]; simpl; [reflexivity|]. rewrite IH. reflexivity. Qed.
Lemma plume_flux : forall place data, pl_flux (new_plume place data) = map snd data.
Proof. intros [[a b] c] data. reflexivity. Qed.
Lemma plume_coords : forall place data, pl_coords (new_plume place data) = map (fun d => (fst (fst place), snd (fst place), fst d)) data.
Proof. intros [[a b] c] data. reflexivity. Qed.

(** A generator whose mass was set from the number of elements *)
Definition counted (place : point) (data : list (Q * Q)) (rel e dt n : Z) : gen :=
  Gen rel (Some e) dt (new_plume place data) (Some (flux_sum data * secs (e - rel) / inject_Z n)%Q) (Some (Z.quot (e - rel) dt)).
Lemma counted_eq : forall rel e dt place data n g0 g, new_gen rel (Some e) dt (new_plume place data) = Ok g0 -> set_count g0 n = Ok g ->
  n <> 0 -> g = counted place data rel e dt n.
Proof.
  intros rel e dt place data n g0 g A B N. unfold new_gen in A. destruct (dt =? 0); [discriminate|]. inversion A; subst; clear A.
  unfold set_count in B. cbn [g_end g_plume g_rel g_dt g_steps time_steps] in B. destruct (n =? 0) eqn:E; [apply Z.eqb_eq in E; contradiction|].
  inversion B; subst. unfold counted. rewrite plume_flux, qsum_flux. reflexivity.
Qed.
Definition cmass (data : list (Q * Q)) (rel e n : Z) : Q := (flux_sum data * secs (e - rel) / inject_Z n)%Q.
Lemma inject_pos : forall z, 0 < z -> (0 < inject_Z z)%Q.
Proof. intros z H. change 0%Q with (inject_Z 0). rewrite <- Zlt_Qlt. exact H. Qed.
Lemma counted_sane : forall place data rel e dt n, flowing data -> rel < e -> 0 < n -> sane (counted place data rel e dt n) (cmass data rel e n).
Proof.
  intros place data rel e dt n (P & F) L N. unfold sane, counted. cbn [g_mass g_plume g_end g_rel].
  split; [reflexivity|]. split; [|split; [|split; [lia|]]].
  - unfold cmass. apply Qlt_shift_div_l; [apply inject_pos, N|]. rewrite Qmult_0_l. apply Qmult_lt_0_compat; [exact F|apply secs_pos; lia].
  - rewrite plume_flux. apply Forall_map. exact P.
  - rewrite plume_flux, plume_coords, !map_length. reflexivity.
Qed.
Lemma counted_quota : forall place data rel e dt n t f, flowing data -> rel < e -> 0 < n ->
  (quota (counted place data rel e dt n) (cmass data rel e n) t f == inject_Z n * f / flux_sum data * part_over rel e t)%Q.
Proof.
  intros place data rel e dt n t f (P & F) L N. unfold quota, seconds, cmass, part_over, secs.
  assert (E : clamp (counted place data rel e dt n) t = Z.min (Z.max t rel) e).
  { unfold clamp, counted. cbn [g_rel g_end]. destruct (t <? rel) eqn:X; [apply Z.ltb_lt in X; lia|]. apply Z.ltb_ge in X. destruct (e <? t) eqn:Y; [apply Z.ltb_lt in Y; lia|apply Z.ltb_ge in Y; lia]. }
  rewrite E. cbn [counted g_rel]. pose proof (inject_pos n N) as NP. assert (DP : (0 < inject_Z (e - rel))%Q) by (apply inject_pos; lia).
  generalize dependent (inject_Z (e - rel)). generalize dependent (inject_Z n). generalize (inject_Z (Z.min (Z.max t rel) e - rel)). generalize dependent (flux_sum data).
  intros S SP x N' NP D DP. change (inject_Z 1000000) with (1000000 # 1)%Q. field. repeat split; intros H; rewrite H in *; try (inversion SP; fail); try (inversion NP; fail); try (inversion DP; fail).
Qed.
Lemma part_le : forall rel e t, rel < e -> (0 <= part_over rel e t <= 1)%Q.
Proof.
  intros rel e t L. unfold part_over. assert (DP : (0 < inject_Z (e - rel))%Q) by (apply inject_pos; lia). split.
  - apply Qle_shift_div_l; [exact DP|]. rewrite Qmult_0_l. change 0%Q with (inject_Z 0). rewrite <- Zle_Qle. lia.
  - apply Qle_shift_div_r; [exact DP|]. rewrite Qmult_1_l, <- Zle_Qle. lia.
Qed.
Lemma part_end : forall rel e t, rel < e -> e <= t -> (part_over rel e t == 1)%Q.
Proof.
  intros rel e t L T. unfold part_over. replace (Z.min (Z.max t rel) e) with e by lia. apply Qmult_inv_r. intros H. pose proof (inject_pos (e - rel)). rewrite H in H0. assert (X : (0 < 0)%Q) by (apply H0; lia). inversion X.
Qed.
Lemma part_begin : forall rel e t, rel < e -> t <= rel -> (part_over rel e t == 0)%Q.
Proof.
  intros rel e t L T. unfold part_over. replace (Z.min (Z.max t rel) e - rel) with 0 by lia. unfold Qdiv. change (inject_Z 0) with 0%Q. ring.
Qed.
Lemma flux_le : forall data d, Forall (fun d => (0 <= snd d)%Q) data -> In d data -> (snd d <= flux_sum data)%Q.
Proof.
  induction data as [|x data IH]; intros d P I; [destruct I|]. inversion P; subst. simpl.
  assert (N : (0 <= flux_sum data)%Q). { clear - H2. induction data as [|y data IH]; simpl; [apply Qle_refl|]. inversion H2; subst. pose proof (IH H3). simpl in *. lra. }
  destruct I as [->|I]; [lra|]. pose proof (IH d H2 I). simpl in *. lra.
Qed.
Lemma flux_share_le : forall data d n, flowing data -> In d data -> 0 < n -> (0 <= inject_Z n * snd d / flux_sum data <= inject_Z n)%Q.
Proof.
  intros data d n (P & F) I N. pose proof (flux_le data d P I) as L. rewrite Forall_forall in P. pose proof (P d I) as D. simpl in D.
  pose proof (inject_pos n N) as NP. split.
  - apply Qle_shift_div_l; [exact F|]. rewrite Qmult_0_l. apply Qmult_le_0_compat; [lra|exact D].
  - apply Qle_shift_div_r; [exact F|]. rewrite !(Qmult_comm (inject_Z n)). apply Qmult_le_compat_r; [exact L|lra].
Qed.
Lemma counted_elems : forall place data rel e dt n t, flowing data -> rel < e -> 0 < n < 2 ^ 31 ->
  elems_from (counted place data rel e dt n) t = Some (outs (counted place data rel e dt n) (cmass data rel e n) t).
Proof.
  intros place data rel e dt n t F L N. apply elems_from_ok; [apply counted_sane; [exact F|exact L|lia]|].
  unfold counted at 2. cbn [g_plume]. rewrite plume_flux. apply Forall_map, Forall_forall. intros d I.
  rewrite counted_quota by (try lia; assumption). destruct (flux_share_le data d n F I ltac:(lia)) as (A & B). pose proof (part_le rel e t L) as (C & D).
  assert (X : (inject_Z n < inject_Z (2 ^ 31))%Q) by (rewrite <- Zlt_Qlt; lia).
  eapply Qle_lt_trans; [|exact X]. eapply Qle_trans; [|exact B]. rewrite <- (Qmult_1_r (inject_Z n * snd d / flux_sum data)) at 2.
  rewrite !(Qmult_comm (inject_Z n * snd d / flux_sum data)). apply Qmult_le_compat_r; assumption.
Qed.
Lemma counted_out : forall place data rel e dt n t (d : Q * Q), flowing data -> rel < e -> 0 < n ->
  Qfloor (quota (counted place data rel e dt n) (cmass data rel e n) t (snd d)) = Qfloor (inject_Z n * snd d / flux_sum data * part_over rel e t).
Proof. intros. apply Qfloor_comp, counted_quota; assumption. Qed.

(** ** Steps of a run *)
Lemma repeat_split : forall (A : Type) (x : A) a b, repeat x (a + b) = repeat x a ++ repeat x b.
Proof. induction a; intros b; simpl; [reflexivity|]. rewrite IHa. reflexivity. Qed.
Lemma coords_add : forall C a b, Forall (fun n => 0 <= n) a -> Forall (fun n => 0 <= n) (sub2 b a) -> length a = length b ->
  Permutation (coords_of (combine C a) ++ coords_of (combine C (sub2 b a))) (coords_of (combine C b)).
Proof.
  induction C as [|c C IH]; intros a b A B L; [simpl; constructor|]. destruct a as [|x a]; destruct b as [|y b]; try discriminate; [simpl; constructor|].
  simpl in B. inversion A; subst; inversion B; subst. cbn [sub2 combine].
  specialize (IH a b H2 H4 ltac:(simpl in L; lia)). unfold coords_of in *. cbn [map concat fst snd].
  replace (Z.to_nat y) with (Z.to_nat x + Z.to_nat (y - x))%nat by lia. rewrite repeat_split.
  rewrite <- !app_assoc. apply Permutation_app_head. rewrite <- IH.
  rewrite !app_assoc. apply Permutation_app_tail. apply Permutation_app_comm.
Qed.
Lemma zsum_nonneg : forall l, Forall (fun d => 0 <= d) l -> 0 <= zsum l.
Proof. induction 1; simpl; lia. Qed.
Lemma outs_nonneg : forall g m t, sane g m -> Forall (fun n => 0 <= n) (outs g m t).
Proof.
  intros g m t S. pose proof S as (_ & _ & P & _). unfold outs. apply Forall_map. eapply Forall_impl; [|exact P].
  intros f F. simpl in F. apply floor_nonneg. apply quota_nonneg; assumption.
Qed.
Lemma steps_perm : forall g m ds s, sane g m -> Forall (fun d => 0 <= d) ds -> (forall t, elems_from g t = Some (outs g m t)) ->
  exists ls, mapO (fun x => elem_coords g (fst x) (snd x)) (begins s ds) = Some ls /\
    Permutation (coords_of (combine (pl_coords (g_plume g)) (outs g m s)) ++ concat ls) (coords_of (combine (pl_coords (g_plume g)) (outs g m (s + zsum ds)))).
Proof.
  intros g m. induction ds as [|d ds IH]; intros s S D T.
  - exists []. split; [reflexivity|]. simpl. rewrite app_nil_r, Z.add_0_r. apply Permutation_refl.
  - inversion D; subst. destruct (IH (s + d) S H2 T) as (ls & E & P). cbn [begins mapO fst snd]. unfold elem_coords at 1.
    rewrite (elems_in_ok g m s (s + d) _ S ltac:(lia) (T _)). rewrite E. eexists; split; [reflexivity|].
    cbn [concat zsum]. rewrite app_assoc. rewrite Z.add_assoc. rewrite <- P. apply Permutation_app_tail.
    apply coords_add; [apply outs_nonneg; exact S|apply sub2_nonneg; [exact S|lia]|rewrite !outs_length; reflexivity].
Qed.
Lemma coords_zero : forall C a, Forall (fun n => n = 0) a -> coords_of (combine C a) = [].
Proof.
  induction C as [|c C IH]; intros a H; [reflexivity|]. destruct a as [|x a]; [reflexivity|]. inversion H; subst. unfold coords_of in *. simpl. apply IH; assumption.
Qed.
