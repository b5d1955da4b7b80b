(** * Properties C155 to C157: gridcur files *)
From Coq Require Import QArith Qabs Qround Lia Lqa Bool.
From Verif Require Import Py PyLemmas TimeModel GcModel GcSpec GcProofs.
Local Open Scope Z_scope.

(** ** C155: a written file read back *)

(** What is asked of the arguments of the writer: rectangular arrays of one
    shape for every time, times to the minute. *)
Definition proper (nr nc : nat) (times : list fields) (us vs : list arr) : Prop :=
  times <> [] /\ length us = length times /\ length vs = length times /\ Forall minute times /\
  Forall (rect nr nc) us /\ Forall (rect nr nc) vs.
(** The same file back. *)
Definition back (k : kind) (u : word) (times : list fields) (lon lat : list num) (us vs : list arr) (g : grd) : Prop :=
  g_kind g = k /\ g_units g = u /\ g_times g = times /\ Forall2 same_num (g_lon g) lon /\ Forall2 same_num (g_lat g) lat /\
  Forall2 (Forall2 (Forall2 written)) (g_u g) us /\ Forall2 (Forall2 (Forall2 written)) (g_v g) vs.

Definition sections nr nc (x : list (fields * arr * arr)) : list section :=
  map (fun x => let '(t, U, V) := x in Section_ t (entries nr nc U V)) x.

Lemma in_zip3 : forall (A B C : Type) (a : list A) (b : list B) (c : list C) x y z, In (x, y, z) (zip3 a b c) -> In x a /\ In y b /\ In z c.
Proof.
  intros A B C. induction a as [|x0 a IH]; intros b c x y z H; [destruct H|]. destruct b as [|y0 b]; [destruct H|]. destruct c as [|z0 c]; [destruct H|].
  destruct H as [H|H]; [inversion H; subst; simpl; auto|]. destruct (IH _ _ _ _ _ H) as (P & Q & R). simpl; auto.
Qed.
Lemma zip3_map : forall (A B C : Type) (a : list A) (b : list B) (c : list C), length b = length a -> length c = length a ->
  map (fun x => fst (fst x)) (zip3 a b c) = a /\ map (fun x => snd (fst x)) (zip3 a b c) = b /\ map snd (zip3 a b c) = c.
Proof.
  intros A B C. induction a as [|x a IH]; intros b c LB LC; destruct b as [|y b]; destruct c as [|z c]; simpl in *; try discriminate; [auto|].
  destruct (IH b c) as (P & Q & R); [lia|lia|]. rewrite P, Q, R. auto.
Qed.
Lemma forall2_six : forall a, Forall2 (Forall2 (Forall2 written)) (map (map (map six)) a) a.
Proof.
  assert (L : forall (A : Type) (f : A -> A) (P : A -> A -> Prop) l, (forall x, P (f x) x) -> Forall2 P (map f l) l).
  { intros A f P l H. induction l; simpl; constructor; auto. }
  intros a. apply L. intros b. apply L. intros c. apply L. apply six_written.
Qed.

(** The two arrays of the reading, from the writer's sections. *)
Lemma read_sections_back : forall nr nc times us vs us' vs', length us = length times -> length vs = length times ->
  Forall (rect nr nc) us -> Forall (rect nr nc) vs ->
  all_filled nr nc (sections nr nc (zip3 times us vs)) us' vs' ->
  us' = map (map (map six)) us /\ vs' = map (map (map six)) vs.
Proof.
  intros nr nc. induction times as [|t times IH]; intros us vs us' vs' LU LV RU RV (L1 & L2 & F); destruct us as [|U us]; destruct vs as [|V vs]; simpl in *; try discriminate.
  - destruct us'; [|discriminate]. destruct vs'; [|discriminate]. auto.
  - destruct us' as [|U' us']; [discriminate|]. destruct vs' as [|V' vs']; [discriminate|].
    inversion RU as [|? ? RU0 RU1]; inversion RV as [|? ? RV0 RV1]; subst.
    destruct (filled_entries nr nc t U V U' V' RU0 RV0 (F 0%nat _ _ _ eq_refl eq_refl eq_refl)) as [-> ->].
    destruct (IH us vs us' vs') as [-> ->]; try assumption; try lia; [|auto].
    split; [simpl in *; lia|]. split; [simpl in *; lia|]. intros i s A B P Q R. exact (F (S i) s A B P Q R).
Qed.

Lemma spaced_same : forall l m n a d, spaced l n a d -> spaced m n a d -> Forall2 same_num l m.
Proof.
  intros l m n a d [L1 S1] [L2 S2]. assert (L : length l = length m) by congruence. clear L1 L2.
  assert (G : forall i x y, nth_error l i = Some x -> nth_error m i = Some y -> same_num x y).
  { intros i x y X Y. destruct (S1 i x X) as (p & -> & P). destruct (S2 i y Y) as (q & -> & Q). simpl. rewrite P, Q. reflexivity. }
  clear S1 S2. revert m L G. induction l as [|x l IH]; intros m L G; destruct m as [|y m]; simpl in L; try discriminate; constructor.
  - apply (G 0%nat); reflexivity.
  - apply IH; [lia|]. intros i. apply (G (S i)).
Qed.

Lemma spaced_ends : forall l n a d, spaced l n a d -> (1 <= n)%nat ->
  exists x y, py_get l 0 = Ok (Some x) /\ py_get l (-1) = Ok (Some y) /\ (x == a)%Q /\ (y == a + inject_Z (Z.of_nat n - 1) * d)%Q.
Proof.
  intros l n a d [L S] N.
  destruct (nth_error l 0) as [x|] eqn:E0; [|apply nth_error_None in E0; lia].
  destruct (nth_error l (n - 1)) as [y|] eqn:E1; [|apply nth_error_None in E1; lia].
  destruct (S _ _ E0) as (p & -> & P). destruct (S _ _ E1) as (q & -> & Q).
  exists p, q. split; [apply (py_get_at _ l 0 _ E0)|]. split.
  - unfold py_get. rewrite py_pos_neg by lia. replace (Z.to_nat (-1 + Z.of_nat (length l))) with (n - 1)%nat by lia. rewrite E1. reflexivity.
  - split; [rewrite P; simpl; ring|]. rewrite Q. replace (Z.of_nat (n - 1)) with (Z.of_nat n - 1) by lia. reflexivity.
Qed.

Lemma shape_rect : forall nr nc a, (1 <= nr)%nat -> rect nr nc a -> shape a = (nr, nc).
Proof.
  intros nr nc a N [L R]. unfold shape. destruct a as [|row a]; [simpl in L; lia|]. rewrite L. f_equal. apply R. left. reflexivity.
Qed.

Lemma written_steps : forall nr nc times us vs, (1 <= nr)%nat -> Forall (rect nr nc) us -> Forall (rect nr nc) vs ->
  mapM (fun x : fields * arr * arr => let '(t, U, V) := x in step_lines t U V) (zip3 times us vs) =
  Ok (map section_lines (sections nr nc (zip3 times us vs))).
Proof.
  intros nr nc times us vs N RU RV. unfold sections. rewrite map_map. apply mapM_map. intros [[t U] V] I.
  destruct (in_zip3 _ _ _ _ _ _ _ _ _ I) as (_ & IU & IV). rewrite Forall_forall in RU, RV.
  apply step_lines_ok; auto.
Qed.
Lemma sections_ok : forall nr nc times us vs, Forall minute times ->
  forall s, In s (sections nr nc (zip3 times us vs)) -> minute (s_time s) /\ Forall (in_grid nr nc) (s_data s).
Proof.
  intros nr nc times us vs M s I. apply in_map_iff in I. destruct I as ([[t U] V] & <- & I). apply in_zip3 in I. rewrite Forall_forall in M.
  split; [apply M, I|apply entries_in_grid].
Qed.
Lemma sections_times : forall nr nc times us vs, length us = length times -> length vs = length times ->
  map s_time (sections nr nc (zip3 times us vs)) = times.
Proof.
  intros nr nc times us vs LU LV. unfold sections. rewrite map_map. destruct (zip3_map _ _ _ times us vs LU LV) as (P & _). rewrite <- P at 2.
  apply map_ext. intros [[t U] V]. reflexivity.
Qed.

Ltac says_now := first [apply says_here; [constructor|intros [? Hm]; simpl in Hm; repeat destruct Hm as [Hm|Hm]; try discriminate; destruct Hm] | apply says_later; says_now].
Ltac grid_now := repeat constructor; eexists _, _, _, _; (split; [reflexivity|split; [discriminate|constructor]]).

(** A grid of nodes, two or more in each direction, at equal distances: all
    comes back, the numbers to six decimals. *)
Theorem C155_nodes_partial : forall k u times lon lat us vs nr nc a da b db, (2 <= nr)%nat -> (2 <= nc)%nat ->
  spaced lon nr b db -> spaced lat nc a da -> proper nr nc times us vs ->
  exists file g, write_file k [u] times lon lat us vs = Ok file /\ read_file file = Ok g /\ back k u times lon lat us vs g.
Proof.
  intros k u times lon lat us vs nr nc a da b db NR NC SB SA (NE & LU & LV & M & RU & RV).
  destruct (spaced_ends lat nc a da SA ltac:(lia)) as (a0 & a1 & A0 & A1 & EA0 & EA1).
  destruct (spaced_ends lon nr b db SB ltac:(lia)) as (b0 & b1 & B0 & B1 & EB0 & EB1).
  pose (grid := [[W NUMROWS; I (Z.of_nat nr)]; [W NUMCOLS; I (Z.of_nat nc)]; [W STARTLAT; D (Some a0)]; [W STARTLONG; D (Some b0)];
     [W DLAT; D (ndiv (nsub (Some a1) (Some a0)) (Z.of_nat nc - 1))]; [W DLONG; D (ndiv (nsub (Some b1) (Some b0)) (Z.of_nat nr - 1))]]).
  assert (WR : write_file k [u] times lon lat us vs = Ok (text [] k [u] grid (sections nr nc (zip3 times us vs)))).
  { unfold write_file. destruct us as [|u0 us]; [simpl in LU; destruct times; [congruence|discriminate]|].
    rewrite (shape_rect nr nc u0) by (try lia; inversion RU; assumption).
    rewrite (proj1 SB), (proj1 SA), !Nat.eqb_refl. cbn [andb orb]. rewrite A0, A1, B0, B1. cbn [bind].
    rewrite (written_steps nr nc) by (try lia; assumption). cbn [bind]. reflexivity. }
  assert (DA : ndiv (nsub (Some a1) (Some a0)) (Z.of_nat nc - 1) = Some (1 / inject_Z (Z.of_nat nc - 1) * (a1 - a0))%Q).
  { unfold ndiv. destruct (Z.of_nat nc - 1 =? 0) eqn:E; [apply Z.eqb_eq in E; lia|reflexivity]. }
  assert (DB : ndiv (nsub (Some b1) (Some b0)) (Z.of_nat nr - 1) = Some (1 / inject_Z (Z.of_nat nr - 1) * (b1 - b0))%Q).
  { unfold ndiv. destruct (Z.of_nat nr - 1 =? 0) eqn:E; [apply Z.eqb_eq in E; lia|reflexivity]. }
  assert (MG : forall info, (forall k x, says grid k x -> dget k info = Some x) -> (forall k, ~ mentions grid k -> dget k info = None) ->
     make_grid info = Ok (linspace (Some b0) (Some (b0 + inject_Z (Z.of_nat nr - 1) * (1 / inject_Z (Z.of_nat nr - 1) * (b1 - b0))))%Q (Z.of_nat nr),
                          linspace (Some a0) (Some (a0 + inject_Z (Z.of_nat nc - 1) * (1 / inject_Z (Z.of_nat nc - 1) * (a1 - a0))))%Q (Z.of_nat nc),
                          Z.of_nat nr, Z.of_nat nc)).
  { intros info S N.
    rewrite (nodes_grid grid nr nc (inject_Z (Z.of_nat nr)) (inject_Z (Z.of_nat nc)) (Some a0) (Some b0) (Some (1 / inject_Z (Z.of_nat nc - 1) * (a1 - a0))%Q)
               (Some (1 / inject_Z (Z.of_nat nr - 1) * (b1 - b0))%Q)); try reflexivity; try assumption; unfold grid; rewrite ?DA, ?DB; try says_now.
    intros [ws H]. simpl in H. repeat destruct H as [H|H]; try discriminate. destruct H. }
  assert (NS : sections nr nc (zip3 times us vs) <> []).
  { destruct times; [congruence|]. destruct us; [discriminate|]. destruct vs; [discriminate|]. simpl. discriminate. }
  assert (GL : Forall grid_line grid) by (unfold grid; grid_now).
  destruct (read_text [] k u [] grid (sections nr nc (zip3 times us vs)) _ _ nr nc (Forall_nil _) GL NS (sections_ok nr nc times us vs M) MG) as (us' & vs' & R & F).
  rewrite sections_times in R by assumption.
  eexists _, _. split; [exact WR|]. split; [exact R|].
  destruct (read_sections_back nr nc times us vs us' vs' LU LV RU RV F) as [-> ->].
  unfold back. cbn [g_kind g_units g_times g_lon g_lat g_u g_v]. split; [reflexivity|]. split; [reflexivity|]. split; [reflexivity|].
  assert (G : forall n x y x0 d, (2 <= n)%nat -> (x0 == x)%Q -> (y == x + inject_Z (Z.of_nat n - 1) * d)%Q ->
    spaced (linspace (Some x0) (Some (x0 + inject_Z (Z.of_nat n - 1) * (1 / inject_Z (Z.of_nat n - 1) * (y - x0))))%Q (Z.of_nat n)) n x d).
  { clear. intros n x y x0 d N E0 E1. destruct (linspace_spaced x0 (x0 + inject_Z (Z.of_nat n - 1) * (1 / inject_Z (Z.of_nat n - 1) * (y - x0))) n d) as [L S].
    - intros _. rewrite E0, E1. field. apply inject_nz. lia.
    - split; [exact L|]. intros i z Z. destruct (S i z Z) as (q & -> & Q). exists q. split; [reflexivity|]. rewrite Q, E0. reflexivity. }
  split; [apply (spaced_same _ _ nr b db); [apply G; assumption|assumption]|].
  split; [apply (spaced_same _ _ nc a da); [apply G; assumption|assumption]|].
  split; apply forall2_six.
Qed.
Print Assumptions C155_nodes_partial.

(** A grid of cells: the edges at equal distances. *)
Theorem C155_cells : forall k u times lon lat us vs nr nc a da b db, (1 <= nr)%nat -> (1 <= nc)%nat ->
  spaced lon (S nr) b db -> spaced lat (S nc) a da -> proper nr nc times us vs ->
  exists file g, write_file k [u] times lon lat us vs = Ok file /\ read_file file = Ok g /\ back k u times lon lat us vs g.
Proof.
  intros k u times lon lat us vs nr nc a da b db NR NC SB SA (NE & LU & LV & M & RU & RV).
  destruct (spaced_ends lat (S nc) a da SA ltac:(lia)) as (a0 & a1 & A0 & A1 & EA0 & EA1).
  destruct (spaced_ends lon (S nr) b db SB ltac:(lia)) as (b0 & b1 & B0 & B1 & EB0 & EB1).
  pose (grid := [[W NUMROWS; I (Z.of_nat nr)]; [W NUMCOLS; I (Z.of_nat nc)]; [W LOLAT; D (Some a0)]; [W HILAT; D (Some a1)];
     [W LOLONG; D (Some b0)]; [W HILONG; D (Some b1)]]).
  assert (WR : write_file k [u] times lon lat us vs = Ok (text [] k [u] grid (sections nr nc (zip3 times us vs)))).
  { unfold write_file. destruct us as [|u0 us]; [simpl in LU; destruct times; [congruence|discriminate]|].
    rewrite (shape_rect nr nc u0) by (try lia; inversion RU; assumption).
    rewrite (proj1 SB), (proj1 SA), !Nat.eqb_refl.
    assert (E1 : Nat.eqb (S nr) nr = false) by (apply Nat.eqb_neq; lia). rewrite E1. cbn [andb orb]. rewrite A0, A1, B0, B1. cbn [bind].
    rewrite (written_steps nr nc) by (try lia; assumption). cbn [bind]. reflexivity. }
  assert (MG : forall info, (forall k x, says grid k x -> dget k info = Some x) -> (forall k, ~ mentions grid k -> dget k info = None) ->
     make_grid info = Ok (linspace (Some b0) (Some b1) (Z.of_nat nr + 1), linspace (Some a0) (Some a1) (Z.of_nat nc + 1), Z.of_nat nr, Z.of_nat nc)).
  { intros info S N.
    rewrite (cells_grid grid nr nc (inject_Z (Z.of_nat nr)) (inject_Z (Z.of_nat nc)) (Some a0) (Some a1) (Some b0) (Some b1));
      try reflexivity; try assumption; unfold grid; says_now. }
  assert (NS : sections nr nc (zip3 times us vs) <> []).
  { destruct times; [congruence|]. destruct us; [discriminate|]. destruct vs; [discriminate|]. simpl. discriminate. }
  assert (GL : Forall grid_line grid) by (unfold grid; grid_now).
  destruct (read_text [] k u [] grid (sections nr nc (zip3 times us vs)) _ _ nr nc (Forall_nil _) GL NS (sections_ok nr nc times us vs M) MG) as (us' & vs' & R & F).
  rewrite sections_times in R by assumption.
  eexists _, _. split; [exact WR|]. split; [exact R|].
  destruct (read_sections_back nr nc times us vs us' vs' LU LV RU RV F) as [-> ->].
  unfold back. cbn [g_kind g_units g_times g_lon g_lat g_u g_v]. split; [reflexivity|]. split; [reflexivity|]. split; [reflexivity|].
  assert (G : forall n x y x0 d, (x0 == x)%Q -> (y == x + inject_Z (Z.of_nat (S n) - 1) * d)%Q ->
    spaced (linspace (Some x0) (Some y) (Z.of_nat n + 1)) (S n) x d).
  { clear. intros n x y x0 d E0 E1. replace (Z.of_nat n + 1) with (Z.of_nat (S n)) by lia. destruct (linspace_spaced x0 y (S n) d) as [L S].
    - intros _. rewrite E0, E1. ring.
    - split; [exact L|]. intros i z Z. destruct (S i z Z) as (q & -> & Q). exists q. split; [reflexivity|]. rewrite Q, E0. reflexivity. }
  split; [apply (spaced_same _ _ (S nr) b db); [apply G; assumption|assumption]|].
  split; [apply (spaced_same _ _ (S nc) a da); [apply G; assumption|assumption]|].
  split; apply forall2_six.
Qed.
Print Assumptions C155_cells.

Definition ex_time : fields := mkFields 2002 1 30 1 0 0 0.
Definition ex_arr : arr := [[Some (1 # 2); Some (-3 # 1000000)]; [Some (1 # 3); None]]%Q.
Lemma ex_minute : minute ex_time.
Proof. split; [reflexivity|split; reflexivity]. Qed.
Lemma ex_rect : rect 2 2 ex_arr.
Proof. split; [reflexivity|]. intros row H. simpl in H. destruct H as [<-|[<-|[]]]; reflexivity. Qed.
Example C155_meets : spaced [Some 12; Some 15]%Q 2 12 3 /\ spaced [Some 44; Some 46]%Q 2 44 2 /\ proper 2 2 [ex_time] [ex_arr] [ex_arr].
Proof.
  split; [|split].
  - split; [reflexivity|]. intros i x H. destruct i as [|[|i]]; simpl in H; try (destruct i; discriminate); inversion H; eexists; (split; [reflexivity|reflexivity]).
  - split; [reflexivity|]. intros i x H. destruct i as [|[|i]]; simpl in H; try (destruct i; discriminate); inversion H; eexists; (split; [reflexivity|reflexivity]).
  - repeat split; try discriminate; repeat constructor; try apply ex_rect.
Qed.

(** What does not come back: a single row of nodes, which has no distance;
    nodes at unequal distances; seconds; units of several words. *)
Theorem C155_one_row_refuted : ~ forall k u times lon lat us vs nr nc a da b db, (1 <= nr)%nat -> (1 <= nc)%nat ->
  spaced lon nr b db -> spaced lat nc a da -> proper nr nc times us vs ->
  exists file g, write_file k [u] times lon lat us vs = Ok file /\ read_file file = Ok g /\ back k u times lon lat us vs g.
Proof.
  intros F. specialize (F Currents (W 99) [ex_time] [Some 12]%Q [Some 44; Some 46]%Q [[[Some 1; Some 2]]]%Q [[[Some 1; Some 2]]]%Q 1%nat 2%nat 44%Q 2%Q 12%Q 1%Q ltac:(lia) ltac:(lia)).
  destruct F as (file & g & WR & R & B).
  - split; [reflexivity|]. intros i x H. destruct i as [|i]; simpl in H; try (destruct i; discriminate); inversion H; eexists; (split; [reflexivity|reflexivity]).
  - apply C155_meets.
  - assert (RR : rect 1 2 [[Some 1; Some 2]]%Q) by (split; [reflexivity|]; intros row H; simpl in H; destruct H as [<-|[]]; reflexivity).
    repeat split; try discriminate; repeat constructor; apply RR.
  - vm_compute in WR. inversion WR; subst file. vm_compute in R. inversion R; subst g.
    destruct B as (_ & _ & _ & B & _). inversion B as [|? ? ? ? X]. exact X.
Qed.
Print Assumptions C155_one_row_refuted.
Theorem C155_unequal_refuted : ~ forall k u times lon lat us vs nr nc, length lon = nr -> length lat = nc -> (2 <= nr)%nat -> (2 <= nc)%nat ->
  Forall (fun x => x <> None) lon -> Forall (fun x => x <> None) lat -> proper nr nc times us vs ->
  exists file g, write_file k [u] times lon lat us vs = Ok file /\ read_file file = Ok g /\ back k u times lon lat us vs g.
Proof.
  intros F. assert (RR : rect 3 2 [[Some 1; Some 2]; [Some 1; Some 2]; [Some 1; Some 2]]%Q)
    by (split; [reflexivity|]; intros row H; simpl in H; destruct H as [<-|[<-|[<-|[]]]]; reflexivity).
  set (A := [[Some 1; Some 2]; [Some 1; Some 2]; [Some 1; Some 2]]%Q) in *.
  assert (P : proper 3 2 [ex_time] [A] [A]).
  { split; [discriminate|]. split; [reflexivity|]. split; [reflexivity|]. split; [constructor; [apply ex_minute|constructor]|].
    split; (constructor; [exact RR|constructor]). }
  assert (N1 : Forall (fun x : num => x <> None) [Some 10; Some 11; Some 14]%Q) by (constructor; [discriminate|constructor; [discriminate|constructor; [discriminate|constructor]]]).
  assert (N2 : Forall (fun x : num => x <> None) [Some 44; Some 46]%Q) by (constructor; [discriminate|constructor; [discriminate|constructor]]).
  specialize (F Currents (W 99) [ex_time] [Some 10; Some 11; Some 14]%Q [Some 44; Some 46]%Q [A] [A] 3%nat 2%nat eq_refl eq_refl ltac:(lia) ltac:(lia) N1 N2 P).
  destruct F as (file & g & WR & R & B). vm_compute in WR. inversion WR; subst file. vm_compute in R. inversion R; subst g.
  destruct B as (_ & _ & _ & B & _). inversion B as [|? ? ? ? _ B1]. inversion B1 as [|? ? ? ? X]. vm_compute in X. discriminate.
Qed.
Print Assumptions C155_unequal_refuted.
Theorem C155_seconds_refuted : ~ forall k u t lon lat U V nr nc a da b db file, (2 <= nr)%nat -> (2 <= nc)%nat ->
  spaced lon nr b db -> spaced lat nc a da -> rect nr nc U -> rect nr nc V -> fields_ok t = true ->
  write_file k [u] [t] lon lat [U] [V] = Ok file -> forall g, read_file file = Ok g -> g_times g = [t].
Proof.
  intros F. destruct C155_meets as (S1 & S2 & _).
  specialize (F Currents (W 99) (mkFields 2002 1 30 1 0 30 0) _ _ _ _ 2%nat 2%nat _ _ _ _ _ ltac:(lia) ltac:(lia) S1 S2 ex_rect ex_rect eq_refl eq_refl).
  specialize (F _ eq_refl). vm_compute in F. discriminate.
Qed.
Print Assumptions C155_seconds_refuted.
Theorem C155_units_refuted : ~ forall k us t lon lat U V nr nc a da b db file, (2 <= nr)%nat -> (2 <= nc)%nat -> us <> [] ->
  spaced lon nr b db -> spaced lat nc a da -> rect nr nc U -> rect nr nc V -> minute t ->
  write_file k us [t] lon lat [U] [V] = Ok file -> forall g, read_file file = Ok g -> [g_units g] = us.
Proof.
  intros F. destruct C155_meets as (S1 & S2 & _).
  specialize (F Currents [W 97; W 98; W 99] ex_time _ _ _ _ 2%nat 2%nat _ _ _ _ _ ltac:(lia) ltac:(lia) ltac:(discriminate) S1 S2 ex_rect ex_rect ex_minute eq_refl).
  specialize (F _ eq_refl). vm_compute in F. discriminate.
Qed.
Print Assumptions C155_units_refuted.

(** ** C156: reading any file of the format *)
Theorem C156_nodes : forall pre k u more grid ss nr nc qr qc a b da db,
  Forall before pre -> Forall grid_line grid -> ss <> [] ->
  says grid NUMROWS (Some qr) -> (qr == inject_Z (Z.of_nat nr))%Q -> says grid NUMCOLS (Some qc) -> (qc == inject_Z (Z.of_nat nc))%Q ->
  ~ mentions grid LOLAT -> says grid STARTLAT (Some a) -> says grid STARTLONG (Some b) -> says grid DLAT (Some da) -> says grid DLONG (Some db) ->
  (forall s, In s ss -> minute (s_time s) /\ Forall (in_grid nr nc) (s_data s)) ->
  exists lon lat us vs, read_file (text pre k (u :: more) grid ss) = Ok (Grd k u (map s_time ss) lon lat us vs) /\
    spaced lon nr b db /\ spaced lat nc a da /\ all_filled nr nc ss us vs.
Proof.
  intros pre k u more grid ss nr nc qr qc a b da db B G NE R ER C EC NL A BB DA DB H.
  destruct (read_text pre k u more grid ss _ _ nr nc B G NE H (nodes_grid grid nr nc qr qc _ _ _ _ R ER C EC NL A BB DA DB)) as (us & vs & RD & F).
  eexists _, _, us, vs. split; [exact RD|]. split; [|split; [|exact F]]; apply linspace_spaced; intros _; ring.
Qed.
Print Assumptions C156_nodes.
Theorem C156_cells : forall pre k u more grid ss nr nc qr qc a b c d,
  Forall before pre -> Forall grid_line grid -> ss <> [] -> (1 <= nr)%nat -> (1 <= nc)%nat ->
  says grid NUMROWS (Some qr) -> (qr == inject_Z (Z.of_nat nr))%Q -> says grid NUMCOLS (Some qc) -> (qc == inject_Z (Z.of_nat nc))%Q ->
  says grid LOLAT (Some a) -> says grid HILAT (Some b) -> says grid LOLONG (Some c) -> says grid HILONG (Some d) ->
  (forall s, In s ss -> minute (s_time s) /\ Forall (in_grid nr nc) (s_data s)) ->
  exists lon lat us vs, read_file (text pre k (u :: more) grid ss) = Ok (Grd k u (map s_time ss) lon lat us vs) /\
    spaced lon (S nr) c ((d - c) / inject_Z (Z.of_nat nr))%Q /\ spaced lat (S nc) a ((b - a) / inject_Z (Z.of_nat nc))%Q /\ all_filled nr nc ss us vs.
Proof.
  intros pre k u more grid ss nr nc qr qc a b c d B G NE NR NC R ER C EC A BB DA DB H.
  destruct (read_text pre k u more grid ss _ _ nr nc B G NE H (cells_grid grid nr nc qr qc _ _ _ _ R ER C EC A BB DA DB)) as (us & vs & RD & F).
  eexists _, _, us, vs. split; [exact RD|].
  assert (E : forall n, Z.of_nat n + 1 = Z.of_nat (S n)) by (intros; lia).
  split; [|split; [|exact F]]; rewrite E; apply linspace_spaced; intros _; rewrite Nat2Z.inj_succ; unfold Z.succ;
    replace (Z.of_nat nr + 1 - 1) with (Z.of_nat nr) by lia; replace (Z.of_nat nc + 1 - 1) with (Z.of_nat nc) by lia; field; apply inject_nz; lia.
Qed.
Print Assumptions C156_cells.
(** A line beyond the rows or the columns is an error, whatever else the file
    has. *)
Theorem C156_outside : forall pre k units grid t rest nr nc qr qc r c u v,
  Forall before pre -> Forall grid_line grid ->
  says grid NUMROWS (Some qr) -> (qr == inject_Z (Z.of_nat nr))%Q -> says grid NUMCOLS (Some qc) -> (qc == inject_Z (Z.of_nat nc))%Q ->
  In [I r; I c; u; v] rest -> (Z.of_nat nr < r \/ Z.of_nat nc < c) ->
  read_file (pre ++ (tag k :: units) :: grid ++ time_line t :: rest) = Raise OSErr.
Proof.
  intros pre k units grid t rest nr nc qr qc r c u v B G R ER C EC IN OUT. unfold read_file.
  assert (X : exists e, read_lines (pre ++ (tag k :: units) :: grid ++ time_line t :: rest) = Raise e); [|destruct X as [e ->]; reflexivity].
  unfold read_lines. destruct units as [|w more].
  { assert (H : read_header (pre ++ [tag k] :: grid ++ time_line t :: rest) = Raise IndexErr).
    { clear - B. induction B as [|l pre (w & ws & -> & N1 & N2) _ IH]; [destruct k; reflexivity|]. cbn [app read_header].
      destruct w as [z|x|z]; try exact IH.
      destruct (z =? GRIDCUR) eqn:E1; [apply Z.eqb_eq in E1; subst; congruence|].
      destruct (z =? GRIDWIND) eqn:E2; [apply Z.eqb_eq in E2; subst; congruence|]. exact IH. }
    rewrite H. simpl. eauto. }
  rewrite read_header_ok by exact B. cbn [bind].
  destruct (read_grid_ok grid rest (time_line t) [] G eq_refl) as (info & RG & S). rewrite RG. cbn [bind].
  apply info_says in S. destruct S as [S1 _].
  destruct (read_time (time_line t)) as [t'|e]; [|simpl; eauto]. cbn [bind].
  destruct (make_grid info) as [[[[lon lat] nr'] nc']|e] eqn:MG; [|simpl; eauto]. cbn [bind].
  assert (E : nr' = Z.of_nat nr /\ nc' = Z.of_nat nc).
  { unfold make_grid in MG. rewrite (key_ok _ _ _ (S1 _ _ R)) in MG. cbn [bind] in MG. rewrite (trunc_whole _ _ ER) in MG. cbn [bind] in MG.
    rewrite (key_ok _ _ _ (S1 _ _ C)) in MG. cbn [bind] in MG. rewrite (trunc_whole _ _ EC) in MG. cbn [bind] in MG.
    match type of MG with bind ?m _ = _ => destruct m; [|discriminate] end. cbn [bind] in MG.
    destruct ((Z.of_nat nr <? 0) || (Z.of_nat nc <? 0)); [discriminate|]. inversion MG. auto. }
  destruct E as [-> ->].
  destruct (outside (Z.of_nat nr) (Z.of_nat nc) rest [] t' (zeros (Z.of_nat nr) (Z.of_nat nc)) (zeros (Z.of_nat nr) (Z.of_nat nc)) r c u v) as [e E];
    try lia; try (apply zeros_rect; lia); try exact IN.
  rewrite E. simpl. eauto.
Qed.
Print Assumptions C156_outside.

(** Rows in any order, one of them twice, another not at all, a blank header
    more. *)
Definition ex_grid : list line := [[W NUMCOLS; I 2]; [W NUMROWS; D (Some 2)%Q]; [W STARTLAT; I 44]; [W STARTLONG; I 12]; [W DLAT; I 2]; [W DLONG; I 3]].
Example C156_meets : Forall before [[W 50; W 51]; [I 7]] /\ Forall grid_line ex_grid /\ says ex_grid NUMROWS (Some 2)%Q /\ says ex_grid NUMCOLS (Some 2)%Q /\
  ~ mentions ex_grid LOLAT /\ Forall (in_grid 2 2) [(2, 1, I 3, I 4); (1, 1, D (Some (1 # 2)), I 0); (2, 1, I 5, I 6)] /\
  last_line 2 1 [(2, 1, I 3, I 4); (1, 1, D (Some (1 # 2)), I 0); (2, 1, I 5, I 6)] = Some (I 5, I 6).
Proof.
  split; [repeat constructor; eexists _, _; (split; [reflexivity|split; discriminate])|].
  split; [unfold ex_grid; grid_now|]. split; [unfold ex_grid; says_now|]. split; [unfold ex_grid; says_now|].
  split; [intros [ws H]; simpl in H; repeat destruct H as [H|H]; try discriminate; destruct H|].
  split; [|reflexivity]. repeat constructor; simpl; try lia; eexists; constructor.
Qed.

(** Row 0 is taken for the last row; an empty line before the header is not
    passed over. *)
Theorem C156_row_zero_refuted : ~ forall pre k u grid ss nr nc g,
  says grid NUMROWS (Some (inject_Z (Z.of_nat nr))) -> says grid NUMCOLS (Some (inject_Z (Z.of_nat nc))) ->
  read_file (text pre k [u] grid ss) = Ok g -> forall s r c x y, In s ss -> In (r, c, x, y) (s_data s) -> 1 <= r <= Z.of_nat nr.
Proof.
  intros F. specialize (F [] Currents (W 99) ex_grid [Section_ ex_time [(0, 1, I 3, I 4)]] 2%nat 2%nat _ ltac:(unfold ex_grid; says_now) ltac:(unfold ex_grid; says_now) eq_refl
    _ 0 1 (I 3) (I 4) (or_introl eq_refl) (or_introl eq_refl)). lia.
Qed.
Print Assumptions C156_row_zero_refuted.
Theorem C156_blank_refuted : ~ forall pre k u grid ss g, Forall (fun l => forall w ws, l = w :: ws -> w <> W GRIDCUR /\ w <> W GRIDWIND) pre ->
  read_file (text [] k [u] grid ss) = Ok g -> read_file (text pre k [u] grid ss) = Ok g.
Proof.
  intros F. specialize (F [[]] Currents (W 99) ex_grid [Section_ ex_time []] _ ltac:(constructor; [discriminate|constructor]) eq_refl). vm_compute in F. discriminate.
Qed.
Print Assumptions C156_blank_refuted.

(** ** C157: currents from files *)

(** What is read is handed on. *)
Theorem C157_contents : forall l e c, init_from l e = Ok c ->
  exists g, read_file l = Ok g /\ c = Current (g_kind g) (g_units g) (g_times g) (g_lon g) (g_lat g) (g_u g) (g_v g) e.
Proof.
  intros l e c H. unfold init_from in H. destruct (read_file l) as [g|]; [|discriminate]. cbn [bind] in H.
  destruct (py_get (g_u g) 0); [|discriminate]. cbn [bind] in H. destruct (py_get (g_v g) 0); [|discriminate]. cbn [bind] in H.
  destruct (shape a), (shape a0). exists g. split; [reflexivity|].
  destruct (Nat.eqb (length (g_lon g)) n && Nat.eqb (length (g_lat g)) n0 && (Nat.eqb n n1 && Nat.eqb n0 n2)); [inversion H; reflexivity|].
  destruct (Nat.eqb (length (g_lon g) - 1) n && Nat.eqb (length (g_lat g) - 1) n0 && (Nat.eqb n n1 && Nat.eqb n0 n2)); discriminate.
Qed.
Print Assumptions C157_contents.
Lemma first_arrays : forall nr nc ss us vs, (1 <= nr)%nat -> ss <> [] -> all_filled nr nc ss us vs ->
  exists U V, py_get us 0 = Ok U /\ py_get vs 0 = Ok V /\ shape U = (nr, nc) /\ shape V = (nr, nc).
Proof.
  intros nr nc ss us vs N NE (L1 & L2 & F). destruct ss as [|s ss]; [congruence|]. destruct us as [|U us]; [discriminate|]. destruct vs as [|V vs]; [discriminate|].
  destruct (F 0%nat _ _ _ eq_refl eq_refl eq_refl) as (RU & RV & _). exists U, V.
  split; [reflexivity|]. split; [reflexivity|]. split; apply shape_rect; assumption.
Qed.
(** A file of nodes makes a current; a file of cells is refused. *)
Theorem C157_nodes : forall pre k u more grid ss nr nc qr qc a b da db e, (1 <= nr)%nat -> (1 <= nc)%nat ->
  Forall before pre -> Forall grid_line grid -> ss <> [] ->
  says grid NUMROWS (Some qr) -> (qr == inject_Z (Z.of_nat nr))%Q -> says grid NUMCOLS (Some qc) -> (qc == inject_Z (Z.of_nat nc))%Q ->
  ~ mentions grid LOLAT -> says grid STARTLAT (Some a) -> says grid STARTLONG (Some b) -> says grid DLAT (Some da) -> says grid DLONG (Some db) ->
  (forall s, In s ss -> minute (s_time s) /\ Forall (in_grid nr nc) (s_data s)) ->
  exists c, init_from (text pre k (u :: more) grid ss) e = Ok c /\ c_extrapolate c = e /\ c_times c = map s_time ss.
Proof.
  intros pre k u more grid ss nr nc qr qc a b da db e NR NC B G NE R ER C EC NL A BB DA DB H.
  destruct (C156_nodes pre k u more grid ss nr nc qr qc a b da db B G NE R ER C EC NL A BB DA DB H) as (lon & lat & us & vs & RD & [L1 _] & [L2 _] & F).
  destruct (first_arrays nr nc ss us vs NR NE F) as (U & V & P1 & P2 & S1 & S2).
  unfold init_from. rewrite RD. cbn [bind g_u g_v g_lon g_lat]. rewrite P1. cbn [bind]. rewrite P2. cbn [bind]. rewrite S1, S2, L1, L2, !Nat.eqb_refl. cbn [andb].
  eexists. split; [reflexivity|]. split; reflexivity.
Qed.
Print Assumptions C157_nodes.
Theorem C157_cells : forall pre k u more grid ss nr nc qr qc a b c d e, (1 <= nr)%nat -> (1 <= nc)%nat ->
  Forall before pre -> Forall grid_line grid -> ss <> [] ->
  says grid NUMROWS (Some qr) -> (qr == inject_Z (Z.of_nat nr))%Q -> says grid NUMCOLS (Some qc) -> (qc == inject_Z (Z.of_nat nc))%Q ->
  says grid LOLAT (Some a) -> says grid HILAT (Some b) -> says grid LOLONG (Some c) -> says grid HILONG (Some d) ->
  (forall s, In s ss -> minute (s_time s) /\ Forall (in_grid nr nc) (s_data s)) ->
  init_from (text pre k (u :: more) grid ss) e = Raise RuntimeErr.
Proof.
  intros pre k u more grid ss nr nc qr qc a b c d e NR NC B G NE R ER C EC A BB DA DB H.
  destruct (C156_cells pre k u more grid ss nr nc qr qc a b c d B G NE NR NC R ER C EC A BB DA DB H) as (lon & lat & us & vs & RD & [L1 _] & [L2 _] & F).
  destruct (first_arrays nr nc ss us vs NR NE F) as (U & V & P1 & P2 & S1 & S2).
  unfold init_from. rewrite RD. cbn [bind g_u g_v g_lon g_lat]. rewrite P1. cbn [bind]. rewrite P2. cbn [bind]. rewrite S1, S2, L1, L2.
  assert (E : Nat.eqb (S nr) nr = false) by (apply Nat.eqb_neq; lia). rewrite E. cbn [andb].
  replace (S nr - 1)%nat with nr by lia. replace (S nc - 1)%nat with nc by lia. rewrite !Nat.eqb_refl. reflexivity.
Qed.
Print Assumptions C157_cells.
(** The factory function forgets the setting for times outside of the file. *)
Theorem C157_extrapolation_refuted : ~ forall l e c, from_file l e = Ok c -> c_extrapolate c = e.
Proof.
  intros F. specialize (F (text [] Currents [W 99] ex_grid [Section_ ex_time []]) true _ eq_refl). discriminate.
Qed.
Print Assumptions C157_extrapolation_refuted.
