(** * Properties C146 to C149: the NetCDF file gives back what was written *)
From Coq Require Import Lia PeanoNat Sorted Bool.
From Verif Require Import Py PyLemmas NcModel NcSpec NcProofs.
Local Open Scope Z_scope.

Lemma special_standard : forall a, In a special -> In a standard.
Proof. intros a H. apply special_cases in H. unfold standard. simpl. intuition. Qed.
Lemma not_skipped : forall a, In a special -> ~ In a skipped.
Proof. intros a H. apply special_cases in H. unfold skipped. destruct H as [->|[->| ->]]; vm_compute; intuition discriminate. Qed.

Lemma update_special : forall w arrays names, (forall a, In a special -> In a arrays) ->
  forall a, In a special -> In a (update_arrays w arrays names).
Proof. intros w arrays names H a I. apply update_in. split; [left; auto|]. split; [intros _; apply not_skipped; exact I|right; exact I]. Qed.
Lemma update_pos : forall w arrays names, ~ In POS arrays -> ~ In POS (update_arrays w arrays names).
Proof. intros w arrays names H I. apply update_in in I. tauto. Qed.
Lemma update_good : forall w arrays names s, ~ In POS arrays -> complete names s -> good (update_arrays w arrays names) s.
Proof.
  intros w arrays names s P C. apply (complete_good names); [exact C|]. intros a I. split.
  - intros ->. exact (update_pos _ _ _ P I).
  - apply update_in in I. tauto.
Qed.

(** An outputter whose arrays are as any run leaves them. *)
Definition usable (o : nco) : Prop :=
  NoDup (n_arrays o) /\ (forall a, In a special -> In a (n_arrays o)) /\ ~ In POS (n_arrays o).
Lemma new_usable : forall o, n_arrays o = standard -> usable o.
Proof.
  intros o E. unfold usable. rewrite E. split; [|split].
  - repeat constructor; simpl; intuition discriminate.
  - apply special_standard.
  - vm_compute. intuition discriminate.
Qed.

(** ** C149: the arrays that are written *)
Theorem C149_usable : forall o w st names mb unc, usable o -> usable (prepare o w st names mb unc).
Proof.
  intros o w st names mb unc (N & S & P). unfold prepare. destruct unc as [[un umb]|]; unfold usable; simpl.
  - split; [|split].
    + apply update_nodup, update_nodup, N.
    + apply update_special, update_special, S.
    + apply update_pos, update_pos, P.
  - split; [|split]; [apply update_nodup, N|apply update_special, S|apply update_pos, P].
Qed.
Print Assumptions C149_usable.

(** The arrays of a file: those that [write_output] writes. *)
Definition written (o : option file) (a : Z) : Prop := exists f, o = Some f /\ In a (map fst (f_vars f)).

Lemma written_new : forall st arrays mb a, written (Some (new_file st arrays mb)) a <-> In a arrays.
Proof.
  intros st arrays mb a. unfold written, new_file. split.
  - intros (f & E & I). inversion E; subst f. simpl in I. rewrite map_map in I. simpl in I. rewrite map_id in I. exact I.
  - intros I. eexists. split; [reflexivity|]. simpl. rewrite map_map. simpl. rewrite map_id. exact I.
Qed.

Lemma first_in : forall w names a, In a (update_arrays w standard names) <-> wanted w names a.
Proof.
  intros w names a. rewrite update_in. unfold wanted. pose proof (not_skipped a) as NS. pose proof (special_standard a) as SS.
  assert (D : w = Standard -> a <> a \/ w = Standard) by tauto.
  destruct w; split.
  - intros ([A|(A & _)] & _ & B); [tauto|congruence].
  - intros (A & B). split; [auto|]. split; [discriminate|exact A].
  - intros ([A|(_ & A)] & B & C); split; try exact C; split; try (apply B; reflexivity); tauto.
  - intros (A & B & C). split; [|split; [intros _; exact C|exact A]]. destruct B as [B|B]; [auto|right; split; [discriminate|exact B]].
  - intros ([A|(_ & A)] & B & C); split; try exact C; tauto.
  - intros (A & B). split; [|split; [discriminate|exact A]]. destruct B as [B|B]; [auto|right; split; [discriminate|exact B]].
Qed.

(** In the first run the arrays that are asked for are written, to both files. *)
Theorem C149_first_partial : forall o w st names mb a, n_arrays o = standard ->
  (written (n_fc (prepare o w st names mb None)) a <-> wanted w names a) /\
  forall umb, (written (n_fc (prepare o w st names mb (Some (names, umb)))) a <-> wanted w names a) /\
              (written (n_unc (prepare o w st names mb (Some (names, umb)))) a <-> wanted w names a).
Proof.
  intros o w st names mb a E. unfold prepare. simpl. rewrite !written_new, E. split; [apply first_in|].
  intros umb. rewrite !written_new. rewrite update_twice. split; apply first_in.
Qed.
Print Assumptions C149_first_partial.

(** A mover and a spill: elements with the arrays status_codes and mass, and
    one more that is usually skipped. *)
Example C149_first_meets : let o := Nco standard 0 None None in
  n_arrays (prepare o Standard 0 [POS; 10; 13; 20; 50] [] None) = [LAT; LON; DEP; 10; 13] /\
  n_arrays (prepare o Most 0 [POS; 10; 13; 20; 50] [] None) = [LAT; LON; DEP; 10; 13; 50] /\
  n_arrays (prepare o All 0 [POS; 10; 13; 20; 50] [] None) = [LAT; LON; DEP; 10; 13; 20; 50].
Proof. repeat split. Qed.

(** An array that the elements of the first run did not have is not written in
    a second run although they have it then. *)
Theorem C149_second_run_refuted : ~ forall o w st names mb st' names' mb' a, n_arrays o = standard -> wanted w names' a ->
  written (n_fc (prepare (prepare o w st names mb None) w st' names' mb' None)) a.
Proof.
  intros F. specialize (F (Nco standard 0 None None) Standard 0 [POS; 10] [] 0 [POS; 10; 13] [] 13 eq_refl).
  destruct F as (f & E & I).
  - split; [left; simpl; auto|unfold standard; simpl; tauto].
  - inversion E; subst f. vm_compute in I. intuition discriminate.
Qed.
Print Assumptions C149_second_run_refuted.
(** After a run with 'all', a run with 'standard' still writes all arrays. *)
Theorem C149_switch_refuted : ~ forall o st names mb st' mb' a, n_arrays o = standard ->
  written (n_fc (prepare (prepare o All st names mb None) Standard st' names mb' None)) a -> wanted Standard names a.
Proof.
  intros F. specialize (F (Nco standard 0 None None) 0 [POS; 50] [] 0 [] 50 eq_refl).
  destruct F as [_ F].
  - eexists. split; [reflexivity|]. vm_compute. auto.
  - vm_compute in F. intuition discriminate.
Qed.
Print Assumptions C149_switch_refuted.
(** Reading 'most' gives no arrays at all, not even the positions. *)
Theorem C149_read_most_refuted : forall f s t arrays mb, (forall a, In a (map fst (f_vars f)) -> ~ In a letters) ->
  read_data f s AMost = Ok (t, arrays, mb) -> arrays = [].
Proof.
  intros f s t arrays mb H R. unfold read_data in R.
  destruct (read_index f s) as [i|]; simpl in R; [|discriminate].
  destruct (sum_counts (f_counts f) 0 (Z.to_nat i)) as [lo|]; simpl in R; [|discriminate].
  destruct (py_get (f_counts f) i) as [n|]; simpl in R; [|discriminate].
  destruct (py_get (f_times f) i) as [tt|]; simpl in R; [|discriminate].
  assert (D : forall b, In b letters -> dget b (f_vars f) = None).
  { intros b B. apply dget_none. intros X. exact (H b X B). }
  rewrite (D 40), (D 41), (D 42), (D 43) in R by (simpl; tauto). simpl in R.
  destruct (read_mb f i); simpl in R; [inversion R; reflexivity|discriminate].
Qed.
Print Assumptions C149_read_most_refuted.

(** ** C146: what was written is read *)

(** A run that is written: the elements have the arrays [names], the mass
    balance is there from the start or never. *)
Definition run_ok (names mb umb : list Z) (u : bool) (l : list (snap * option snap)) : Prop :=
  Forall (fun p => complete names (fst p) /\ balanced mb (fst p) /\
    match snd p with Some s => u = true /\ complete names s /\ balanced umb s | None => u = false end) l.
Definition equal_counts (l : list (snap * option snap)) : Prop :=
  Forall (fun p => match snd p with Some s => length (s_pos s) = length (s_pos (fst p)) | None => True end) l.

(** The file gives back, at each index, what was written. *)
Definition gives_back (o : option file) (chosen : Z -> Prop) (h : list snap) : Prop :=
  exists f, o = Some f /\ f_times f = map (fun s => s_time s - f_start f) h /\
    forall k s w, nth_error h k = Some s -> w <> AMost ->
      exists r, read_data f (ByIndex (Z.of_nat k)) w = Ok r /\ reads_as chosen s w r.

Lemma gives : forall st arrays mb h f (chosen : Z -> Prop), inv st arrays mb h f -> Forall (good arrays) h ->
  Forall (balanced mb) h -> (forall a, In a special -> In a arrays) -> ~ In POS arrays ->
  (forall a, In a arrays <-> chosen a) -> gives_back (Some f) chosen h.
Proof.
  intros st arrays mb h f chosen I G B S P E. exists f. split; [reflexivity|]. split.
  - rewrite (i_start _ _ _ _ _ I). exact (i_times _ _ _ _ _ I).
  - intros k s w H W.
    destruct (read_data_ok st arrays mb h f I G S k s H w W P) as ([[t ar] m] & R & X).
    + rewrite Forall_forall in B. apply B. apply nth_error_In in H. exact H.
    + exists (t, ar, m). split; [exact R|]. unfold reads_as in *. destruct X as (X1 & X2 & X3 & X4 & X5).
      repeat split; auto.
      * intros a l A1 A2 A3. apply X3; [exact A1|exact A2|apply E; exact A3].
      * intros a [A|[A1 A2]]; apply X4; [left; exact A|right; split; [exact A1|]]. intros Y. apply A2, E, Y.
Qed.

Lemma run_parts : forall names mb umb u l, run_ok names mb umb u l ->
  Forall (complete names) (map fst l) /\ Forall (balanced mb) (map fst l) /\
  Forall (complete names) (unc_of l) /\ Forall (balanced umb) (unc_of l).
Proof.
  intros names mb umb u l H. induction H as [|p l (A & B & C) H (I1 & I2 & I3 & I4)]; simpl; [repeat split; constructor|].
  split; [constructor; assumption|]. split; [constructor; assumption|].
  destruct (snd p) as [s|]; simpl; [|auto]. destruct C as (_ & C1 & C2). split; constructor; assumption.
Qed.

Lemma run_writes : forall o w st names mb umb (u : bool) l, usable o -> NoDup mb -> ~ In TIME mb -> NoDup umb -> ~ In TIME umb ->
  run_ok names mb umb u l -> equal_counts l ->
  let arrays := n_arrays (prepare o w st names mb (if u then Some (names, umb) else None)) in
  exists o' f, write_all (prepare o w st names mb (if u then Some (names, umb) else None)) l = Ok o' /\
    n_arrays o' = arrays /\ n_fc o' = Some f /\ inv st arrays mb (map fst l) f /\
    (u = true -> exists g, n_unc o' = Some g /\ inv st arrays umb (unc_of l) g) /\
    Forall (good arrays) (map fst l) /\ Forall (good arrays) (unc_of l) /\
    forall a, In a arrays <-> In a (update_arrays w (n_arrays o) names).
Proof.
  intros o w st names mb umb u l U NM TM NU TU R EC arrays.
  destruct (run_parts _ _ _ _ _ R) as (R1 & R2 & R3 & R4).
  assert (AE : forall a, In a arrays <-> In a (update_arrays w (n_arrays o) names)).
  { intros a. unfold arrays. destruct u; simpl; [apply update_twice|tauto]. }
  assert (GD : forall s, complete names s -> good arrays s).
  { intros s C a I. apply AE in I. destruct U as (_ & _ & P). exact (update_good w _ names s P C a I). }
  assert (US : usable (prepare o w st names mb (if u then Some (names, umb) else None))) by (apply C149_usable; exact U).
  destruct US as (N & S & P). fold arrays in N, S, P.
  assert (G1 : Forall (good arrays) (map fst l)) by (eapply Forall_impl; [exact GD|exact R1]).
  assert (G2 : Forall (good arrays) (unc_of l)) by (eapply Forall_impl; [exact GD|exact R3]).
  assert (FL : Forall (fun p => good arrays (fst p) /\ balanced mb (fst p) /\ same_count p /\
    match snd p with Some s => u = true /\ good arrays s /\ balanced umb s | None => u = false end) l).
  { clear - R EC GD. unfold run_ok, equal_counts in *. rewrite Forall_forall in *. intros p I.
    destruct (R p I) as (A & B & C). specialize (EC p I). split; [auto|]. split; [exact B|]. split; [exact EC|].
    destruct (snd p); [|exact C]. destruct C as (C1 & C2 & C3). auto. }
  set (fu := if u then Some (new_file st arrays umb) else None : option file).
  destruct (write_all_ok st arrays mb umb u l [] [] (new_file st (update_arrays w (n_arrays o) names) mb) fu N
      (Forall_nil _) (Forall_nil _) (or_introl eq_refl) FL) as (f' & fu' & W & I & Iu).
  - apply (inv_ext st (update_arrays w (n_arrays o) names)); [intros a; symmetry; apply AE|]. apply new_inv; assumption.
  - unfold fu. destruct u; [apply new_inv; assumption|reflexivity].
  - simpl in W, I.
    assert (PE : prepare o w st names mb (if u then Some (names, umb) else None) =
                 Nco arrays 0 (Some (new_file st (update_arrays w (n_arrays o) names) mb)) fu).
    { unfold fu, arrays. destruct u; reflexivity. }
    rewrite PE. unfold total in W at 1. simpl in W.
    eexists. exists f'. split; [exact W|]. simpl. split; [reflexivity|]. split; [reflexivity|]. split; [exact I|].
    split; [|auto]. intros ->. destruct fu' as [g|]; [|discriminate]. exists g. auto.
Qed.

(** Without uncertainty every step is read back, for a new outputter ... *)
Theorem C146_read_back : forall o w st names mb l, n_arrays o = standard -> NoDup mb -> ~ In TIME mb ->
  run_ok names mb [] false (map (fun s => (s, None)) l) ->
  exists o', write_all (prepare o w st names mb None) (map (fun s => (s, None)) l) = Ok o' /\
    gives_back (n_fc o') (wanted w names) l.
Proof.
  intros o w st names mb l E NM TM R.
  assert (EC : equal_counts (map (fun s => (s, None)) l)).
  { unfold equal_counts. rewrite Forall_forall. intros p I. apply in_map_iff in I. destruct I as (s & <- & _). exact Logic.I. }
  destruct (new_usable o E) as (N & S & P).
  destruct (run_writes o w st names mb [] false _ (conj N (conj S P)) NM TM (NoDup_nil _) (fun x => x) R EC) as (o' & f & W & A & F & I & _ & G & _ & AE).
  exists o'. split; [exact W|]. rewrite F.
  assert (M : map fst (map (fun s : snap => (s, @None snap)) l) = l) by (rewrite map_map; simpl; apply map_id).
  rewrite M in *. destruct (run_parts _ _ _ _ _ R) as (_ & B & _). rewrite M in B.
  destruct (C149_usable o w st names mb None (conj N (conj S P))) as (_ & S' & P').
  eapply gives; [exact I|exact G|exact B|exact S'|exact P'|].
  intros a. rewrite AE, E. apply first_in.
Qed.
Print Assumptions C146_read_back.

(** ... and for one that was used before, of the arrays that it writes. *)
Theorem C146_again : forall o w st names mb l, usable o -> NoDup mb -> ~ In TIME mb ->
  run_ok names mb [] false (map (fun s => (s, None)) l) ->
  exists o', write_all (prepare o w st names mb None) (map (fun s => (s, None)) l) = Ok o' /\ usable o' /\
    gives_back (n_fc o') (written (n_fc (prepare o w st names mb None))) l.
Proof.
  intros o w st names mb l U NM TM R.
  assert (EC : equal_counts (map (fun s => (s, None)) l)).
  { unfold equal_counts. rewrite Forall_forall. intros p I. apply in_map_iff in I. destruct I as (s & <- & _). exact Logic.I. }
  destruct (run_writes o w st names mb [] false _ U NM TM (NoDup_nil _) (fun x => x) R EC) as (o' & f & W & A & F & I & _ & G & _ & AE).
  pose proof (C149_usable o w st names mb None U) as U'.
  exists o'. split; [exact W|]. split; [unfold usable in *; rewrite A; exact U'|]. rewrite F.
  assert (M : map fst (map (fun s : snap => (s, @None snap)) l) = l) by (rewrite map_map; simpl; apply map_id).
  rewrite M in *. destruct (run_parts _ _ _ _ _ R) as (_ & B & _). rewrite M in B.
  destruct U' as (_ & S' & P').
  eapply gives; [exact I|exact G|exact B|exact S'|exact P'|].
  intros a. simpl. rewrite written_new. tauto.
Qed.
Print Assumptions C146_again.

(** With uncertainty: when both sets always have as many elements, both files
    give back what was written. *)
Theorem C146_uncertain_partial : forall o w st names mb umb l, n_arrays o = standard ->
  NoDup mb -> ~ In TIME mb -> NoDup umb -> ~ In TIME umb -> run_ok names mb umb true l -> equal_counts l ->
  exists o', write_all (prepare o w st names mb (Some (names, umb))) l = Ok o' /\
    gives_back (n_fc o') (wanted w names) (map fst l) /\
    gives_back (n_unc o') (wanted w names) (flat_map (fun p => match snd p with Some s => [s] | None => [] end) l).
Proof.
  intros o w st names mb umb l E NM TM NU TU R EC.
  destruct (new_usable o E) as (N & S & P).
  destruct (run_writes o w st names mb umb true l (conj N (conj S P)) NM TM NU TU R EC) as (o' & f & W & A & F & I & Iu & G & Gu & AE).
  destruct (Iu eq_refl) as (g & FU & I').
  exists o'. split; [exact W|]. rewrite F, FU.
  destruct (run_parts _ _ _ _ _ R) as (_ & B & _ & B').
  destruct (C149_usable o w st names mb (Some (names, umb)) (conj N (conj S P))) as (_ & S' & P').
  assert (X : forall a, In a (n_arrays (prepare o w st names mb (Some (names, umb)))) <-> wanted w names a).
  { intros a. rewrite AE, E. apply first_in. }
  split.
  - eapply gives; [exact I|exact G|exact B|exact S'|exact P'|exact X].
  - eapply gives; [exact I'|exact Gu|exact B'|exact S'|exact P'|exact X].
Qed.
Print Assumptions C146_uncertain_partial.

(** A run with a mass balance and an array, forecast and uncertain; the third
    step has no elements left. *)
Example C146_read_back_meets :
  run_ok [POS; 13; 50] [90] [90] true
    [ (Snap 100 [(1, 2, 0); (3, 4, 0)] [(13, [7; 8]); (50, [5; 6])] [(90, 15)],
       Some (Snap 100 [(1, 2, 1); (3, 5, 0)] [(13, [7; 8]); (50, [5; 6])] [(90, 15)]));
      (Snap 200 [(9, 9, 0)] [(13, [6]); (50, [1])] [(90, 6); (91, 2)],
       Some (Snap 200 [(8, 9, 0)] [(13, [6]); (50, [1])] [(90, 6)]));
      (Snap 300 [] [(13, []); (50, [])] [(90, 0)], Some (Snap 300 [] [(13, []); (50, [])] [(90, 0)])) ].
Proof.
  assert (C : forall s l1 l2, dget 13 (s_arr s) = Some l1 -> dget 50 (s_arr s) = Some l2 -> length l1 = length (s_pos s) ->
    length l2 = length (s_pos s) -> complete [POS; 13; 50] s).
  { intros s l1 l2 A B X Y a [<-|[<-|[<-|[]]]]; [congruence|eauto|eauto]. }
  assert (B1 : forall s v, s_mb s = [(90, v)] -> balanced [90] s).
  { intros s v E. unfold balanced. rewrite E. simpl. split; [split; discriminate|]. split; [repeat constructor; simpl; tauto|].
    intros [X|[]]; discriminate. }
  unfold run_ok. repeat constructor; simpl; try (eapply C; reflexivity); try (eapply B1; reflexivity).
  all: try discriminate.
  all: intros X; repeat (destruct X as [X|X]; [discriminate|]); exact X.
Qed.

(** When the sets have different numbers of elements, as they do once elements
    have left the map, the forecast file loses data. *)
Theorem C146_uncertain_refuted : ~ forall o w st names mb umb l, n_arrays o = standard ->
  NoDup mb -> ~ In TIME mb -> NoDup umb -> ~ In TIME umb -> run_ok names mb umb true l ->
  exists o', write_all (prepare o w st names mb (Some (names, umb))) l = Ok o' /\ gives_back (n_fc o') (wanted w names) (map fst l).
Proof.
  intros F.
  specialize (F (Nco standard 0 None None) Standard 0 [POS] [] []
    [ (Snap 0 [(1, 1, 0); (2, 2, 0)] [] [], Some (Snap 0 [(1, 1, 0)] [] []));
      (Snap 9 [(3, 3, 0); (4, 4, 0)] [] [], Some (Snap 9 [(3, 3, 0)] [] [])) ] eq_refl (NoDup_nil _) (fun x => x) (NoDup_nil _) (fun x => x)).
  destruct F as (o' & W & f & E & _ & G).
  - assert (C : forall s, complete [POS] s) by (intros s a [<-|[]]; congruence).
    unfold run_ok. repeat constructor; simpl; auto; apply C.
  - vm_compute in W. inversion W; subst o'. clear W. simpl in E. inversion E; subst f. clear E.
    destruct (G O _ (AList [POS]) eq_refl ltac:(discriminate)) as (r & R & X).
    vm_compute in R. inversion R; subst r. clear R. simpl in X. destruct X as (_ & X & _).
    specialize (X (or_introl eq_refl)). vm_compute in X. discriminate.
Qed.
Print Assumptions C146_uncertain_refuted.

(** A mass balance that is empty when the run is prepared and is there later
    ends the output with an error. *)
Theorem C146_late_balance_refuted : ~ forall o w st names mb l, n_arrays o = standard -> NoDup mb -> ~ In TIME mb ->
  Forall (complete names) l -> Forall (fun s => NoDup (map fst (s_mb s)) /\ ~ In TIME (map fst (s_mb s))) l ->
  exists o', write_all (prepare o w st names mb None) (map (fun s => (s, None)) l) = Ok o'.
Proof.
  intros F.
  destruct (F (Nco standard 0 None None) Standard 0 [POS] [] [Snap 0 [(1, 1, 0)] [] [(90, 5)]] eq_refl (NoDup_nil _) (fun x => x)) as (o' & W).
  - repeat constructor. intros a [<-|[]]; congruence.
  - repeat constructor; simpl; [tauto|intros [X|[]]; discriminate].
  - vm_compute in W. discriminate.
Qed.
Print Assumptions C146_late_balance_refuted.

(** ** C147: reading at a time *)
Definition stamps (f : file) : list Z := map (fun x => f_start f + x) (f_times f).

Lemma stamps_shift : forall f, f_times f = map (fun x => x - f_start f) (stamps f).
Proof. intros f. unfold stamps. rewrite map_map. rewrite <- (map_id (f_times f)) at 1. apply map_ext. intros. lia. Qed.

(** In a file of a run forward in time, reading at a time is reading at the
    index of the first of the nearest times. *)
Theorem C147_nearest_partial : forall f t w, f_times f <> [] -> Forall (fun x => f_start f <= x) (stamps f) -> StronglySorted Z.lt (stamps f) ->
  exists k, nearest (stamps f) t k /\ read_data f (ByTime t) w = read_data f (ByIndex (Z.of_nat k)) w.
Proof.
  intros f t w NE FS SS. unfold read_data.
  assert (RK : forall k, read_index f (ByIndex (Z.of_nat k)) = Ok (Z.of_nat k)).
  { intros k. unfold read_index. destruct (Z.of_nat k <? 0) eqn:E; [apply Z.ltb_lt in E; lia|reflexivity]. }
  assert (X : exists k, nearest (stamps f) t k /\ read_index f (ByTime t) = Ok (Z.of_nat k)).
  2:{ destruct X as (k & A & B). exists k. split; [exact A|]. rewrite RK, B. reflexivity. }
  unfold read_index. destruct (t - f_start f <? 0) eqn:T.
  - apply Z.ltb_lt in T. exists O. split; [|reflexivity].
    unfold nearest. assert (NS : stamps f <> []) by (unfold stamps; destruct (f_times f); [congruence|discriminate]).
    destruct (stamps f) as [|x r]; [congruence|]. clear NS. exists x. split; [reflexivity|].
    inversion FS as [|? ? FX FR]; subst. inversion SS as [|? ? SR SX]; subst. split; [|intros; lia].
    intros [|j] y Hj; simpl in Hj; [inversion Hj; lia|]. rewrite Forall_forall in SX. apply nth_error_In in Hj. specialize (SX y Hj). lia.
  - destruct (argmin_spec (map (fun x => Z.abs (x - (t - f_start f))) (f_times f))) as (k & x & A & B & C & D).
    { destruct (f_times f); [congruence|discriminate]. }
    exists k. split; [|exact A]. apply (nearest_shift (stamps f) (f_start f)). rewrite <- stamps_shift.
    rewrite nth_error_map in B. destruct (nth_error (f_times f) k) as [v|] eqn:V; [|discriminate]. simpl in B. inversion B; subst x.
    exists v. split; [exact V|]. split.
    + intros j y Hj. specialize (C j (Z.abs (y - (t - f_start f)))). rewrite nth_error_map, Hj in C. exact (C eq_refl).
    + intros j y J Hj. specialize (D j (Z.abs (y - (t - f_start f))) J). rewrite nth_error_map, Hj in D. exact (D eq_refl).
Qed.
Print Assumptions C147_nearest_partial.

(** Each written time reads its own step. *)
Theorem C147_exact_partial : forall f k t w, Forall (fun x => f_start f <= x) (stamps f) -> StronglySorted Z.lt (stamps f) ->
  nth_error (stamps f) k = Some t -> read_data f (ByTime t) w = read_data f (ByIndex (Z.of_nat k)) w.
Proof.
  intros f k t w FS SS H.
  destruct (C147_nearest_partial f t w) as (k' & A & B); [|exact FS|exact SS|].
  - intros E. unfold stamps in H. rewrite E in H. destruct k; discriminate.
  - rewrite B. replace k' with k; [reflexivity|]. destruct A as (x & X1 & X2 & X3).
    pose proof (X2 k t H) as Y. assert (x = t) by lia. subst x.
    assert (U : NoDup (stamps f)).
    { clear - SS. induction SS as [|a l S IH F]; constructor; [|assumption]. intros I. rewrite Forall_forall in F. specialize (F a I). lia. }
    apply (NoDup_nth_error (stamps f)); [exact U| |congruence]. apply nth_error_Some. congruence.
Qed.
Print Assumptions C147_exact_partial.

Example C147_meets : let f := File 100 [0; 60; 120] [1; 1; 1]%nat [] None in
  StronglySorted Z.lt (stamps f) /\ read_index f (ByTime 190) = Ok 1 /\ read_index f (ByTime 191) = Ok 2 /\ read_index f (ByTime 50) = Ok 0.
Proof. repeat split; repeat constructor; lia. Qed.

(** In the file of a run backward in time every other time reads the first
    step. *)
Theorem C147_backward_refuted : ~ forall f t w, f_times f <> [] -> StronglySorted Z.gt (stamps f) ->
  exists k, nearest (stamps f) t k /\ read_data f (ByTime t) w = read_data f (ByIndex (Z.of_nat k)) w.
Proof.
  intros F. destruct (F (File 100 [0; -60] [0; 0]%nat [] None) 40 (AList [])) as (k & (x & A & B & C) & E).
  - discriminate.
  - repeat constructor.
  - destruct k as [|[|k]].
    + inversion A; subst x. specialize (B 1%nat 40 eq_refl). lia.
    + vm_compute in E. discriminate.
    + simpl in A. destruct k; discriminate.
Qed.
Print Assumptions C147_backward_refuted.
Theorem C147_backward_first : forall f t w, t < f_start f -> read_data f (ByTime t) w = read_data f (ByIndex 0) w.
Proof.
  intros f t w H. unfold read_data, read_index. destruct (t - f_start f <? 0) eqn:E; [reflexivity|]. apply Z.ltb_ge in E. lia.
Qed.
Print Assumptions C147_backward_first.

(** ** C148: reading at an index *)
Theorem C148_negative : forall f i w, 1 <= i <= Z.of_nat (length (f_times f)) ->
  read_data f (ByIndex (- i)) w = read_data f (ByIndex (Z.of_nat (length (f_times f)) - i)) w.
Proof.
  intros f i w H. unfold read_data, read_index. destruct (- i <? 0) eqn:E; [|apply Z.ltb_ge in E; lia].
  destruct (Z.of_nat (length (f_times f)) - i <? 0) eqn:G; [apply Z.ltb_lt in G; lia|].
  replace (Z.of_nat (length (f_times f)) + - i) with (Z.of_nat (length (f_times f)) - i) by lia. reflexivity.
Qed.
Print Assumptions C148_negative.

Lemma sum_counts_index : forall counts n from e, 0 <= from -> sum_counts counts from n = Raise e -> e = IndexErr.
Proof.
  intros counts n. induction n as [|n IH]; intros from e F H; [discriminate|]. simpl in H. unfold py_get in H.
  destruct (py_pos (length counts) from); [|inversion H; reflexivity].
  destruct (nth_error counts n0); [|inversion H; reflexivity]. simpl in H.
  destruct (sum_counts counts (from + 1) n) as [r|e'] eqn:E; simpl in H; [discriminate|]. inversion H; subst. apply (IH (from + 1)); [lia|exact E].
Qed.
(** A file has a count for each time. *)
Theorem C148_too_large : forall f i w, length (f_counts f) = length (f_times f) -> Z.of_nat (length (f_times f)) <= i ->
  read_data f (ByIndex i) w = Raise IndexErr.
Proof.
  intros f i w L H. unfold read_data, read_index. destruct (i <? 0) eqn:E; [apply Z.ltb_lt in E; lia|]. simpl bind.
  destruct (sum_counts (f_counts f) 0 (Z.to_nat i)) as [lo|e] eqn:S.
  - simpl bind. unfold py_get, py_pos at 1. rewrite L.
    destruct (0 <=? i) eqn:A; [|apply Z.leb_gt in A; lia]. destruct (i <? Z.of_nat (length (f_times f))) eqn:B; [apply Z.ltb_lt in B; lia|].
    reflexivity.
  - apply sum_counts_index in S; [|lia]. subst e. reflexivity.
Qed.
Print Assumptions C148_too_large.
(** Without a time or an index only a file with one step can be read. *)
Theorem C148_only : forall f w,
  ((1 < length (f_times f))%nat -> read_data f Only w = Raise ValueErr) /\
  ((length (f_times f) <= 1)%nat -> read_data f Only w = read_data f (ByIndex 0) w).
Proof.
  intros f w. unfold read_data, read_index. destruct (1 <? length (f_times f))%nat eqn:E.
  - apply Nat.ltb_lt in E. split; [reflexivity|lia].
  - apply Nat.ltb_ge in E. split; [lia|reflexivity].
Qed.
Print Assumptions C148_only.

(** A negative index before the first step is not refused: it gives the time
    of the last step with the positions of the first. *)
Theorem C148_too_small_refuted : ~ forall f i w, length (f_counts f) = length (f_times f) -> i < - Z.of_nat (length (f_times f)) ->
  read_data f (ByIndex i) w = Raise IndexErr.
Proof.
  intros F. specialize (F (File 100 [0; 60] [1; 1]%nat [(LON, [Some 1; Some 2]); (LAT, [Some 3; Some 4]); (DEP, [Some 0; Some 0])] None) (-3) (AList [POS]) eq_refl ltac:(reflexivity)).
  vm_compute in F. discriminate.
Qed.
Print Assumptions C148_too_small_refuted.
(** This file is the file of a run. *)
Example C148_too_small_meets : exists o',
  write_all (prepare (Nco standard 0 None None) Standard 100 [POS] [] None)
    [(Snap 100 [(1, 3, 0)] [] [], None); (Snap 160 [(2, 4, 0)] [] [], None)] = Ok o' /\
  n_fc o' = Some (File 100 [0; 60] [1; 1]%nat [(LAT, [Some 3; Some 4]); (LON, [Some 1; Some 2]); (DEP, [Some 0; Some 0])] None) /\
  read_data (File 100 [0; 60] [1; 1]%nat [(LAT, [Some 3; Some 4]); (LON, [Some 1; Some 2]); (DEP, [Some 0; Some 0])] None) (ByIndex (-3)) (AList [POS])
    = Ok (160, [(POS, APos [(Some 1, Some 3, Some 0)])], []).
Proof. eexists. repeat split. Qed.
