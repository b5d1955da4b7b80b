(** * C186 to C192: what is written for numbers, times, durations and file names *)
From Coq Require Import QArith Qround Qabs Qpower Lqa Lia Sorted String.
From Verif Require Import Py PyLemmas QLemmas StrModel PipModel PolyModel TimeModel PrlSpec PrlProofs FldModel FldSpec FldProofs.
Open Scope Z_scope.
Open Scope list_scope.

(** ** C186 *)

(** Every number of an array is written as the double of a nearest number of eight digits; what is
    not a number is written as it is; the length and the order are kept. *)
Theorem C186_written : forall fl l, exists out, ser_array fl (Seq l) = Ok out
  /\ Forall2 (fun a b => match a, b with
                         | Fin x, Fin y => exists d, nearest_digits 8 x d /\ y = fl d
                         | NaN, NaN => True
                         | Inf p, Inf q => p = q
                         | _, _ => False end) l out.
Proof.
  intros fl l. exists (map (rnd fl 8) l). split; [apply ser_ok|]. apply Forall2_map_r. intros [q| |p]; cbn [rnd]; auto.
  exists (dec_round 8 q). split; [apply dec_round_nearest; lia|reflexivity].
Qed.
Print Assumptions C186_written.
Example C186_written_meets : ser_array (fun q => q) (Seq [Fin (123456789 # 1); NaN]) = Ok [Fin (inject_Z 12345679 * Qpower 10 1)%Q; NaN].
Proof. vm_compute. reflexivity. Qed.

(** The error is at most one part in twenty million, and what float adds to it. *)
Theorem C186_error : forall fl l out, float_ok fl -> ser_array fl (Seq l) = Ok out ->
  Forall2 (close (51 # 1000000000)) l out.
Proof. intros fl l out F H. rewrite ser_ok in H. injection H as <-. apply Forall2_map_r. intros a. apply rnd_close, F. Qed.
Print Assumptions C186_error.
Lemma float_id : float_ok (fun q => q).
Proof.
  constructor; auto. intros a. setoid_replace (a - a)%Q with 0%Q by ring. change (Qabs 0) with 0%Q. pose proof (Qabs_nonneg a). lra.
Qed.
Example C186_error_meets : float_ok (fun q => q) /\ exists out, ser_array (fun q => q) (Seq [Fin (1 # 3)]) = Ok out.
Proof. split; [apply float_id|]. eexists. reflexivity. Qed.

(** For any number of figures: no figure counts as one, a negative number is refused. *)
Theorem C186_figures : forall fl n x,
  (0 <= n -> exists d, round_sf_float fl n (Fin x) = Ok (Fin (fl d)) /\ nearest_digits (Z.max n 1) x d)
  /\ (n < 0 -> round_sf_float fl n (Fin x) = Raise ValueErr).
Proof.
  intros fl n x. unfold round_sf_float. split; intros H.
  - assert (X : (n <? 0) = false) by (apply Z.ltb_ge; lia). rewrite X. eexists. split; [reflexivity|]. apply dec_round_nearest. lia.
  - assert (X : (n <? 0) = true) by (apply Z.ltb_lt; lia). rewrite X. reflexivity.
Qed.
Print Assumptions C186_figures.
Example C186_figures_meets : match round_sf_float (fun q => q) 2 (Fin (1999 # 10000)) with Ok (Fin q) => Qeq_bool q (2 # 10) | _ => false end = true.
Proof. vm_compute. reflexivity. Qed.

(** A number alone is not written. *)
Theorem C186_refused : forall fl, ser_array fl Other = Raise ValueErr.
Proof. reflexivity. Qed.
Print Assumptions C186_refused.

(** ** C187 *)

(** What was read back from a file is written again as the same doubles. *)
Theorem C187_stable : forall fl l a, float_ok fl -> ser_array fl (Seq l) = Ok a ->
  exists b, ser_array fl (Seq (deser_array a)) = Ok b /\ Forall2 same b a.
Proof.
  intros fl l a F H. rewrite ser_ok in H. injection H as <-. unfold deser_array. rewrite ser_ok. eexists. split; [reflexivity|].
  induction l as [|x r IH]; cbn [map]; constructor; [apply rnd_stable, F|exact IH].
Qed.
Print Assumptions C187_stable.
Example C187_stable_meets : exists a, ser_array (fun q => q) (Seq [Fin (2 # 3); Fin (-(22) # 7)]) = Ok a.
Proof. eexists. reflexivity. Qed.

(** The order of numbers is kept. *)
Theorem C187_order : forall fl x y a b, float_ok fl -> (x <= y)%Q ->
  ser_array fl (Seq [Fin x; Fin y]) = Ok [Fin a; Fin b] -> (a <= b)%Q.
Proof. intros fl x y a b F H E. rewrite ser_ok in E. cbn [map rnd] in E. injection E as <- <-. apply (fl_le _ F). apply dec_round_mono; [lia|exact H]. Qed.
Print Assumptions C187_order.
Example C187_order_meets : exists a b, ser_array (fun q => q) (Seq [Fin (1 # 3); Fin (1 # 2)]) = Ok [Fin a; Fin b].
Proof. eexists. eexists. reflexivity. Qed.

(** But not that they differ: two reference temperatures can become one. *)
Theorem C187_distinct_refuted : exists x y, (x < y)%Q /\ forall fl a b, float_ok fl ->
  ser_array fl (Seq [Fin x; Fin y]) = Ok [Fin a; Fin b] -> (a == b)%Q.
Proof.
  exists (28815 # 100)%Q, (2881500001 # 10000000)%Q. split; [reflexivity|]. intros fl a b F E. rewrite ser_ok in E. cbn [map rnd] in E. injection E as <- <-. apply (fl_eq _ F). vm_compute. reflexivity.
Qed.
Print Assumptions C187_distinct_refuted.

(** ** C188 *)

(** The copy of an oil has the arrays of the oil up to the rounding. *)
Theorem C188_copy : forall fl o, float_ok fl -> well_formed o ->
  exists c, copy_oil fl o = Ok c /\ all_arrays (Forall2 (close (51 # 1000000000))) o c.
Proof.
  intros fl [d dt dw k kt kw f b w c] F (H1 & H2 & H3). cbn [o_weight o_fraction o_boiling o_comp_density] in *. unfold copy_oil, ser_oil. cbn [o_densities o_density_temps o_density_weathering o_kvis o_kvis_temps o_kvis_weathering o_fraction o_boiling o_weight o_comp_density].
  rewrite !ser_ok. cbn [bind]. unfold new_oil, set_pc. cbn [o_densities o_density_temps o_density_weathering o_kvis o_kvis_temps o_kvis_weathering o_fraction o_boiling o_weight o_comp_density].
  rewrite !map_length, H1, H2, H3, Nat.eqb_refl. cbn [bind]. eexists. split; [reflexivity|]. unfold all_arrays. cbn [o_densities o_density_temps o_density_weathering o_kvis o_kvis_temps o_kvis_weathering o_fraction o_boiling o_weight o_comp_density].
  assert (X : forall l, Forall2 (close (51 # 1000000000)) l (map (rnd fl 8) l)) by (intros l; apply Forall2_map_r; intros a; apply rnd_close, F). repeat split; apply X.
Qed.
Print Assumptions C188_copy.
Definition demo_oil : oil := mkOil [Fin 900] [Fin (28815 # 100)] [Fin 0] [Fin (1 # 100)] [Fin (28815 # 100)] [Fin 0]
  [Fin (1 # 4096); Fin (4095 # 4096)] [Fin 300; Fin 400] [Fin 100; Fin 200] [Fin 800; Fin 900].
Example C188_copy_meets : float_ok (fun q => q) /\ well_formed demo_oil.
Proof. split; [apply float_id|]. repeat split. Qed.

(** The component arrays must have one entry for each component. *)
Theorem C188_refused : forall fl o, ~ well_formed o -> copy_oil fl o = Raise ValueErr.
Proof.
  intros fl [d dt dw k kt kw f b w c] H. unfold well_formed in H. cbn [o_weight o_fraction o_boiling o_comp_density] in H. unfold copy_oil, ser_oil. cbn [o_densities o_density_temps o_density_weathering o_kvis o_kvis_temps o_kvis_weathering o_fraction o_boiling o_weight o_comp_density].
  rewrite !ser_ok. cbn [bind]. unfold new_oil, set_pc. cbn [o_densities o_density_temps o_density_weathering o_kvis o_kvis_temps o_kvis_weathering o_fraction o_boiling o_weight o_comp_density].
  rewrite !map_length, Nat.eqb_refl. cbn [bind]. destruct (Nat.eqb_spec (length w) (length f)) as [E1|]; [|reflexivity]. cbn [bind]. destruct (Nat.eqb_spec (length b) (length f)) as [E2|]; [|reflexivity]. cbn [bind]. destruct (Nat.eqb_spec (length c) (length f)) as [E3|]; [|reflexivity]. exfalso. auto.
Qed.
Print Assumptions C188_refused.
Example C188_refused_meets : ~ well_formed (mkOil [] [] [] [] [] [] [Fin 1] [Fin 1] [] [Fin 1]).
Proof. intros (H & _). discriminate. Qed.

(** An element of an uncertain spill: its components make up its mass up to the rounding. *)
Theorem C188_mass_partial : forall fl o c fr m, float_ok fl -> copy_oil fl o = Ok c -> o_fraction o = map Fin fr ->
  Forall (fun f => (0 <= f)%Q) fr -> (0 <= m)%Q ->
  exists ms, components c m = map Fin ms /\ length ms = length fr
    /\ (Qabs (total ms - m * total fr) <= m * total fr * (51 # 1000000000))%Q.
Proof.
  intros fl o c fr m F HC HF HP HM.
  assert (WF : well_formed o). { destruct (Nat.eq_dec (length (o_weight o)) (length (o_fraction o))) as [E1|N]; [|rewrite C188_refused in HC by (intros (A & _); contradiction); discriminate].
    destruct (Nat.eq_dec (length (o_boiling o)) (length (o_fraction o))) as [E2|N]; [|rewrite C188_refused in HC by (intros (_ & A & _); contradiction); discriminate].
    destruct (Nat.eq_dec (length (o_comp_density o)) (length (o_fraction o))) as [E3|N]; [|rewrite C188_refused in HC by (intros (_ & _ & A); contradiction); discriminate]. repeat split; assumption. }
  destruct (C188_copy fl o F WF) as (c' & HC' & A). rewrite HC in HC'. injection HC' as <-. destruct A as (_ & _ & _ & _ & _ & _ & A & _). rewrite HF in A. unfold components. set (g := o_fraction c) in *. clearbody g. clear HC HF WF.
  revert g A. induction HP as [|f r H1 H2 IH]; intros g A; cbn [map] in A; inversion A as [|? y ? g' C A']; clear A.
  - exists []. cbn [map total length]. split; [reflexivity|]. split; [reflexivity|]. setoid_replace (0 - m * 0)%Q with 0%Q by ring. change (Qabs 0) with 0%Q. lra.
  - destruct (IH _ A') as (ms & E & L & B). destruct y as [y| |]; cbn [close] in C; [|contradiction|contradiction]. exists ((y * m)%Q :: ms). cbn [map times total length]. rewrite E, L. split; [reflexivity|]. split; [reflexivity|].
    rewrite (Qabs_pos f) in C by exact H1. assert (X : (Qabs (y * m - m * f) <= m * f * (51 # 1000000000))%Q). { setoid_replace (y * m - m * f)%Q with (m * (y - f))%Q by ring. rewrite Qabs_Qmult, (Qabs_pos m) by exact HM. setoid_replace (m * f * (51 # 1000000000))%Q with (m * (f * (51 # 1000000000)))%Q by ring. rewrite !(Qmult_comm m). apply Qmult_le_compat_r; assumption. }
    setoid_replace (y * m + total ms - m * (f + total r))%Q with ((y * m - m * f) + (total ms - m * total r))%Q by ring. eapply Qle_trans; [apply Qabs_triangle|]. setoid_replace (m * (f + total r) * (51 # 1000000000))%Q with (m * f * (51 # 1000000000) + m * total r * (51 # 1000000000))%Q by ring. lra.
Qed.
Print Assumptions C188_mass_partial.
Example C188_mass_partial_meets : exists c, copy_oil (fun q => q) demo_oil = Ok c /\ o_fraction demo_oil = map Fin [1 # 4096; 4095 # 4096]%Q.
Proof. eexists. split; reflexivity. Qed.

(** But not exactly: fractions that sum to one need not sum to one in the copy. *)
Theorem C188_mass_refuted : exists o fr, o_fraction o = map Fin fr /\ (total fr == 1)%Q
  /\ forall fl, float_ok fl -> exists c ms, copy_oil fl o = Ok c /\ components c 1 = map Fin ms /\ ~ (total ms == 1)%Q.
Proof.
  exists demo_oil, [1 # 4096; 4095 # 4096]%Q. split; [reflexivity|]. split; [reflexivity|]. intros fl F. unfold copy_oil, ser_oil, demo_oil. cbn [o_densities o_density_temps o_density_weathering o_kvis o_kvis_temps o_kvis_weathering o_fraction o_boiling o_weight o_comp_density].
  rewrite !ser_ok. cbn [bind map rnd]. unfold new_oil, set_pc. cbn [o_densities o_density_temps o_density_weathering o_kvis o_kvis_temps o_kvis_weathering o_fraction o_boiling o_weight o_comp_density length Nat.eqb bind].
  eexists. exists [fl (dec_round 8 (1 # 4096)) * 1; fl (dec_round 8 (4095 # 4096)) * 1]%Q. split; [reflexivity|]. split; [reflexivity|]. cbn [total].
  assert (E1 : (dec_round 8 (1 # 4096) == 24414062 # 100000000000)%Q) by (vm_compute; reflexivity). assert (E2 : (dec_round 8 (4095 # 4096) == 99975586 # 100000000)%Q) by (vm_compute; reflexivity).
  rewrite (fl_eq _ F _ _ E1), (fl_eq _ F _ _ E2). pose proof (fl_err _ F (24414062 # 100000000000)%Q) as X1. pose proof (fl_err _ F (99975586 # 100000000)%Q) as X2.
  change (Qabs (24414062 # 100000000000)) with (24414062 # 100000000000)%Q in X1. change (Qabs (99975586 # 100000000)) with (99975586 # 100000000)%Q in X2. apply Qabs_Qle_condition in X1. apply Qabs_Qle_condition in X2. intros H. lra.
Qed.
Print Assumptions C188_mass_refuted.

(** ** C189 *)

(** A time series is accepted exactly when the seconds of its times follow strictly on each other;
    the values are kept, and each time is the second it lies in. *)
Theorem C189_accepted : forall (V : Type) (l r : list (Z * V)), deser_series l = Some r <->
  Forall2 (fun a b => second_of (fst a) (fst b) /\ snd b = snd a) l r /\ strictly_later (map fst r).
Proof.
  intros V l r. rewrite deser_series_iff. unfold strictly_later. assert (X : r = to_seconds l <-> Forall2 (fun a b => second_of (fst a) (fst b) /\ snd b = snd a) l r).
  { revert r. induction l as [|(t, v) s IH]; intros r; cbn [to_seconds map].
    - split; [intros ->; constructor|intros H; inversion H; reflexivity].
    - split.
      + intros ->. constructor; [|apply IH; reflexivity]. cbn [fst snd]. split; [|reflexivity]. unfold second_of, sec_us. pose proof (Z.div_mod t 1000000). pose proof (Z.mod_pos_bound t 1000000). lia.
      + intros H. inversion H as [|? y ? r' (A1 & A2) B]. f_equal; [|apply IH, B]. destruct y as (y1, y2). cbn [fst snd] in *. subst y2. f_equal. unfold second_of in A1. unfold sec_us. apply Z.div_unique with (r := t - 1000000 * y1) || (symmetry; apply Z.div_unique with (r := t - 1000000 * y1)); lia. }
  rewrite X. reflexivity.
Qed.
Print Assumptions C189_accepted.
Example C189_accepted_meets : deser_series [(1500000, 7); (2000000, 8)] = Some [(1, 7); (2, 8)].
Proof. vm_compute. reflexivity. Qed.

(** A series that was accepted comes back from the file as it was. *)
Theorem C189_round_trip : forall (V : Type) (s : list (Z * V)), strictly_later (map fst s) -> deser_series (ser_series s) = Some s.
Proof.
  intros V s H. apply deser_series_iff. split; [|exact H]. unfold to_seconds, ser_series. rewrite map_map. symmetry. erewrite map_ext; [apply map_id|]. intros (t, v). cbn [fst snd]. rewrite Z.div_mul by discriminate. reflexivity.
Qed.
Print Assumptions C189_round_trip.
Example C189_round_trip_meets : strictly_later (map fst [(1, 7); (2, 8)]).
Proof. repeat constructor. Qed.

(** But times that follow strictly on each other within a second are refused. *)
Theorem C189_subsecond_refuted : exists l : list (Z * Z), strictly_later (map fst l) /\ deser_series l = None.
Proof. exists [(0, 1); (500000, 2)]. split; [repeat constructor|reflexivity]. Qed.
Print Assumptions C189_subsecond_refuted.

(** ** C190 *)

(** A datetime comes back with the wall clock it had, without a time zone; infinite times come
    back. *)
Theorem C190_round_trip : forall d,
  deser_dt (ser_dt (ADt d)) = ADt (mkDt (wall d) None)
  /\ deser_dt (ser_dt AInf) = AInf /\ deser_dt (ser_dt AMinus) = AMinus.
Proof. intros d. repeat split. Qed.
Print Assumptions C190_round_trip.

(** So the instant is kept exactly for a datetime without a zone or of offset zero. *)
Theorem C190_instant_partial : forall d e, deser_dt (ser_dt (ADt d)) = ADt e ->
  (instant e = instant d <-> offset d = None \/ offset d = Some 0).
Proof.
  intros [w o] e H. cbn in H. injection H as <-. unfold instant. cbn [wall offset strip]. destruct o as [z|].
  - split; [intros E; right; f_equal; lia|intros [E|E]; [discriminate|injection E as ->; lia]].
  - split; auto.
Qed.
Print Assumptions C190_instant_partial.
Example C190_instant_partial_meets : deser_dt (ser_dt (ADt (mkDt 5 None))) = ADt (mkDt 5 None).
Proof. reflexivity. Qed.

(** Two texts of one instant are read as two times. *)
Theorem C190_zone_refuted : exists a b, instant a = instant b /\ deser_dt (XDt a) <> deser_dt (XDt b).
Proof. exists (mkDt 0 (Some 0)), (mkDt 3600000000 (Some 3600000000)). split; [reflexivity|discriminate]. Qed.
Print Assumptions C190_zone_refuted.

(** ** C191 *)

(** A duration of less than 2^52 microseconds (142 years) comes back exactly. *)
Theorem C191_exact : forall fl us, float_ok fl -> Z.abs us < 4503599627370496 -> deser_delta (ser_delta fl us) = us.
Proof. exact delta_round. Qed.
Print Assumptions C191_exact.
Example C191_exact_meets : deser_delta (ser_delta (fun q => q) (-86400000001)) = -86400000001.
Proof. apply C191_exact; [apply float_id|lia]. Qed.

(** A longer one need not: doubles between 2^33 and 2^34 are multiples of 2^-19. *)
Theorem C191_long_refuted : exists us, forall fl, float_ok fl ->
  (forall a, (8589934592 <= a < 17179869184)%Q -> exists k, (fl a == inject_Z k * (1 # 524288))%Q) ->
  deser_delta (ser_delta fl us) <> us.
Proof.
  exists 8589934592000001. intros fl F G H. unfold deser_delta, ser_delta in H. change (inject_Z sec_us) with (1000000 # 1)%Q in H.
  set (a := (inject_Z 8589934592000001 / (1000000 # 1))%Q) in *. assert (AE : (a == 8589934592000001 # 1000000)%Q) by reflexivity.
  destruct (G a) as (k & K). { rewrite AE. split; reflexivity || (unfold Qle; cbn; lia). }
  pose proof (fl_err _ F a) as E. set (s := fl a) in *. clearbody s. rewrite (Qabs_pos a) in E by (rewrite AE; discriminate). rewrite AE in E. clearbody a.
  pose proof (np_round_nearest (s * (1000000 # 1))) as N. unfold nearest in N. rewrite H in N. apply Qabs_Qle_condition in N. apply Qabs_Qle_condition in E. change (inject_Z 8589934592000001) with (8589934592000001 # 1)%Q in N.
  rewrite K in N, E. assert (K1 : (inject_Z k < 4503599627370497 # 1)%Q) by lra. assert (K2 : (4503599627370496 # 1 < inject_Z k)%Q) by lra.
  change (4503599627370497 # 1)%Q with (inject_Z 4503599627370497) in K1. change (4503599627370496 # 1)%Q with (inject_Z 4503599627370496) in K2. rewrite <- Zlt_Qlt in K1, K2. lia.
Qed.
Print Assumptions C191_long_refuted.

(** ** C192 *)

(** A file name, or several, come back as they were; a list of one name as the name. *)
Theorem C192_round_trip : forall f, (forall s, f <> FMany [s]) -> deser_fname (ser_fname true f) = f.
Proof.
  intros [|s|l] H; [reflexivity|reflexivity|]. destruct l as [|a [|b r]]; [reflexivity|exfalso; apply (H a eq_refl)|reflexivity].
Qed.
Print Assumptions C192_round_trip.
Example C192_round_trip_meets : forall s, FMany [lit "a.nc"; lit "b.nc"] <> FMany [s].
Proof. discriminate. Qed.

(** Without the paths: the same number of names, each the last part of the one it stands for. *)
Theorem C192_base : forall f, f <> FNone -> exists l, (deser_fname (ser_fname false f) = FMany l \/ exists s, l = [s] /\ deser_fname (ser_fname false f) = FOne s)
  /\ Forall2 (fun p n => n = basename p) (match f with FNone => [] | FOne s => [s] | FMany ps => ps end) l.
Proof.
  intros [|s|l] H; [contradiction| |]; clear H.
  - exists [basename s]. split; [right; eexists; split; reflexivity|]. constructor; [reflexivity|constructor].
  - exists (map basename l). split; [|apply Forall2_map_r; reflexivity]. destruct l as [|a [|b r]]; [left; reflexivity|right; eexists; split; reflexivity|left; reflexivity].
Qed.
Print Assumptions C192_base.
Example C192_base_meets : ser_fname false (FMany [lit "/x/a.nc"; lit "/y/b.nc"]) = FMany [lit "a.nc"; lit "b.nc"].
Proof. vm_compute. reflexivity. Qed.

(** A list of one name does not come back as a list. *)
Theorem C192_list_refuted : forall s raw, deser_fname (ser_fname raw (FMany [s])) <> FMany [s].
Proof. intros s [|]; discriminate. Qed.
Print Assumptions C192_list_refuted.

(** Two files of different folders may be given one name. *)
Theorem C192_collision_refuted : exists p q, p <> q /\ ser_fname false (FMany [p; q]) = ser_fname false (FMany [p; p]).
Proof. exists (lit "/x/a.nc"), (lit "/y/a.nc"). split; [discriminate|vm_compute; reflexivity]. Qed.
Print Assumptions C192_collision_refuted.
