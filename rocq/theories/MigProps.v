(** * Properties of the update of a save folder *)

From Coq Require Import ZArith List Bool String Lia.
From Verif Require Import Py PyLemmas StrModel PersModel MigModel MigSpec MigProofs.
Import ListNotations.
Open Scope list_scope.
Open Scope Z_scope.

(** ** C204: an update reaches the newest version *)

Lemma each_app : forall A (l1 l2 : list A) p d, each (l1 ++ l2) p d = seq (each l1 p) (each l2 p) d.
Proof.
  intros A l1. induction l1 as [| a t IH]; intros l2 p d; cbn [app each].
  - unfold seq, ret. cbn [apply_all fold_left]. destruct (each l2 p d). reflexivity.
  - unfold seq at 1. unfold seq at 1. unfold seq at 1. destruct (p a d) as (e1, [x |]); [reflexivity |].
    rewrite IH. unfold seq. destruct (each t p (apply_all e1 d)) as (e2, [x |]); [reflexivity |].
    rewrite apply_all_app. destruct (each l2 p _). rewrite app_assoc. reflexivity.
Qed.

Lemma zseq_last : forall n a, zseq a (S n) = zseq a n ++ [a + Z.of_nat n].
Proof.
  induction n as [| n IH]; intro a.
  - cbn. rewrite Z.add_0_r. reflexivity.
  - change (zseq a (S (S n))) with (a :: zseq (a + 1) (S n)). rewrite IH. cbn [zseq app]. do 2 f_equal. f_equal. lia.
Qed.

Lemma v4tov5_version : forall d es, v4tov5 d = (es, None) -> d_version (apply_all es d) = Number 5.
Proof.
  intros d es H. unfold v4tov5, rename, reading, look in H. destruct (read_all (d_files d)) as [fs |]; [| discriminate H].
  unfold seq, emit in H. destruct (passes (fun t => t) rules45 fs d) as (e1, [x |]); [discriminate H |]. injection H as H. subst es.
  rewrite apply_all_app. reflexivity.
Qed.

Lemma update_last : forall valid v d es, v < 5 -> each (zseq v (Z.to_nat (5 - v))) (nth_step valid) d = (es, None) ->
  d_version (apply_all es d) = Number 5.
Proof.
  intros valid v d es V H. destruct (Z.to_nat (5 - v)) as [| n] eqn:N; [lia |]. rewrite zseq_last in H. rewrite each_app in H.
  replace (v + Z.of_nat n) with 4 in H by lia. cbn [each] in H. unfold seq at 1 in H.
  destruct (each (zseq v n) (nth_step valid) d) as (e1, [x |]); [discriminate H |].
  change (nth_step valid 4) with v4tov5 in H. unfold seq in H. unfold ret in H.
  destruct (v4tov5 (apply_all e1 d)) as (e2, [x |]) eqn:Q; [discriminate H |]. injection H as H. subst es.
  rewrite app_nil_r. rewrite apply_all_app. exact (v4tov5_version _ _ Q).
Qed.

(** An update that ends without an error leaves the newest version, from whatever older version it starts. *)
Theorem C204_version : forall valid d es, update valid d = (es, None) ->
  (d_version d = NoVersion \/ exists v, d_version d = Number v /\ v < 5) -> d_version (apply_all es d) = Number 5.
Proof.
  intros valid d es H HV. unfold update, look in H. destruct HV as [E | (v & E & V)]; rewrite E in H.
  - exact (update_last valid 0 d es (ltac:(lia)) H).
  - exact (update_last valid v d es V H).
Qed.

(** A folder of the newest version is left alone; one that has no readable version is refused and left alone. *)
Theorem C204_same : forall valid d, (d_version d = Number 5 -> update valid d = ([], None)) /\
  (d_version d = Garbage -> update valid d = ([], Some ValueErr)).
Proof. intros valid d. split; intro E; unfold update, look; rewrite E; reflexivity. Qed.

(** Refuted: a folder of a version that is not known yet is taken as it is. *)
Theorem C204_newer_refuted : forall valid d v, 5 < v -> d_version d = Number v -> update valid d = ([], None).
Proof.
  intros valid d v V E. unfold update, look. rewrite E. replace (Z.to_nat (5 - v)) with 0%nat by lia. reflexivity.
Qed.

(** An update that has ended can be done again: nothing happens. *)
Theorem C204_again : forall valid d es, update valid d = (es, None) ->
  (d_version d = NoVersion \/ exists v, d_version d = Number v /\ v < 5) -> update valid (apply_all es d) = ([], None).
Proof. intros valid d es H HV. apply C204_same. exact (C204_version valid d es H HV). Qed.

Definition plain (t : string) : file := File (Some (lit t)) None None None None None 7 9.
Definition folder2 : folder :=
  Folder [(lit "Model.json"%string, Some (File (Some (lit "gnome.model.Model"%string)) None
             (Some [lit "Evaporation.json"%string; lit "WeatheringData.json"%string]) None None None 1 1));
          (lit "Spill.json"%string, Some (plain "gnome.spill.spill.Spill"%string));
          (lit "Release.json"%string, Some (plain "gnome.spill.release.SpatialRelease"%string));
          (lit "WeatheringData.json"%string, Some (plain "gnome.weatherers.weathering_data.WeatheringData"%string));
          (lit "Wind.json"%string, Some (plain "gnome.movers.wind_movers.WindMover"%string))] (Number 2).
Definition files2 : list (str * file) :=
  flat_map (fun p => match snd p with Some f => [(fst p, f)] | None => [] end) (d_files folder2).

Ltac distinct := vm_compute; repeat (constructor; [cbn [In]; intuition discriminate |]); constructor.

Example C204_meets : exists es, update (fun _ => true) folder2 = (es, None) /\ d_version (apply_all es folder2) = Number 5 /\
  map (fun p => option_map f_type (snd p)) (d_files (apply_all es folder2)) =
    [Some (Some (lit "gnome.model.Model"%string)); Some (Some (lit "gnome.spills.spill.Spill"%string));
     Some (Some (lit "gnome.spills.release.PolygonRelease"%string)); Some (Some (lit "gnome.movers.c_wind_movers.PointWindMover"%string))].
Proof. eexists. split; [vm_compute; reflexivity |]. split; vm_compute; reflexivity. Qed.
Print Assumptions C204_version.
Print Assumptions C204_same.
Print Assumptions C204_newer_refuted.
Print Assumptions C204_again.

(** ** C205: an update changes the names of the classes and nothing else *)

(** The files are those that were there, with their classes renamed by the tables; between, the WeatheringData are
    removed (missing: versions 0 and 1, see C207, C208; two WeatheringData named one after the other). *)
Theorem C205_files_partial : forall valid d fs, holds d fs ->
  (d_version d = Number 4 -> snd (update valid d) = None /\
     holds (updated valid d) (renamed table45 fs)) /\
  (d_version d = Number 3 -> all_spaced fs -> snd (update valid d) = None /\
     holds (updated valid d) (renamed table45 (without fs))) /\
  (d_version d = Number 2 -> all_spaced (renamed table23 fs) -> snd (update valid d) = None /\
     holds (updated valid d) (renamed table45 (without (renamed table23 fs)))).
Proof.
  intros valid d fs HD. pose proof (proj2 HD) as N. split; [| split].
  - intro V. destruct (update4 valid d fs HD V) as (A & B). rewrite B. split; [exact A |]. split; [reflexivity | apply renamed_nodup; exact N].
  - intros V SP. destruct (update3 valid d fs HD V SP) as (A & B). rewrite B. split; [exact A |].
    split; [reflexivity | apply renamed_nodup, without_nodup; exact N].
  - intros V SP. destruct (update2 valid d fs HD V SP) as (A & B). rewrite B. split; [exact A |].
    split; [reflexivity | apply renamed_nodup, without_nodup, renamed_nodup; exact N].
Qed.

(** A class whose name has none of the old names keeps its name. *)
Theorem C205_kept : forall tb t, Forall (fun e => str_in (fst e) t = false) tb -> new_name tb t = t.
Proof.
  intros tb t F. unfold new_name. generalize t at 2 3. induction F as [| (p, reps) tb E F IH]; intro acc; cbn [new_from]; [reflexivity |].
  cbn [fst] in E. rewrite E. apply IH.
Qed.

(** The classes that are renamed, by name: from version 2, from version 4. *)
Definition moved : list (string * string) :=
  [("gnome.spill.spill.Spill", "gnome.spills.spill.Spill");
   ("gnome.spill.substance.NonWeatheringSubstance", "gnome.spills.substance.NonWeatheringSubstance");
   ("gnome.spill.release.PointLineRelease", "gnome.spills.release.PointLineRelease");
   ("gnome.spill.release.SpatialRelease", "gnome.spills.release.PolygonRelease");
   ("gnome.spills.release.SpatialRelease", "gnome.spills.release.PolygonRelease");
   ("gnome.movers.current_movers.CatsMover", "gnome.movers.c_current_movers.CatsMover");
   ("gnome.movers.current_movers.ComponentMover", "gnome.movers.c_current_movers.ComponentMover");
   ("gnome.movers.current_movers.GridCurrentMover", "gnome.movers.c_current_movers.c_GridCurrentMover");
   ("gnome.movers.py_current_movers.PyCurrentMover", "gnome.movers.py_current_movers.CurrentMover");
   ("gnome.movers.wind_movers.WindMover", "gnome.movers.c_wind_movers.PointWindMover");
   ("gnome.movers.wind_movers.GridWindMover", "gnome.movers.c_wind_movers.c_GridWindMover");
   ("gnome.movers.py_wind_movers.PyWindMover", "gnome.movers.py_wind_movers.WindMover");
   ("gnome.movers.random_movers.RandomMover", "gnome.movers.random_movers.RandomMover");
   ("gnome.environment.wind.Wind", "gnome.environment.wind.Wind");
   ("gnome.model.Model", "gnome.model.Model")]%string.
Theorem C205_names : Forall (fun p => new_name table45 (new_name table23 (lit (fst p))) = lit (snd p)) moved.
Proof. repeat constructor; vm_compute; reflexivity. Qed.

(** Refuted: of two WeatheringData named one after the other in the weatherers of a model the second stays named,
    though its file is removed. *)
Definition two_data : list (str * file) :=
  [(lit "Model.json"%string, File (Some (lit "gnome.model.Model"%string)) None (Some [lit "a.json"%string; lit "b.json"%string]) None None None 1 1);
   (lit "a.json"%string, plain "gnome.weatherers.weathering_data.WeatheringData"%string);
   (lit "b.json"%string, plain "gnome.weatherers.weathering_data.WeatheringData"%string)].
Theorem C205_two_refuted : forall valid,
  let d := Folder (map (fun nf => (fst nf, Some (snd nf))) two_data) (Number 3) in
  holds d two_data /\ snd (update valid d) = None /\
  exists f, d_files (updated valid d) = [(lit "Model.json"%string, Some f)] /\ f_weath f = Some [lit "b.json"%string].
Proof.
  intros valid d. split; [split; [reflexivity | distinct] |].
  split; [vm_compute; reflexivity |]. eexists. split; vm_compute; reflexivity.
Qed.

Example C205_meets : holds folder2 files2 /\ all_spaced (renamed table23 files2) /\
  without (renamed table23 files2) <> renamed table23 files2 /\ new_name table23 (lit "gnome.map.MapFromBNA"%string) = lit "gnome.map.MapFromBNA"%string.
Proof.
  split; [split; [reflexivity | distinct] | split; [| split; [vm_compute; discriminate | vm_compute; reflexivity]]].
  intros n f l I W. assert (G : gone_names (renamed table23 files2) = [lit "WeatheringData.json"%string]) by (vm_compute; reflexivity).
  assert (L : l = [lit "Evaporation.json"%string; lit "WeatheringData.json"%string]).
  { apply in_map_iff in I. destruct I as ((m, g) & E & I). injection E as E1 E2. subst f. cbn [f_weath retyped] in W. cbn [files2 flat_map folder2 d_files snd fst app In plain] in I.
    destruct I as [I | [I | [I | [I | [I | []]]]]]; injection I as I1 I2; subst g; cbn [snd f_weath] in W; try discriminate W; injection W as W; subst l; reflexivity. }
  subst l. rewrite G. intros a x y b E X Y. destruct a as [| a1 [| a2 a]]; cbn [app] in E.
  - injection E as E1 E2. subst. destruct X as [X | []]. vm_compute in X. discriminate X.
  - discriminate E.
  - injection E as _ _ E. destruct a; discriminate E.
Qed.
Print Assumptions C205_files_partial.
Print Assumptions C205_kept.
Print Assumptions C205_names.
Print Assumptions C205_two_refuted.

(** ** C206: an update that was interrupted can be done again *)

(** Interrupted between any two changes, from version 2, 3 or 4, the update done again ends, and ends with the folder it
    would have made (missing: versions 0 and 1, see C207, C208; two WeatheringData named one after the other). *)
Theorem C206_redo_partial : forall valid d fs k, holds d fs ->
  (d_version d = Number 4 /\ stays fs) \/
  (d_version d = Number 3 /\ all_spaced fs /\ stays (without fs)) \/
  (d_version d = Number 2 /\ all_spaced (renamed table23 fs) /\ all_settled table23 fs /\ stays (without (renamed table23 fs))) ->
  let s := interrupted (update valid) d k in
  snd (update valid s) = None /\ updated valid s = updated valid d.
Proof.
  intros valid d fs k H [(V & A) | [(V & SP & A) | (V & SP & ST & A)]].
  - exact (redo4 valid d fs k H V (proj1 A)).
  - exact (redo3 valid d fs k H V SP A).
  - exact (redo2 valid d fs k H V SP ST A).
Qed.

(** The classes there are meet the conditions. *)
Theorem C206_names : Forall (fun p => settled table23 (lit (fst p)) /\ settled table45 (new_name table23 (lit (fst p))) /\
  new_name table45 (new_name table23 (lit (fst p))) <> lit "gnome.weatherers.weathering_data.WeatheringData"%string) moved.
Proof.
  repeat constructor; try (intros a I; vm_compute in I; decompose [or] I; try contradiction; subst a; vm_compute; reflexivity);
    vm_compute; discriminate.
Qed.

(** Refuted: interrupted in the middle of any of its changes, from version 4, an update leaves a folder no update can
    read; nothing is changed any more. *)
Theorem C206_torn_refuted : forall valid d fs k, holds d fs -> d_version d = Number 4 ->
  (k < List.length (fst (update valid d)))%nat -> update valid (torn (update valid) d k) = ([], Some ValueErr).
Proof.
  intros valid d fs k H V K. unfold torn. destruct (nth_error (fst (update valid d)) k) as [e |] eqn:E; [| apply nth_error_None in E; lia].
  destruct (rename_ok rules45 table45 5 d fs rules45_matches H) as (A & _).
  assert (U : fst (update valid d) = all_effs (fun t => t) rules45 fs ++ [Version 5]).
  { unfold update, look. rewrite V. change (zseq 4 (Z.to_nat (5 - 4))) with [4]. cbn [each]. change (nth_step valid 4) with v4tov5.
    unfold seq, ret, v4tov5. rewrite A. cbn [fst]. rewrite app_nil_r. reflexivity. }
  unfold interrupted. rewrite U in *. rewrite app_length in K. cbn [List.length] in K.
  pose proof (all_effs_writes rules45 (fun t => t) fs) as W.
  rewrite firstn_app. replace (k - List.length (all_effs (fun t => t) rules45 fs))%nat with 0%nat by lia. rewrite app_nil_r.
  destruct (le_lt_dec (List.length (all_effs (fun t => t) rules45 fs)) k) as [L | L].
  - rewrite nth_error_app2 in E by exact L. replace (k - List.length (all_effs (fun t => t) rules45 fs))%nat with 0%nat in E by lia.
    injection E as E. subst e. reflexivity.
  - rewrite nth_error_app1 in E by exact L. pose proof (proj1 (Forall_forall _ _) W e (nth_error_In _ _ E)) as (n & f & Q). subst e.
    cbn [tear]. unfold update, look. cbn [d_version].
    rewrite writes_version by (rewrite Forall_forall in *; intros x I; apply W; exact (firstn_in _ _ _ _ I)).
    rewrite V. change (zseq 4 (Z.to_nat (5 - 4))) with [4]. cbn [each]. change (nth_step valid 4) with v4tov5.
    unfold seq, ret, v4tov5, rename, reading, look. cbn [d_files]. rewrite read_torn. reflexivity.
Qed.

Example C206_meets : exists fs, holds (Folder (d_files folder2) (Number 4)) fs /\ stays fs /\ fs <> [] /\
  List.length (fst (update (fun _ => true) folder2)) = 13%nat.
Proof.
  exists files2. split; [split; [reflexivity | distinct] |]. split; [| split; [vm_compute; discriminate | vm_compute; reflexivity]].
  split.
  - repeat constructor; cbn [snd f_type plain]; intros a I; vm_compute in I; decompose [or] I; try contradiction; subst a; vm_compute; reflexivity.
  - intros n f t I T E. cbn [files2 flat_map folder2 d_files snd fst app In plain] in I.
    destruct I as [I | [I | [I | [I | [I | []]]]]]; injection I as I1 I2; subst f; cbn [f_type] in T; injection T as T; subst t;
      first [vm_compute in E; discriminate E | vm_compute; reflexivity].
Qed.
Print Assumptions C206_redo_partial.
Print Assumptions C206_names.
Print Assumptions C206_torn_refuted.

(** ** C207: from version 1, the windages go to the substances *)

(** With no more than one InitWindages named by a file, and by one file: the update to version 2 ends, every substance has
    the windages of its initializer, the initializers are removed, oils that cannot be made are replaced, all else is as
    it was. *)
Theorem C207_windages_partial : forall valid d fs, holds d fs -> tidy fs ->
  (forall n f, In (n, f) fs -> lost valid f = true -> f_inits f <> None) ->
  snd (v1tov2 valid d) = None /\
  apply_all (fst (v1tov2 valid d)) d = Folder (map (fun nf => (fst nf, Some (snd nf))) (with_windages (all_restored valid fs))) (Number 2).
Proof. exact v1tov2_ok. Qed.

Definition sub (i : list string) : file := File (Some (lit "gnome.spill.substance.NonWeatheringSubstance"%string)) (Some (map lit i)) None None None None 3 4.
Definition ini (w : Z) : file := File (Some (lit "gnome.spill.initializers.InitWindages"%string)) None None None None (Some w) 5 6.
Definition tidy_files : list (str * file) :=
  [(lit "a.json"%string, sub ["w1.json"%string]); (lit "w1.json"%string, ini 11); (lit "w2.json"%string, ini 22); (lit "b.json"%string, sub ["w2.json"%string]);
   (lit "Spill.json"%string, File (Some (lit "gnome.spill.spill.Spill"%string)) None None None (Some (lit "a.json"%string)) None 1 1)].
Definition keeping (fs : list (str * file)) (v : Z) : folder := Folder (map (fun nf => (fst nf, Some (snd nf))) fs) (Number v).

Example C207_meets : holds (keeping tidy_files 1) tidy_files /\ tidy tidy_files /\
  map (fun nf => f_wind (snd nf)) (with_windages (all_restored (fun _ => true) tidy_files)) = [Some 11; Some 22; None].
Proof.
  split; [split; [reflexivity | distinct] |]. split; [| vm_compute; reflexivity]. split; [distinct |].
  intros n f I. cbn [tidy_files In] in I. destruct I as [I | [I | [I | [I | [I | []]]]]]; injection I as I1 I2; subst f; (split; [discriminate |]);
    try (left; reflexivity); right.
  - exists (lit "w1.json"%string), (ini 11), (lit "gnome.spill.initializers.InitWindages"%string), 11. cbn [tidy_files In sub f_inits ini f_type f_wind map].
    repeat split; try reflexivity. right. left. reflexivity.
  - exists (lit "w2.json"%string), (ini 22), (lit "gnome.spill.initializers.InitWindages"%string), 22. cbn [tidy_files In sub f_inits ini f_type f_wind map].
    repeat split; try reflexivity. right. right. left. reflexivity.
Qed.

(** Whatever the folder holds, and also if the update to version 2 fails: first files are only written, nothing is removed
    before version 2 is recorded, and after it files are only removed. *)
Definition is_write (e : effect) : Prop := match e with Write _ _ => True | _ => False end.
Definition is_delete (e : effect) : Prop := match e with Delete _ => True | _ => False end.
Definition only (q : effect -> Prop) (p : prog) : Prop := forall d, Forall q (fst (p d)).

Lemma only_seq : forall q a b, only q a -> only q b -> only q (seq a b).
Proof.
  intros q a b A B d. unfold seq. specialize (A d). destruct (a d) as (e1, [x |]); cbn [fst] in *; [exact A |].
  specialize (B (apply_all e1 d)). destruct (b (apply_all e1 d)) as (e2, x2). cbn [fst] in *. apply Forall_app. auto.
Qed.
Lemma only_each : forall q A (l : list A) p, (forall a, only q (p a)) -> only q (each l p).
Proof. intros q A l p H. induction l as [| a t IH]; cbn [each]; [intros d; constructor | apply only_seq; auto]. Qed.
Lemma only_read : forall q n k, (forall f, only q (k f)) -> only q (read n k).
Proof.
  intros q n k H d. unfold read, look. destruct (sget n (d_files d)) as [[f |] |]; [apply H | constructor | constructor].
Qed.

Theorem C207_order : forall valid d, exists ws rest, fst (v1tov2 valid d) = ws ++ rest /\ Forall is_write ws /\
  ((rest = [] /\ snd (v1tov2 valid d) <> None) \/ exists ds, rest = Version 2 :: ds /\ Forall is_delete ds).
Proof.
  intros valid d. assert (O1 : forall l, only is_write (replace_oils valid l)).
  { intros l. apply only_each. intros (n, [f |]) d'; cbn [snd fst]; [| constructor].
    destruct (is_type old_oil f && negb (valid f)); [| constructor]. destruct (f_inits f); [repeat constructor | constructor]. }
  assert (O2 : forall l, only is_write (take_windages l)).
  { intros l. apply only_each. intros n. apply only_read. intros f. destruct (f_type f), (f_inits f); try (intros d'; constructor).
    apply only_each. intros wi. apply only_read. intros i. destruct (f_type i); [| intros d'; constructor].
    destruct (str_in init_windages s0); [| intros d'; constructor]. destruct (f_wind i); intros d'; repeat constructor. }
  assert (O3 : forall l, only is_delete (each l unlink)).
  { intros l. apply only_each. intros n d'. unfold unlink, look. destruct (sget n (d_files d')); repeat constructor. }
  destruct (v1tov2 valid d) as (es, r) eqn:E. cbn [fst snd]. unfold v1tov2, look in E. unfold seq at 1 in E. specialize (O1 (d_files d) d).
  destruct (replace_oils valid (d_files d) d) as (e1, [x |]); cbn [fst] in O1.
  { injection E as <- <-. exists e1, []. rewrite app_nil_r. split; [reflexivity |]. split; [exact O1 |]. left. split; [reflexivity | discriminate]. }
  cbv zeta in E. set (d1 := apply_all e1 d) in E. unfold seq at 1 in E. specialize (O2 (map fst (d_files d1)) d1).
  destruct (take_windages (map fst (d_files d1)) d1) as (e2, [x |]); cbn [fst] in O2.
  { injection E as <- <-. exists (e1 ++ e2), []. rewrite app_nil_r. split; [reflexivity |]. split; [apply Forall_app; auto |]. left. split; [reflexivity | discriminate]. }
  unfold seq, emit in E. specialize (O3 (to_remove d1) (apply_all [Version 2] (apply_all e2 d1))).
  destruct (each (to_remove d1) unlink (apply_all [Version 2] (apply_all e2 d1))) as (e3, x3). cbn [fst] in O3. injection E as <- <-.
  exists (e1 ++ e2), (Version 2 :: e3). split; [rewrite <- app_assoc; reflexivity |]. split; [apply Forall_app; auto |]. right. exists e3. auto.
Qed.
Print Assumptions C207_order.

(** Refuted: two substances that share an InitWindages.  The update fails on removing it twice, after version 2 was
    written; done again it goes on and ends. *)
Definition shared_files : list (str * file) :=
  [(lit "a.json"%string, sub ["w.json"%string]); (lit "b.json"%string, sub ["w.json"%string]); (lit "w.json"%string, ini 11)].
Theorem C207_shared_refuted : forall valid, let d := keeping shared_files 1 in
  snd (update valid d) = Some OSErr /\ d_version (updated valid d) = Number 2 /\
  snd (update valid (updated valid d)) = None /\
  map (fun nf => option_map f_wind (snd nf)) (d_files (updated valid d)) = [Some (Some 11); Some (Some 11)].
Proof. intros valid d. repeat split; vm_compute; reflexivity. Qed.

(** Refuted: an update interrupted after the first file was written is not the update: interrupted between version 2
    and the removal of the initializers it leaves them for good. *)
Theorem C207_redo_refuted : forall valid, exists k, let d := keeping tidy_files 1 in let s := interrupted (update valid) d k in
  snd (update valid d) = None /\ snd (update valid s) = None /\ updated valid s <> updated valid d /\
  sget (lit "w1.json"%string) (d_files (updated valid s)) <> None /\ sget (lit "w1.json"%string) (d_files (updated valid d)) = None.
Proof. intro valid. exists 3%nat. cbv zeta. repeat split; vm_compute; try reflexivity; discriminate. Qed.

(** Refuted: two oils that cannot be made get the same id, whatever theirs were. *)
Theorem C207_id_refuted : forall valid f g, lost valid f = true -> lost valid g = true -> f_id (restored valid f) = f_id (restored valid g).
Proof. intros valid f g F G. unfold restored. rewrite F, G. reflexivity. Qed.
Print Assumptions C207_windages_partial.
Print Assumptions C207_shared_refuted.
Print Assumptions C207_redo_refuted.
Print Assumptions C207_id_refuted.

(** ** C208: from version 0, the element type of a spill becomes its substance *)

(** What the update does to a spill: its substance is the file made from the first element type there is; all else is as
    it was (missing: from its own element type). *)
Theorem C208_substance_partial : forall d fs n e m f, holds d fs -> first_type (lit "element_type.ElementType"%string) fs = Some (n, e) ->
  (forall m f, In (m, f) fs -> has (lit "gnome.spills.spill.Spill"%string) f = true -> f_etype f <> None) ->
  In (m, f) fs -> has (lit "gnome.spills.spill.Spill"%string) f = true -> has (lit "initializers"%string) f = false ->
  snd (v0tov1 d) = None /\ d_version (apply_all (fst (v0tov1 d)) d) = Number 1 /\
  sget m (d_files (apply_all (fst (v0tov1 d)) d)) =
    Some (Some (File (f_type f) (f_inits f) (f_weath f) None
                 (Some (sanitize_filename (substance_name e))) (f_wind f) (f_id f) (f_rest f))).
Proof.
  intros d fs n e m f H F S I SP NI. rewrite <- new_file_name. rewrite (v0tov1_spill d fs n e m f H F S I SP NI). rewrite (v0tov1_effs d fs n e H F S). cbn [fst snd].
  split; [reflexivity |]. split; [| reflexivity].
  change (Delete n :: Write (new_file e) (snd (substance_from e)) :: map (named_spill (new_file e)) (filter is_spill fs) ++ flat_map named_init (filter is_init fs) ++ [Version 1])
    with ([Delete n; Write (new_file e) (snd (substance_from e))] ++ map (named_spill (new_file e)) (filter is_spill fs) ++ flat_map named_init (filter is_init fs) ++ [Version 1]).
  rewrite !app_assoc, apply_all_app. reflexivity.
Qed.

(** What it does to the other files: the new one holds the substance, the element type is gone, initializers have their new
    class, all others stay. *)
Theorem C208_files : forall d fs n e, holds d fs -> first_type (lit "element_type.ElementType"%string) fs = Some (n, e) ->
  (forall m f, In (m, f) fs -> has (lit "gnome.spills.spill.Spill"%string) f = true -> f_etype f <> None) ->
  has (lit "gnome.spills.spill.Spill"%string) e = false -> has (lit "initializers"%string) e = false ->
  let new := sanitize_filename (substance_name e) in let after k := sget k (d_files (apply_all (fst (v0tov1 d)) d)) in
  ~ In new (map fst fs) ->
  (exists s, after new = Some (Some s) /\ made_from e s) /\ after n = None /\
  (forall k g t, In (k, g) fs -> f_type g = Some t -> has (lit "initializers"%string) g = true ->
     after k = Some (Some (retyped (Some (py_replace (lit ".elements."%string) (lit "."%string) t)) g))) /\
  (forall k g, In (k, g) fs -> k <> n -> has (lit "gnome.spills.spill.Spill"%string) g = false -> has (lit "initializers"%string) g = false ->
     after k = Some (Some g)).
Proof.
  intros d fs n e H F S SE IE new after NN. subst after. cbv beta.
  assert (NI : In (n, e) fs) by (unfold first_type in F; apply find_some in F; exact (proj1 F)).
  assert (U : forall k f g, In (k, f) fs -> In (k, g) fs -> f = g).
  { intros k f g A B. pose proof (sget_in _ k f fs (proj2 H) A). pose proof (sget_in _ k g fs (proj2 H) B). congruence. }
  split; [| split; [| split]].
  - exists (snd (substance_from e)). split; [| apply made_ok]. rewrite (v0tov1_effs d fs n e H F S). cbn [fst]. unfold new. rewrite <- new_file_name.
    match goal with |- context [Delete n :: ?x] => change (Delete n :: x) with ([Delete n] ++ x) end. apply last_write. apply v0_spares.
    intros f I. exfalso. apply NN. unfold new. rewrite <- new_file_name. apply (in_map fst) in I. exact I.
  - rewrite (v0tov1_effs d fs n e H F S). cbn [fst].
    match goal with |- context [Delete n :: ?w :: ?x] => change (Delete n :: w :: x) with ([Delete n] ++ w :: x) end.
    rewrite apply_all_app. rewrite spared.
    + cbn [apply_all fold_left apply d_files]. rewrite (proj1 H). clear. induction fs as [| (k, g) t IH]; [reflexivity |]. cbn [map filter fst snd].
      destruct (seqb n k) eqn:Q; cbn [negb sget]; [exact IH | rewrite Q; exact IH].
    + constructor; [| apply v0_spares; intros f I; rewrite <- (U n e f NI I); auto]. cbn [spares]. intro Q. apply NN. unfold new. rewrite <- new_file_name, <- Q.
      apply (in_map fst) in NI. exact NI.
  - intros k g t I T IN. exact (v0_init d fs n e k g t H F S I IN T).
  - intros k g I K SG IG. rewrite (v0tov1_effs d fs n e H F S). cbn [fst]. rewrite spared.
    + rewrite (proj1 H). apply sget_in; [rewrite map_map; exact (proj2 H) |]. apply in_map_iff. exists (k, g). auto.
    + constructor; [exact K |]. constructor.
      * cbn [spares]. intro Q. apply NN. unfold new. rewrite <- new_file_name, <- Q. apply (in_map fst) in I. exact I.
      * apply v0_spares. intros f J. rewrite <- (U k g f I J). auto.
Qed.

(** Refuted: with two element types all spills get the substance of the first. *)
Theorem C208_two_refuted : forall d fs n1 e1 m1 f1 m2 f2, holds d fs -> first_type (lit "element_type.ElementType"%string) fs = Some (n1, e1) ->
  (forall m f, In (m, f) fs -> has (lit "gnome.spills.spill.Spill"%string) f = true -> f_etype f <> None) ->
  In (m1, f1) fs -> has (lit "gnome.spills.spill.Spill"%string) f1 = true -> has (lit "initializers"%string) f1 = false ->
  In (m2, f2) fs -> has (lit "gnome.spills.spill.Spill"%string) f2 = true -> has (lit "initializers"%string) f2 = false ->
  let after m := match sget m (d_files (apply_all (fst (v0tov1 d)) d)) with Some (Some g) => f_subst g | _ => None end in
  after m1 = after m2 /\ after m1 <> None.
Proof.
  intros d fs n1 e1 m1 f1 m2 f2 H F S I1 P1 Q1 I2 P2 Q2. cbv beta zeta.
  rewrite (v0tov1_spill d fs n1 e1 m1 f1 H F S I1 P1 Q1), (v0tov1_spill d fs n1 e1 m2 f2 H F S I2 P2 Q2). cbn [f_subst]. split; [reflexivity | discriminate].
Qed.

Definition spl (et : string) : file := File (Some (lit "gnome.spills.spill.Spill"%string)) None None (Some (lit et)) None None 1 1.
Definition ety (s : string) : file := File (Some (lit "gnome.spills.elements.element_type.ElementType"%string)) (Some []) None None (Some (lit s)) None 2 2.
Definition old_files : list (str * file) :=
  [(lit "ElementType.json"%string, ety "crude"%string); (lit "ElementType_1.json"%string, ety "diesel"%string);
   (lit "Spill.json"%string, spl "ElementType.json"%string); (lit "Spill_1.json"%string, spl "ElementType_1.json"%string)].
Definition oldest (fs : list (str * file)) : folder := Folder (map (fun nf => (fst nf, Some (snd nf))) fs) NoVersion.
Example C208_meets : holds (oldest old_files) old_files /\
  first_type (lit "element_type.ElementType"%string) old_files = Some (lit "ElementType.json"%string, ety "crude"%string) /\
  (forall m f, In (m, f) old_files -> has (lit "gnome.spills.spill.Spill"%string) f = true -> f_etype f <> None) /\
  option_map (option_map f_subst) (sget (lit "Spill_1.json"%string) (d_files (apply_all (fst (v0tov1 (oldest old_files))) (oldest old_files)))) =
    Some (Some (Some (lit "crude.json"%string))).
Proof.
  split; [split; [reflexivity | distinct] |]. split; [vm_compute; reflexivity |]. split; [| vm_compute; reflexivity].
  intros m f I P. cbn [old_files In] in I. destruct I as [I | [I | [I | [I | []]]]]; injection I as I1 I2; subst f; try discriminate; vm_compute in P; discriminate P.
Qed.

Example C208_files_meets : has (lit "gnome.spills.spill.Spill"%string) (ety "crude"%string) = false /\
  has (lit "initializers"%string) (ety "crude"%string) = false /\
  sanitize_filename (substance_name (ety "crude"%string)) = lit "crude.json"%string /\ ~ In (lit "crude.json"%string) (map fst old_files) /\
  has (lit "initializers"%string) (plain "gnome.spills.elements.initializers.InitWindages"%string) = true.
Proof. repeat split; try (vm_compute; reflexivity). vm_compute. intuition discriminate. Qed.

(** Refuted: interrupted after the element type was removed, the update cannot be done any more, whatever is done. *)
Theorem C208_redo_refuted : forall valid d fs, holds d fs -> d_version d = NoVersion ->
  first_type (lit "element_type.ElementType"%string) fs = None -> (exists m f, In (m, f) fs /\ has (lit "gnome.spills.spill.Spill"%string) f = true) ->
  fst (update valid d) = [] /\ snd (update valid d) <> None.
Proof.
  intros valid d fs (H & N) V F (m & f & I & S). unfold update, look. rewrite V. change (zseq 0 5) with [0; 1; 2; 3; 4].
  change (each [0; 1; 2; 3; 4] (nth_step valid)) with (seq v0tov1 (each [1; 2; 3; 4] (nth_step valid))).
  assert (E : exists x, v0tov1 d = ([], Some x)).
  { unfold v0tov1, reading, look. rewrite H, read_all_map, F. cbv zeta. unfold seq at 1, ret at 1. unfold seq at 1, ret at 1. cbn [apply_all fold_left].
    assert (IS : In (m, f) (filter (fun nf => has (lit "gnome.spills.spill.Spill"%string) (snd nf)) fs)) by (apply filter_In; auto).
    destruct (filter (fun nf => has (lit "gnome.spills.spill.Spill"%string) (snd nf)) fs) as [| x t]; [destruct IS |].
    cbn [each]. unfold seq at 1, seq at 1. destruct (f_etype (snd x)); unfold fail; eexists; reflexivity. }
  destruct E as (x & E). unfold seq. rewrite E. split; [reflexivity | discriminate].
Qed.
Example C208_redo_meets : let d := oldest [hd (lit "", ety "")%string old_files; (lit "Spill.json"%string, spl "ElementType.json"%string)] in
  d_files (interrupted (update (fun _ => true)) d 1) = [(lit "Spill.json"%string, Some (spl "ElementType.json"%string))] /\
  d_version (interrupted (update (fun _ => true)) d 1) = NoVersion.
Proof. split; vm_compute; reflexivity. Qed.

(** Refuted: the oil made from an element type has another class than the one the next step looks for, so that it is
    kept whether or not it can be made. *)
Theorem C208_oil_refuted : forall valid e name, f_subst e = Some name -> lost valid (snd (substance_from e)) = false.
Proof. intros valid e name E. unfold substance_from. rewrite E. reflexivity. Qed.
Print Assumptions C208_substance_partial.
Print Assumptions C208_files.
Print Assumptions C208_two_refuted.
Print Assumptions C208_redo_refuted.
Print Assumptions C208_oil_refuted.
