(** * Proofs about the movers *)
From Verif Require Import Py PyLemmas QLemmas TimeModel ProjModel MvModel MvSpec.
Open Scope Q_scope.

Lemma map2_map {A B C D} (f : B -> C -> D) (g : A -> B) (h : A -> C) l :
  map2 f (map g l) (map h l) = map (fun x => f (g x) (h x)) l.
Proof. unfold map2. induction l as [|x l IH]; cbn; [reflexivity|]. f_equal. exact IH. Qed.
Lemma map2_map_r {A C D} (f : A -> C -> D) (h : A -> C) l :
  map2 f l (map h l) = map (fun x => f x (h x)) l.
Proof. unfold map2. induction l as [|x l IH]; cbn; [reflexivity|]. f_equal. exact IH. Qed.
Lemma map2_map_l {A C D} (f : C -> A -> D) (h : A -> C) l :
  map2 f (map h l) l = map (fun x => f (h x) x) l.
Proof. unfold map2. induction l as [|x l IH]; cbn; [reflexivity|]. f_equal. exact IH. Qed.
Lemma combine_map {A B C} (g : A -> B) (h : A -> C) l : combine (map g l) (map h l) = map (fun x => (g x, h x)) l.
Proof. induction l as [|x l IH]; cbn; [reflexivity|]. f_equal. exact IH. Qed.
Lemma map2_length {A B C} (f : A -> B -> C) l m : length l = length m -> length (map2 f l m) = length l.
Proof. intros H. unfold map2. rewrite map_length, combine_length. lia. Qed.
Lemma map2_forall2 {A B C} (f : A -> B -> C) (P : A -> C -> Prop) l m :
  length l = length m -> (forall a b, P a (f a b)) -> Forall2 P l (map2 f l m).
Proof.
  intros H HP. revert m H. induction l as [|a l IH]; intros [|b m] H; cbn in *; try discriminate; [constructor|].
  unfold map2. cbn. constructor; [apply HP|]. apply IH. congruence.
Qed.
Lemma mapM_length {A B} (f : A -> res B) l r : mapM f l = Ok r -> length r = length l.
Proof.
  revert r. induction l as [|x l IH]; cbn; intros r H; [injection H as <-; reflexivity|].
  destruct (f x); cbn in H; [|discriminate]. destruct (mapM f l) eqn:E; cbn in H; [|discriminate]. injection H as <-.
  cbn. f_equal. apply IH. reflexivity.
Qed.

Lemma epoch z t d : of_epoch_us z (to_epoch_us z t + d) = (t / sec_us * sec_us + d)%Z.
Proof.
  unfold of_epoch_us, to_epoch_us, mktime0. destruct (z_dst z _); lia.
Qed.
Lemma half_even dt : Z.even dt = true -> (half_td dt * 2 = dt)%Z.
Proof.
  intros H. unfold half_td. rewrite H. apply Zeven_bool_iff, Zeven_ex_iff in H. destruct H as [m ->].
  rewrite (Z.mul_comm 2 m), Z.div_mul by lia. lia.
Qed.

Section field.
Variable cosd : Q -> Q.
Variable z : zone.
Variable vel : vec -> Z -> res vec.
Variable f : Z -> vec.
Hypothesis Hu : uniform_field vel f.

Lemma field_uniform ps t : field_at vel ps t = Ok (map (fun _ => f t) ps).
Proof. apply mapM_ok. intros x _. apply Hu. Qed.

Lemma euler_uniform dt t ps :
  delta_euler vel dt t ps = Ok (map (fun _ => vscale (secs dt) (f t)) ps).
Proof. unfold delta_euler. rewrite field_uniform. cbn. rewrite map_map. reflexivity. Qed.

Lemma rk2_uniform dt t ps :
  delta_rk2 cosd z vel dt t ps =
  Ok (map (fun _ => vscale (secs dt / 2) (vadd (f t) (f (t / sec_us * sec_us + dt)%Z))) ps).
Proof.
  unfold delta_rk2, to_lonlat_rows. rewrite field_uniform. cbn [bind]. rewrite epoch, map_map, map2_map_l, map2_map_r, field_uniform.
  cbn [bind]. rewrite map_map, map2_map. reflexivity.
Qed.

Lemma rk4_uniform dt t ps :
  delta_rk4 cosd z vel dt t ps =
  Ok (map (fun _ => vscale (secs dt / 6)
        (vadd (vadd (vadd (f t) (vscale 2 (f (t / sec_us * sec_us + half_td dt)%Z)))
                 (vscale 2 (f (t / sec_us * sec_us + half_td dt)%Z))) (f (t / sec_us * sec_us + dt)%Z))) ps).
Proof.
  unfold delta_rk4, to_lonlat_rows. rewrite field_uniform. cbn [bind]. rewrite !epoch, map_map, map2_map_l, map2_map_r, field_uniform.
  cbn [bind]. rewrite !map_map, map2_map_l, map2_map_r, field_uniform. cbn [bind].
  rewrite !map_map, map2_map_l, map2_map_r, field_uniform. cbn [bind].
  rewrite !map_map, !combine_map, map_map. reflexivity.
Qed.
End field.

Lemma steady_uniform vel v : steady vel v -> uniform_field vel (fun _ => v).
Proof. intros H p t. apply H. Qed.

Lemma secs_seconds dt : secs dt == seconds dt.
Proof. reflexivity. Qed.

Ltac vsolve := unfold same, vadd, vsub, vscale, vzero, vx, vy, vz; cbn [fst snd]; repeat split; try reflexivity; try field.

Lemma same_refl a : same a a.
Proof. vsolve. Qed.

(** On a steady field every scheme gives a constant row. *)
Lemma steady_method cosd z vel v m dt t ps : steady vel v -> m <> Unknown ->
  exists d, delta_method cosd z vel m dt t ps = Ok (map (fun _ => d) ps) /\ same d (vscale (secs dt) v).
Proof.
  intros H Hm. apply steady_uniform in H. destruct m; cbn [delta_method]; [| | |congruence].
  - rewrite (euler_uniform _ _ H). eexists. split; [reflexivity|apply same_refl].
  - rewrite (rk2_uniform _ _ _ _ H). eexists. split; [reflexivity|]. vsolve.
  - rewrite (rk4_uniform _ _ _ _ H). eexists. split; [reflexivity|]. vsolve.
Qed.

Lemma method_length cosd z vel m dt t ps r : delta_method cosd z vel m dt t ps = Ok r -> length r = length ps.
Proof.
  destruct m; cbn [delta_method]; unfold delta_euler, delta_rk2, delta_rk4, field_at, to_lonlat_rows; intros H.
  - destruct (mapM _ ps) eqn:E; [|discriminate]. cbn in H. injection H as <-. rewrite map_length. apply mapM_length in E. exact E.
  - destruct (mapM _ ps) as [v0|] eqn:E0; [|discriminate]. cbn [bind] in H. apply mapM_length in E0.
    destruct (mapM _ (map2 _ _ _)) as [v1|] eqn:E1; [|discriminate]. cbn [bind] in H. apply mapM_length in E1.
    injection H as <-. rewrite map2_length; [exact E0|]. rewrite E1, E0, map2_length; [reflexivity|].
    rewrite map2_length; rewrite map_length; auto.
  - destruct (mapM _ ps) as [v0|] eqn:E0; [|discriminate]. cbn [bind] in H. apply mapM_length in E0.
    destruct (mapM _ (map2 _ _ _)) as [v1|] eqn:E1 in H; [|discriminate]. cbn [bind] in H. apply mapM_length in E1.
    rewrite map2_length in E1 by (rewrite map2_length; rewrite map_length; auto).
    destruct (mapM _ (map2 _ _ _)) as [v2|] eqn:E2 in H; [|discriminate]. cbn [bind] in H. apply mapM_length in E2.
    rewrite map2_length in E2 by (rewrite map2_length; rewrite map_length; auto).
    destruct (mapM _ (map2 _ _ _)) as [v3|] eqn:E3 in H; [|discriminate]. cbn [bind] in H. apply mapM_length in E3.
    rewrite map2_length in E3 by (rewrite map2_length; rewrite map_length; auto).
    injection H as <-. rewrite map_length, !combine_length, E0, E1, E2, E3. lia.
  - discriminate.
Qed.

Lemma unc_length unc ds r : add_uncertainty unc ds = Ok r -> length r = length ds.
Proof.
  unfold add_uncertainty. destruct unc as [|a u]; [intros H; injection H as <-; reflexivity|].
  destruct (length (a :: u) =? length ds)%nat eqn:E.
  - apply Nat.eqb_eq in E. intros H. injection H as <-. apply map2_length. auto.
  - destruct u; [|discriminate]. intros H. injection H as <-. apply map_length.
Qed.

Lemma stop_dry_spec es ds : length ds = length es ->
  Forall2 (fun e d => e_water e = false -> d = vzero) es (stop_dry es ds).
Proof.
  intros H. unfold stop_dry. apply map2_forall2; [auto|]. intros a b E. rewrite E. reflexivity.
Qed.
Lemma zeros_spec (P : elem -> vec -> Prop) es : (forall e, In e es -> P e vzero) -> Forall2 P es (zeros es).
Proof. induction es as [|e es IH]; cbn; constructor; [apply H; left; auto|apply IH; intros; apply H; right; auto]. Qed.

(** The result is determined element by element. *)
Lemma current_dry cosd z vel m scale active unc ul dt t es ds :
  current_move cosd z vel m scale active unc ul dt t es = Ok ds ->
  Forall2 (fun e d => e_water e = false -> d = vzero) es ds.
Proof.
  unfold current_move. destruct (active && _).
  - intros H. destruct (delta_method _ _ _ _ _ _ _) as [r|] eqn:E; [|discriminate]. cbn [bind] in H. apply method_length in E.
    destruct (if unc then _ else _) as [d|] eqn:E2; [|discriminate]. cbn [bind] in H. injection H as <-.
    apply stop_dry_spec. assert (L : length d = length es).
    { destruct unc; [apply unc_length in E2|injection E2 as <-]; rewrite ?map_length in *; congruence. }
    unfold to_lonlat_rows. rewrite map2_length; rewrite ?map_length; auto.
  - intros H. injection H as <-. apply zeros_spec. auto.
Qed.

Lemma current_steady cosd z vel v m scale active dt t es : steady vel v -> m <> Unknown ->
  exists ds, current_move cosd z vel m scale active false [] dt t es = Ok ds /\
    Forall2 (fun e d => same d (if active && e_water e
                                then to_lonlat_row cosd (vscale scale (vscale (secs dt) v)) (e_pos e)
                                else vzero)) es ds.
Proof.
  intros Hs Hm. unfold current_move. destruct (active && negb _) eqn:A.
  - apply andb_true_iff in A. destruct A as [-> _].
    destruct (steady_method cosd z vel v m dt t (map e_pos es) Hs Hm) as [d [-> Hd]]. cbn [bind].
    eexists. split; [reflexivity|]. unfold stop_dry, to_lonlat_rows. rewrite map_map, map2_map_l, map_map, map2_map_r.
    induction es as [|e es IH]; [constructor|]. constructor; [|apply IH]. cbn [andb]. destruct (e_water e); [|apply same_refl].
    destruct Hd as [H1 [H2 H3]]. unfold to_lonlat_row, meters_to_lonlat, vscale, same, vx, vy, vz in *. cbn [fst snd] in *.
    rewrite H1, H2, H3. repeat split; reflexivity.
  - eexists. split; [reflexivity|]. apply zeros_spec. intros e He. apply andb_false_iff in A. destruct A as [->|A]; [apply same_refl|].
    destruct es; [contradiction|]. cbn in A. discriminate.
Qed.

Lemma wind_dry cosd z vel m scale active dt t es ds :
  wind_move cosd z vel m scale active dt t es = Ok ds ->
  Forall2 (fun e d => e_water e = false -> d = vzero) es ds.
Proof.
  unfold wind_move. destruct (active && _).
  - intros H. destruct (delta_method _ _ _ _ _ _ _) as [r|] eqn:E; [|discriminate]. cbn [bind] in H. apply method_length in E.
    injection H as <-. rewrite map_length in E. apply stop_dry_spec. unfold to_lonlat_rows.
    rewrite map2_length, map2_length; rewrite ?map2_length, ?map_length; auto.
  - intros H. injection H as <-. apply zeros_spec. auto.
Qed.

Lemma wind_steady cosd z vel v m scale active dt t es : steady vel v -> m <> Unknown ->
  exists ds, wind_move cosd z vel m scale active dt t es = Ok ds /\
    Forall2 (fun e d => same d (if active && e_water e
                                then to_lonlat_row cosd (blow scale e (vscale (secs dt) v)) (e_pos e)
                                else vzero)) es ds.
Proof.
  intros Hs Hm. unfold wind_move. destruct (active && negb _) eqn:A.
  - apply andb_true_iff in A. destruct A as [-> _].
    destruct (steady_method cosd z vel v m dt t (map e_pos es) Hs Hm) as [d [-> Hd]]. cbn [bind].
    eexists. split; [reflexivity|]. unfold stop_dry, to_lonlat_rows. rewrite !map_map, map2_map_r, map2_map, map2_map_r.
    induction es as [|e es IH]; [constructor|]. constructor; [|apply IH]. cbn [andb]. destruct (e_water e); [|apply same_refl].
    destruct Hd as [H1 [H2 H3]]. unfold to_lonlat_row, meters_to_lonlat, blow, vscale, same, vx, vy, vz in *. cbn [fst snd] in *.
    rewrite H1, H2, H3. repeat split; reflexivity.
  - eexists. split; [reflexivity|]. apply zeros_spec. intros e He. apply andb_false_iff in A. destruct A as [->|A]; [apply same_refl|].
    destruct es; [contradiction|]. cbn in A. discriminate.
Qed.

Lemma simple_rows cosd v scale active on unc u dt es :
  simple_move cosd v scale active on unc u dt es =
  map (fun '(i, e) =>
         if active && on then
           to_lonlat_row cosd
             (if e_water e then
                let move := vscale (secs dt) v in
                let s := vscale (secs dt) (vscale scale v) in
                if unc then vadd move (uniform (- vx s) (vx s) (vx (u i)), uniform (- vy s) (vy s) (vy (u i)),
                                       uniform (- vz s) (vz s) (vz (u i)))
                else move
              else vzero) (e_pos e)
         else vzero) (combine (seq 0 (length es)) es).
Proof.
  unfold simple_move, to_lonlat_rows, zeros. destruct (active && on).
  - generalize 0%nat. induction es as [|e es IH]; intros n; cbn; [reflexivity|]. unfold map2 in *. cbn. f_equal. apply IH.
  - generalize 0%nat. induction es as [|e es IH]; intros n; cbn; [reflexivity|]. f_equal. apply IH.
Qed.
Lemma f2_indexed {B} (g : nat -> elem -> B) (P : elem -> B -> Prop) es : (forall i e, In e es -> P e (g i e)) ->
  Forall2 P es (map (fun '(i, e) => g i e) (combine (seq 0 (length es)) es)).
Proof.
  generalize 0%nat. induction es as [|e es IH]; intros n H; cbn; constructor; [apply H; left; auto|].
  apply IH. intros i x Hx. apply H. right. auto.
Qed.

Lemma drift_length es : (length (filter e_water es) <= length es)%nat.
Proof. induction es as [|e es IH]; cbn; [lia|]. destruct (e_water e); cbn; lia. Qed.
Lemma drift_all es : length (filter e_water es) = length es <-> forall e, In e es -> e_water e = true.
Proof.
  induction es as [|e es IH]; cbn; [split; [intros _ e []|reflexivity]|]. destruct (e_water e) eqn:E; cbn; split; intros H.
  - intros x [<-|Hx]; [auto|]. apply IH; [congruence|auto].
  - f_equal. apply IH. intros x Hx. apply H. auto.
  - pose proof (drift_length es). lia.
  - rewrite (H e) in E by auto. discriminate.
Qed.

(** ** Ice *)

Lemma ice_free c : ice_factor c == 1 - free_factor c.
Proof. unfold ice_factor, free_factor. destruct (Qle_bool (8 # 10) c); [field|]. destruct (negb _); field. Qed.

Lemma free_cases c :
  (8 # 10 <= c /\ free_factor c == 0) \/ (c < 2 # 10 /\ free_factor c == 1) \/
  (2 # 10 <= c < 8 # 10 /\ free_factor c == (8 # 6) - c * (10 # 6)).
Proof.
  unfold free_factor. destruct (Qle_bool_spec (8 # 10) c) as [H|H]; [left; split; [auto|reflexivity]|]. right.
  destruct (Qle_bool_spec (2 # 10) c) as [G|G]; cbn [negb]; [right|left]; (split; [auto|]); [|reflexivity]. field.
Qed.

Lemma any_ice_false cs : any_ice cs = false -> forall c, In c cs -> c < 2 # 10.
Proof.
  unfold any_ice. intros H c Hc. apply Qnot_le_lt. intros C. apply Qle_bool_iff in C.
  assert (existsb (Qle_bool (2 # 10)) cs = true) by (apply existsb_exists; eauto). congruence.
Qed.
