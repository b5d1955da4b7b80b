(** * Properties C150 to C154: units of the water, waves and white caps *)
From Coq Require Import Lia Reals Lra Bool.
From Verif Require Import Py PyLemmas SetProofs WxModel WavModel WavSpec WavProofs.
Local Open Scope R_scope.

(** ** C150: units of the water *)
Section C150.
  Variable valid : Z -> option (list Z).
  Variable si : Z -> Z.
  Variables shift scale : Z -> R.
  Variable celsius : Z.
  Variable rho : R -> R -> R.
  Notation get := (get valid si shift scale celsius rho).
  Notation set := (set valid).

  Lemma convert_same : forall u v x, scale v <> 0 -> same_quantity shift scale u x v (convert shift scale u v x).
  Proof. intros u v x H. unfold same_quantity, convert. field. exact H. Qed.

  (** After any sequence of calls of [set], of which some may fail, every
      attribute is returned, in every valid unit, as what was last stored. *)
  Definition store (w : wtr) (op : Z * option R * Z) : wtr :=
    let '(a, v, u) := op in match set w a v u with Ok w' => w' | Raise _ => w end.
  Definition accepted (op : Z * option R * Z) : bool :=
    let '(a, v, u) := op in negb (a =? DENS)%Z && match valid a with Some l => zmem u l | None => false end.

  Lemma store_vals : forall w a v u b, accepted (a, v, u) = true ->
    dget b (w_vals (store w (a, v, u))) = (if (b =? a)%Z then Some v else dget b (w_vals w)) /\
    dget b (w_units (store w (a, v, u))) = (if (b =? a)%Z then Some u else dget b (w_units w)).
  Proof.
    intros w a v u b A. unfold accepted in A. apply andb_true_iff in A. destruct A as [A1 A2]. apply negb_true_iff in A1.
    unfold store, WavModel.set. destruct (valid a) as [l|]; [|discriminate]. rewrite A2, A1. simpl. rewrite !dget_dset. split; reflexivity.
  Qed.
  Lemma store_refused : forall w op, accepted op = false -> store w op = w.
  Proof.
    intros w [[a v] u] A. unfold store, WavModel.set. unfold accepted in A. destruct (valid a) as [l|]; [|reflexivity].
    destruct (zmem u l); [|reflexivity]. destruct (a =? DENS)%Z; [reflexivity|discriminate].
  Qed.
  Lemma stored : forall ops w a v u, last_set a (filter accepted ops) = Some (v, u) ->
    dget a (w_vals (fold_left store ops w)) = Some v /\ dget a (w_units (fold_left store ops w)) = Some u /\
    accepted (a, v, u) = true.
  Proof.
    assert (G : forall ops w a, match last_set a (filter accepted ops) with
       | Some (v, u) => dget a (w_vals (fold_left store ops w)) = Some v /\ dget a (w_units (fold_left store ops w)) = Some u /\ accepted (a, v, u) = true
       | None => dget a (w_vals (fold_left store ops w)) = dget a (w_vals w) /\ dget a (w_units (fold_left store ops w)) = dget a (w_units w)
       end).
    { induction ops as [|[[b v] u] ops IH]; intros w a; cbn [fold_left]; [simpl; auto|].
      change (filter accepted ((b, v, u) :: ops)) with (if accepted (b, v, u) then (b, v, u) :: filter accepted ops else filter accepted ops).
      destruct (accepted (b, v, u)) eqn:A.
      - cbn [last_set]. specialize (IH (store w (b, v, u)) a).
        destruct (last_set a (filter accepted ops)) as [[v' u']|]; [exact IH|].
        destruct (store_vals w b v u a A) as [S1 S2]. rewrite S1, S2 in IH.
        destruct (a =? b)%Z eqn:E; [|exact IH]. apply Z.eqb_eq in E. subst b. destruct IH. auto.
      - rewrite (store_refused _ _ A). apply IH. }
    intros ops w a v u L. specialize (G ops w a). rewrite L in G. exact G.
  Qed.

  Theorem C150_stored : forall ops w a v u, last_set a (filter accepted ops) = Some (v, u) -> (forall t, scale t <> 0) ->
    match v with
    | None => forall t, get (fold_left store ops w) a t = Ok None
    | Some x =>
        get (fold_left store ops w) a (Some u) = Ok (Some x) /\
        (forall t l, valid a = Some l -> In t l -> exists y, get (fold_left store ops w) a (Some t) = Ok (Some y) /\ same_quantity shift scale u x t y) /\
        (forall l, valid a = Some l -> In (si a) l -> exists y, get (fold_left store ops w) a None = Ok (Some y) /\ same_quantity shift scale u x (si a) y) /\
        (forall t l, valid a = Some l -> ~ In t l -> get (fold_left store ops w) a (Some t) = Raise ValueErr)
    end.
  Proof.
    intros ops w a v u L NZ. destruct (stored ops w a v u L) as (V & U & A). set (w' := fold_left store ops w) in *. clearbody w'.
    unfold accepted in A. apply andb_true_iff in A. destruct A as [AD AL]. apply negb_true_iff in AD.
    assert (AT : attr shift scale celsius rho w' a = Ok v) by (unfold attr; rewrite AD, V; reflexivity).
    destruct v as [x|].
    - assert (C : forall t l, valid a = Some l -> In t l ->
        exists y, (if (t =? u)%Z then Ok (Some x) else match valid a with None => Raise KeyErr
            | Some l => if zmem t l then Ok (Some (convert shift scale u t x)) else Raise ValueErr end) = Ok (Some y) /\ same_quantity shift scale u x t y).
      { intros t l E I. destruct (t =? u)%Z eqn:T.
        - apply Z.eqb_eq in T. subst t. exists x. split; [reflexivity|]. unfold same_quantity. reflexivity.
        - rewrite E. apply zmem_In in I. rewrite I. eexists. split; [reflexivity|]. apply convert_same, NZ. }
      unfold WavModel.get. rewrite AT. simpl bind. rewrite U. split; [|split; [|split]].
      + rewrite Z.eqb_refl. reflexivity.
      + exact C.
      + intros l. apply C.
      + intros t l E I. assert (T : (t =? u)%Z = false).
        { apply Z.eqb_neq. intros ->. apply I. rewrite E in AL. apply zmem_In. exact AL. }
        rewrite T, E. destruct (zmem t l) eqn:M; [|reflexivity]. apply zmem_In in M. contradiction.
    - intros t. unfold WavModel.get. rewrite AT. reflexivity.
  Qed.

  (** Storing in another unit what was read in that unit changes no reading of
      the attribute, nor of the density (which takes the number of the salinity
      as it is). *)
  Theorem C150_restate : forall w a u x w' u0 l, (forall t, scale t <> 0) ->
    dget a (w_units w) = Some u0 -> valid a = Some l -> In u0 l ->
    get w a (Some u) = Ok (Some x) -> set w a (Some x) u = Ok w' ->
    (forall t, get w' a t = get w a t) /\ (forall t, a <> SALT -> get w' DENS t = get w DENS t).
  Proof.
    intros w a u x w' u0 l NZ U VA IU G S. unfold WavModel.set in S. rewrite VA in S.
    destruct (zmem u l) eqn:M; [|discriminate].
    destruct (a =? DENS)%Z eqn:AD; [discriminate|]. inversion S; subst w'. clear S.
    unfold WavModel.get in G. unfold attr in G. rewrite AD in G.
    destruct (dget a (w_vals w)) as [[x0|]|] eqn:V; simpl in G; try discriminate. rewrite U in G.
    assert (Q : forall t, convert shift scale u t x = convert shift scale u0 t x0).
    { intros t. destruct (u =? u0)%Z eqn:E.
      - apply Z.eqb_eq in E. subst u0. inversion G. reflexivity.
      - rewrite VA, M in G. inversion G. unfold convert. field. split; apply NZ. }
    assert (I : forall t y, convert shift scale t t y = y) by (intros; unfold convert; field; apply NZ).
    apply zmem_In in IU.
    split.
    - intros t. unfold WavModel.get. unfold attr. rewrite AD, V. simpl. rewrite U, !dget_dset, Z.eqb_refl. simpl.
      set (tt := match t with None => si a | Some t => t end). clearbody tt.
      destruct (tt =? u)%Z eqn:T.
      + apply Z.eqb_eq in T. subst tt. rewrite <- (I u x), Q, VA, M.
        destruct (u =? u0)%Z eqn:E; [apply Z.eqb_eq in E; subst u0; rewrite I|]; reflexivity.
      + rewrite VA. destruct (tt =? u0)%Z eqn:T0.
        * apply Z.eqb_eq in T0. subst tt. rewrite IU, Q, I. reflexivity.
        * rewrite Q. reflexivity.
    - intros t NS. unfold WavModel.get. unfold attr. rewrite Z.eqb_refl. simpl. rewrite !dget_dset.
      assert (E1 : (SALT =? a)%Z = false) by (apply Z.eqb_neq; congruence). rewrite E1.
      assert (E2 : (DENS =? a)%Z = false) by (rewrite Z.eqb_sym; exact AD). rewrite E2.
      destruct (TEMP =? a)%Z eqn:E3; [|reflexivity]. apply Z.eqb_eq in E3. subst a. rewrite V, U, Q. reflexivity.
  Qed.

  (** The density is that of the salinity and the temperature, as long as its
      own unit is that of the program. *)
  Theorem C150_density_partial : forall w s t u, dget SALT (w_vals w) = Some (Some s) -> dget TEMP (w_vals w) = Some (Some t) ->
    dget TEMP (w_units w) = Some u -> dget DENS (w_units w) = Some (si DENS) -> (forall v, scale v <> 0) ->
    exists c, same_quantity shift scale u t celsius c /\ get w DENS None = Ok (Some (rho s c)).
  Proof.
    intros w s t u S T U D NZ. exists (convert shift scale u celsius t). split; [apply convert_same, NZ|].
    unfold WavModel.get, attr. rewrite Z.eqb_refl, S, T, U. simpl. rewrite D, Z.eqb_refl. reflexivity.
  Qed.

  (** The value for points is the reading, at every point. *)
  Theorem C150_points : forall (A : Type) w a u (points : list A) x, get w a (Some u) = Ok (Some x) ->
    exists l, at_points valid si shift scale celsius rho w a u points = Ok l /\ length l = length points /\ forall y, In y l -> y = x.
  Proof.
    intros A w a u points x G. unfold at_points. rewrite G. simpl. eexists. split; [reflexivity|]. split; [apply map_length|].
    intros y I. apply in_map_iff in I. destruct I as (p & <- & _). ring.
  Qed.

  (** A new object has the numbers it was given, in the units it was given. *)
  Theorem C150_new : forall t s sed wave fetch units w,
    new_water valid si t s sed wave fetch units = (w, Ok tt) -> NoDup (map fst units) ->
    forall a v, In (a, v) [(TEMP, Some t); (SALT, Some s); (SEDI, Some sed); (WAVE, wave); (FETCH, fetch)] ->
    get w a (match dget a units with Some u => Some u | None => Some (si a) end) = Ok v.
  Proof.
    intros t s sed wave fetch units w N ND a v I. unfold new_water in N.
    assert (K : forall d w0 w1, NoDup (map fst d) -> set_units valid w0 d = (w1, Ok tt) ->
      w_vals w1 = w_vals w0 /\ forall b, dget b (w_units w1) = match dget b d with Some u => Some u | None => dget b (w_units w0) end).
    { clear. induction d as [|[b u] d IH]; intros w0 w1 ND S; simpl in S; [inversion S; auto|].
      destruct (match valid b with Some l => negb (zmem u l) | None => false end); [discriminate|].
      inversion ND; subst. destruct (IH _ _ H2 S) as [A B]. split; [exact A|]. intros c. rewrite B. simpl. rewrite dget_dset.
      destruct (c =? b)%Z eqn:E; [|reflexivity]. apply Z.eqb_eq in E. subst c.
      destruct (dget b d) as [z|] eqn:D; [|reflexivity]. exfalso. apply H1.
      clear - D. induction d as [|[k q] d IH]; simpl in *; [discriminate|]. destruct (b =? k)%Z eqn:E; [apply Z.eqb_eq in E; auto|auto]. }
    destruct (K _ _ _ ND N) as [V U]. clear K N. unfold WavModel.get, attr. rewrite V, (U a). clear V U.
    simpl in I. destruct I as [I|[I|[I|[I|[I|[]]]]]]; inversion I; subst; clear I; simpl;
      try (destruct v as [v|]; [|reflexivity]);
      match goal with |- context [dget ?k units] => destruct (dget k units) as [u|]; simpl; rewrite Z.eqb_refl; reflexivity end.
  Qed.
End C150.
Print Assumptions C150_stored.
Print Assumptions C150_restate.
Print Assumptions C150_density_partial.
Print Assumptions C150_points.
Print Assumptions C150_new.

(** Units as in the program: 1 K, 2 C, 3 F, 4 psu, 5 m, 6 km, 7 kg/m^3, 8 g/cm^3. *)
Definition ex_valid (a : Z) : option (list Z) :=
  if (a =? TEMP)%Z then Some [1%Z; 2%Z; 3%Z] else if (a =? SALT)%Z then Some [4%Z]
  else if (a =? WAVE)%Z || (a =? FETCH)%Z then Some [5%Z; 6%Z] else if (a =? DENS)%Z || (a =? SEDI)%Z then Some [7%Z; 8%Z] else None.
Definition ex_si (a : Z) : Z :=
  if (a =? TEMP)%Z then 1 else if (a =? SALT)%Z then 4 else if (a =? WAVE)%Z || (a =? FETCH)%Z then 5 else 7.
Definition ex_shift (u : Z) : R := if (u =? 2)%Z then 27315 / 100 else if (u =? 3)%Z then 45967 / 100 else 0.
Definition ex_scale (u : Z) : R := if (u =? 3)%Z then 5 / 9 else if (u =? 6)%Z || (u =? 8)%Z then 1000 else 1.

(** 15 C are 288.15 K and 59 F; a failing call in between changes nothing. *)
Example C150_stored_meets :
  let ops := [(TEMP, Some 300, 1%Z); (TEMP, Some 15, 2%Z); (FETCH, Some 2, 6%Z); (TEMP, Some 7, 5%Z)] in
  last_set TEMP (filter (accepted ex_valid) ops) = Some (Some 15, 2%Z) /\ (forall t, ex_scale t <> 0) /\
  same_quantity ex_shift ex_scale 2 15 3 59 /\ same_quantity ex_shift ex_scale 2 15 1 (28815 / 100).
Proof.
  split; [reflexivity|]. split.
  - intros t. unfold ex_scale. destruct (t =? 3)%Z, ((t =? 6)%Z || (t =? 8)%Z); lra.
  - unfold same_quantity, ex_shift, ex_scale. simpl. split; lra.
Qed.

(** With another unit for the density, the density in the unit of the program
    is wrong: the computed number is taken to be in that unit. *)
Theorem C150_density_refuted : ~ forall valid si shift scale celsius rho w s t u, dget SALT (w_vals w) = Some (Some s) ->
  dget TEMP (w_vals w) = Some (Some t) -> dget TEMP (w_units w) = Some u ->
  (forall a x l, dget a (w_units w) = Some x -> valid a = Some l -> In x l) -> (forall v, scale v <> 0) ->
  exists c, same_quantity shift scale u t celsius c /\ get valid si shift scale celsius rho w DENS None = Ok (Some (rho s c)).
Proof.
  intros F.
  destruct (F ex_valid ex_si ex_shift ex_scale 2%Z (fun s t => 1025) (Wtr [(TEMP, Some 288); (SALT, Some 35)] [(TEMP, 1%Z); (SALT, 4%Z); (DENS, 8%Z)]) 35 288 1%Z) as (c & Q & G);
    try reflexivity.
  - intros a x l. simpl. destruct (a =? TEMP)%Z eqn:E0.
    { apply Z.eqb_eq in E0. subst a. vm_compute. intros H H'. inversion H; inversion H'; subst. simpl. auto. }
    destruct (a =? SALT)%Z eqn:E1.
    { apply Z.eqb_eq in E1. subst a. vm_compute. intros H H'. inversion H; inversion H'; subst. simpl. auto. }
    destruct (a =? DENS)%Z eqn:E2; [|discriminate].
    apply Z.eqb_eq in E2. subst a. vm_compute. intros H H'. inversion H; inversion H'; subst. simpl. auto.
  - intros v. unfold ex_scale. destruct (v =? 3)%Z, ((v =? 6)%Z || (v =? 8)%Z); lra.
  - unfold get, attr in G. simpl in G. inversion G as [H]. unfold convert, ex_shift, ex_scale in H. simpl in H. lra.
Qed.
Print Assumptions C150_density_refuted.

(** A dictionary of units with a wrong one raises, and has changed others: the
    temperature is another one now. *)
Theorem C150_units_refuted : ~ forall valid w d w' e, set_units valid w d = (w', Raise e) -> w' = w.
Proof.
  intros F. specialize (F ex_valid (Wtr [] [(TEMP, 1%Z); (FETCH, 5%Z)]) [(TEMP, 3%Z); (FETCH, 1%Z)] _ _ eq_refl). discriminate.
Qed.
Print Assumptions C150_units_refuted.

(** ** C151: wave heights *)
Theorem C151_bounds : forall u fetch, 0 <= u -> 0 <= wave_height u fetch <= 30.
Proof.
  intros u fetch U. pose proof (stress_nonneg u U) as S. destruct fetch as [f|]; [rewrite height_fetch|rewrite height_open].
  - pose proof (open_sea_nonneg (stress u)). pose proof (near_coast_nonneg f (stress u) S).
    split; [|apply Rmin_r]. apply Rmin_glb; [|lra]. destruct (Rlt_dec f (2268 * (stress u * stress u))); lra.
  - pose proof (open_sea_nonneg (stress u)). split; [|apply Rmin_r]. apply Rmin_glb; lra.
Qed.
Print Assumptions C151_bounds.
Theorem C151_wind : grows (fun u => wave_height u None).
Proof.
  intros x y X Y. rewrite !height_open. apply Rmin_mono. apply Rmult_le_compat_l; [lra|].
  apply open_sea_grows; [apply stress_nonneg; exact X|apply stress_grows; assumption].
Qed.
Print Assumptions C151_wind.
(** More fetch never lowers the waves, and the open sea has the highest. *)
Theorem C151_fetch : forall u f f', 0 <= u -> 0 <= f -> f <= f' ->
  wave_height u (Some f) <= wave_height u (Some f') /\ wave_height u (Some f') <= wave_height u None.
Proof.
  intros u f f' U F FF. pose proof (stress_nonneg u U) as S. rewrite !height_fetch, height_open.
  split; apply Rmin_mono; apply Rmult_le_compat_l; try lra.
  - destruct (Rlt_dec f (2268 * (stress u * stress u))) as [A|A], (Rlt_dec f' (2268 * (stress u * stress u))) as [B|B]; try lra.
    + apply near_coast_grows; lra.
    + apply near_coast_le; lra.
  - destruct (Rlt_dec f' (2268 * (stress u * stress u))) as [B|B]; [|lra]. apply near_coast_le; lra.
Qed.
Print Assumptions C151_fetch.
(** With a fetch, more wind lowers the waves by no more than a fiftieth. *)
Theorem C151_wind_fetch_partial : forall u u' f, 0 <= u -> u <= u' -> 0 <= f ->
  wave_height u (Some f) <= 51 / 50 * wave_height u' (Some f).
Proof.
  intros u u' f U UU F. pose proof (stress_nonneg u U) as S. pose proof (stress_grows u u' U UU) as G. rewrite !height_fetch.
  set (h := if Rlt_dec f (2268 * (stress u * stress u)) then near_coast f (stress u) else open_sea (stress u)).
  set (h' := if Rlt_dec f (2268 * (stress u' * stress u')) then near_coast f (stress u') else open_sea (stress u')).
  assert (H : 0 <= h' /\ h <= 51 / 50 * h').
  { unfold h, h'. pose proof (open_sea_nonneg (stress u')). pose proof (near_coast_nonneg f (stress u')) as NN.
    destruct (Rlt_dec f (2268 * (stress u * stress u))) as [A|A], (Rlt_dec f (2268 * (stress u' * stress u'))) as [B|B].
    - pose proof (near_coast_grows f f (stress u) (stress u')). lra.
    - exfalso. assert (stress u * stress u <= stress u' * stress u') by nra. lra.
    - pose proof (near_coast_grows f f (stress u) (stress u')). pose proof (near_coast_ge f (stress u)).
      assert (2268 * (stress u * stress u) <= f) by lra. lra.
    - pose proof (open_sea_grows (stress u) (stress u') S G). lra. }
  destruct H as [H0 H]. unfold Rmin. destruct (Rle_dec (707 / 1000 * h) 30), (Rle_dec (707 / 1000 * h') 30); lra.
Qed.
Print Assumptions C151_wind_fetch_partial.
(** It does lower them where the formula changes: at 10 m/s with a fetch of
    226800 m. *)
Lemma stress_high : forall u, limit <= u -> stress u = u.
Proof. intros u H. unfold stress. destruct (Rlt_dec u limit); lra. Qed.
Theorem C151_wind_fetch_refuted : ~ forall f, 0 <= f -> grows (fun u => wave_height u (Some f)).
Proof.
  intros F. specialize (F 226800 ltac:(lra) 10 (1001 / 100) ltac:(lra) ltac:(lra)). simpl in F. pose proof limit_pos as LP.
  rewrite !height_fetch, !stress_high in F by lra.
  destruct (Rlt_dec 226800 (2268 * (10 * 10))) as [A|A]; [lra|].
  destruct (Rlt_dec 226800 (2268 * (1001 / 100 * (1001 / 100)))) as [B|B]; [|lra].
  unfold open_sea, near_coast, gravity in F.
  assert (S : sqrt (226800 / (980665 / 100000)) <= 15208 / 100).
  { rewrite <- (sqrt_square (15208 / 100)) by lra. apply sqrt_le_1_alt. lra. }
  pose proof (sqrt_pos (226800 / (980665 / 100000))).
  unfold Rmin in F.
  destruct (Rle_dec (707 / 1000 * (243 / 1000 * 10 * 10 / (980665 / 100000))) 30) as [C|C]; [|lra].
  destruct (Rle_dec (707 / 1000 * (16 / 10000 * sqrt (226800 / (980665 / 100000)) * (1001 / 100))) 30); lra.
Qed.
Print Assumptions C151_wind_fetch_refuted.
Example C151_meets : stress 10 = 10 /\ wave_height 10 None = 707 / 1000 * (243 / 1000 * 10 * 10 / gravity) /\ 0 < wave_height 10 None < 2.
Proof.
  pose proof limit_pos. rewrite stress_high by lra. split; [reflexivity|]. rewrite height_open, stress_high by lra. unfold open_sea, gravity.
  rewrite Rmin_left by lra. split; [reflexivity|lra].
Qed.

(** ** C152: white caps *)
Theorem C152_fraction : forall u s, 0 <= u -> 0 <= s -> 0 <= whitecaps u s <= 1.
Proof.
  intros u s U S. rewrite whitecaps_eq. split; [|apply Rmin_r]. apply Rmin_glb; [|lra].
  pose proof (cap_rate_nonneg u U). pose proof (decay_pos s S).
  apply Rmult_le_pos; [|lra]. apply Rmult_le_pos; [lra|]. left. apply Rinv_0_lt_compat. lra.
Qed.
Print Assumptions C152_fraction.
Theorem C152_wind : forall s, 0 <= s -> grows (fun u => whitecaps u s).
Proof.
  intros s S x y X Y. rewrite !whitecaps_eq. apply Rmin_mono. pose proof (cap_rate_grows x y X Y). pose proof (decay_pos s S).
  apply Rmult_le_compat_r; [lra|]. apply Rmult_le_compat_r; [left; apply Rinv_0_lt_compat; lra|lra].
Qed.
Print Assumptions C152_wind.
(** Saltier water has less of them. *)
Theorem C152_salt : forall u s s', 0 <= u -> 0 <= s -> s <= s' -> whitecaps u s' <= whitecaps u s.
Proof.
  intros u s s' U S SS. rewrite !whitecaps_eq. apply Rmin_mono. pose proof (cap_rate_nonneg u U). pose proof (decay_pos s S) as D.
  assert (D' : whitecap_decay s <= whitecap_decay s') by (unfold whitecap_decay; lra).
  apply Rmult_le_compat_r; [lra|]. apply Rmult_le_compat_l; [lra|]. apply Rinv_le_contravar; lra.
Qed.
Print Assumptions C152_salt.
(** No jump: nearby winds give nearby fractions; the time of decay lies between
    those of fresh water and sea water. *)
Theorem C152_no_jump : forall u u' s, 0 <= u -> u <= u' -> 0 <= s -> whitecaps u' s - whitecaps u s <= (u' - u) / 400.
Proof.
  intros u u' s U UU S. rewrite !whitecaps_eq.
  assert (C : cap_rate u' - cap_rate u <= 125 / 10000 * (u' - u)) by (unfold cap_rate; destruct (Rlt_dec u 4), (Rlt_dec u' 4); lra).
  pose proof (cap_rate_grows u u' U UU) as CG. pose proof (decay_pos s S) as D.
  set (t := whitecap_decay s) in *.
  assert (I : 0 < / t <= 100 / 254). { split; [apply Rinv_0_lt_compat; lra|]. replace (100 / 254) with (/ (254 / 100)) by field. apply Rinv_le_contravar; lra. }
  assert (E : cap_rate u' / t * (1 / 2) - cap_rate u / t * (1 / 2) <= (u' - u) / 400).
  { unfold Rdiv. replace (cap_rate u' * / t * (1 * / 2) - cap_rate u * / t * (1 * / 2)) with ((cap_rate u' - cap_rate u) * / t * / 2) by ring.
    assert (X : (cap_rate u' - cap_rate u) * / t <= 125 / 10000 * (u' - u) * (100 / 254)) by (apply Rmult_le_compat; lra). lra. }
  unfold Rmin. destruct (Rle_dec (cap_rate u' / t * (1 / 2)) 1), (Rle_dec (cap_rate u / t * (1 / 2)) 1); lra.
Qed.
Print Assumptions C152_no_jump.
Theorem C152_decay : whitecap_decay 0 = 254 / 100 /\ Rabs (whitecap_decay 35 - 385 / 100) <= 1 / 1000000.
Proof. unfold whitecap_decay. split; [lra|]. apply Rabs_le. lra. Qed.
Print Assumptions C152_decay.
Example C152_meets : whitecaps 4 0 = 5 / 100 / (254 / 100) * (1 / 2) /\ whitecaps 0 35 = 0.
Proof.
  rewrite !whitecaps_eq. unfold cap_rate, whitecap_decay. destruct (Rlt_dec 4 4); [lra|]. destruct (Rlt_dec 0 4); [|lra].
  split; rewrite Rmin_left; lra.
Qed.

(** ** C153: waves that are given *)

Definition raised (u : R) : R := 243 / 1000 * (stress u) * (stress u) / gravity.
Lemma wind_of_waves : forall u, 0 <= u ->
  (limit <= u -> pseudo_wind (raised u) = u) /\ Rabs (pseudo_wind (raised u) - u) <= 1 / 100000.
Proof.
  intros u U. pose proof limit_pos as LP. pose proof (stress_nonneg u U) as S. unfold pseudo_wind.
  change (raised u) with (open_sea (stress u)). rewrite (sqrt_open (stress u) S).
  destruct (Rlt_dec u limit) as [L|L].
  - split; [lra|]. pose proof (stress_below u U L). destruct (Rlt_dec (stress u) limit); [|lra].
    unfold stress. destruct (Rlt_dec u limit); [|lra].
    replace (71 / 100 * rpow u (123 / 100) / (71 / 100)) with (rpow u (123 / 100)) by field.
    destruct (Req_EM_T u 0) as [->|N].
    + unfold rpow at 2. destruct (Req_EM_T 0 0); [|lra]. unfold rpow. destruct (Req_EM_T 0 0); [|lra]. rewrite Rminus_diag_eq by reflexivity. rewrite Rabs_R0. lra.
    + apply round_trip_low; lra.
  - rewrite stress_high by lra. destruct (Rlt_dec u limit); [lra|]. split; [reflexivity|].
    rewrite Rminus_diag_eq by reflexivity. rewrite Rabs_R0. lra.
Qed.
Lemma height_raised : forall u h, 707 / 1000 * h = wave_height u None -> wave_height u None < 30 -> h = raised u.
Proof.
  intros u h H L. rewrite height_open in H, L. change (open_sea (stress u)) with (raised u) in H, L.
  unfold Rmin in H, L. destruct (Rle_dec (707 / 1000 * raised u) 30); lra.
Qed.
(** The wind computed from the height of the waves that a wind raises on the
    open sea is that wind; the program works with 0.707 of the given height. *)
Theorem C153_wind_of_waves : forall u h, 0 <= u -> 707 / 1000 * h = wave_height u None -> wave_height u None < 30 ->
  (limit <= u -> pseudo_wind h = u) /\ Rabs (pseudo_wind h - u) <= 1 / 100000.
Proof. intros u h U H L. rewrite (height_raised u h H L). apply wind_of_waves, U. Qed.
Print Assumptions C153_wind_of_waves.
(** Given waves are used whatever the wind is, and at the height given. *)
Theorem C153_given : forall u u' h fetch fetch' s rho, wave_values u (Some h) fetch s rho = wave_values u' (Some h) fetch' s rho /\
  fst (fst (fst (wave_values u (Some h) fetch s rho))) = 707 / 1000 * h.
Proof. intros. split; reflexivity. Qed.
Print Assumptions C153_given.
(** Giving the waves of the wind instead of the wind changes neither their
    height, up to 30 m, nor, noticeably, the white caps. *)
Theorem C153_same_waves : forall u h s rho, 0 <= u -> 0 <= s -> 707 / 1000 * h = wave_height u None -> wave_height u None < 30 ->
  fst (fst (fst (wave_values u (Some h) None s rho))) = fst (fst (fst (wave_values u None None s rho))) /\
  snd (wave_values u (Some h) None s rho) = snd (wave_values u None None s rho) /\
  Rabs (snd (fst (wave_values u (Some h) None s rho)) - snd (fst (wave_values u None None s rho))) <= 1 / 10000000.
Proof.
  intros u h s rho U S E L. pose proof (height_raised u h E L). subst h. simpl.
  assert (H : 707 / 1000 * raised u <= 30) by lra. rewrite height_open. change (open_sea (stress u)) with (raised u). rewrite Rmin_left by exact H.
  split; [reflexivity|]. split; [reflexivity|].
  destruct (wind_of_waves u U) as [_ B].
  assert (P : 0 <= pseudo_wind (raised u)).
  { unfold pseudo_wind. destruct (Rlt_dec _ limit); [apply rpow_nonneg|apply sqrt_pos]. }
  set (v := pseudo_wind (raised u)) in *. clearbody v.
  destruct (Rle_dec u v) as [LE|LE].
  - pose proof (C152_no_jump u v s U LE S). pose proof (C152_wind s S u v U LE) as W. simpl in W. rewrite Rabs_right in B by lra. rewrite Rabs_right by lra. lra.
  - assert (L' : v <= u) by lra. pose proof (C152_no_jump v u s P L' S). pose proof (C152_wind s S v u P L') as W. simpl in W.
    rewrite Rabs_left1 in B by lra. rewrite Rabs_left1 by lra. lra.
Qed.
Print Assumptions C153_same_waves.
(** The wind for emulsification is the wind, or that of the waves if they are
    given and it is stronger. *)
Theorem C153_emulsification : forall u h, emulsification_wind u None = u /\
  emulsification_wind u (Some h) = Rmax u (pseudo_wind h).
Proof. intros u h. split; [reflexivity|]. unfold emulsification_wind, Rmax. destruct (Rlt_dec u (pseudo_wind h)), (Rle_dec u (pseudo_wind h)); lra. Qed.
Print Assumptions C153_emulsification.
Example C153_meets : let h := 243 / 1000 * 10 * 10 / gravity in
  707 / 1000 * h = wave_height 10 None /\ wave_height 10 None < 30 /\ limit <= 10 /\ pseudo_wind h = 10.
Proof.
  intros h. pose proof limit_pos. destruct C151_meets as (_ & E & B). split; [symmetry; exact E|]. split; [lra|]. split; [lra|].
  apply (C153_wind_of_waves 10 h); try lra. symmetry; exact E.
Qed.

(** ** C154: the wave period *)
Theorem C154_wind_partial : grows (fun u => wave_period u None None).
Proof.
  intros x y X Y. unfold wave_period. pose proof (rpow_le x y (123 / 100)). pose proof (rpow_nonneg x (123 / 100)).
  apply Rmult_le_compat_l; [lra|]. apply Rmult_le_compat; nra.
Qed.
Print Assumptions C154_wind_partial.
Theorem C154_given : forall u h h', 0 <= h -> h <= h' -> wave_period u (Some h) None <= wave_period u (Some h') None.
Proof. intros u h h' H HH. unfold wave_period. pose proof (sqrt_le_1_alt h h' HH). lra. Qed.
Print Assumptions C154_given.
(** The period should be that of the wind stress factor of the waves, 0.83
    times it, which for 32 m/s is near the 15.7 s of the comment; it is beyond
    twenty minutes. *)
Theorem C154_stress_refuted : ~ forall u, 0 <= u -> wave_period u None None = 83 / 100 * stress u.
Proof.
  intros F. specialize (F 32 ltac:(lra)). pose proof limit_pos. rewrite stress_high in F by lra. unfold wave_period in F.
  assert (P : 64 <= rpow 32 (123 / 100)).
  { rewrite rpow_pos by lra. replace 64 with (Rpower 32 (6 / 5)).
    - apply Rle_Rpower; lra.
    - replace 32 with (2 ^ 5) by ring. rewrite <- Rpower_pow by lra. rewrite Rpower_mult.
      replace (INR 5 * (6 / 5)) with (INR 6) by (simpl; field). rewrite Rpower_pow by lra. ring. }
  lra.
Qed.
Print Assumptions C154_stress_refuted.
Theorem C154_value : 1200 < wave_period 32 None None.
Proof.
  unfold wave_period.
  assert (P : 64 <= rpow 32 (123 / 100)).
  { rewrite rpow_pos by lra. replace 64 with (Rpower 32 (6 / 5)).
    - apply Rle_Rpower; lra.
    - replace 32 with (2 ^ 5) by ring. rewrite <- Rpower_pow by lra. rewrite Rpower_mult.
      replace (INR 5 * (6 / 5)) with (INR 6) by (simpl; field). rewrite Rpower_pow by lra. ring. }
  lra.
Qed.
Print Assumptions C154_value.
(** Without wind there are no waves. *)
Theorem C154_calm : wave_values 0 None None 35 1025 = (0, 0, 0, 0).
Proof.
  pose proof limit_pos. unfold wave_values. rewrite height_open. unfold wave_period, wave_energy.
  assert (Z : rpow 0 (123 / 100) = 0) by (unfold rpow; destruct (Req_EM_T 0 0); lra).
  assert (S : stress 0 = 0) by (unfold stress; destruct (Rlt_dec 0 limit); [rewrite Z; ring|lra]).
  rewrite S. assert (O : open_sea 0 = 0) by (unfold open_sea; pose proof gravity_pos; field; lra). rewrite O.
  rewrite Rmin_left by lra. rewrite Z. destruct C152_meets as [_ W]. rewrite W. repeat f_equal; ring.
Qed.
Print Assumptions C154_calm.
