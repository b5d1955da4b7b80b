From Coq Require Import Permutation.
From Verif Require Import Py PyLemmas QLemmas LandModel LandSpec LandProofs LandProofs2
  ProjModel ProjSpec ProjProofs MapModel MapSpec.
Open Scope Q_scope.

Lemma resurface_pos e : e_pos (resurface e) = e_pos e. Proof. reflexivity. Qed.

Lemma flag_off_fields om e : let e' := flag_off om e in
  e_pos e' = e_pos e /\ e_mass e' = e_mass e /\ e_next e' = e_next e /\ e_lastw e' = e_lastw e /\
  e_stat e' = if om (fst (e_next e)) then e_stat e else OFF_MAPS.
Proof. unfold flag_off. cbv zeta. destruct (om _) eqn:E; cbn; repeat split; auto. Qed.

Lemma has_stat_iff s e : has_stat s e = true <-> e_stat e = s.
Proof. unfold has_stat. apply Z.eqb_eq. Qed.

Lemma raster_beach1_ok g ratios p hl e : wf g -> Forall (fun r => (0 < r)%Z) ratios -> small_elem p e ->
  exists e1, raster_beach1 (build_layers g ratios) p hl e = Ok e1 /\
    e_pos e1 = e_pos e /\ e_mass e1 = e_mass e /\ snd (e_next e1) = snd (e_next e) /\
    snd (e_lastw e1) = snd (e_lastw e) /\
    outcome g ratios p hl e (fst (e_next e1), fst (e_lastw e1), e_stat e1).
Proof.
  intros Hw Hr Hs. unfold raster_beach1, check_land_layers1. cbn [onland pos endp lastw].
  destruct (has_stat ON_LAND e) eqn:El.
  { cbn [onland pos endp lastw]. apply has_stat_iff in El. pose proof (was_beached g ratios p hl e El) as HO.
    unfold stuck in HO. destruct (Qeq_bool hl 0); eexists; (split; [reflexivity|]); cbn; repeat split; auto. }
  assert (Hne : e_stat e <> ON_LAND) by (rewrite <- has_stat_iff; congruence).
  destruct (layered_total ratios g _ _ _ _ Hw Hs Hr) as [T1 T2].
  fold (pixel_of p (e_pos e)). fold (pixel_of p (e_next e)).
  destruct (layered_walk _ _ _ _ _) as [|px py hx hy| |] eqn:EW; try congruence; cbn [settle onland endp lastw pos].
  - exists e. repeat split; auto. apply stays_afloat; auto.
  - assert (HO : outcome g ratios p hl e (stuck p hl (hx, hy) (px, py))).
    { unfold build_layers in EW. apply layered_hit_last in EW.
      destruct (ffp_hit _ _ _ _ _ _ _ _ _ Hw Hs EW) as [Hl [[E1 E2]|[Hn [k [Hk [Hb _]]]]]].
      - apply hits_land; auto.
        + left. rewrite E1, E2. split; [reflexivity|]. symmetry. apply surjective_pairing.
        + rewrite E1. rewrite line_cons. left. reflexivity.
      - apply hits_land; auto.
        + right. split; auto. apply (Hb k); auto.
        + apply nth_error_In in Hk. exact Hk. }
    unfold stuck in HO. destruct (Qeq_bool hl 0); eexists; (split; [reflexivity|]); cbn; repeat split; auto.
Qed.

Lemma mapM_Forall2 {A B} (f : A -> res B) (R : A -> B -> Prop) : forall l,
  (forall a, In a l -> exists b, f a = Ok b /\ R a b) ->
  exists l', mapM f l = Ok l' /\ Forall2 R l l'.
Proof.
  induction l as [|a l IH]; intros H.
  - exists []. split; auto.
  - destruct (H a (or_introl eq_refl)) as [b [Hb HR]]. destruct IH as [l' [Hl HF]].
    { intros x Hx. apply H. right; auto. }
    exists (b :: l'). cbn. rewrite Hb. cbn. rewrite Hl. cbn. split; auto.
Qed.

Lemma mapM_inv {A B} (f : A -> res B) : forall l l', mapM f l = Ok l' -> Forall2 (fun a b => f a = Ok b) l l'.
Proof.
  induction l as [|a l IH]; intros l' H; cbn in H.
  - injection H as <-. constructor.
  - destruct (f a) as [b|] eqn:E; [|discriminate]. cbn in H. destruct (mapM f l) as [r|]; [|discriminate].
    cbn in H. injection H as <-. constructor; auto.
Qed.

Lemma Forall2_map_l {A B C} (f : A -> B) (R : B -> C -> Prop) : forall l l',
  Forall2 R (map f l) l' <-> Forall2 (fun a c => R (f a) c) l l'.
Proof.
  induction l as [|a l IH]; intros l'; cbn; split; intros H; inversion H; subst; constructor; auto; apply IH; auto.
Qed.

Lemma raster_beach_spec g ratios p hl om es b :
  wf g -> Forall (fun r => (0 < r)%Z) ratios -> Forall (small_elem p) es ->
  exists es' b', raster_beach (build_layers g ratios) p hl om (es, b) = Ok (es', b') /\
    Forall2 (beached_to g ratios p hl om) es es' /\
    bal_beached b' = mass_of ON_LAND es' /\
    bal_off b' = bal_off b + mass_of OFF_MAPS es'.
Proof.
  intros Hw Hr Hs. unfold raster_beach. cbn [fst snd].
  destruct (mapM_Forall2 (raster_beach1 (build_layers g ratios) p hl)
    (fun e e1 => e_pos e1 = e_pos e /\ e_mass e1 = e_mass e /\ snd (e_next e1) = snd (e_next e) /\
       snd (e_lastw e1) = snd (e_lastw e) /\
       outcome g ratios p hl e (fst (e_next e1), fst (e_lastw e1), e_stat e1)) (map resurface es)) as [l [Hl HF]].
  { intros a Ha. apply in_map_iff in Ha as [e [<- He]].
    apply raster_beach1_ok; auto. rewrite Forall_forall in Hs. exact (Hs e He). }
  rewrite Hl. cbn [bind]. unfold set_off_map_status. cbn [fst snd].
  eexists. eexists. split; [reflexivity|]. cbn [bal_beached bal_off]. split; [|split; reflexivity].
  apply (proj1 (Forall2_map_l _ _ _ _)) in HF. clear Hl Hs.
  induction HF as [|e e1 es l HR HF IH]; cbn; constructor; auto.
  destruct HR as [H1 [H2 [H3 [H4 H5]]]].
  destruct (flag_off_fields om e1) as [F1 [F2 [F3 [F4 F5]]]].
  unfold beached_to. rewrite F1, F2, F3, F4, F5. cbn in H3.
  split; [exact H1|]. split; [exact H2|]. split; [exact H3|]. split; [exact H4|].
  exists (e_stat e1). split; auto.
  remember (fst (e_next e1), fst (e_lastw e1), e_stat e1) as o eqn:Eo.
  destruct H5 as [Ho|w h Ho Hl Hc Hi|Ho Hn].
  - exact (was_beached g ratios p hl e Ho).
  - apply (hits_land g ratios p hl e w h); auto.
  - cbn [resurface set_next e_next fst] in *. exact (stays_afloat g ratios p hl e Ho Hn).
Qed.

(** A beached element does not drift. *)
Lemma at_rest_stays g ratios p hl om e :
  invertible p -> ~ hl == 0 -> at_rest p e -> om (fst (e_next e)) = true ->
  exists e', raster_beach1 (build_layers g ratios) p hl e = Ok e' /\
    e_next e' = e_next e /\ e_lastw e' = e_lastw e /\ e_stat (flag_off om e') = ON_LAND.
Proof.
  intros Hi Hh [Hst [Hz [h [w [H1 H2]]]]] Hom. unfold raster_beach1, check_land_layers1. cbn [onland].
  assert (has_stat ON_LAND e = true) as -> by (apply has_stat_iff; auto). cbn [onland endp lastw].
  destruct (Qeq_bool hl 0) eqn:E; [apply Qeq_bool_iff in E; contradiction|].
  eexists. split; [reflexivity|]. cbn [e_next e_lastw].
  rewrite H1, H2. unfold centre. rewrite !int_round by auto.
  split; [|split].
  - rewrite (surjective_pairing (e_next e)). rewrite H1. reflexivity.
  - rewrite (surjective_pairing (e_lastw e)). rewrite H2. reflexivity.
  - unfold flag_off. cbn [e_next fst]. unfold centre in H1. rewrite <- H1, Hom. reflexivity.
Qed.

(** ** Refloating *)
Lemma where_from_shift f es : forall i, where_from (S i) f es = map S (where_from i f es).
Proof. induction es as [|e r IH]; intros i; cbn; auto. destruct (f e); cbn; rewrite IH; auto. Qed.

Lemma pick_map prob : forall idx rnd, pick prob (map S idx) rnd = map S (pick prob idx rnd).
Proof. induction idx as [|i idx IH]; intros [|r rnd]; cbn; auto. destruct (Qle_bool r prob); cbn; rewrite IH; auto. Qed.

Definition upd (l : list elem) (i : nat) : list elem :=
  match nth_error l i with Some e => set_nth i (refloat1 e) l | None => l end.

Lemma upd_S e l : forall idx, fold_left upd (map S idx) (e :: l) = e :: fold_left upd idx l.
Proof.
  intros idx. revert l. induction idx as [|i idx IH]; intros l; cbn [map fold_left]; auto.
  rewrite <- IH. f_equal. unfold upd. cbn [nth_error]. destruct (nth_error l i); reflexivity.
Qed.

Lemma refloat_pick prob : forall es rnd,
  fold_left upd (pick prob (where_from 0 (has_stat ON_LAND) es) rnd) es =
  refloat_spec (fun d => negb (Qle_bool d prob)) rnd es.
Proof.
  induction es as [|e r IH]; intros rnd; cbn [where_from refloat_spec].
  - destruct rnd; reflexivity.
  - rewrite where_from_shift. destruct (has_stat ON_LAND e).
    + destruct rnd as [|d rnd].
      * cbn [pick fold_left]. f_equal. rewrite <- IH. destruct (where_from 0 _ r); reflexivity.
      * cbn [pick]. rewrite pick_map. destruct (Qle_bool d prob); cbn [negb fold_left].
        -- change (upd (e :: r) 0) with (refloat1 e :: r). rewrite upd_S, IH. reflexivity.
        -- rewrite upd_S, IH. reflexivity.
    + rewrite pick_map, upd_S, IH. reflexivity.
Qed.

Lemma refloat_all : forall es,
  fold_left upd (where_from 0 (has_stat ON_LAND) es) es =
  map (fun e => if has_stat ON_LAND e then refloat1 e else e) es.
Proof.
  induction es as [|e r IH]; cbn [where_from map]; auto.
  rewrite where_from_shift. destruct (has_stat ON_LAND e).
  - cbn [fold_left]. change (upd (e :: r) 0) with (refloat1 e :: r). rewrite upd_S, IH. reflexivity.
  - rewrite upd_S, IH. reflexivity.
Qed.

Lemma refloat_cases hl prob rnd es :
  (0 < hl -> refloat hl prob rnd es = refloat_spec (fun d => negb (Qle_bool d prob)) rnd es) /\
  (hl == 0 -> refloat hl prob rnd es = map (fun e => if has_stat ON_LAND e then refloat1 e else e) es) /\
  (hl < 0 -> refloat hl prob rnd es = es).
Proof.
  unfold refloat. fold upd. repeat split; intros H.
  - destruct (Qle_bool_spec hl 0); [lra|]. apply refloat_pick.
  - destruct (Qle_bool_spec hl 0); [|lra]. destruct (Qeq_bool hl 0) eqn:E; [apply refloat_all|].
    apply Qeq_bool_neq in E. contradiction.
  - destruct (Qle_bool_spec hl 0); [|lra]. destruct (Qeq_bool hl 0) eqn:E; auto.
    apply Qeq_bool_iff in E. lra.
Qed.

(** Elements of refloat_spec: unchanged, or a beached element refloated. *)
Lemma refloat_spec_Forall2 sticks : forall es rnd,
  Forall2 (fun e e' => e' = e \/ (e_stat e = ON_LAND /\ e' = refloat1 e)) es (refloat_spec sticks rnd es).
Proof.
  induction es as [|e r IH]; intros rnd; cbn; [constructor|].
  destruct (has_stat ON_LAND e) eqn:E.
  - apply has_stat_iff in E. destruct rnd as [|d rnd]; constructor; auto. destruct (sticks d); auto.
  - constructor; auto.
Qed.

Lemma refloat_Forall2 hl prob rnd es :
  Forall2 (fun e e' => e' = e \/ (e_stat e = ON_LAND /\ e' = refloat1 e)) es (refloat hl prob rnd es).
Proof.
  destruct (refloat_cases hl prob rnd es) as [H1 [H2 H3]].
  destruct (Q_dec hl 0) as [[H|H]|H].
  - rewrite H3 by auto. clear. induction es; constructor; auto.
  - rewrite H1 by auto. apply refloat_spec_Forall2.
  - rewrite H2 by auto. clear. induction es as [|e r IH]; cbn; constructor; auto.
    destruct (has_stat ON_LAND e) eqn:E; auto. right. split; auto. apply has_stat_iff; auto.
Qed.

(** ** Mass *)
Lemma mass_sum_split f : forall es,
  mass_sum es == mass_sum (filter f es) + mass_sum (filter (fun e => negb (f e)) es).
Proof.
  induction es as [|e r IH]; cbn; [lra|]. destruct (f e); cbn; fold (mass_sum r) (mass_sum (filter f r));
    unfold mass_sum in *; lra.
Qed.

Lemma mass_sum_masses es es' : map e_mass es = map e_mass es' -> mass_sum es = mass_sum es'.
Proof.
  revert es'. induction es as [|e r IH]; intros [|e' r'] H; cbn in *; try discriminate; auto.
  injection H as H1 H2. unfold mass_sum in *. cbn. rewrite H1. f_equal. apply IH; auto.
Qed.

Lemma moves_masses movers : forall es,
  map e_mass (fold_left (fun es m => apply_move m es) movers es) = map e_mass es /\
  map e_stat (fold_left (fun es m => apply_move m es) movers es) = map e_stat es.
Proof.
  induction movers as [|m r IH]; intros es; cbn; auto.
  destruct (IH (apply_move m es)) as [-> ->]. unfold apply_move. rewrite !map_map. split; reflexivity.
Qed.

(** A way of beaching that keeps every element and its mass, books the mass of
    the elements that are off the map, and flags no other element as removed. *)
Definition books_once (beach : list elem * balance -> res (list elem * balance)) : Prop :=
  forall es b es' b', beach (es, b) = Ok (es', b') ->
    map e_mass es' = map e_mass es /\
    bal_off b' == bal_off b + mass_of OFF_MAPS es' /\
    (Forall (fun e => e_stat e <> TO_BE_REMOVED) es -> Forall (fun e => e_stat e <> TO_BE_REMOVED) es').

Lemma flag_masses om es : map e_mass (map (flag_off om) es) = map e_mass es.
Proof. rewrite map_map. apply map_ext. intros e. apply flag_off_fields. Qed.

Lemma flag_tbr om es : Forall (fun e => e_stat e <> TO_BE_REMOVED) es ->
  Forall (fun e => e_stat e <> TO_BE_REMOVED) (map (flag_off om) es).
Proof.
  intros H. rewrite Forall_forall in *. intros e He. apply in_map_iff in He as [x [<- Hx]].
  destruct (flag_off_fields om x) as [_ [_ [_ [_ ->]]]]. destruct (om _); [apply H; auto|discriminate].
Qed.

Lemma gnome_books om : books_once (gnome_beach om).
Proof.
  intros es b es' b' H. unfold gnome_beach, set_off_map_status in H. cbn [fst snd] in H. injection H as <- <-.
  cbn [bal_off]. split; [|split; [lra|]].
  - rewrite flag_masses, map_map. reflexivity.
  - intros HF. apply flag_tbr. rewrite Forall_map. exact HF.
Qed.

Lemma raster_books layers p hl om : books_once (raster_beach layers p hl om).
Proof.
  intros es b es' b' H. unfold raster_beach in H. cbn [fst snd] in H.
  destruct (mapM _ _) as [l|] eqn:El; [|discriminate]. cbn [bind] in H.
  unfold set_off_map_status in H. cbn [fst snd] in H. injection H as <- <-. cbn [bal_off].
  assert (HF2 : Forall2 (fun e e1 => e_mass e1 = e_mass e /\
                  (e_stat e <> TO_BE_REMOVED -> e_stat e1 <> TO_BE_REMOVED)) (map resurface es) l).
  { apply mapM_inv in El. eapply Forall2_impl; [|exact El]. cbn beta. intros e e1 H1.
    unfold raster_beach1 in H1. destruct (check_land_layers1 _ _) as [l'|]; [|discriminate].
    destruct (onland l').
    - destruct (Qeq_bool hl 0); injection H1 as <-; cbn; split; auto; discriminate.
    - injection H1 as <-. auto. }
  rewrite flag_masses. split; [|split; [lra|]].
  - transitivity (map e_mass (map resurface es)); [|rewrite map_map; reflexivity].
    clear -HF2. induction HF2 as [|a c x y [E _] _ IH]; cbn; auto. rewrite E, IH. reflexivity.
  - intros HF. apply flag_tbr.
    assert (HF' : Forall (fun e => e_stat e <> TO_BE_REMOVED) (map resurface es)) by (rewrite Forall_map; exact HF).
    clear -HF2 HF'. induction HF2 as [|a c x y [_ E] _ IH]; constructor; inversion HF'; subst; auto.
Qed.

Lemma move_conserves beach refl movers es b es' b' :
  books_once beach ->
  (forall l, map e_mass (refl l) = map e_mass l) ->
  (forall l, live l -> live (refl l)) ->
  live es ->
  move_elements beach refl movers (es, b) = Ok (es', b') ->
  mass_sum es' + bal_off b' == mass_sum es + bal_off b /\ live es'.
Proof.
  intros HB HR HRl HL H. unfold move_elements in H. cbn [fst snd] in H.
  set (es1 := map (fun e => set_next e (e_pos e)) (refl es)) in *.
  set (es2 := fold_left _ movers es1) in *.
  destruct (beach (es2, b)) as [[es3 b3]|] eqn:EB; [|discriminate]. cbn [bind fst snd] in H.
  injection H as <- <-.
  destruct (HB _ _ _ _ EB) as [HM [Hoff HT]].
  assert (HM2 : map e_mass es2 = map e_mass es).
  { unfold es2. rewrite (proj1 (moves_masses movers es1)). unfold es1. rewrite map_map.
    cbn. rewrite HR. reflexivity. }
  assert (HT2 : Forall (fun e => e_stat e <> TO_BE_REMOVED) es3).
  { apply HT. pose proof (proj2 (moves_masses movers es1)) as HS. fold es2 in HS.
    assert (HS1 : map e_stat es1 = map e_stat (refl es)) by (unfold es1; rewrite map_map; reflexivity).
    rewrite HS1 in HS. specialize (HRl es HL). clear -HS HRl. revert HS HRl. generalize (refl es) as l.
    induction es2 as [|e r IH]; intros [|x l] HS HL; try discriminate; constructor; cbn in HS; injection HS as E1 E2;
      inversion HL; subst.
    - rewrite E1. tauto.
    - apply (IH l); auto. }
  assert (HE : map e_mass (filter (fun e => negb (has_stat TO_BE_REMOVED e))
                 (map (fun e => set_pos e (e_next e))
                   (map (fun e => if has_stat OFF_MAPS e then set_stat e TO_BE_REMOVED else e) es3)))
               = map e_mass (filter (fun e => negb (has_stat OFF_MAPS e)) es3) /\
               live (filter (fun e => negb (has_stat TO_BE_REMOVED e))
                 (map (fun e => set_pos e (e_next e))
                   (map (fun e => if has_stat OFF_MAPS e then set_stat e TO_BE_REMOVED else e) es3)))).
  { clear -HT2. induction HT2 as [|e r He Hr [IH1 IH2]]; cbn [map filter]; [split; [auto|constructor]|].
    destruct (has_stat OFF_MAPS e) eqn:E1; cbn [negb].
    - cbn. split; auto.
    - assert (has_stat TO_BE_REMOVED (set_pos e (e_next e)) = false) as ->.
      { destruct (has_stat TO_BE_REMOVED _) eqn:E2; auto. apply has_stat_iff in E2. cbn in E2. contradiction. }
      cbn [negb map]. split; [cbn; rewrite IH1; reflexivity|]. constructor; auto. cbn. split; auto.
      intros E. apply has_stat_iff in E. congruence. }
  destruct HE as [HE HL']. split; auto.
  rewrite (mass_sum_masses _ _ HE). rewrite Hoff. unfold mass_of.
  rewrite <- (mass_sum_masses _ _ (eq_trans HM HM2)).
  rewrite (mass_sum_split (has_stat OFF_MAPS) es3). lra.
Qed.

Lemma refloat_live hl prob rnd es : live es -> live (refloat hl prob rnd es).
Proof.
  intros H. pose proof (refloat_Forall2 hl prob rnd es) as HF. unfold live in *.
  induction HF as [|e e' l l' HR _ IH]; auto. inversion H; subst. constructor; auto.
  destruct HR as [->|[_ ->]]; auto. cbn. split; discriminate.
Qed.
Lemma refloat_mass hl prob rnd es : map e_mass (refloat hl prob rnd es) = map e_mass es.
Proof.
  pose proof (refloat_Forall2 hl prob rnd es) as HF.
  induction HF as [|e e' l l' HR _ IH]; cbn; auto. rewrite IH. destruct HR as [->|[_ ->]]; reflexivity.
Qed.

Lemma beach_of_books m : is_param m = false -> books_once (beach_of m).
Proof.
  destruct m; cbn; intros H; try discriminate; [apply gnome_books|apply raster_books].
Qed.

Lemma run_conserves : forall ss es b es' b',
  Forall (fun s => is_param (s_map s) = false) ss -> live es ->
  run_steps ss (es, b) = Ok (es', b') ->
  mass_sum es' + bal_off b' == mass_sum es + bal_off b /\ live es'.
Proof.
  induction ss as [|s r IH]; intros es b es' b' HF HL H; cbn in H.
  - injection H as <- <-. split; [lra|auto].
  - inversion HF as [|? ? HB HF']; subst. destruct (move_elements _ _ _ _) as [[es1 b1]|] eqn:E; [|discriminate].
    cbn [bind] in H. destruct (move_conserves _ _ _ _ _ _ _ (beach_of_books _ HB) (refloat_mass _ _ _) (refloat_live _ _ _) HL E) as [H1 H2].
    destruct (IH _ _ _ _ HF' H2 H) as [H3 H4]. split; auto. lra.
Qed.

(** ** ParamMap: where the element stops *)
Lemma move_particle_on_shore land s1 s2 e e' :
  e_stat e <> ON_LAND -> land (fst (e_next e)) = true -> move_particle land s1 s2 e = Ok e' ->
  e_stat e' = ON_LAND /\ on_line s1 s2 (fst (e_next e')) /\
  on_line (fst (e_pos e)) (fst (e_next e)) (fst (e_next e')) /\
  (fst (fst (e_lastw e')) == fst (fst (e_pos e)) + (fst (fst (e_next e')) - fst (fst (e_pos e))) * (1#10) /\
   snd (fst (e_lastw e')) == snd (fst (e_pos e)) + (snd (fst (e_next e')) - snd (fst (e_pos e))) * (1#10)).
Proof.
  intros Hs Hl H. unfold move_particle in H.
  destruct (has_stat ON_LAND e) eqn:E; [apply has_stat_iff in E; contradiction|]. rewrite Hl in H.
  match type of H with (if Qeq_bool ?d 0 then _ else _) = _ => set (den := d) in * end.
  destruct (Qeq_bool den 0) eqn:Ed; [discriminate|]. apply Qeq_bool_neq in Ed.
  injection H as <-. cbn [e_stat e_next e_lastw fst snd]. split; auto. unfold on_line. cbn [fst snd].
  split; [|split; [|split; reflexivity]].
  - field. exact Ed.
  - unfold den in *. field. exact Ed.
Qed.

(** ** Land queries *)
Lemma cell_binary g x y : binary g -> cell g x y = 0%Z \/ cell g x y = 1%Z.
Proof.
  intros H. unfold cell, rd. destruct (_ <? 0)%Z; auto.
  destruct (nth_error (cells g) _) as [c|] eqn:E; auto.
  apply nth_error_In in E. unfold binary in H. rewrite Forall_forall in H. auto.
Qed.

Lemma queries_agree g x y : wf g -> binary g ->
  on_land_pixel g x y = is_land g (x, y) /\ on_land_pixel_array g x y = is_land g (x, y) /\
  (on_grid g (x, y) -> in_water_pixel g x y = Ok (negb (is_land g (x, y)))).
Proof.
  intros Hw Hb. unfold on_land_pixel, on_land_pixel_array, in_water_pixel, land_flag.
  unfold off_raster. destruct ((x <? 0) || (y <? 0) || (x >=? rw g) || (y >=? rh g))%Z eqn:E.
  - assert (is_land g (x, y) = false) as ->.
    { destruct (is_land g (x, y)) eqn:E2; auto. apply is_land_on in E2. unfold on_grid in E2. cbn in E2. lia. }
    repeat split; auto. unfold on_grid. cbn. intros. lia.
  - assert (Ho : on_grid g (x, y)) by (unfold on_grid; cbn; lia).
    rewrite <- (cell_land g x y Hw Ho).
    assert ((x <? 0)%Z = false) as Ex by (unfold on_grid in Ho; cbn in Ho; lia).
    assert ((y <? 0)%Z = false) as Ey by (unfold on_grid in Ho; cbn in Ho; lia).
    split; [|split].
    1,2: destruct (cell_binary g x y Hb) as [->| ->]; reflexivity.
    intros _. assert (np_cell g x y = Ok (cell g x y)) as ->.
    { unfold np_cell. rewrite Ex, Ey. unfold off_raster. rewrite E. reflexivity. }
    destruct (cell_binary g x y Hb) as [->| ->]; reflexivity.
Qed.

Lemma refloating halflife prob rnd es :
  ((0 < halflife -> refloat halflife prob rnd es = refloat_spec (fun d => negb (Qle_bool d prob)) rnd es) /\
   (halflife == 0 -> refloat halflife prob rnd es = map (fun e => if has_stat ON_LAND e then refloat1 e else e) es) /\
   (halflife < 0 -> refloat halflife prob rnd es = es)) /\
  Forall2 (fun e e' => e' = e \/
     (e_stat e = ON_LAND /\ e_stat e' = IN_WATER /\ e_pos e' = e_lastw e /\ e_mass e' = e_mass e))
     es (refloat halflife prob rnd es).
Proof.
  split; [apply refloat_cases|]. eapply Forall2_impl; [|apply refloat_Forall2]. cbn beta.
  intros e e' [->|[H ->]]; [left; reflexivity|]. right. cbn. repeat split; auto.
Qed.

Lemma move_particle_else land s1 s2 e :
  e_stat e = ON_LAND \/ land (fst (e_next e)) = false -> move_particle land s1 s2 e = Ok e.
Proof.
  intros H. unfold move_particle. destruct (has_stat ON_LAND e) eqn:E; auto.
  destruct H as [H| ->]; auto. apply has_stat_iff in H. congruence.
Qed.

(** ** Moves add up *)
Lemma moves_next movers : Forall ignores_next movers -> forall es,
  fold_left (fun es m => apply_move m es) movers es =
  map (fun e => set_next e (fold_left add3 (map (fun m => m e) movers) (e_next e))) es.
Proof.
  induction 1 as [|m r Hm Hr IH]; intros es; cbn [fold_left map].
  - rewrite <- (map_id es) at 1. apply map_ext. intros []; reflexivity.
  - rewrite IH. unfold apply_move. rewrite map_map. apply map_ext. intros e.
    unfold set_next at 1. cbn [e_pos e_next e_stat e_lastw e_mass set_next].
    assert (E : map (fun m0 => m0 (set_next e (add3 (e_next e) (m e)))) r = map (fun m0 => m0 e) r).
    { apply map_ext_in. intros m0 Hm0. rewrite Forall_forall in Hr. apply Hr; auto. }
    rewrite E. reflexivity.
Qed.

Lemma gnome_moves on_map movers es b es' b' :
  Forall ignores_next movers -> Forall (fun e => e_stat e <> OFF_MAPS /\ e_stat e <> TO_BE_REMOVED) es ->
  move_elements (gnome_beach on_map) (fun l => l) movers (es, b) = Ok (es', b') ->
  Forall2 (fun e e' => e_pos e' = (fst (target movers e), qmax (snd (target movers e)) 0) /\
                       e_mass e' = e_mass e /\ e_stat e' = e_stat e)
    (filter (fun e => on_map (fst (target movers e))) es) es'.
Proof.
  intros HI HL H. unfold move_elements, gnome_beach, set_off_map_status in H.
  cbn [fst snd bind] in H. injection H as <- _. rewrite (moves_next movers HI). rewrite !map_map.
  assert (E : forall e, map (fun m => m (set_next e (e_pos e))) movers = map (fun m => m e) movers).
  { intros e. apply map_ext_in. intros m Hm. rewrite Forall_forall in HI. apply HI; auto. }
  induction HL as [|e r [H1 H2] Hr IH]; cbn [map filter]; [constructor|].
  cbn [e_next set_next]. rewrite E. fold (target movers e). unfold flag_off, resurface.
  cbn [e_next set_next fst snd].
  destruct (on_map (fst (target movers e))).
  - assert (has_stat OFF_MAPS (set_next (set_next (set_next e (e_pos e)) (target movers e))
              (fst (target movers e), qmax (snd (target movers e)) 0)) = false) as ->.
    { destruct (has_stat OFF_MAPS _) eqn:X; auto. apply has_stat_iff in X. contradiction. }
    match goal with |- context[has_stat TO_BE_REMOVED ?x] => assert (has_stat TO_BE_REMOVED x = false) as -> end.
    { destruct (has_stat TO_BE_REMOVED _) eqn:X; auto. apply has_stat_iff in X. contradiction. }
    cbn [negb]. constructor; [|exact IH]. cbn. auto.
  - cbn. exact IH.
Qed.

Lemma same_pos_refl a : same_pos a a.
Proof. repeat split; reflexivity. Qed.
Lemma fold_add3 l : forall a b, same_pos a b -> same_pos (fold_left add3 l a) (fold_left add3 l b).
Proof.
  induction l as [|x l IH]; intros a b H; cbn; auto. apply IH. destruct H as [H1 [H2 H3]].
  unfold same_pos, add3. cbn. rewrite H1, H2, H3. repeat split; reflexivity.
Qed.
Lemma same_pos_trans a b c : same_pos a b -> same_pos b c -> same_pos a c.
Proof. intros [A [B C]] [D [E F]]. repeat split; etransitivity; eauto. Qed.
Lemma target_perm movers movers' e : Permutation movers movers' ->
  same_pos (target movers e) (target movers' e).
Proof.
  intros H. unfold target. generalize (e_pos e) as p.
  induction H as [|m l l' _ IH|m n l|l1 l2 l3 _ IH1 _ IH2]; intros p; cbn.
  - apply same_pos_refl.
  - apply IH.
  - apply fold_add3. unfold same_pos, add3. cbn. repeat split; ring.
  - eapply same_pos_trans; [apply IH1|apply IH2].
Qed.
