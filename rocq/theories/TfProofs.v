(** * Proofs about tide flats *)
From Verif Require Import Py PyLemmas QLemmas LandModel LandSpec ProjModel PipModel MapModel MapSpec MapProofs TfModel TfSpec.
Open Scope Q_scope.

Lemma Qplus_0_eq (q : Q) : q + 0 = q.
Proof. destruct q as [n d]. unfold Qplus. cbn. f_equal; lia. Qed.
Lemma add3_0 p : add3 p ((0, 0), 0) = p.
Proof. destruct p as [[x y] z]. unfold add3. cbn [fst snd]. rewrite !Qplus_0_eq. reflexivity. Qed.
Lemma fold_add3_0 (movers : list (elem -> pos3)) e p : Forall moves_floating movers -> e_stat e <> IN_WATER ->
  fold_left add3 (map (fun m => m e) movers) p = p.
Proof.
  intros H He. revert p. induction H as [|m r [_ Hm] _ IH]; intros p; cbn; auto. rewrite (Hm e He), add3_0. apply IH.
Qed.
Lemma target_still movers e : Forall moves_floating movers -> e_stat e <> IN_WATER -> target movers e = e_pos e.
Proof. intros. apply fold_add3_0; auto. Qed.
Lemma target_next movers e p : Forall moves_floating movers -> target movers (set_next e p) = target movers e.
Proof.
  intros H. unfold target. cbn [set_next e_pos]. f_equal. apply map_ext_in. intros m Hm.
  rewrite Forall_forall in H. apply H; auto.
Qed.
Lemma surfaced_idem p : surfaced (surfaced p) = surfaced p.
Proof.
  unfold surfaced. cbn [fst snd]. f_equal. unfold qmax. destruct (Qle_bool (snd p) 0) eqn:E; [reflexivity|]. rewrite E. reflexivity.
Qed.

(** One element through one step, before the removal. *)
Definition one (dry : flat) (on_map : ProjModel.pt -> bool) (t : Z) (movers : list (elem -> pos3)) (e : elem) : elem :=
  let e1 := unstrand dry t e in
  let e2 := set_next (set_next e1 (e_pos e1)) (target movers e1) in
  let e3 := strand dry t (flag_off on_map (resurface e2)) in
  let e4 := if has_stat OFF_MAPS e3 then set_stat e3 TO_BE_REMOVED else e3 in
  set_pos e4 (e_next e4).

Lemma tf_move_one dry om t movers es b : Forall moves_floating movers ->
  exists b', tf_move (gnome_beach om) (fun l => l) dry t movers (es, b) =
    Ok (filter (fun e => negb (has_stat TO_BE_REMOVED e)) (map (one dry om t movers) es), b').
Proof.
  intros HM. unfold tf_move, move_elements, tf_beach, gnome_beach, set_off_map_status, tf_refloat. cbn [fst snd bind].
  eexists. f_equal. f_equal. f_equal.
  rewrite moves_next by (eapply Forall_impl; [|exact HM]; intros m [H _]; exact H).
  rewrite !map_map. apply map_ext. intros e. unfold one.
  assert (E : fold_left add3 (map (fun m => m (set_next (unstrand dry t e) (e_pos (unstrand dry t e)))) movers)
                (e_next (set_next (unstrand dry t e) (e_pos (unstrand dry t e)))) = target movers (unstrand dry t e)).
  { cbn [set_next e_next]. unfold target. f_equal. apply map_ext_in. intros m Hm. rewrite Forall_forall in HM. apply (proj1 (HM m Hm)). }
  rewrite E. reflexivity.
Qed.

Lemma one_life dry om t movers e : Forall moves_floating movers -> afloat_or_stranded om e ->
  match life1 dry om t movers e with
  | Some e' => one dry om t movers e = e' /\ afloat_or_stranded om e'
  | None => e_stat (one dry om t movers e) = TO_BE_REMOVED
  end.
Proof.
  intros HM He. unfold life1.
  destruct ((e_stat e =? ON_TIDEFLAT)%Z && dry (e_pos e) t) eqn:E0.
  - apply andb_true_iff in E0 as [E1 E2]. apply Z.eqb_eq in E1.
    destruct He as [He|[_ [Hn [Hs Hm]]]]; [rewrite E1 in He; discriminate|].
    split; [|right; auto].
    assert (U : unstrand dry t e = e).
    { unfold unstrand, is_wet. rewrite Hn, E2. rewrite andb_false_r. reflexivity. }
    unfold one. rewrite U. rewrite target_still by (auto; rewrite E1; discriminate).
    destruct e as [p n s lw ms]. cbn in *. subst n s.
    unfold resurface, set_next. cbn [e_pos e_next e_stat e_lastw e_mass].
    change (fst p, qmax (snd p) 0) with (surfaced p). rewrite Hs.
    unfold flag_off. cbn [e_next]. rewrite Hm. unfold strand, has_stat. cbn [e_stat]. reflexivity.
  - set (ew := mkElem (e_pos e) (e_next e) IN_WATER (e_lastw e) (e_mass e)).
    assert (U : unstrand dry t e = ew).
    { unfold unstrand, is_wet, has_stat. destruct He as [He|[He [Hn _]]].
      - rewrite He. cbn [Z.eqb andb IN_WATER ON_TIDEFLAT Pos.eqb]. unfold ew. destruct e; cbn in *; subst; reflexivity.
      - rewrite He in E0 |- *. rewrite Z.eqb_refl in E0 |- *. cbn [andb] in E0 |- *. rewrite Hn, E0. reflexivity. }
    unfold one. rewrite U. unfold resurface, set_next. cbn [e_pos e_next e_stat e_lastw e_mass ew].
    fold ew. change (fst (target movers ew), qmax (snd (target movers ew)) 0) with (surfaced (target movers ew)).
    set (p := surfaced (target movers ew)).
    unfold flag_off. cbn [e_next]. destruct (om (fst p)) eqn:Ep.
    + unfold strand, has_stat. cbn [e_stat e_next]. change (IN_WATER =? IN_WATER)%Z with true. cbn [andb].
      destruct (dry p t) eqn:Ed; cbn [set_stat e_stat set_pos e_next e_pos e_lastw e_mass].
      * split; [reflexivity|]. right. cbn. split; auto. split; auto. split; auto. apply surfaced_idem.
      * split; [reflexivity|]. left. reflexivity.
    + reflexivity.
Qed.

Lemma filter_one dry om t movers es : Forall moves_floating movers -> Forall (afloat_or_stranded om) es ->
  filter (fun e => negb (has_stat TO_BE_REMOVED e)) (map (one dry om t movers) es) = survivors (life1 dry om t movers) es /\
  Forall (afloat_or_stranded om) (survivors (life1 dry om t movers) es).
Proof.
  intros HM H. induction H as [|e r He _ [IH1 IH2]]; cbn [map filter survivors flat_map]; [auto|].
  pose proof (one_life dry om t movers e HM He) as L. destruct (life1 dry om t movers e) as [e'|].
  - destruct L as [-> L]. assert (has_stat TO_BE_REMOVED e' = false) as ->.
    { unfold has_stat. destruct L as [->|[-> _]]; reflexivity. }
    cbn [negb app]. split; [f_equal; exact IH1|constructor; auto].
  - unfold has_stat at 1. rewrite L. cbn. auto.
Qed.

Lemma survivors_comp {A B C} (f : A -> option B) (g : B -> option C) l :
  survivors g (survivors f l) = survivors (fun a => match f a with Some b => g b | None => None end) l.
Proof.
  unfold survivors. induction l as [|a r IH]; cbn; auto. destruct (f a); cbn; [|exact IH]. rewrite IH. reflexivity.
Qed.
Lemma survivors_id {A} (l : list A) : survivors (fun a => Some a) l = l.
Proof. induction l; cbn; auto. f_equal. auto. Qed.

Lemma tf_run_life dry om : forall steps es b, Forall (fun s => Forall moves_floating (snd s)) steps ->
  Forall (afloat_or_stranded om) es ->
  exists b', tf_run dry om steps (es, b) = Ok (survivors (life dry om steps) es, b') /\
    Forall (afloat_or_stranded om) (survivors (life dry om steps) es).
Proof.
  induction steps as [|[t movers] r IH]; intros es b HS HE.
  - exists b. cbn [tf_run life]. rewrite survivors_id. auto.
  - inversion HS as [|? ? H1 H2]; subst. cbn [snd] in H1. cbn [tf_run].
    destruct (tf_move_one dry om t movers es b H1) as [b1 E]. rewrite E. cbn [bind].
    destruct (filter_one dry om t movers es H1 HE) as [F1 F2]. rewrite F1.
    destruct (IH _ b1 H2 F2) as [b2 [G1 G2]]. exists b2.
    rewrite survivors_comp in G1, G2. split; [exact G1|exact G2].
Qed.

(** Stranding keeps masses and everything but floating elements. *)
Lemma strand_fields dry t e : let e' := strand dry t e in
  e_pos e' = e_pos e /\ e_next e' = e_next e /\ e_lastw e' = e_lastw e /\ e_mass e' = e_mass e /\
  e_stat e' = if (e_stat e =? IN_WATER)%Z && dry (e_next e) t then ON_TIDEFLAT else e_stat e.
Proof. unfold strand, has_stat. destruct ((e_stat e =? IN_WATER)%Z && dry (e_next e) t); cbn; auto. Qed.
Lemma unstrand_fields dry t e : let e' := unstrand dry t e in
  e_pos e' = e_pos e /\ e_next e' = e_next e /\ e_lastw e' = e_lastw e /\ e_mass e' = e_mass e /\
  e_stat e' = if (e_stat e =? ON_TIDEFLAT)%Z && negb (dry (e_next e) t) then IN_WATER else e_stat e.
Proof. unfold unstrand, has_stat, is_wet. destruct ((e_stat e =? ON_TIDEFLAT)%Z && _); cbn; auto. Qed.

Lemma tf_books beach dry t : books_once beach -> books_once (tf_beach beach dry t).
Proof.
  intros HB es b es' b' H. unfold tf_beach in H. destruct (beach (es, b)) as [[l c]|] eqn:E; [|discriminate].
  cbn [bind fst snd] in H. injection H as <- <-. destruct (HB _ _ _ _ E) as [H1 [H2 H3]].
  assert (M : mass_of OFF_MAPS (map (strand dry t) l) = mass_of OFF_MAPS l).
  { unfold mass_of. clear. induction l as [|e r IH]; cbn [map filter]; auto.
    destruct (strand_fields dry t e) as [_ [_ [_ [Hm Hs]]]].
    assert (has_stat OFF_MAPS (strand dry t e) = has_stat OFF_MAPS e) as ->.
    { unfold has_stat. rewrite Hs. destruct (Z.eqb_spec (e_stat e) IN_WATER) as [X|X]; cbn [andb]; auto.
      rewrite X. destruct (dry (e_next e) t); reflexivity. }
    unfold mass_sum in *. destruct (has_stat OFF_MAPS e); cbn [fold_right]; rewrite IH; [rewrite Hm|]; reflexivity. }
  split; [|split].
  - rewrite map_map. rewrite <- H1. apply map_ext. intros e. apply strand_fields.
  - rewrite M. exact H2.
  - intros HF. specialize (H3 HF). rewrite Forall_map. eapply Forall_impl; [|exact H3]. cbn beta. intros e He.
    destruct (strand_fields dry t e) as [_ [_ [_ [_ ->]]]]. destruct (_ && _); [discriminate|exact He].
Qed.

Lemma tf_run_conserves dry : forall ss times es b es' b',
  Forall (fun s => is_param (s_map s) = false) ss -> live es ->
  tf_run_steps dry times ss (es, b) = Ok (es', b') ->
  mass_sum es' + bal_off b' == mass_sum es + bal_off b /\ live es'.
Proof.
  induction ss as [|s r IH]; intros times es b es' b' HF HL H; cbn in H.
  - destruct times; injection H as <- <-; (split; [lra|auto]).
  - destruct times as [|t ts]; [injection H as <- <-; split; [lra|auto]|].
    inversion HF as [|? ? HB HF']; subst. destruct (tf_move _ _ _ _ _ _) as [[es1 b1]|] eqn:E; [|discriminate].
    cbn [bind] in H. unfold tf_move in E.
    assert (H0 : mass_sum es1 + bal_off b1 == mass_sum es + bal_off b /\ live es1).
    { eapply move_conserves; [apply tf_books, beach_of_books; exact HB| | |exact HL|exact E].
      - intros l. unfold tf_refloat. rewrite refloat_mass, map_map. apply map_ext. intros e. apply unstrand_fields.
      - intros l Hl. unfold tf_refloat. apply refloat_live. unfold live in *. rewrite Forall_map.
        eapply Forall_impl; [|exact Hl]. cbn beta. intros e He. destruct (unstrand_fields dry t e) as [_ [_ [_ [_ ->]]]].
        destruct (_ && _); [split; discriminate|exact He]. }
    destruct H0 as [H1 H2]. destruct (IH _ _ _ _ _ HF' H2 H) as [H3 H4]. split; auto. lra.
Qed.

(** ** A flat that is never dry *)
Definition no_flat (es : list elem) : Prop := Forall (fun e => e_stat e <> ON_TIDEFLAT) es.
Lemma unstrand_none dry t es : no_flat es -> map (unstrand dry t) es = es.
Proof.
  induction 1 as [|e r He _ IH]; cbn; auto. rewrite IH. f_equal. unfold unstrand, has_stat.
  destruct (Z.eqb_spec (e_stat e) ON_TIDEFLAT); [contradiction|reflexivity].
Qed.
Lemma strand_wet es (dry : flat) t : (forall p, dry p t = false) -> map (strand dry t) es = es.
Proof.
  intros H. induction es as [|e r IH]; cbn; auto. rewrite IH. f_equal. unfold strand. rewrite H, andb_false_r. reflexivity.
Qed.
Lemma tf_beach_wet beach dry t sc : (forall p, dry p t = false) -> tf_beach beach dry t sc = beach sc.
Proof.
  intros H. unfold tf_beach. destruct (beach sc) as [[l c]|x]; cbn; auto. rewrite strand_wet by auto. reflexivity.
Qed.
Lemma move_elements_ext b1 b2 r1 r2 movers sc : (forall x, b1 x = b2 x) -> r1 (fst sc) = r2 (fst sc) ->
  move_elements b1 r1 movers sc = move_elements b2 r2 movers sc.
Proof. intros H1 H2. unfold move_elements. rewrite H2, H1. reflexivity. Qed.

(** No map makes stranded elements. *)
Lemma beach_no_flat m es b es' b' : no_flat es -> beach_of m (es, b) = Ok (es', b') -> no_flat es'.
Proof.
  assert (HR : forall l, no_flat l -> no_flat (map resurface l)).
  { intros l H. unfold no_flat in *. rewrite Forall_map. exact H. }
  assert (HO : forall om l, no_flat l -> no_flat (map (flag_off om) l)).
  { intros om l H. unfold no_flat in *. rewrite Forall_map. eapply Forall_impl; [|exact H]. cbn beta. intros e He.
    unfold flag_off. destruct (om _); [exact He|discriminate]. }
  intros H E. destruct m as [om|layers p hl om|land s1 s2 om]; cbn [beach_of] in E.
  - unfold gnome_beach, set_off_map_status in E. cbn [fst snd] in E. injection E as <- _. auto.
  - unfold raster_beach in E. cbn [fst snd] in E. destruct (mapM _ _) as [l|] eqn:El; [|discriminate].
    cbn [bind] in E. unfold set_off_map_status in E. cbn [fst snd] in E. injection E as <- _. apply HO.
    apply mapM_inv in El. specialize (HR _ H). clear -El HR.
    induction El as [|e e' l1 l2 X _ IH]; [constructor|]. inversion HR; subst. constructor; [|apply IH; auto].
    unfold raster_beach1 in X. destruct (check_land_layers1 _ _) as [l'|]; [|discriminate].
    destruct (onland l'); [destruct (Qeq_bool hl 0)|]; injection X as <-; cbn; auto; discriminate.
  - unfold param_beach, set_off_map_status in E. cbn [fst snd] in E.
    destruct (mapM _ _) as [l|] eqn:El; [|discriminate]. cbn [bind fst snd] in E. injection E as <- _. apply HO.
    apply mapM_inv in El. pose proof (HO om _ (HR _ H)) as H'. clear -El H'.
    induction El as [|e e' l1 l2 X _ IH]; [constructor|]. inversion H'; subst. constructor; [|apply IH; auto].
    unfold move_particle in X. destruct (has_stat ON_LAND e); [injection X as <-; auto|].
    destruct (land _); [|injection X as <-; auto]. destruct (Qeq_bool _ _); [discriminate|].
    injection X as <-. cbn. discriminate.
Qed.
Lemma refloat_no_flat hl prob rnd es : no_flat es -> no_flat (refloat hl prob rnd es).
Proof.
  intros H. pose proof (refloat_Forall2 hl prob rnd es) as HF. unfold no_flat in *.
  induction HF as [|e e' l l' HR _ IH]; auto. inversion H; subst. constructor; auto.
  destruct HR as [->|[_ ->]]; auto. cbn. discriminate.
Qed.
Lemma moves_no_flat movers : forall es, no_flat es -> no_flat (fold_left (fun es m => apply_move m es) movers es).
Proof.
  induction movers as [|m r IH]; intros es H; cbn; auto. apply IH. unfold no_flat, apply_move in *. rewrite Forall_map. exact H.
Qed.
Lemma move_no_flat s es b es' b' : no_flat es ->
  move_elements (beach_of (s_map s)) (refloat (s_hl s) (s_prob s) (s_rnd s)) (s_movers s) (es, b) = Ok (es', b') -> no_flat es'.
Proof.
  intros H E. unfold move_elements in E. cbn [fst snd] in E.
  destruct (beach_of _ _) as [[l c]|] eqn:EB; [|discriminate]. cbn [bind fst snd] in E. injection E as <- _.
  apply beach_no_flat in EB.
  - unfold no_flat in *. apply Forall_forall. intros e He. apply filter_In in He as [He _].
    rewrite map_map in He. apply in_map_iff in He as [x [<- Hx]]. rewrite Forall_forall in EB. specialize (EB x Hx). cbn.
    destruct (has_stat OFF_MAPS x); [discriminate|exact EB].
  - apply moves_no_flat. unfold no_flat. rewrite Forall_map. apply (refloat_no_flat _ _ _ _ H).
Qed.

Lemma tf_transparent : forall ss dry times es b, length times = length ss ->
  (forall t p, In t times -> dry p t = false) -> no_flat es ->
  tf_run_steps dry times ss (es, b) = run_steps ss (es, b).
Proof.
  induction ss as [|s r IH]; intros dry times es b HL HD HN; destruct times as [|t ts]; try discriminate; cbn; auto.
  assert (E : tf_move (beach_of (s_map s)) (refloat (s_hl s) (s_prob s) (s_rnd s)) dry t (s_movers s) (es, b) =
              move_elements (beach_of (s_map s)) (refloat (s_hl s) (s_prob s) (s_rnd s)) (s_movers s) (es, b)).
  { unfold tf_move. apply move_elements_ext.
    - intros x. apply tf_beach_wet. intros p. apply HD. left. reflexivity.
    - unfold tf_refloat. cbn [fst]. rewrite unstrand_none by auto. reflexivity. }
  rewrite E. destruct (move_elements _ _ _ _) as [[es1 b1]|] eqn:EM; cbn [bind]; auto.
  apply IH; auto.
  - intros u p Hu. apply HD. right. exact Hu.
  - eapply move_no_flat; eauto.
Qed.
