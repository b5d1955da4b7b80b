(** * Properties C178 to C185: polygon, grid and NESDIS releases, time zones of releases *)
From Coq Require Import String QArith Qround Qabs Lia Lqa Bool.
From Verif Require PolyProofs DisProofs.
From Verif Require Import Py PyLemmas QLemmas TimeModel ReleaseModel ReleaseProofs PipModel PolyModel StrModel PrlModel PrlSpec PrlProofs.
Open Scope list_scope.
Open Scope Z_scope.

(** ** C178: weights and thicknesses of a polygon release *)

Lemma set_prop_weights : forall P (fs : list (feat P)) ws, length ws = length fs ->
  map f_weight (set_prop with_weight fs ws) = map Some ws /\ map f_thick (set_prop with_weight fs ws) = map f_thick fs /\ map f_poly (set_prop with_weight fs ws) = map f_poly fs.
Proof. intros P. induction fs as [|f fs IH]; intros [|w ws] L; try discriminate; [auto|]. injection L as L. destruct (IH ws L) as (A & B & C). simpl. rewrite A, B, C. auto. Qed.
Lemma set_prop_thicks : forall P (fs : list (feat P)) ws, length ws = length fs ->
  map f_thick (set_prop with_thick fs ws) = map Some ws /\ map f_weight (set_prop with_thick fs ws) = map f_weight fs /\ map f_poly (set_prop with_thick fs ws) = map f_poly fs.
Proof. intros P. induction fs as [|f fs IH]; intros [|w ws] L; try discriminate; [auto|]. injection L as L. destruct (IH ws L) as (A & B & C). simpl. rewrite A, B, C. auto. Qed.
Lemma all_some : forall ws, ws <> [] -> all_or_none (map Some ws) = Some (map Some ws).
Proof. intros [|w ws] H; [congruence|reflexivity]. Qed.
Lemma all_none : forall A (l : list A), all_or_none (map (fun _ => None) l) = None.
Proof. intros A l. unfold all_or_none. assert (X : forallb is_none (map (fun _ : A => @None Q) l) = true) by (induction l; auto). rewrite X. reflexivity. Qed.

(** A release made of polygons has these polygons, and the weights or thicknesses that
    were given. *)
Theorem C178_new : forall P (ps : list P) vs, ps <> [] -> length vs = length ps ->
  (exists fs, new_feats None None (Some ps) (Some vs) None = Ok fs /\ map f_poly fs = ps /\ weights_of fs = Some (map Some vs) /\ thicks_of fs = None) /\
  (exists fs, new_feats None None (Some ps) None (Some vs) = Ok fs /\ map f_poly fs = ps /\ thicks_of fs = Some (map Some vs) /\ weights_of fs = None) /\
  (exists fs, new_feats None None (Some ps) None None = Ok fs /\ map f_poly fs = ps /\ thicks_of fs = None /\ weights_of fs = None).
Proof.
  intros P ps vs N L. set (fs0 := map (fun p => @mkFeat P p None None) ps).
  assert (L0 : length vs = length fs0) by (unfold fs0; rewrite map_length; exact L).
  assert (VN : vs <> []) by (destruct vs; [destruct ps; [congruence|discriminate]|congruence]).
  assert (P0 : map f_poly fs0 = ps) by (unfold fs0; rewrite map_map; simpl; apply map_id).
  assert (T0 : map f_thick fs0 = map (fun _ => None) ps) by (unfold fs0; rewrite map_map; reflexivity).
  assert (W0 : map f_weight fs0 = map (fun _ => None) ps) by (unfold fs0; rewrite map_map; reflexivity).
  repeat split.
  - unfold new_feats. rewrite L, Nat.eqb_refl. cbn [negb]. eexists. split; [reflexivity|]. unfold gen_fc. fold fs0.
    destruct (set_prop_weights _ fs0 vs L0) as (A & B & C). unfold weights_of, thicks_of. rewrite A, B, C, T0, all_some, all_none by exact VN. auto.
  - unfold new_feats. eexists. split; [reflexivity|]. unfold gen_fc. fold fs0.
    destruct (set_prop_thicks _ fs0 vs L0) as (A & B & C). unfold weights_of, thicks_of. rewrite A, B, C, W0, all_some, all_none by exact VN. auto.
  - unfold new_feats. eexists. split; [reflexivity|]. unfold gen_fc. fold fs0. unfold weights_of, thicks_of. rewrite T0, W0, !all_none. auto.
Qed.
Print Assumptions C178_new.

(** What is refused: a file and features, no polygons, weights and thicknesses, a wrong
    number of weights. *)
Theorem C178_refused : forall P (fs gs : list (feat P)) (ps : list P) ops ws ts ows ots,
  new_feats (Some fs) (Some gs) ops ows ots = Raise ValueErr /\
  new_feats None None (@None (list P)) ows ots = Raise ValueErr /\
  new_feats None None (Some ps) (Some ws) (Some ts) = Raise ValueErr /\
  (length ws <> length ps -> new_feats None None (Some ps) (Some ws) None = Raise ValueErr).
Proof.
  intros. repeat split. intros N. unfold new_feats. apply Nat.eqb_neq in N. rewrite N. reflexivity.
Qed.
Print Assumptions C178_refused.

(** Values that are set are read back, and the polygons stay. *)
Theorem C178_set : forall P (fs : list (feat P)) vs, fs <> [] -> length vs = length fs ->
  (thicks_of fs = None -> exists fs', set_weights fs (Some vs) = (fs', None) /\ weights_of fs' = Some (map Some vs) /\ thicks_of fs' = None /\ map f_poly fs' = map f_poly fs) /\
  (weights_of fs = None -> exists fs', set_thicks fs (Some vs) = (fs', None) /\ thicks_of fs' = Some (map Some vs) /\ weights_of fs' = None /\ map f_poly fs' = map f_poly fs) /\
  (thicks_of fs <> None -> set_weights fs (Some vs) = (fs, Some ValueErr)) /\
  (weights_of fs <> None -> set_thicks fs (Some vs) = (fs, Some ValueErr)).
Proof.
  intros P fs vs N L. assert (VN : vs <> []) by (destruct vs; [destruct fs; [congruence|discriminate]|congruence]).
  split; [|split; [|split]].
  - intros H. unfold set_weights. rewrite H. destruct (set_prop_weights _ fs vs L) as (A & B & C). eexists. split; [reflexivity|]. unfold weights_of. rewrite A, all_some by exact VN. unfold thicks_of in *. rewrite B. auto.
  - intros H. unfold set_thicks. rewrite H. destruct (set_prop_thicks _ fs vs L) as (A & B & C). eexists. split; [reflexivity|]. unfold thicks_of. rewrite A, all_some by exact VN. unfold weights_of in *. rewrite B. auto.
  - intros H. unfold set_weights. destruct (thicks_of fs); [reflexivity|congruence].
  - intros H. unfold set_thicks. destruct (weights_of fs); [reflexivity|congruence].
Qed.
Print Assumptions C178_set.

(** None removes them from all polygons, if all have them. *)
Theorem C178_delete_partial : forall P (fs : list (feat P)),
  ((forall f, In f fs -> f_weight f <> None) -> exists fs', set_weights fs None = (fs', None) /\ weights_of fs' = None /\ map f_poly fs' = map f_poly fs /\ map f_thick fs' = map f_thick fs) /\
  ((forall f, In f fs -> f_thick f <> None) -> exists fs', set_thicks fs None = (fs', None) /\ thicks_of fs' = None /\ map f_poly fs' = map f_poly fs /\ map f_weight fs' = map f_weight fs).
Proof.
  intros P fs. split; intros H; unfold set_weights, set_thicks.
  - assert (E : del_prop f_weight no_weight fs = (map no_weight fs, None)).
    { induction fs as [|f fs IH]; [reflexivity|]. simpl. destruct (f_weight f) eqn:W; [|exfalso; apply (H f); [left; reflexivity|exact W]]. rewrite IH; [reflexivity|]. intros g G. apply H. right. exact G. }
    rewrite E. eexists. split; [reflexivity|]. unfold weights_of. rewrite !map_map. simpl. rewrite all_none. auto.
  - assert (E : del_prop f_thick no_thick fs = (map no_thick fs, None)).
    { induction fs as [|f fs IH]; [reflexivity|]. simpl. destruct (f_thick f) eqn:W; [|exfalso; apply (H f); [left; reflexivity|exact W]]. rewrite IH; [reflexivity|]. intros g G. apply H. right. exact G. }
    rewrite E. eexists. split; [reflexivity|]. unfold thicks_of. rewrite !map_map. simpl. rewrite all_none. auto.
Qed.
Print Assumptions C178_delete_partial.

(** None is refused with KeyError if the first polygon has none already. *)
Theorem C178_delete_refuted : forall P (f : feat P) fs,
  (f_weight f = None -> set_weights (f :: fs) None = (f :: fs, Some KeyErr)) /\
  (f_thick f = None -> set_thicks (f :: fs) None = (f :: fs, Some KeyErr)).
Proof. intros P f fs. split; intros H; unfold set_weights, set_thicks; simpl; rewrite H; reflexivity. Qed.
Print Assumptions C178_delete_refuted.

(** Fewer thicknesses than polygons are taken; the run then fails with TypeError, for
    every geometry whose areas are known. *)
Theorem C178_thick_refuted : forall P (W : world P) (ps : list P) ts, ts <> [] -> (length ts < length ps)%nat ->
  (forall p, w_area W p <> None) ->
  exists fs, new_feats None None (Some ps) None (Some ts) = Ok fs /\ compute_distribution W fs = Raise TypeErr.
Proof.
  intros P W ps ts N L A. eexists. split; [reflexivity|]. unfold gen_fc. set (fs0 := map (fun p => @mkFeat P p None None) ps).
  assert (L0 : (length ts < length fs0)%nat) by (unfold fs0; rewrite map_length; exact L).
  assert (F0 : forall f, In f fs0 -> f_thick f = None) by (intros f I; apply in_map_iff in I; destruct I as (p & <- & _); reflexivity).
  clearbody fs0. unfold compute_distribution.
  assert (M : exists ar, mapM (fun f : feat P => match w_area W (f_poly f) with Some a => Ok a | None => Raise ValueErr end) (set_prop with_thick fs0 ts) = Ok ar /\ length ar = length (set_prop with_thick fs0 ts)).
  { induction (set_prop with_thick fs0 ts) as [|f l IH]; [exists []; auto|]. destruct IH as (ar & E & LE). simpl. destruct (w_area W (f_poly f)) as [a|] eqn:WA; [|exfalso; eapply A; eauto]. cbn [bind]. rewrite E. exists (a :: ar). simpl. auto. }
  destruct M as (ar & -> & LA). cbn [bind].
  assert (T : thicks_of (set_prop with_thick fs0 ts) = Some (map f_thick (set_prop with_thick fs0 ts))).
  { destruct ts as [|t ts]; [congruence|]. destruct fs0 as [|f fs0]; [simpl in L0; lia|]. reflexivity. }
  rewrite T. assert (R : mapM (fun '(a, t) => match t with Some t => Ok (a * t)%Q | None => Raise TypeErr end) (combine ar (map f_thick (set_prop with_thick fs0 ts))) = Raise TypeErr).
  { clear T N L. revert ts ar L0 LA. induction fs0 as [|f fs0 IH]; intros ts ar L0 LA; [simpl in L0; lia|].
    destruct ts as [|t ts]; destruct ar as [|a ar]; try discriminate; simpl in L0, LA |- *.
    - rewrite (F0 f (or_introl eq_refl)). reflexivity.
    - rewrite IH; [reflexivity|intros; apply F0; right; auto|lia|lia]. }
  rewrite R. reflexivity.
Qed.
Print Assumptions C178_thick_refuted.

Lemma apply_both : forall P (fs : list (feat P)) o, ~ both fs -> ~ both (apply fs o).
Proof.
  intros P fs o NB.
  assert (DW : forall fs : list (feat P), (forall g, In g fs -> f_thick g = None) \/ (forall g, In g fs -> f_weight g = None) -> ~ both fs).
  { intros l [H|H] (f & g & F & G & T & Wt); [apply T, H, F|apply Wt, H, G]. }
  assert (EX : (forall g, In g fs -> f_thick g = None) \/ (forall g, In g fs -> f_weight g = None)).
  { destruct (thicks_of fs) eqn:E; [right|left; apply thicks_none; exact E]. destruct (thicks_some _ _ E) as (_ & f & F & T). intros g G. destruct (f_weight g) eqn:Wt; [|reflexivity]. exfalso. apply NB. exists f, g. repeat split; auto. congruence. }
  assert (DELW : forall l g, In g (fst (del_prop f_weight (@no_weight P) l)) -> exists h, In h l /\ f_thick g = f_thick h /\ (f_weight g = None \/ f_weight g = f_weight h)).
  { induction l as [|f l IH]; simpl; intros g G; [contradiction|]. destruct (f_weight f) eqn:E.
    - destruct (del_prop f_weight no_weight l) as [r e] eqn:D. simpl in G, IH. destruct G as [<-|G]; [exists f; auto|]. destruct (IH g G) as (h & ? & ? & ?). exists h. auto.
    - exists g. auto. }
  assert (DELT : forall l g, In g (fst (del_prop f_thick (@no_thick P) l)) -> exists h, In h l /\ f_weight g = f_weight h /\ (f_thick g = None \/ f_thick g = f_thick h)).
  { induction l as [|f l IH]; simpl; intros g G; [contradiction|]. destruct (f_thick f) eqn:E.
    - destruct (del_prop f_thick no_thick l) as [r e] eqn:D. simpl in G, IH. destruct G as [<-|G]; [exists f; auto|]. destruct (IH g G) as (h & ? & ? & ?). exists h. auto.
    - exists g. auto. }
  assert (SPW : forall l vs g, In g (set_prop (@with_weight P) l vs) -> exists h, In h l /\ f_thick g = f_thick h).
  { induction l as [|f l IH]; intros [|v vs] g G; simpl in G; [contradiction|contradiction|exists g; simpl; auto|]. destruct G as [<-|G]; [exists f; simpl; auto|]. destruct (IH vs g G) as (h & ? & ?). exists h. simpl. auto. }
  assert (SPT : forall l vs g, In g (set_prop (@with_thick P) l vs) -> exists h, In h l /\ f_weight g = f_weight h).
  { induction l as [|f l IH]; intros [|v vs] g G; simpl in G; [contradiction|contradiction|exists g; simpl; auto|]. destruct G as [<-|G]; [exists f; simpl; auto|]. destruct (IH vs g G) as (h & ? & ?). exists h. simpl. auto. }
  apply DW. destruct o as [[v|]|[v|]]; simpl; unfold set_thicks, set_weights.
  - destruct (weights_of fs) eqn:E; simpl; [exact EX|]. right. intros g G. destruct (SPT _ _ _ G) as (h & H & ->). eapply weights_none; eauto.
  - destruct EX as [H|H]; [left|right]; intros g G; destruct (DELT _ _ G) as (h & I & E1 & E2).
    + destruct E2 as [->| ->]; auto.
    + rewrite E1. auto.
  - destruct (thicks_of fs) eqn:E; simpl; [exact EX|]. left. intros g G. destruct (SPW _ _ _ G) as (h & H & ->). eapply thicks_none; eauto.
  - destruct EX as [H|H]; [left|right]; intros g G; destruct (DELW _ _ G) as (h & I & E1 & E2).
    + rewrite E1. auto.
    + destruct E2 as [->| ->]; auto.
Qed.

(** A release made of polygons never has a weight and a thickness, whatever is assigned
    afterwards. *)
Theorem C178_exclusive : forall P (ps : list P) ows ots fs ops,
  new_feats None None (Some ps) ows ots = Ok fs -> ~ both (fold_left apply ops fs).
Proof.
  intros P ps ows ots fs ops H. assert (B : ~ both fs).
  { unfold new_feats in H. set (fs0 := map (fun p => @mkFeat P p None None) ps) in *.
    assert (B0 : ~ both fs0) by (intros (f & g & F & _ & T & _); apply in_map_iff in F; destruct F as (p & <- & _); apply T; reflexivity).
    assert (T0 : thicks_of fs0 = None) by (apply thicks_none; intros g G; apply in_map_iff in G; destruct G as (p & <- & _); reflexivity).
    assert (W0 : weights_of fs0 = None) by (apply weights_none; intros g G; apply in_map_iff in G; destruct G as (p & <- & _); reflexivity).
    destruct ows as [ws|]; [destruct ots; [discriminate|]; destruct (negb _); [discriminate|]|]; injection H as <-; unfold gen_fc; fold fs0.
    - pose proof (apply_both _ fs0 (SetWeight (Some ws)) B0) as X. simpl in X. unfold set_weights in X. rewrite T0 in X. exact X.
    - destruct ots as [ts|]; [|exact B0]. pose proof (apply_both _ fs0 (SetThick (Some ts)) B0) as X. simpl in X. unfold set_thicks in X. rewrite W0 in X. exact X. }
  revert fs H B. clear. intros fs _. revert fs. induction ops as [|o ops IH]; intros fs B; simpl; [exact B|]. apply IH, apply_both, B.
Qed.
Print Assumptions C178_exclusive.
Example C178_meets : exists fs, new_feats None None (Some [1; 2]) (Some [1 # 4; 3 # 4]%Q) None = Ok fs /\
  thicks_of (fold_left apply [SetThick (Some [1; 2]%Q); SetWeight None; SetThick (Some [1 # 2; 3]%Q)] fs) = Some [Some (1 # 2); Some 3]%Q.
Proof. eexists. split; reflexivity. Qed.

(** ** C179: the shares of the polygons *)

(** In a prepared release the triangles are those of the polygons, one polygon after the
    other; the weights of the triangles of a polygon sum up to its share and are
    proportional to their areas. *)
Theorem C179_shares_partial : forall P (W : world P) r fs ts r' tris ws,
  poly_prepare W r fs ts = Ok (r', tris, ws) ->
  tris = concat (map (fun f => w_tris W (f_poly f)) fs) /\
  (Qabs (total ws - 1) <= (1 # 100000) + (1 # 100000000))%Q /\
  exists gs, ws = concat gs /\
    Forall2 (fun f g => exists s, (w_tris W (f_poly f) <> [] -> share W fs f s /\ (total g == s)%Q) /\
      Forall2 (fun t x => (x == s * (tarea t / planar W f))%Q) (w_tris W (f_poly f)) g) fs gs.
Proof.
  intros P W r fs ts r' tris ws H. destruct (prepared_groups _ _ _ _ _ _ _ H) as ((A & B) & C). split; [exact A|]. split; [|exact B].
  unfold isclose1 in C. apply Qle_bool_iff in C. eapply Qle_trans; [exact C|]. lra.
Qed.
Print Assumptions C179_shares_partial.

Lemma point_ok_iff : forall p, point_ok p = true <-> on_globe p.
Proof.
  intros p. unfold point_ok, on_globe, Qltb. rewrite !andb_true_iff, !negb_true_iff, !Qle_bool_false. tauto.
Qed.

(** A prepared release has all its points on the globe; one point elsewhere, and the release is
    refused. *)
Theorem C179_coordinates : forall P (W : world P) r fs ts,
  (forall out, poly_prepare W r fs ts = Ok out -> forall f p, In f fs -> In p (w_coords W (f_poly f)) -> on_globe p) /\
  (forall r', prepare r ts = Ok r' -> r_prep r = None -> forall f p, In f fs -> In p (w_coords W (f_poly f)) -> ~ on_globe p ->
     poly_prepare W r fs ts = Raise AssertErr).
Proof.
  intros P W r fs ts. split.
  - intros out H f p I1 I2. unfold poly_prepare in H. destruct (prepare _ ts) as [r1|]; [|discriminate]. cbn [bind] in H. destruct (mapM (fun f => check_poly W (f_poly f)) fs) as [l|] eqn:M; [|discriminate]. clear H.
    revert l M. induction fs as [|g gs IH]; intros l M; [contradiction|]. simpl in M. unfold check_poly at 1 in M. destruct (forallb point_ok (w_coords W (f_poly g))) eqn:E; [|discriminate]. cbn [bind] in M. destruct (mapM _ gs) as [l'|] eqn:M'; [|discriminate].
    destruct I1 as [->|I1]; [|eapply IH; eauto]. rewrite forallb_forall in E. apply point_ok_iff, E, I2.
  - intros r' PR NP f p I1 I2 NG. unfold poly_prepare. rewrite NP, PR. cbn [bind]. assert (M : mapM (fun f => check_poly W (f_poly f)) fs = Raise AssertErr).
    { clear -I1 I2 NG. induction fs as [|g gs IH]; [contradiction|]. simpl. unfold check_poly at 1. destruct (forallb point_ok (w_coords W (f_poly g))) eqn:E; [|reflexivity]. cbn [bind].
      destruct I1 as [->|I1]; [|rewrite IH by assumption; reflexivity]. exfalso. apply NG. rewrite forallb_forall in E. apply point_ok_iff, E, I2. }
    rewrite M. reflexivity.
Qed.
Print Assumptions C179_coordinates.

(** Weights that do not sum up to 1 are refused when the release is prepared. *)
Theorem C179_refused : forall P (W : world P) r fs ts r' ows,
  prepare r ts = Ok r' -> r_prep r = None -> (forall f p, In f fs -> In p (w_coords W (f_poly f)) -> on_globe p) ->
  (forall f, In f fs -> ~ (planar W f == 0)%Q /\ f_thick f = None) -> fs <> [] -> map f_weight fs = map Some ows ->
  ((1 # 100000) + (1 # 100000000) < Qabs (total ows - 1))%Q ->
  poly_prepare W r fs ts = Raise AssertErr.
Proof.
  intros P W r fs ts r' ows PR NP OKG PL NE WE BAD.
  assert (OKP : forall f, In f fs -> forallb point_ok (w_coords W (f_poly f)) = true) by (intros f I1; apply forallb_forall; intros p I2; apply point_ok_iff; eapply OKG; eauto).
  unfold poly_prepare. rewrite NP, PR. cbn [bind].
  assert (M : exists l, mapM (fun f => check_poly W (f_poly f)) fs = Ok l).
  { clear -OKP. induction fs as [|f fs IH]; [exists []; reflexivity|]. simpl. unfold check_poly at 1. rewrite OKP by (left; reflexivity). cbn [bind]. destruct IH as (l & ->); [intros; apply OKP; right; auto|]. eexists; reflexivity. }
  destruct M as (l & ->). cbn [bind].
  assert (TH : thicks_of fs = None) by (apply thicks_none; intros; apply PL; auto). rewrite TH. cbn [bind].
  unfold weights_of. rewrite WE, all_some; [|destruct ows; [destruct fs; [congruence|discriminate]|congruence]].
  unfold polys_as_tris. assert (LL : length (map Some ows) = length (map f_poly fs)) by (rewrite <- WE, !map_length; reflexivity). rewrite LL, Nat.eqb_refl. cbn [negb].
  assert (G : exists parts, mapM (fun '(p, w) => do aw <- area_weight (w_tris W p);
                     match w, aw with
                     | None, _ :: _ => Raise TypeErr
                     | None, [] => Ok (w_tris W p, [])
                     | Some w, _ => Ok (w_tris W p, map (fun a => (w * a)%Q) aw)
                     end) (combine (map f_poly fs) (map Some ows)) = Ok parts /\ (total (concat (map snd parts)) == total ows)%Q).
  { clear -PL WE. revert ows WE. induction fs as [|f fs IH]; intros [|w ows] WE; try discriminate; [exists []; split; reflexivity|].
    injection WE as W1 W2. destruct (IH ltac:(intros; apply PL; right; auto) ows W2) as (parts & E & T). simpl.
    destruct (PL f (or_introl eq_refl)) as (NZ & _).
    assert (EM : exists aw, area_weight (w_tris W (f_poly f)) = Ok aw).
    { unfold area_weight. destruct (w_tris W (f_poly f)) as [|t0 tl] eqn:ET; [eauto|]. destruct (Qeq_bool _ 0) eqn:Z0; [|eauto]. exfalso. apply Qeq_bool_iff in Z0. rewrite sum_tri in Z0. apply NZ. unfold planar. rewrite ET. exact Z0. }
    destruct EM as (aw & AW). rewrite AW. cbn [bind]. destruct (area_weight_ok _ _ AW) as (F & _).
    eexists. rewrite E. cbn [bind]. split; [reflexivity|]. cbn [map concat snd]. rewrite total_app, T.
    assert (X : (total (map (fun a => (w * a)%Q) aw) == w)%Q).
    { assert (F2 : Forall2 (fun t x => (x == (w / planar W f) * tarea t)%Q) (w_tris W (f_poly f)) (map (fun a => (w * a)%Q) aw)).
      { unfold planar in *. remember (total (map tarea (w_tris W (f_poly f)))) as T0. clear -F NZ. induction F; simpl; constructor; auto. rewrite H. field. exact NZ. }
      rewrite (total_f2 _ tarea _ _ _ F2). fold (planar W f). field. exact NZ. }
    rewrite X. reflexivity. }
  destruct G as (parts & -> & T). cbn [bind fst snd]. unfold isclose1. rewrite qsum_total.
  assert (E : Qle_bool (Qabs (total (concat (map snd parts)) - 1)) ((1 # 100000000) + (1 # 100000)) = false). { apply Qle_bool_false. rewrite T. lra. }
  rewrite E. reflexivity.
Qed.
Print Assumptions C179_refused.

(** Without weights and thicknesses the share is not that of the area in square metres:
    two polygons that are equally large in degrees get the same share, whatever their
    areas are. *)
Theorem C179_area_refuted : forall P (W : world P) (p q : P) r ts r' tris ws,
  (total (map tarea (w_tris W p)) == total (map tarea (w_tris W q)))%Q -> w_tris W p <> [] -> w_tris W q <> [] ->
  poly_prepare W r [mkFeat p None None; mkFeat q None None] ts = Ok (r', tris, ws) ->
  exists g h, ws = g ++ h /\ length g = length (w_tris W p) /\ length h = length (w_tris W q) /\ (total g == total h)%Q.
Proof.
  intros P W p q r ts r' tris ws E NP NQ H. destruct (prepared_groups _ _ _ _ _ _ _ H) as ((_ & gs & -> & F) & _).
  inversion F as [|f g fs' gs' (s1 & A1 & B1) F']; subst. inversion F' as [|f h fs'' gs'' (s2 & A2 & B2) F'']; subst. inversion F''; subst.
  exists g, h. cbn [f_poly] in *. split; [simpl; rewrite app_nil_r; reflexivity|]. split; [symmetry; eapply f2_len; eauto|]. split; [symmetry; eapply f2_len; eauto|].
  destruct (A1 NP) as (S1 & T1). destruct (A2 NQ) as (S2 & T2). rewrite T1, T2.
  assert (NT : ~ exists g0, In g0 [mkFeat p None None; mkFeat q None None] /\ f_thick g0 <> None) by (intros (g0 & [<-|[<-|[]]] & X); apply X; reflexivity).
  inversion S1 as [X|w X Y|X]; [contradiction|discriminate|]. inversion S2 as [X2|w2 X2 Y2|X2]; [contradiction|discriminate|].
  unfold planar at 1 3. cbn [f_poly]. rewrite E. reflexivity.
Qed.
Print Assumptions C179_area_refuted.

(** A square of the size of one degree, at two latitudes, in two triangles. *)
Definition ex_tris (p : Z) : list tri :=
  let y := inject_Z p in [((0, y), (1, y), (1, y + 1)); ((0, y), (1, y + 1), (0, y + 1))]%Q.
Definition ex_world : world Z := mkWorld ex_tris (fun p => if p =? 0 then Some 12000%Q else Some 4000%Q)
  (fun p => [(0, inject_Z p); (1, inject_Z p); (1, inject_Z p + 1); (0, inject_Z p + 1)]%Q).
Definition ex_rel : release := mkRel false 0 None (Some 100) None 50 [] None 0 None.
Example C179_meets : exists r' tris ws r'' tris' ws',
  poly_prepare ex_world ex_rel [mkFeat 0 None (Some (1 # 10)%Q); mkFeat 70 None (Some (3 # 10)%Q)] (900 * 1000000) = Ok (r', tris, ws) /\
  map Qred ws = [1 # 4; 1 # 4; 1 # 4; 1 # 4]%Q /\
  poly_prepare ex_world ex_rel [mkFeat 0 None None; mkFeat 70 None None] (900 * 1000000) = Ok (r'', tris', ws') /\
  map Qred ws' = [1 # 4; 1 # 4; 1 # 4; 1 # 4]%Q.
Proof. do 6 eexists. split; [vm_compute; reflexivity|]. split; [vm_compute; reflexivity|]. split; [vm_compute; reflexivity|]. vm_compute; reflexivity. Qed.

Example C179_coordinates_meets : (exists r', prepare ex_rel (900 * 1000000) = Ok r') /\ In (0, inject_Z 90)%Q (w_coords ex_world 90) /\ ~ on_globe (0, inject_Z 90)%Q.
Proof. split; [eexists; reflexivity|]. split; [left; reflexivity|]. intros (_ & _ & _ & H). discriminate. Qed.

(** Weights that are accepted when the release is prepared may still be refused when
    elements are released: a sum of 1.000001, or a negative weight. *)
Theorem C179_accepted_refuted : forall mass tris ws draws,
  (Exists (fun w => (w < 0)%Q) ws \/ (1 # 1000000 <= Qabs (total ws - 1))%Q) -> init_poly mass tris ws draws = Raise ValueErr.
Proof.
  intros mass tris ws draws H. unfold init_poly. assert (E : choice_ok ws = false); [|rewrite E; reflexivity].
  unfold choice_ok. rewrite qsum_total. destruct H as [H|H].
  - apply andb_false_iff. left. apply Exists_exists in H. destruct H as (w & I & N). destruct (forallb _ ws) eqn:E; [|reflexivity]. rewrite forallb_forall in E. specialize (E w I). apply Qle_bool_iff in E. lra.
  - apply andb_false_iff. right. apply Qle_bool_false. eapply Qlt_le_trans; [|exact H]. reflexivity.
Qed.
Print Assumptions C179_accepted_refuted.
Example C179_accepted_meets : exists r' tris ws,
  poly_prepare ex_world ex_rel [mkFeat 0 (Some (1 # 2)%Q) None; mkFeat 70 (Some (500001 # 1000000)%Q) None] (900 * 1000000) = Ok (r', tris, ws) /\
  Qle_bool (1 # 1000000) (Qabs (total ws - 1)) = true.
Proof. do 3 eexists. split; vm_compute; reflexivity. Qed.

(** ** C180: the elements of a polygon release *)

(** A draw: the triangle has positive probability, the two numbers are in [0, 1). *)
Definition good_draw (ws : list Q) (d : nat * Q * Q) : Prop :=
  let '(i, u, v) := d in (exists w, nth_error ws i = Some w /\ (0 < w)%Q) /\ (0 <= u < 1)%Q /\ (0 <= v < 1)%Q.

(** Every element is at the surface in a polygon with a positive share. *)
Theorem C180_inside : forall P (W : world P) (inside : P -> qpt -> Prop) r fs ts r' tris ws s draws t1 s' els,
  (forall p t q, In t (w_tris W p) -> in_tri t q -> inside p q) ->
  poly_prepare W r fs ts = Ok (r', tris, ws) -> Forall (good_draw ws) draws ->
  poly_step s tris ws draws t1 = Ok (s', els) ->
  Forall (fun e => exists f x y sh, In f fs /\ share W fs f sh /\ (0 < sh)%Q /\ inside (f_poly f) (x, y) /\ e_pos e = [x; y; 0%Q]) els.
Proof.
  intros P W inside r fs ts r' tris ws s draws t1 s' els IN PR GD ST.
  destruct (prepared_groups _ _ _ _ _ _ _ PR) as ((TR & gs & WS & F) & _). unfold poly_step in ST.
  destruct (negb (s_on s)); [injection ST as _ <-; constructor|]. destruct (after_time _ _) as [e|]; [|discriminate]. cbn [bind] in ST.
  destruct (_ <=? 0); [injection ST as _ <-; constructor|]. set (ds := firstn _ draws) in ST. set (m := match r_prep _ with Some p => p_mass p | None => 0%Q end) in ST.
  destruct (init_poly m tris ws ds) as [new|] eqn:IP; [|discriminate]. injection ST as _ <-.
  unfold init_poly in IP. destruct (negb _); [discriminate|].
  assert (GDS : Forall (good_draw ws) ds). { apply Forall_forall. intros d I. rewrite Forall_forall in GD. apply GD. unfold ds in I. clear -I. revert I. generalize (Z.to_nat (e - s_count s)). intros n. revert draws. induction n; intros [|x l] I; simpl in I; try contradiction. destruct I; [left; auto|right; eapply IHn; eauto]. }
  apply DisProofs.mapM_Forall2 in IP. apply Forall_forall. intros el I. clearbody ds m.
  assert (X : exists d, In d ds /\ (let '(i, u, v) := d in do t <- py_get tris (Z.of_nat i); let p := random_pt t u v in Ok (mkElem [fst p; snd p; 0%Q] m m)) = Ok el).
  { clear -IP I. induction IP; [contradiction|]. destruct I as [<-|I]; [exists x; split; [left; reflexivity|exact H]|]. destruct (IHIP I) as (d & ? & ?). exists d. split; [right; auto|auto]. }
  destruct X as ([[i u] v] & ID & E). rewrite Forall_forall in GDS. specialize (GDS _ ID). destruct GDS as ((w & NW & PW) & U & V).
  destruct (py_get tris (Z.of_nat i)) as [t|] eqn:PG; [|discriminate]. cbn [bind] in E. injection E as <-.
  assert (NT : nth_error tris i = Some t). { rewrite PolyProofs.py_get_nat in PG. destruct (nth_error tris i); congruence. }
  rewrite TR in NT. rewrite WS in NW. destruct (group_find W (share W fs) fs gs i t w F NT NW) as (f & sh & I1 & I2 & I3 & I4).
  exists f, (fst (random_pt t u v)), (snd (random_pt t u v)), sh. repeat split; auto.
  - destruct (Qlt_le_dec 0 sh) as [|LE]; [auto|]. exfalso.
    assert (NN : (0 <= tarea t / planar W f)%Q).
    { destruct (Qeq_dec (planar W f) 0) as [E|NE]; [rewrite E; unfold Qdiv; change (/ 0)%Q with 0%Q; rewrite Qmult_0_r; lra|].
      assert (PP : (0 <= planar W f)%Q) by (apply total_nonneg, tareas_nonneg). apply Qle_shift_div_l; [lra|]. rewrite Qmult_0_l. apply tarea_nonneg. }
    assert (X : (sh * (tarea t / planar W f) <= 0)%Q). { assert (Y : (0 <= - sh * (tarea t / planar W f))%Q) by (apply Qmul_nonneg; lra). lra. }
    lra.
  - apply (IN _ t); [exact I2|]. rewrite <- surjective_pairing. apply random_in; auto.
Qed.
Print Assumptions C180_inside.

(** A release of n elements at one time: none before it, and at the first step that
    reaches it n elements that weigh as much as the release. *)
Theorem C180_number : forall P (W : world P) rt n mass r fs ts r' tris ws draws t1,
  new_release false rt (Some n) None None mass [] None = Ok r -> 0 < n -> (0 <= mass)%Q ->
  poly_prepare W r fs ts = Ok (r', tris, ws) -> choice_ok ws = true -> length draws = Z.to_nat n -> Forall (good_draw ws) draws ->
  (t1 < rt -> poly_step (mkSpill true r' 0) tris ws draws t1 = Ok (mkSpill true r' 0, [])) /\
  (rt <= t1 -> exists els, poly_step (mkSpill true r' 0) tris ws draws t1 = Ok (mkSpill true r' n, els) /\
     length els = Z.to_nat n /\ Forall (fun e => (inject_Z n * e_mass e == mass)%Q /\ e_init e = e_mass e) els /\
     forall t2, rt <= t2 -> poly_step (mkSpill true r' n) tris ws draws t2 = Ok (mkSpill true r' n, [])).
Proof.
  intros P W rt n mass r fs ts r' tris ws draws t1 R N M PR CH LD GD.
  destruct (prepared_groups _ _ _ _ _ _ _ PR) as ((TR & gs & WS & F) & _).
  assert (LT : length tris = length ws). { rewrite TR, WS. clear -F. induction F; [reflexivity|]. simpl. destruct H as (s & _ & G). rewrite !app_length, IHF, (f2_len _ _ _ _ _ G). reflexivity. }
  unfold new_release in R. cbn [set_num bind] in R. destruct (n <? 0) eqn:E; [discriminate|]. cbn [check_end bind] in R. injection R as <-.
  unfold poly_prepare in PR. cbn [r_prep] in PR.
  destruct (Z.eq_dec ts 0) as [->|TS].
  { unfold prepare in PR. cbn [r_prep] in PR. unfold end_time in PR. cbn [r_end r_time] in PR. rewrite Z.eqb_refl, andb_false_r in PR. cbn in PR. discriminate. }
  destruct (instant (mkRel false rt None (Some n) None (clip_mass mass) [] None 0 None) ts n eq_refl eq_refl eq_refl eq_refl eq_refl N TS) as (tb & PE & AT).
  rewrite PE in PR. cbn [bind] in PR. destruct (mapM _ fs); [|discriminate]. cbn [bind] in PR. destruct (match thicks_of fs with Some _ => _ | None => _ end) as [ow|]; [|discriminate]. cbn [bind] in PR.
  destruct (polys_as_tris W _ ow) as [tw|]; [|discriminate]. injection PR as <- _ _. cbn [r_time r_end r_mass r_start_pos r_end_pos r_prev] in *.
  split.
  - intros L. unfold poly_step. cbn [s_on negb s_rel s_count]. unfold after_time. cbn [r_prep r_time]. apply Z.ltb_lt in L. rewrite L. reflexivity.
  - intros L. unfold poly_step. cbn [s_on negb s_rel s_count]. unfold after_time. cbn [r_prep r_time p_table]. destruct (AT t1 L) as (q & -> & QC). assert (L' : (t1 <? rt) = false) by (apply Z.ltb_ge; lia). rewrite L'. cbn [bind]. rewrite QC, Z.sub_0_r.
    assert (N' : (n <=? 0) = false) by (apply Z.leb_gt; lia). rewrite N'. cbn [p_mass]. rewrite <- LD, firstn_all. set (m := (clip_mass mass / inject_Z n)%Q).
    assert (IP : exists els, init_poly m tris ws draws = Ok els /\ length els = length draws /\ Forall (fun e => e_mass e = m /\ e_init e = m) els).
    { unfold init_poly. rewrite CH. cbn [negb]. clear -GD LT. induction draws as [|[[i u] v] ds IH]; [exists []; simpl; auto|]. inversion GD as [|x y G1 G2]; subst. destruct (IH G2) as (els & E & LE & FE).
      destruct G1 as ((w & NW & _) & _). assert (LI : (i < length tris)%nat) by (rewrite LT; apply nth_error_Some; congruence).
      destruct (nth_error tris i) as [t|] eqn:NT; [|apply nth_error_None in NT; lia]. cbn [mapM]. rewrite PolyProofs.py_get_nat, NT. cbn [bind]. cbv zeta. rewrite E. cbn [bind]. eexists. split; [reflexivity|]. split; [simpl; congruence|]. constructor; auto. }
    destruct IP as (els & IP & LE & FE). rewrite IP. cbn [bind]. exists els. split; [rewrite Z.add_0_l; reflexivity|]. split; [exact LE|]. split.
    + eapply Forall_impl; [|exact FE]. intros e (-> & ->). split; [|reflexivity]. unfold m, clip_mass. assert (X : Qle_bool 0 mass = true) by (apply Qle_bool_iff; exact M). rewrite X.
      assert (NZ : ~ (inject_Z n == 0)%Q). { change 0%Q with (inject_Z 0). rewrite inject_Z_injective. lia. } field. exact NZ.
    + intros t2 L2. destruct (AT t2 L2) as (q2 & -> & QC2). assert (L2' : (t2 <? rt) = false) by (apply Z.ltb_ge; lia). rewrite L2'. cbn [bind]. rewrite QC2, Z.sub_diag. reflexivity.
Qed.
Print Assumptions C180_number.
Example C180_meets : exists r r' tris ws s' els,
  new_release false 0 (Some 3) None None 12 [] None = Ok r /\
  poly_prepare ex_world r [mkFeat 0 (Some (1 # 4)%Q) None; mkFeat 70 (Some (3 # 4)%Q) None] (900 * 1000000) = Ok (r', tris, ws) /\ choice_ok ws = true /\
  poly_step (mkSpill true r' 0) tris ws [(O, 1 # 2, 1 # 4); (3%nat, 3 # 4, 1 # 2); (2%nat, 0, 0)]%Q (900 * 1000000) = Ok (s', els) /\
  map (fun e => map Qred (e_pos e)) els = [[3 # 4; 1 # 4; 0]; [1 # 4; 283 # 4; 0]; [0; 70; 0]]%Q.
Proof. do 6 eexists. split; [reflexivity|]. split; [vm_compute; reflexivity|]. split; [vm_compute; reflexivity|]. split; [vm_compute; reflexivity|]. vm_compute. reflexivity. Qed.

(** ** C181: random points of a triangle *)

Theorem C181_inside : forall t u v, (0 <= u < 1)%Q -> (0 <= v < 1)%Q -> in_tri t (random_pt t u v).
Proof. exact random_in. Qed.
Print Assumptions C181_inside.

(** No part of the triangle is favoured: a point with coordinates r and s along the sides
    is the image of exactly two draws, (r, s) and (1 - r, 1 - s). *)
Theorem C181_even : forall x0 y0 x1 y1 x2 y2 u v r s,
  ~ (tarea ((x0, y0), (x1, y1), (x2, y2)) == 0)%Q -> (0 <= u < 1)%Q -> (0 <= v < 1)%Q -> (0 < r)%Q -> (0 < s)%Q -> (r + s < 1)%Q ->
  let p := random_pt ((x0, y0), (x1, y1), (x2, y2)) u v in
  ((fst p == x0 + r * (x1 - x0) + s * (x2 - x0))%Q /\ (snd p == y0 + r * (y1 - y0) + s * (y2 - y0))%Q) <->
  ((u == r)%Q /\ (v == s)%Q) \/ ((u == 1 - r)%Q /\ (v == 1 - s)%Q).
Proof.
  intros x0 y0 x1 y1 x2 y2 u v r s D U V R S RS p.
  assert (D' : ~ ((x1 - x0) * (y2 - y0) - (x2 - x0) * (y1 - y0) == 0)%Q).
  { intros E. apply D. unfold tarea. setoid_replace (x0 * (y1 - y2) + x1 * (y2 - y0) + x2 * (y0 - y1))%Q with ((x1 - x0) * (y2 - y0) - (x2 - x0) * (y1 - y0))%Q by ring. rewrite E. reflexivity. }
  assert (K : forall a b, ((x0 + a * (x1 - x0) + b * (x2 - x0) == x0 + r * (x1 - x0) + s * (x2 - x0))%Q /\ (y0 + a * (y1 - y0) + b * (y2 - y0) == y0 + r * (y1 - y0) + s * (y2 - y0))%Q) <-> ((a == r)%Q /\ (b == s)%Q)).
  { intros a b. split; [|intros (E1 & E2); rewrite E1, E2; split; reflexivity]. intros (E1 & E2).
    destruct (two_by_two (x1 - x0) (x2 - x0) (y1 - y0) (y2 - y0) (a - r) (b - s)) as (A & B).
    - exact D'.
    - setoid_replace ((a - r) * (x1 - x0) + (b - s) * (x2 - x0))%Q with ((x0 + a * (x1 - x0) + b * (x2 - x0)) - (x0 + r * (x1 - x0) + s * (x2 - x0)))%Q by ring. rewrite E1. ring.
    - setoid_replace ((a - r) * (y1 - y0) + (b - s) * (y2 - y0))%Q with ((y0 + a * (y1 - y0) + b * (y2 - y0)) - (y0 + r * (y1 - y0) + s * (y2 - y0)))%Q by ring. rewrite E2. ring.
    - split; lra. }
  subst p. unfold random_pt. destruct (Qle_bool 1 (u + v)) eqn:E; cbn [fst snd].
  - apply Qle_bool_iff in E. rewrite K. split; [intros (A & B); right; lra|]. intros [(A & B)|(A & B)]; lra.
  - apply Qle_bool_false in E. rewrite K. split; [intros (A & B); left; lra|]. intros [(A & B)|(A & B)]; lra.
Qed.
Print Assumptions C181_even.
Example C181_meets : let p := random_pt ((0, 0), (4, 0), (0, 4))%Q (1 # 8) (1 # 2) in let q := random_pt ((0, 0), (4, 0), (0, 4))%Q (7 # 8) (1 # 2) in
  (fst p == fst q)%Q /\ (snd p == snd q)%Q /\ (fst p == 1 # 2)%Q.
Proof. vm_compute. auto. Qed.

(** ** C182: the resolution of a grid *)

(** With a single positive number the columns are the nearest number to avg times the
    root of width by height (as projected), the rows the nearest to avg squared by the
    columns, so that the number of elements differs from avg squared by at most half the
    number of columns; if the box is not so narrow that no column fits. *)
Theorem C182_resolution_partial : forall b cosine avg, 0 < avg -> (0 < cosine)%Q -> ~ (b_lon0 b == b_lon1 b)%Q -> ~ (b_lat0 b == b_lat1 b)%Q ->
  let w := (Qabs (b_lon1 b - b_lon0 b) * cosine)%Q in let h := Qabs (b_lat1 b - b_lat0 b) in
  (h < 4 * inject_Z (avg * avg) * w)%Q ->
  exists rx ry, new_grid b cosine (inl avg) = Ok (rx, ry) /\ 0 < rx /\ nearest_root rx (inject_Z (avg * avg) * w / h) /\
    nearest ry (inject_Z (avg * avg) / inject_Z rx) /\ Z.abs (2 * (rx * ry - avg * avg)) <= rx.
Proof.
  intros b cosine avg A C LO LA w h NAR. unfold new_grid, compute_resolution. fold w h.
  assert (H0 : (0 < h)%Q). { unfold h. apply Qnot_le_lt. intros X. apply LA. pose proof (Qabs_nonneg (b_lat1 b - b_lat0 b)). assert (Z0 : (Qabs (b_lat1 b - b_lat0 b) == 0)%Q) by lra. apply Qabs_Qle_condition in X. lra. }
  assert (W0 : (0 < w)%Q). { unfold w. apply Qmul_pos; [|exact C]. apply Qnot_le_lt. intros X. apply LO. apply Qabs_Qle_condition in X. lra. }
  assert (EW : Qeq_bool w 0 = false) by (destruct (Qeq_bool w 0) eqn:E; [apply Qeq_bool_iff in E; lra|reflexivity]).
  assert (EH : Qeq_bool h 0 = false) by (destruct (Qeq_bool h 0) eqn:E; [apply Qeq_bool_iff in E; lra|reflexivity]).
  assert (EA : (avg =? 0) = false) by (apply Z.eqb_neq; lia). rewrite EW, EH, EA. cbn [andb orb]. cbv zeta. rewrite Z.sgn_pos, Z.mul_1_l by exact A.
  set (q := (inject_Z (avg * avg) * w / h)%Q). assert (AA : (0 < inject_Z (avg * avg))%Q) by (change 0%Q with (inject_Z 0); rewrite <- Zlt_Qlt; nia).
  assert (Q0 : (0 <= q)%Q). { unfold q. apply Qle_shift_div_l; [exact H0|]. rewrite Qmult_0_l. apply Qmul_nonneg; lra. }
  assert (Q4 : (1 < 4 * q)%Q). { unfold q. setoid_replace (4 * (inject_Z (avg * avg) * w / h))%Q with (4 * inject_Z (avg * avg) * w / h)%Q by (field; lra). apply Qlt_shift_div_l; [exact H0|]. lra. }
  pose proof (round_sqrt_nearest q Q0) as RN. set (rx := round_sqrt q) in *. clearbody rx.
  assert (RX : 0 < rx). { destruct RN as (R0 & _ & R2). destruct (Z.eq_dec rx 0) as [->|]; [|lia]. simpl in R2. exfalso. change (inject_Z 1) with 1%Q in R2. lra. }
  assert (ER : (rx =? 0) = false) by (apply Z.eqb_neq; lia). rewrite ER. exists rx, (np_round (inject_Z (avg * avg) / inject_Z rx)).
  pose proof (np_round_nearest (inject_Z (avg * avg) / inject_Z rx)) as NR. split; [reflexivity|]. split; [exact RX|]. split; [exact RN|]. split; [exact NR|].
  set (ry := np_round _) in *. clearbody ry. unfold nearest in NR. apply Qabs_Qle_condition in NR.
  assert (PX : (0 < inject_Z rx)%Q) by (change 0%Q with (inject_Z 0); rewrite <- Zlt_Qlt; exact RX).
  assert (MU : (inject_Z (avg * avg) / inject_Z rx * inject_Z rx == inject_Z (avg * avg))%Q) by (field; lra). set (z := (inject_Z (avg * avg) / inject_Z rx)%Q) in *. clearbody z.
  destruct NR as (N1 & N2).
  assert (Y1 : (inject_Z (2 * (rx * ry - avg * avg)) <= inject_Z rx)%Q).
  { unfold Z.sub. rewrite inject_Z_mult, inject_Z_plus, inject_Z_mult, inject_Z_opp, <- MU. change (inject_Z 2) with 2%Q. 
    assert (0 <= (z - inject_Z ry + (1 # 2)) * inject_Z rx)%Q by (apply Qmul_nonneg; lra). lra. }
  assert (Y2 : (inject_Z (- rx) <= inject_Z (2 * (rx * ry - avg * avg)))%Q).
  { unfold Z.sub. rewrite inject_Z_mult, inject_Z_plus, inject_Z_mult, !inject_Z_opp, <- MU. change (inject_Z 2) with 2%Q.
    assert (0 <= ((1 # 2) - (z - inject_Z ry)) * inject_Z rx)%Q by (apply Qmul_nonneg; lra). lra. }
  rewrite <- Zle_Qle in Y1, Y2. lia.
Qed.
Print Assumptions C182_resolution_partial.
Example C182_meets : new_grid (mkBox (-10) 59 10 61) (1 # 2) (inl 10) = Ok (22, 5).
Proof. vm_compute. reflexivity. Qed.

(** A narrow box is a division by zero, as is one without height; a point is a ValueError. *)
Theorem C182_narrow_refuted : forall b cosine avg, 0 < avg -> (0 < cosine)%Q ->
  let w := (Qabs (b_lon1 b - b_lon0 b) * cosine)%Q in let h := Qabs (b_lat1 b - b_lat0 b) in
  ((4 * inject_Z (avg * avg) * w < h)%Q -> new_grid b cosine (inl avg) = Raise ZeroDivErr) /\
  ((h == 0)%Q -> ~ (w == 0)%Q -> new_grid b cosine (inl avg) = Raise ZeroDivErr) /\
  ((h == 0)%Q -> (w == 0)%Q -> new_grid b cosine (inl avg) = Raise ValueErr).
Proof.
  intros b cosine avg A C w h. unfold new_grid, compute_resolution. fold w h. assert (EA : (avg =? 0) = false) by (apply Z.eqb_neq; lia). rewrite EA, !orb_false_r.
  split; [|split].
  - intros L. assert (AA : (0 < inject_Z (avg * avg))%Q) by (change 0%Q with (inject_Z 0); rewrite <- Zlt_Qlt; nia).
    assert (W0 : (0 <= w)%Q) by (unfold w; apply Qmul_nonneg; [apply Qabs_nonneg|lra]).
    assert (AW : (0 <= inject_Z (avg * avg) * w)%Q) by (apply Qmul_nonneg; lra). assert (H0 : (0 < h)%Q) by lra.
    assert (EH : Qeq_bool h 0 = false) by (destruct (Qeq_bool h 0) eqn:E; [apply Qeq_bool_iff in E; lra|reflexivity]). rewrite EH, andb_false_r. cbv zeta iota.
    destruct (Qeq_bool w 0); [reflexivity|]. rewrite Z.sgn_pos, Z.mul_1_l by exact A. set (q := (inject_Z (avg * avg) * w / h)%Q).
    assert (Q0 : (0 <= q)%Q). { unfold q. apply Qle_shift_div_l; [exact H0|]. rewrite Qmult_0_l. exact AW. }
    assert (Q4 : (4 * q < 1)%Q). { unfold q. setoid_replace (4 * (inject_Z (avg * avg) * w / h))%Q with (4 * inject_Z (avg * avg) * w / h)%Q by (field; lra). apply Qlt_shift_div_r; [exact H0|]. lra. }
    pose proof (round_sqrt_nearest q Q0) as (R0 & R1 & _). destruct (Z.eq_dec (round_sqrt q) 0) as [->|NZ]; [reflexivity|]. exfalso. destruct R1 as [R1|R1]; [lia|].
    assert (X : (inject_Z 1 <= inject_Z ((2 * round_sqrt q - 1) * (2 * round_sqrt q - 1)))%Q) by (rewrite <- Zle_Qle; nia). change (inject_Z 1) with 1%Q in X. lra.
  - intros EH EW. assert (E1 : Qeq_bool h 0 = true) by (apply Qeq_bool_iff; exact EH). assert (E2 : Qeq_bool w 0 = false) by (destruct (Qeq_bool w 0) eqn:E; [apply Qeq_bool_iff in E; contradiction|reflexivity]). rewrite E1, E2. reflexivity.
  - intros EH EW. assert (E1 : Qeq_bool h 0 = true) by (apply Qeq_bool_iff; exact EH). assert (E2 : Qeq_bool w 0 = true) by (apply Qeq_bool_iff; exact EW). rewrite E1, E2. reflexivity.
Qed.
Print Assumptions C182_narrow_refuted.

(** A wide box gets no rows: the release can not be prepared. *)
Theorem C182_wide_refuted : exists b rx, new_grid b 1 (inl 3) = Ok (rx, 0) /\
  forall rt mass ts, ts <> 0 -> prepare (grid_rel rt (rx, 0) mass) ts = Raise ValueErr.
Proof.
  exists (mkBox 0 0 50 1), 21. split; [vm_compute; reflexivity|]. intros rt mass ts T. unfold prepare, grid_rel. cbn [r_prep]. unfold end_time. cbn [r_end r_time]. rewrite Z.eqb_refl, andb_false_r.
  unfold ratio. cbn [r_num]. unfold num_steps, duration, end_time. cbn [r_end r_time]. rewrite Z.sub_diag. destruct (ts =? 0) eqn:E; [apply Z.eqb_eq in E; contradiction|]. cbn [bind]. unfold ceil_div.
  assert (Z0 : - ((- 0) / ts) = 0) by (rewrite Z.opp_0, Zdiv_0_l; reflexivity). rewrite Z0. reflexivity.
Qed.
Print Assumptions C182_wide_refuted.

(** ** C183: the elements of a grid *)

(** The elements appear at the first step that reaches the release time, one at each point
    of the grid, with equal parts of the mass, and never again. *)
Theorem C183_grid : forall b rx ry rt mass ts, 0 < rx -> 0 < ry -> (0 <= mass)%Q -> ts <> 0 ->
  exists r, prepare (grid_rel rt (rx, ry) mass) ts = Ok r /\
  (forall t, t < rt -> grid_step b (rx, ry) (mkSpill true r 0) t = Ok (mkSpill true r 0, [])) /\
  (forall t, rt <= t -> exists els, grid_step b (rx, ry) (mkSpill true r 0) t = Ok (mkSpill true r (rx * ry), els) /\
     length els = Z.to_nat (rx * ry) /\
     (forall i j, (i < Z.to_nat rx)%nat -> (j < Z.to_nat ry)%nat -> exists e lon lat, nth_error els (j * Z.to_nat rx + i) = Some e /\
        e_pos e = [lon; lat; 0%Q] /\
        (lon == b_lon0 b + inject_Z (Z.of_nat i) * ((b_lon1 b - b_lon0 b) / inject_Z (Z.max 1 (rx - 1))))%Q /\
        (lat == b_lat0 b + inject_Z (Z.of_nat j) * ((b_lat1 b - b_lat0 b) / inject_Z (Z.max 1 (ry - 1))))%Q /\
        (inject_Z (rx * ry) * e_mass e == mass)%Q /\ e_init e = e_mass e)) /\
  (forall t, rt <= t -> grid_step b (rx, ry) (mkSpill true r (rx * ry)) t = Ok (mkSpill true r (rx * ry), [])).
Proof.
  intros b rx ry rt mass ts X Y M T. assert (N : 0 < rx * ry) by nia.
  destruct (instant (grid_rel rt (rx, ry) mass) ts (rx * ry) eq_refl eq_refl eq_refl eq_refl eq_refl N T) as (tb & PE & _). eexists. split; [exact PE|].
  cbn [grid_rel r_time r_end r_mass r_start_pos r_end_pos r_prev]. split; [|split].
  - intros t L. unfold grid_step, grid_after. cbn [s_on negb s_rel s_count r_prep r_time]. apply Z.ltb_lt in L. rewrite L. reflexivity.
  - intros t L. unfold grid_step, grid_after. cbn [s_on negb s_rel s_count r_prep r_time r_num p_mass]. assert (L' : (t <? rt) = false) by (apply Z.ltb_ge; lia). rewrite L', Z.sub_0_r.
    assert (N' : (rx * ry <=? 0) = false) by (apply Z.leb_gt; lia). rewrite N'. unfold grid_points.
    assert (NX : (rx <? 0) = false) by (apply Z.ltb_ge; lia). assert (NY : (ry <? 0) = false) by (apply Z.ltb_ge; lia). rewrite NX, NY. cbn [orb bind].
    set (xs := linspace (b_lon0 b) (b_lon1 b) (Z.to_nat rx)). set (ys := linspace (b_lat0 b) (b_lat1 b) (Z.to_nat ry)).
    assert (LX : length xs = Z.to_nat rx) by apply linspace_length. assert (LY : length ys = Z.to_nat ry) by apply linspace_length.
    set (ps := concat (map (fun lat => map (fun lon => [lon; lat; 0%Q]) xs) ys)).
    assert (LP : length ps = Z.to_nat (rx * ry)). { unfold ps. rewrite (grid_len _ _ _ (fun lon lat => [lon; lat; 0%Q])), LX, LY, Z2Nat.inj_mul by lia. lia. }
    assert (RW : match ps with [p] => Ok (repeat p (Z.to_nat (rx * ry))) | _ => if Nat.eqb (length ps) (Z.to_nat (rx * ry)) then Ok ps else Raise ValueErr end = Ok ps).
    { rewrite <- LP, Nat.eqb_refl. destruct ps as [|p [|p' l]]; reflexivity. }
    rewrite RW. cbn [bind]. rewrite Z.add_0_l. eexists. split; [reflexivity|]. split; [rewrite map_length; exact LP|].
    intros i j I J. destruct (linspace_nth_error (b_lon0 b) (b_lon1 b) _ _ I) as (lon & NL & EL). destruct (linspace_nth_error (b_lat0 b) (b_lat1 b) _ _ J) as (lat & NA & ELA).
    rewrite Z2Nat.id in EL, ELA by lia. eexists _, lon, lat. split.
    + apply map_nth_error. unfold ps. rewrite <- LX. apply (grid_nth _ _ _ (fun lon lat => [lon; lat; 0%Q]) xs ys i j i j lon lat eq_refl eq_refl); assumption.
    + cbn [e_pos e_mass e_init]. repeat split; auto. unfold clip_mass. assert (XM : Qle_bool 0 mass = true) by (apply Qle_bool_iff; exact M). rewrite XM.
      assert (NZ : ~ (inject_Z (rx * ry) == 0)%Q). { change 0%Q with (inject_Z 0). rewrite inject_Z_injective. lia. } field. exact NZ.
  - intros t L. unfold grid_step, grid_after. cbn [s_on negb s_rel s_count r_prep r_time r_num]. assert (L' : (t <? rt) = false) by (apply Z.ltb_ge; lia). rewrite L', Z.sub_diag. reflexivity.
Qed.
Print Assumptions C183_grid.
Example C183_meets : exists r els, prepare (grid_rel 0 (3, 2) 12) 900000000 = Ok r /\
  grid_step (mkBox 0 10 2 11) (3, 2) (mkSpill true r 0) 5 = Ok (mkSpill true r 6, els) /\
  map (fun e => map Qred (e_pos e)) els = [[0; 10; 0]; [1; 10; 0]; [2; 10; 0]; [0; 11; 0]; [1; 11; 0]; [2; 11; 0]]%Q.
Proof. eexists _, _. split; [vm_compute; reflexivity|]. split; vm_compute; reflexivity. Qed.

(** Two negative numbers are accepted, and prepared; the release raises ValueError. *)
Theorem C183_negative_refuted : forall b cosine rx ry rt mass ts, rx < 0 -> ry < 0 -> ts <> 0 ->
  exists r, new_grid b cosine (inr (rx, ry)) = Ok (rx, ry) /\ prepare (grid_rel rt (rx, ry) mass) ts = Ok r /\
  forall t, rt <= t -> grid_step b (rx, ry) (mkSpill true r 0) t = Raise ValueErr.
Proof.
  intros b cosine rx ry rt mass ts X Y T. assert (N : 0 < rx * ry) by nia.
  destruct (instant (grid_rel rt (rx, ry) mass) ts (rx * ry) eq_refl eq_refl eq_refl eq_refl eq_refl N T) as (tb & PE & _). eexists. split; [reflexivity|]. split; [exact PE|].
  cbn [grid_rel r_time r_end r_mass r_start_pos r_end_pos r_prev]. intros t L. unfold grid_step, grid_after. cbn [s_on negb s_rel s_count r_prep r_time r_num]. assert (L' : (t <? rt) = false) by (apply Z.ltb_ge; lia). rewrite L', Z.sub_0_r.
  assert (N' : (rx * ry <=? 0) = false) by (apply Z.leb_gt; lia). rewrite N'. unfold grid_points. assert (NX : (rx <? 0) = true) by (apply Z.ltb_lt; lia). rewrite NX. reflexivity.
Qed.
Print Assumptions C183_negative_refuted.

(** ** C184: NESDIS files *)

Lemma thick_lower : forall s, seqb (lower s) (lit "thick"%string) = true <-> thick_word s.
Proof.
  intros s. unfold seqb. destruct (str_eq_dec (lower s) (lit "thick"%string)) as [E|E]; split; intros H; try congruence.
  - unfold thick_word. rewrite <- E. clear. unfold lower. induction s as [|c s IH]; simpl; constructor; auto. destruct ((65 <=? c) && (c <=? 90)) eqn:X; lia.
  - exfalso. apply E. unfold thick_word in H. revert H. change (lit "thick"%string) with [116; 104; 105; 99; 107]. intros H.
    repeat match goal with H : Forall2 _ _ (_ :: _) |- _ => inversion H as [|? ? ? ? [->| ->] ?]; clear H; subst | H : Forall2 _ _ [] |- _ => inversion H; clear H; subst end; reflexivity.
Qed.

(** The polygons are those of the file; a polygon whose type is thick, in any letter case,
    has 50 micrometres, every other one 5.  The time of a polygon is that of its record. *)
Theorem C184_file_partial : forall P (file : list (nrec P)) rt fs, load_nesdis rt file = Ok fs ->
  Forall2 (fun x ft => f_poly (fst ft) = n_poly x /\ f_weight (fst ft) = None /\
    ((exists s, n_oil x = Some (Some s) /\ thick_word s) -> f_thick (fst ft) = Some (50 # 1000000)%Q) /\
    (~ (exists s, n_oil x = Some (Some s) /\ thick_word s) -> f_thick (fst ft) = Some (5 # 1000000)%Q) /\
    (forall t, n_time x = Some (Some t) -> snd ft = t)) file fs.
Proof.
  intros P. induction file as [|x file IH]; intros rt fs H; [injection H as <-; constructor|]. simpl in H.
  destruct (n_oil x) as [[s|]|] eqn:O; cbn [bind] in H; try discriminate; destruct (load_nesdis _ file) as [rest|] eqn:L; try discriminate; injection H as <-;
    (constructor; [|eapply IH; eauto]); cbn [fst snd f_poly f_weight f_thick]; rewrite O; (split; [reflexivity|]); (split; [reflexivity|]).
  - split; [|split; [|intros t E; rewrite E; reflexivity]].
    + intros (s' & E & T). injection E as <-. apply thick_lower in T. rewrite T. reflexivity.
    + intros N. destruct (seqb (lower s) (lit "thick"%string)) eqn:E; [|reflexivity]. exfalso. apply N. exists s. split; [reflexivity|]. apply thick_lower. exact E.
  - split; [|split; [|intros t E; rewrite E; reflexivity]]; [|reflexivity]. intros (s' & E & T). discriminate.
Qed.
Print Assumptions C184_file_partial.

Lemma load_app : forall P (a b : list (nrec P)) rt fs, load_nesdis rt (a ++ b) = Ok fs ->
  exists fa fb, fs = fa ++ fb /\ length fa = length a /\ load_nesdis rt a = Ok fa /\ load_nesdis (last (map snd fa) rt) b = Ok fb.
Proof.
  intros P. induction a as [|x a IH]; intros b rt fs H; [exists [], fs; auto|]. cbn [app load_nesdis] in H |- *.
  destruct (match n_oil x with Some (Some s) => _ | Some None => _ | None => _ end) as [th|]; [|discriminate]. cbn [bind] in H |- *.
  set (t := match n_time x with Some (Some t) => t | _ => rt end) in *. destruct (load_nesdis t (a ++ b)) as [rest|] eqn:L; [|discriminate]. injection H as <-.
  destruct (IH _ _ _ L) as (fa & fb & -> & LE & E1 & E2). rewrite E1. cbn [bind]. eexists (_ :: fa), fb. split; [reflexivity|]. split; [simpl; congruence|]. split; [reflexivity|].
  cbn [map snd]. destruct (map snd fa) as [|y l] eqn:M; [exact E2|]. change (last (t :: y :: l) rt) with (last (y :: l) rt). rewrite <- E2. f_equal. clear. revert y. induction l as [|z l IH]; intros y; [reflexivity|]. change (last (y :: z :: l) rt) with (last (z :: l) rt). change (last (y :: z :: l) t) with (last (z :: l) t). apply IH.
Qed.
Lemma load_no_time : forall P (a : list (nrec P)) rt fa, Forall no_time a -> load_nesdis rt a = Ok fa -> Forall (fun ft => snd ft = rt) fa.
Proof.
  intros P. induction a as [|x a IH]; intros rt fa N H; [injection H as <-; constructor|]. inversion N as [|? ? N1 N2]; subst. cbn [load_nesdis] in H.
  destruct (match n_oil x with Some (Some s) => _ | Some None => _ | None => _ end) as [th|]; [|discriminate]. cbn [bind] in H.
  assert (E : match n_time x with Some (Some t) => t | _ => rt end = rt) by (destruct (n_time x) as [[t|]|] eqn:T; auto; exfalso; eapply N1; eauto). rewrite E in H.
  destruct (load_nesdis rt a) as [rest|] eqn:L; [|discriminate]. injection H as <-. constructor; [reflexivity|]. eapply IH; eauto.
Qed.

(** Records without a time have the time of the last one before them that has one, or the
    time that was given. *)
Theorem C184_carry : forall P (pre mid post : list (nrec P)) rt fs,
  Forall no_time mid ->
  (load_nesdis rt (mid ++ post) = Ok fs -> forall i ft, (i < length mid)%nat -> nth_error fs i = Some ft -> snd ft = rt) /\
  (forall y t, n_time y = Some (Some t) -> load_nesdis rt (pre ++ y :: mid ++ post) = Ok fs ->
     forall i ft, (length pre <= i <= length pre + length mid)%nat -> nth_error fs i = Some ft -> snd ft = t).
Proof.
  intros P pre mid post rt fs N.
  assert (A : forall rt fs, load_nesdis rt (mid ++ post) = Ok fs -> forall i ft, (i < length mid)%nat -> nth_error fs i = Some ft -> snd ft = rt).
  { intros rt0 fs0 H i ft I E. apply load_app in H. destruct H as (fa & fb & -> & L & E1 & _). rewrite nth_error_app1 in E by lia. pose proof (load_no_time _ _ _ _ N E1) as F. rewrite Forall_forall in F. apply F. eapply nth_error_In; eauto. }
  split; [apply A|]. intros y t T H i ft I E. apply load_app in H. destruct H as (fa & fb & -> & L & _ & E2). rewrite nth_error_app2 in E by lia. rewrite L in E.
  cbn [load_nesdis] in E2. rewrite T in E2. destruct (match n_oil y with Some (Some s) => _ | Some None => _ | None => _ end) as [th|]; [|discriminate]. cbn [bind] in E2.
  destruct (load_nesdis t (mid ++ post)) as [rest|] eqn:LR; [|discriminate]. injection E2 as <-.
  destruct (i - length pre)%nat as [|k] eqn:K; [injection E as <-; reflexivity|]. simpl in E. eapply A; [exact LR| |exact E]. lia.
Qed.
Print Assumptions C184_carry.

(** All polygons are released at the time of the first, whatever the times of the others
    are; a record whose type is null is an AttributeError, a file without records an
    IndexError. *)
Theorem C184_times_refuted : forall P (p q : P) t1 t2 now given oil1 oil2 n mass, 0 <= n ->
  exists r fs, new_nesdis [mkNrec p (Some (Some t1)) (Some (Some oil1)); mkNrec q (Some (Some t2)) (Some (Some oil2))] now given (Some n) None mass = Ok (r, fs) /\
    r_time r = t1 /\ end_time r = t1 /\ map f_poly fs = [p; q].
Proof.
  intros P p q t1 t2 now given oil1 oil2 n mass N. unfold new_nesdis. cbn [load_nesdis n_time n_oil bind n_poly]. unfold new_release. cbn [set_num]. assert (E : (n <? 0) = false) by (apply Z.ltb_ge; lia). rewrite E. cbn [bind check_end]. rewrite Z.ltb_irrefl. cbn [bind].
  eexists _, _. split; [reflexivity|]. unfold end_time. auto.
Qed.
Print Assumptions C184_times_refuted.
(** When the first record has no time, the release has the time that is given, or else the present
    one. *)
Theorem C184_given : forall P (x : nrec P) file now given num per mass r fs, no_time x ->
  new_nesdis (x :: file) now given num per mass = Ok (r, fs) -> r_time r = match given with Some t => t | None => now end.
Proof.
  intros P x file now given num per mass r fs N H. unfold new_nesdis in H. set (rt := match given with Some t => t | None => now end) in *. clearbody rt. destruct (load_nesdis rt (x :: file)) as [l|] eqn:L; [|discriminate]. cbn [bind] in H.
  destruct l as [|(f, t) l]; [discriminate|]. destruct (C184_carry P [] [x] file rt ((f, t) :: l)) as (A & _); [repeat constructor; exact N|]. specialize (A L 0%nat (f, t) ltac:(simpl; lia) eq_refl). cbn [snd] in A. subst t.
  unfold new_release in H. cbv zeta in H. destruct num as [k|]; destruct per as [q|]; try discriminate;
    match type of H with context [set_num ?a ?b] => destruct (set_num a b) as [(n1, p1)|]; [|discriminate] end;
    cbn [bind] in H; destruct (check_end rt (Some rt)) as [ee|]; try discriminate; cbn [bind] in H; injection H as <- _; reflexivity.
Qed.
Print Assumptions C184_given.
Example C184_given_meets : exists r fs, new_nesdis [mkNrec 1 None None] 5 (Some 7) (Some 3) None 1 = Ok (r, fs) /\ r_time r = 7.
Proof. do 2 eexists. split; reflexivity. Qed.
Theorem C184_null_refuted : forall P (p : P) ot file now given num per mass,
  new_nesdis (mkNrec p ot (Some None) :: file) now given num per mass = Raise AttrErr /\ new_nesdis (@nil (nrec P)) now given num per mass = Raise IndexErr.
Proof. intros. split; reflexivity. Qed.
Print Assumptions C184_null_refuted.
Example C184_meets : exists fs, load_nesdis 7 [mkNrec 1 None (Some (Some (lit "Thick"%string))); mkNrec 2 (Some (Some 9)) None; mkNrec 3 (Some None) (Some (Some (lit "Thin"%string)))] = Ok fs /\
  map snd fs = [7; 9; 9] /\ map (fun x => f_thick (fst x)) fs = [Some (50 # 1000000); Some (5 # 1000000); Some (5 # 1000000)]%Q.
Proof. eexists. split; [vm_compute; reflexivity|]. split; reflexivity. Qed.

(** ** C185: the time zone of a release *)

(** A release with an end is shifted as a whole. *)
Theorem C185_shift_partial : forall r a b e, r_end r = Some e -> r_time r <= e ->
  exists r', set_zone r (Some a) (Some b) = Ok (r', Some b) /\ r_time r' = r_time r + (b - a) /\ end_time r' = end_time r + (b - a) /\ duration r' = duration r.
Proof.
  intros r a b e E L. unfold set_zone. unfold end_time at 1. cbn [r_end r_time]. rewrite E. cbn [check_end]. assert (X : (e + (b - a) <? r_time r + (b - a)) = false) by (apply Z.ltb_ge; lia). rewrite X. cbn [bind].
  eexists. split; [reflexivity|]. unfold duration, end_time. cbn [r_time r_end]. rewrite E. repeat split; lia.
Qed.
Print Assumptions C185_shift_partial.

(** A release without an end is at one time.  Moved to a later zone it lasts as long as
    the zones differ; moved to an earlier one ValueError is raised. *)
Theorem C185_instant_refuted : forall r a b, r_end r = None ->
  duration r = 0 /\
  (a <= b -> exists r', set_zone r (Some a) (Some b) = Ok (r', Some b) /\ r_time r' = r_time r + (b - a) /\ duration r' = b - a) /\
  (b < a -> set_zone r (Some a) (Some b) = Raise ValueErr).
Proof.
  intros r a b E. split; [unfold duration, end_time; rewrite E; lia|]. unfold set_zone. unfold end_time. cbn [r_end r_time]. rewrite E. cbn [check_end]. split; intros L.
  - assert (X : (r_time r + (b - a) + (b - a) <? r_time r + (b - a)) = false) by (apply Z.ltb_ge; lia). rewrite X. cbn [bind]. eexists. split; [reflexivity|]. unfold duration, end_time. cbn [r_time r_end]. split; lia.
  - assert (X : (r_time r + (b - a) + (b - a) <? r_time r + (b - a)) = true) by (apply Z.ltb_lt; lia). rewrite X. reflexivity.
Qed.
Print Assumptions C185_instant_refuted.

(** Without a known zone, before or after, the times stay. *)
Theorem C185_unknown : forall r z, set_zone r None z = Ok (r, z) /\ set_zone r z None = Ok (r, None).
Proof. intros r [z|]; split; reflexivity. Qed.
Print Assumptions C185_unknown.
Example C185_meets : exists r r', new_release false 0 (Some 10) None None 1 [] None = Ok r /\ set_zone r (Some 0) (Some 7200000000) = Ok (r', Some 7200000000) /\ duration r' = 7200000000.
Proof. eexists _, _. split; [reflexivity|]. split; reflexivity. Qed.
