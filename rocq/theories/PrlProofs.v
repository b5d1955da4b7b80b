(** * Proofs about polygon and grid releases *)
From Coq Require Import QArith Qround Qabs Lia Lqa Bool.
From Verif Require Import Py PyLemmas QLemmas TimeModel ReleaseModel ReleaseProofs PipModel PolyModel PrlModel PrlSpec DisProofs.
Open Scope Z_scope.

Section geom.
Context {P : Type}.
Implicit Types (W : world P) (fs : list (feat P)) (f : feat P).

Lemma qsum_total : forall l, qsum l = total l.
Proof. induction l; simpl; congruence. Qed.

Lemma total_app : forall a b, (total (a ++ b) == total a + total b)%Q.
Proof. induction a as [|x a IH]; intros b; simpl; [ring|]. rewrite IH. ring. Qed.

Lemma total_concat : forall ls, (total (concat ls) == total (map total ls))%Q.
Proof. induction ls as [|l ls IH]; simpl; [reflexivity|]. rewrite total_app, IH. reflexivity. Qed.

Lemma total_scale : forall A (g h : A -> Q) c l, (forall x, In x l -> (g x == c * h x)%Q) -> (total (map g l) == c * total (map h l))%Q.
Proof. induction l as [|x l IH]; simpl; intros H; [ring|]. rewrite H, IH by auto. ring. Qed.

Lemma total_ext : forall A (g h : A -> Q) l, (forall x, In x l -> (g x == h x)%Q) -> (total (map g l) == total (map h l))%Q.
Proof. induction l as [|x l IH]; simpl; intros H; [reflexivity|]. rewrite H, IH by auto. reflexivity. Qed.

Lemma total_nonneg : forall l, Forall (fun x => (0 <= x)%Q) l -> (0 <= total l)%Q.
Proof. induction 1; simpl; lra. Qed.
Lemma total_ge : forall l x, Forall (fun x => (0 <= x)%Q) l -> In x l -> (x <= total l)%Q.
Proof.
  induction l as [|y l IH]; intros x H I; [contradiction|]. inversion H; subst. destruct I as [->|I]; simpl.
  - pose proof (total_nonneg _ H3). lra.
  - specialize (IH x H3 I). lra.
Qed.

Lemma tri_area_eq : forall t, (tri_area t == tarea t)%Q.
Proof.
  intros [[[x0 y0] [x1 y1]] [x2 y2]]. unfold tri_area, tarea.
  setoid_replace ((x1 - x0) * (y2 - y0) - (x2 - x0) * (y1 - y0))%Q with (x0 * (y1 - y2) + x1 * (y2 - y0) + x2 * (y0 - y1))%Q by ring.
  field.
Qed.
Lemma tarea_nonneg : forall t, (0 <= tarea t)%Q.
Proof. intros [[[x0 y0] [x1 y1]] [x2 y2]]. unfold tarea. apply Qmul_nonneg; [apply Qabs_nonneg|lra]. Qed.
Lemma tareas_nonneg : forall l, Forall (fun x => (0 <= x)%Q) (map tarea l).
Proof. intros l. rewrite Forall_map. apply Forall_forall. intros. apply tarea_nonneg. Qed.

Lemma sum_tri : forall l, (qsum (map tri_area l) == total (map tarea l))%Q.
Proof. intros l. rewrite qsum_total. apply total_ext. intros. apply tri_area_eq. Qed.

Lemma area_weight_ok : forall ts ws, area_weight ts = Ok ws ->
  Forall2 (fun t x => (x == tarea t / total (map tarea ts))%Q) ts ws /\ (ts <> [] -> ~ (total (map tarea ts) == 0)%Q).
Proof.
  intros ts ws H. assert (EM : ts = [] \/ area_weight ts = (let total := qsum (map tri_area ts) in
         if Qeq_bool total 0 then Raise ZeroDivErr else Ok (map (fun t => (tri_area t / total)%Q) ts))) by (destruct ts; auto).
  destruct EM as [->|EM]; [injection H as <-; split; [constructor|congruence]|]. rewrite EM in H. cbv zeta in H.
  destruct (Qeq_bool (qsum (map tri_area ts)) 0) eqn:E; [discriminate|]. injection H as <-.
  apply Qeq_bool_neq in E. rewrite sum_tri in E. split; [|auto].
  assert (G : forall l, Forall2 (fun t x => (x == tarea t / total (map tarea ts))%Q) l (map (fun t => (tri_area t / qsum (map tri_area ts))%Q) l)).
  { induction l; simpl; constructor; auto. rewrite tri_area_eq, sum_tri. reflexivity. }
  apply G.
Qed.

Lemma total_f2 : forall A (g : A -> Q) c l ws, Forall2 (fun t x => (x == c * g t)%Q) l ws -> (total ws == c * total (map g l))%Q.
Proof. intros A g c l ws H. induction H; simpl; [ring|]. rewrite H, IHForall2. ring. Qed.

Lemma Forall2_imp : forall A B (R S : A -> B -> Prop) l m, (forall a b, In a l -> R a b -> S a b) -> Forall2 R l m -> Forall2 S l m.
Proof. intros A B R S l m I H. induction H; constructor; [apply I; [left; reflexivity|auto]|]. apply IHForall2. intros. apply I; [right; auto|auto]. Qed.

Lemma f2_len : forall A B (R : A -> B -> Prop) l m, Forall2 R l m -> length l = length m.
Proof. intros A B R l m H. induction H; simpl; congruence. Qed.

(** The weights of the triangles, grouped by polygon. *)
Definition groups_ok W (sh : feat P -> Q -> Prop) fs (ts : list tri) (ws : list Q) : Prop :=
  ts = concat (map (fun f => w_tris W (f_poly f)) fs) /\
  exists gs, ws = concat gs /\
    Forall2 (fun f g => exists s, (w_tris W (f_poly f) <> [] -> sh f s /\ (total g == s)%Q) /\
      Forall2 (fun t x => (x == s * (tarea t / planar W f))%Q) (w_tris W (f_poly f)) g) fs gs.

Lemma thicks_none : forall fs, thicks_of fs = None <-> (forall g, In g fs -> f_thick g = None).
Proof.
  intros fs. unfold thicks_of, all_or_none. split.
  - intros H g I. destruct (forallb is_none (map f_thick fs)) eqn:E; [|discriminate]. rewrite forallb_forall in E. specialize (E (f_thick g) (in_map _ _ _ I)). destruct (f_thick g); [discriminate|reflexivity].
  - intros H. assert (E : forallb is_none (map f_thick fs) = true); [|rewrite E; reflexivity]. apply forallb_forall. intros o I. apply in_map_iff in I. destruct I as (g & <- & I). rewrite (H g I). reflexivity.
Qed.
Lemma weights_none : forall fs, weights_of fs = None <-> (forall g, In g fs -> f_weight g = None).
Proof.
  intros fs. unfold weights_of, all_or_none. split.
  - intros H g I. destruct (forallb is_none (map f_weight fs)) eqn:E; [|discriminate]. rewrite forallb_forall in E. specialize (E (f_weight g) (in_map _ _ _ I)). destruct (f_weight g); [discriminate|reflexivity].
  - intros H. assert (E : forallb is_none (map f_weight fs) = true); [|rewrite E; reflexivity]. apply forallb_forall. intros o I. apply in_map_iff in I. destruct I as (g & <- & I). rewrite (H g I). reflexivity.
Qed.
Lemma thicks_some : forall fs l, thicks_of fs = Some l -> l = map f_thick fs /\ exists g, In g fs /\ f_thick g <> None.
Proof.
  intros fs l H. unfold thicks_of, all_or_none in H. destruct (forallb is_none (map f_thick fs)) eqn:E; [discriminate|]. injection H as <-. split; [reflexivity|].
  assert (X : existsb (fun o => negb (is_none o)) (map f_thick fs) = true).
  { clear - E. induction (map f_thick fs) as [|o l IH]; simpl in *; [discriminate|]. destruct o; simpl in *; auto. }
  apply existsb_exists in X. destruct X as (o & I & O). apply in_map_iff in I. destruct I as (g & <- & I). exists g. split; [auto|]. destruct (f_thick g); [congruence|discriminate].
Qed.
Lemma weights_some : forall fs l, weights_of fs = Some l -> l = map f_weight fs.
Proof. intros fs l H. unfold weights_of, all_or_none in H. destruct (forallb is_none (map f_weight fs)); congruence. Qed.

Lemma tris_groups : forall W fs, concat (map (w_tris W) (map f_poly fs)) = concat (map (fun f => w_tris W (f_poly f)) fs).
Proof. intros. rewrite map_map. reflexivity. Qed.

Lemma weighted_groups : forall W (sh : feat P -> Q -> Prop) fs ows ts ws,
  Forall2 (fun f o => forall w, o = Some w -> sh f w) fs ows ->
  polys_as_tris W (map f_poly fs) (Some ows) = Ok (ts, ws) -> groups_ok W sh fs ts ws /\ isclose1 (total ws) = true.
Proof.
  intros W sh fs ows ts ws A H. unfold polys_as_tris in H. destruct (negb _) eqn:L; [discriminate|]. cbn [bind] in H.
  destruct (mapM _ _) as [parts|] eqn:M; [|discriminate]. cbn [bind] in H. cbn [fst snd] in H.
  destruct (isclose1 _) eqn:I; [|discriminate]. injection H as <- <-. rewrite qsum_total in I. split; [|exact I]. clear I L.
  assert (G : concat (map fst parts) = concat (map (fun f => w_tris W (f_poly f)) fs) /\
    Forall2 (fun f g => exists s, (w_tris W (f_poly f) <> [] -> sh f s /\ (total g == s)%Q) /\
      Forall2 (fun t x => (x == s * (tarea t / planar W f))%Q) (w_tris W (f_poly f)) g) fs (map snd parts)).
  { revert parts M. induction A as [|f o fs' ows' Hfo A IH]; intros parts M.
    { injection M as <-. split; [reflexivity|constructor]. }
    simpl in M. destruct (area_weight (w_tris W (f_poly f))) as [aw|] eqn:AW; [|discriminate]. cbn [bind] in M.
    destruct (area_weight_ok _ _ AW) as (F & NZ).
    destruct o as [w|].
    - cbn [bind] in M. destruct (mapM _ _) as [parts'|] eqn:M'; [|discriminate]. injection M as <-. specialize (IH _ eq_refl). destruct IH as (I1 & I2).
      cbn [map fst snd concat]. split; [rewrite I1; reflexivity|]. constructor; [|exact I2]. exists w.
      assert (F2 : Forall2 (fun t x => (x == w * (tarea t / planar W f))%Q) (w_tris W (f_poly f)) (map (fun a => (w * a)%Q) aw)).
      { clear -F. unfold planar. remember (total (map tarea (w_tris W (f_poly f)))) as T. clear HeqT. induction F; simpl; constructor; auto. rewrite H. reflexivity. }
      split; [|exact F2]. intros N. split; [auto|]. specialize (NZ N).
      rewrite (total_f2 _ (fun t => tarea t / planar W f)%Q _ _ _ F2).
      rewrite (total_scale _ _ tarea (/ planar W f)); [|intros; unfold Qdiv; ring]. fold (planar W f). unfold planar in *. field. exact NZ.
    - destruct aw as [|a aw]; [|discriminate]. cbn [bind] in M. destruct (mapM _ _) as [parts'|] eqn:M'; [|discriminate]. injection M as <-. specialize (IH _ eq_refl). destruct IH as (I1 & I2).
      cbn [map fst snd concat]. split; [rewrite I1; reflexivity|]. constructor; [|exact I2]. inversion F as [E|]. exists 0%Q. split; [congruence|constructor]. }
  destruct G as (G1 & G2). split; [exact G1|]. eexists. split; [reflexivity|exact G2].
Qed.

Lemma f2_split : forall A B (R : A -> B -> Prop) l1 l2 m, Forall2 R (l1 ++ l2) m -> exists m1 m2, m = m1 ++ m2 /\ Forall2 R l1 m1 /\ Forall2 R l2 m2.
Proof. intros. apply Forall2_app_inv_l in H. destruct H as (m1 & m2 & ? & ? & ?). eauto. Qed.

Lemma area_groups : forall W fs ts ws, (forall g, In g fs -> f_thick g = None /\ f_weight g = None) ->
  polys_as_tris W (map f_poly fs) None = Ok (ts, ws) -> groups_ok W (share W fs) fs ts ws /\ isclose1 (total ws) = true.
Proof.
  intros W fs ts ws A H. unfold polys_as_tris in H. rewrite tris_groups in H.
  destruct (area_weight _) as [aw|] eqn:AW; [|discriminate]. cbn [bind fst snd] in H. destruct (isclose1 _) eqn:I; [|discriminate]. injection H as <- <-. rewrite qsum_total in I. split; [|exact I]. clear I.
  destruct (area_weight_ok _ _ AW) as (F & NZ). split; [reflexivity|].
  set (T := total (map tarea (concat (map (fun f => w_tris W (f_poly f)) fs)))) in *.
  assert (TT : (T == total (map (planar W) fs))%Q).
  { unfold T. clear. induction fs as [|f fs IH]; simpl; [reflexivity|]. rewrite map_app, total_app, IH. reflexivity. }
  assert (G : forall l m, Forall2 (fun t x => (x == tarea t / T)%Q) (concat (map (fun f => w_tris W (f_poly f)) l)) m -> incl l fs ->
    exists gs, m = concat gs /\ Forall2 (fun f g => exists s, (w_tris W (f_poly f) <> [] -> share W fs f s /\ (total g == s)%Q) /\
      Forall2 (fun t x => (x == s * (tarea t / planar W f))%Q) (w_tris W (f_poly f)) g) l gs).
  { induction l as [|f l IH]; intros m FM IN.
    - inversion FM; subst. exists []. split; [reflexivity|constructor].
    - simpl in FM. apply f2_split in FM. destruct FM as (m1 & m2 & -> & F1 & F2).
      assert (IN2 : incl l fs) by (intros x Hx; apply IN; right; exact Hx).
      destruct (IH m2 F2 IN2) as (gs & -> & FG). exists (m1 :: gs). split; [reflexivity|]. constructor; [|exact FG].
      exists (planar W f / total (map (planar W) fs))%Q. split.
      + intros N. split; [apply by_area; auto|]. 
        assert (F1' : Forall2 (fun t x => (x == / T * tarea t)%Q) (w_tris W (f_poly f)) m1).
        { eapply Forall2_imp; [|exact F1]. intros t x _ Hx. rewrite Hx. unfold Qdiv. ring. }
        rewrite (total_f2 _ tarea _ _ _ F1'). fold (planar W f). rewrite TT. unfold Qdiv. ring.
      + destruct (Qeq_dec (planar W f) 0) as [Z0|NZ0].
        * eapply Forall2_imp; [|exact F1]. intros t x It Hx. cbv beta in Hx. rewrite Hx.
          assert (TA : (tarea t == 0)%Q).
          { pose proof (total_ge _ _ (tareas_nonneg (w_tris W (f_poly f))) (in_map tarea _ _ It)) as LE. fold (planar W f) in LE. pose proof (tarea_nonneg t). lra. }
          rewrite TA. unfold Qdiv. ring.
        * assert (TN : w_tris W (f_poly f) <> []) by (intros E; apply NZ0; unfold planar; rewrite E; reflexivity).
          assert (CN : concat (map (fun f => w_tris W (f_poly f)) fs) <> []).
          { intros E. assert (In f fs) by (apply IN; left; reflexivity). apply in_split in H. destruct H as (x & y & ->). rewrite map_app, concat_app in E. simpl in E. apply app_eq_nil in E. destruct E as (_ & E). apply app_eq_nil in E. destruct E. contradiction. }
          specialize (NZ CN). rewrite TT in NZ. eapply Forall2_imp; [|exact F1]. intros t x _ Hx. cbv beta in Hx. rewrite Hx, TT. field. split; auto. }
  apply G; [exact F|apply incl_refl].
Qed.

Lemma distribution_ok : forall W fs d, compute_distribution W fs = Ok d ->
  Forall2 (fun f x => (x == volume W f / total (map (volume W) fs))%Q /\ f_thick f <> None /\ w_area W (f_poly f) <> None) fs d /\
  (fs <> [] -> ~ (total (map (volume W) fs) == 0)%Q).
Proof.
  intros W fs d H. unfold compute_distribution in H. destruct (mapM _ fs) as [areas|] eqn:M; [|discriminate]. cbn [bind] in H.
  destruct (thicks_of fs) as [l|] eqn:TH; [|discriminate]. destruct (thicks_some _ _ TH) as (-> & _). clear TH.
  destruct (mapM _ (combine areas _)) as [vols|] eqn:MV; [|discriminate]. cbn [bind] in H.
  assert (G : Forall2 (fun f v => v = volume W f /\ f_thick f <> None /\ w_area W (f_poly f) <> None) fs vols).
  { clear H. revert areas vols M MV. induction fs as [|f fs IH]; intros areas vols M MV.
    - injection M as <-. simpl in MV. injection MV as <-. constructor.
    - simpl in M. destruct (w_area W (f_poly f)) as [a|] eqn:WA; [|discriminate]. cbn [bind] in M.
      destruct (mapM _ fs) as [areas'|] eqn:M'; [|discriminate]. injection M as <-. simpl in MV.
      destruct (f_thick f) as [t|] eqn:FT; [|discriminate]. cbn [bind] in MV.
      destruct (mapM _ (combine areas' _)) as [vols'|] eqn:MV'; [|discriminate]. injection MV as <-.
      constructor; [|eapply IH; eauto]. unfold volume. rewrite WA, FT. repeat split; congruence. }
  assert (TV : total vols = total (map (volume W) fs)).
  { clear -G. induction G; simpl; [reflexivity|]. destruct H as (-> & _). congruence. }
  rewrite qsum_total, TV in H. destruct vols as [|v0 vs].
  - injection H as <-. inversion G; subst. split; [constructor|congruence].
  - destruct (Qeq_bool _ 0) eqn:E; [discriminate|]. injection H as <-. apply Qeq_bool_neq in E. split; [|auto].
    set (T := total (map (volume W) fs)) in *. clearbody T. change (v0 / T :: map (fun v => v / T) vs)%Q with (map (fun v => v / T)%Q (v0 :: vs)).
    clear -G. induction G; simpl; constructor; auto. destruct H as (-> & ? & ?). repeat split; auto.
Qed.

(** Which polygon a triangle belongs to. *)
Lemma group_find : forall W (sh : feat P -> Q -> Prop) fs gs i t x,
  Forall2 (fun f g => exists s, (w_tris W (f_poly f) <> [] -> sh f s /\ (total g == s)%Q) /\
      Forall2 (fun t x => (x == s * (tarea t / planar W f))%Q) (w_tris W (f_poly f)) g) fs gs ->
  nth_error (concat (map (fun f => w_tris W (f_poly f)) fs)) i = Some t -> nth_error (concat gs) i = Some x ->
  exists f s, In f fs /\ In t (w_tris W (f_poly f)) /\ sh f s /\ (x == s * (tarea t / planar W f))%Q.
Proof.
  intros W sh fs gs i t x F. revert i. induction F as [|f g fs' gs' H F IH]; intros i HT HX; [destruct i; discriminate|].
  simpl in HT, HX. destruct H as (s & HS & FG). pose proof (f2_len _ _ _ _ _ FG) as LE.
  destruct (Nat.lt_ge_cases i (length (w_tris W (f_poly f)))) as [L|L].
  - rewrite nth_error_app1 in HT by lia. rewrite nth_error_app1 in HX by lia. exists f, s.
    assert (IT : In t (w_tris W (f_poly f))) by (eapply nth_error_In; eauto). repeat split; auto; [left; reflexivity|apply HS; intros E; rewrite E in IT; contradiction|].
    clear -FG HT HX. revert i HT HX. induction FG; intros [|i] HT HX; try discriminate; simpl in *; [congruence|eauto].
  - rewrite nth_error_app2 in HT by lia. rewrite nth_error_app2 in HX by lia. rewrite LE in HT. destruct (IH _ HT HX) as (f' & s' & ? & ? & ? & ?). exists f', s'. repeat split; auto. right; auto.
Qed.

Lemma prepared_groups : forall W r fs ts r' tris ws, poly_prepare W r fs ts = Ok (r', tris, ws) ->
  groups_ok W (share W fs) fs tris ws /\ isclose1 (total ws) = true.
Proof.
  intros W r fs ts r' tris ws H. unfold poly_prepare in H. destruct (prepare _ ts) as [r1|]; [|discriminate]. cbn [bind] in H.
  destruct (mapM _ fs); [|discriminate]. cbn [bind] in H.
  destruct (thicks_of fs) as [l|] eqn:TH.
  - destruct (compute_distribution W fs) as [d|] eqn:D; [|discriminate]. cbn [bind] in H.
    destruct (polys_as_tris W _ _) as [[ts' ws']|] eqn:PT; [|discriminate]. injection H as <- <- <-. cbn [fst snd].
    destruct (thicks_some _ _ TH) as (_ & ex). destruct (distribution_ok _ _ _ D) as (FD & NZ).
    apply (weighted_groups W (fun f s => exists s', share W fs f s' /\ (s == s')%Q)) in PT.
    + destruct PT as ((G1 & gs & G2 & G3) & I). split; [|exact I]. split; [exact G1|]. exists gs. split; [exact G2|].
      eapply Forall2_imp; [|exact G3]. cbv beta. intros f g _ (s & S1 & S2).
      destruct (w_tris W (f_poly f)) as [|t0 tl] eqn:ET.
      { exists 0%Q. split; [congruence|]. inversion S2; constructor. }
      destruct S1 as ((s' & S3 & S4) & S5); [discriminate|]. exists s'. split; [intros _; split; [exact S3|rewrite S5; exact S4]|].
      eapply Forall2_imp; [|exact S2]. cbv beta. intros t x _ E. rewrite E, S4. reflexivity.
    + assert (X : forall f, share W fs f (volume W f / total (map (volume W) fs))%Q) by (intros; apply by_volume; exact ex). clear -FD X.
      assert (G : forall (sh : feat P -> Q -> Prop) (v : feat P -> Q) l d, (forall f, sh f (v f)) -> Forall2 (fun f x => (x == v f)%Q /\ f_thick f <> None /\ w_area W (f_poly f) <> None) l d ->
        Forall2 (fun f o => forall w, o = Some w -> exists s', sh f s' /\ (w == s')%Q) l (map Some d)).
      { intros sh v l d0 V F. induction F; simpl; constructor; auto. intros w Hw. injection Hw as <-. exists (v x). split; [apply V|]. destruct H as (H & _). exact H. }
      apply (G (share W fs) (fun f => (volume W f / total (map (volume W) fs))%Q)); auto.
  - cbn [bind] in H. rewrite thicks_none in TH. destruct (polys_as_tris W _ _) as [[ts' ws']|] eqn:PT; [|discriminate]. injection H as <- <- <-. cbn [fst snd].
    destruct (weights_of fs) as [l|] eqn:WE.
    + rewrite (weights_some _ _ WE) in PT. apply (weighted_groups W (share W fs)) in PT; [exact PT|].
      assert (X : forall f w, f_weight f = Some w -> share W fs f w) by (intros; apply by_weight; auto). clear -X. revert X. generalize (share W fs). intros sh X. induction fs; simpl; constructor; auto.
    + rewrite weights_none in WE. apply area_groups in PT; [exact PT|]. auto.
Qed.

End geom.

(** ** Random points *)
Lemma random_in : forall t u v, (0 <= u < 1)%Q -> (0 <= v < 1)%Q -> in_tri t (random_pt t u v).
Proof.
  intros [[[x0 y0] [x1 y1]] [x2 y2]] u v U V. unfold random_pt, in_tri. destruct (Qle_bool 1 (u + v)) eqn:E.
  - apply Qle_bool_iff in E. exists (u + v - 1)%Q, (1 - u)%Q, (1 - v)%Q. cbn [fst snd]. repeat split; try lra; ring.
  - apply Qle_bool_false in E. exists (1 - u - v)%Q, u, v. cbn [fst snd]. repeat split; try lra; ring.
Qed.

Lemma two_by_two : forall a b c d u v, ~ (a * d - b * c == 0)%Q -> (u * a + v * b == 0)%Q -> (u * c + v * d == 0)%Q -> (u == 0)%Q /\ (v == 0)%Q.
Proof.
  intros a b c d u v D E1 E2. assert (U : (u * (a * d - b * c) == 0)%Q).
  { setoid_replace (u * (a * d - b * c))%Q with (d * (u * a + v * b) - b * (u * c + v * d))%Q by ring. rewrite E1, E2. ring. }
  assert (V : (v * (a * d - b * c) == 0)%Q).
  { setoid_replace (v * (a * d - b * c))%Q with (a * (u * c + v * d) - c * (u * a + v * b))%Q by ring. rewrite E1, E2. ring. }
  apply Qmult_integral in U. apply Qmult_integral in V. tauto.
Qed.

(** ** A release without duration, prepared *)
Lemma instant : forall r ts n, r_prep r = None -> r_line r = false -> end_time r = r_time r -> r_num r = Some n -> r_per r = None -> 0 < n -> ts <> 0 ->
  exists tb, prepare r ts = Ok (mkRel false (r_time r) (r_end r) (Some n) None (r_mass r) (r_start_pos r) (r_end_pos r) (r_prev r)
      (Some (mkPrep tb (r_mass r / inject_Z n)%Q []))) /\
    (forall t, r_time r <= t -> exists q, at_time tb t = Ok q /\ Qceil q = n).
Proof.
  intros r ts n HP HL HE HN HR N T. unfold prepare. rewrite HP. cbv zeta. rewrite HE, Z.eqb_refl, andb_false_r. unfold ratio. rewrite HN.
  unfold num_steps, duration. rewrite HE, Z.sub_diag. destruct (ts =? 0) eqn:T0; [apply Z.eqb_eq in T0; lia|]. cbn [bind]. unfold ceil_div.
  assert (Z0 : - ((- 0) / ts) = 0) by (rewrite Z.opp_0, Zdiv_0_l; reflexivity). rewrite Z0. change (0 =? 0) with true. cbv iota.
  assert (X : Qle_bool 1 (inject_Z n / inject_Z 1) = true). { apply Qle_bool_iff. setoid_replace (inject_Z n / inject_Z 1)%Q with (inject_Z n) by (unfold Qdiv; change (/ inject_Z 1)%Q with 1%Q; ring). change 1%Q with (inject_Z 1). rewrite <- Zle_Qle. lia. }
  rewrite X. cbn [negb bind]. rewrite HR. cbn [bind]. unfold table, duration. rewrite HE, Z.sub_diag. change (0 =? 0) with true. change (1 =? 1) with true. cbv iota.
  unfold mk_time. cbn [ascending]. assert (A : (r_time r <? r_time r + sec_us) = true) by (apply Z.ltb_lt; unfold sec_us; lia). rewrite A. cbn [andb bind map].
  unfold mk_series. cbn [length Nat.eqb]. cbn [bind]. unfold pos_table. rewrite HL. cbn [bind]. destruct (n =? 0) eqn:N0; [apply Z.eqb_eq in N0; lia|].
  eexists. split; [reflexivity|]. intros t HT. set (rt := r_time r) in *.
  assert (AT : exists q, at_time ([rt; rt + sec_us], [inject_Z n; inject_Z n]) t = Ok q /\ (q == inject_Z n)%Q).
  { unfold at_time. change (py_get [rt; rt + sec_us] (-1)) with (Ok (rt + sec_us)). change (py_get [rt; rt + sec_us] 0) with (Ok rt). cbn [bind].
    destruct (t <=? rt) eqn:L1; [exists (inject_Z n); split; reflexivity|]. destruct (rt + sec_us <? t) eqn:L2; [exists (inject_Z n); split; reflexivity|].
    cbn [index_of]. apply Z.leb_gt in L1. apply Z.ltb_ge in L2. assert (Y1 : (rt <? t) = true) by (apply Z.ltb_lt; lia). rewrite Y1.
    assert (Y : (rt + sec_us <? t) = false) by (apply Z.ltb_ge; lia). rewrite Y.
    change (py_get [rt; rt + sec_us] (Z.of_nat 1 - 1)) with (Ok rt). change (py_get [rt; rt + sec_us] (Z.of_nat 1)) with (Ok (rt + sec_us)).
    change (py_get [inject_Z n; inject_Z n] (Z.max (Z.of_nat 1 - 1) 0)) with (Ok (inject_Z n)). change (py_get [inject_Z n; inject_Z n] (Z.of_nat 1)) with (Ok (inject_Z n)). cbn [bind].
    eexists. split; [reflexivity|]. ring. }
  destruct AT as (q & -> & QE). exists q. split; [reflexivity|]. unfold Qceil. rewrite QE, <- inject_Z_opp, Qfloor_Z. lia.
Qed.

(** ** Rounding *)
Lemma np_round_nearest : forall q, nearest (np_round q) q.
Proof.
  intros q. unfold nearest, np_round. destruct (Qfloor_bounds q) as (A & B). set (f := Qfloor q) in *. clearbody f.
  unfold Qltb. destruct (Qle_bool (1 # 2) (q - inject_Z f)) eqn:E1; cbn [negb].
  - apply Qle_bool_iff in E1. destruct (Qle_bool (q - inject_Z f) (1 # 2)) eqn:E2; cbn [negb].
    + apply Qle_bool_iff in E2. destruct (Z.even f); [|rewrite inject_Z_plus; change (inject_Z 1) with 1%Q]; apply Qabs_Qle_condition; lra.
    + rewrite inject_Z_plus; change (inject_Z 1) with 1%Q. apply Qabs_Qle_condition; lra.
  - apply Qle_bool_false in E1. apply Qabs_Qle_condition; lra.
Qed.

Lemma round_sqrt_nearest : forall q, (0 <= q)%Q -> nearest_root (round_sqrt q) q.
Proof.
  intros q H. unfold round_sqrt, nearest_root. destruct (Qfloor_bounds q) as (A & B). 
  assert (F0 : 0 <= Qfloor q). { assert (X : (inject_Z (-1) < inject_Z (Qfloor q))%Q) by (change (inject_Z (-1)) with (- (1))%Q; lra). rewrite <- Zlt_Qlt in X. lia. }
  set (f := Qfloor q) in *. clearbody f. pose proof (Z.sqrt_spec f F0) as (S1 & S2). pose proof (Z.sqrt_nonneg f) as S0. set (n := Z.sqrt f) in *. clearbody n.
  assert (Q1 : (inject_Z (n * n) <= q)%Q) by (eapply Qle_trans; [|exact A]; rewrite <- Zle_Qle; lia).
  assert (Q2 : (q < inject_Z ((n + 1) * (n + 1)))%Q). { eapply Qlt_le_trans; [exact B|]. change 1%Q with (inject_Z 1). rewrite <- inject_Z_plus, <- Zle_Qle. lia. }
  cbv zeta. set (h := ((inject_Z n + (1 # 2)) * (inject_Z n + (1 # 2)))%Q).
  assert (HH : (4 * h == inject_Z ((2 * n + 1) * (2 * n + 1)))%Q). { unfold h. rewrite !inject_Z_mult, !inject_Z_plus, !inject_Z_mult. change (inject_Z 2) with 2%Q. change (inject_Z 1) with 1%Q. ring. }
  assert (LO : n = 0 \/ (inject_Z ((2 * n - 1) * (2 * n - 1)) <= 4 * q)%Q).
  { destruct (Z.eq_dec n 0) as [->|NZ]; [left; reflexivity|right]. assert (X : (inject_Z ((2 * n - 1) * (2 * n - 1)) <= inject_Z (4 * (n * n)))%Q) by (rewrite <- Zle_Qle; nia).
    rewrite (inject_Z_mult 4) in X. change (inject_Z 4) with 4%Q in X. lra. }
  assert (HI : (4 * q <= inject_Z ((2 * (n + 1) + 1) * (2 * (n + 1) + 1)))%Q).
  { assert (X : (inject_Z (4 * ((n + 1) * (n + 1))) <= inject_Z ((2 * (n + 1) + 1) * (2 * (n + 1) + 1)))%Q) by (rewrite <- Zle_Qle; nia). rewrite (inject_Z_mult 4) in X. change (inject_Z 4) with 4%Q in X. lra. }
  assert (E1 : ((2 * (n + 1) - 1) * (2 * (n + 1) - 1) = (2 * n + 1) * (2 * n + 1))%Z) by ring.
  unfold Qltb. destruct (Qle_bool h q) eqn:C1; cbn [negb].
  - apply Qle_bool_iff in C1. destruct (Qle_bool q h) eqn:C2; cbn [negb].
    + apply Qle_bool_iff in C2. destruct (Z.even n).
      * split; [lia|]. split; [exact LO|]. lra.
      * split; [lia|]. rewrite E1. split; [right|]; lra.
    + split; [lia|]. rewrite E1. split; [right|]; lra.
  - apply Qle_bool_false in C1. split; [lia|]. split; [exact LO|]. lra.
Qed.

(** ** Grid points *)
Lemma grid_nth : forall A B C (g : A -> B -> C) (xs : list A) (ys : list B) i j dx dy x y, (dx : nat) = i -> dy = j ->
  nth_error xs i = Some x -> nth_error ys j = Some y ->
  nth_error (concat (map (fun b => map (fun a => g a b) xs) ys)) (j * length xs + i) = Some (g x y).
Proof.
  intros A B C g xs ys i j dx dy x y _ _ HX. assert (LI : (i < length xs)%nat) by (apply nth_error_Some; congruence).
  revert ys. clear dx dy. induction j as [|j IH]; intros [|b ys] HY; try discriminate; simpl in HY |- *.
  - injection HY as ->. rewrite nth_error_app1 by (rewrite map_length; lia). apply (map_nth_error (fun a => g a y)). exact HX.
  - rewrite nth_error_app2 by (rewrite map_length; lia). rewrite map_length. replace (length xs + j * length xs + i - length xs)%nat with (j * length xs + i)%nat by lia. apply IH. exact HY.
Qed.
Lemma grid_len : forall A B C (g : A -> B -> C) (xs : list A) (ys : list B),
  length (concat (map (fun b => map (fun a => g a b) xs) ys)) = (length ys * length xs)%nat.
Proof. intros. induction ys as [|b ys IH]; simpl; [reflexivity|]. rewrite app_length, map_length, IH. reflexivity. Qed.

Lemma linspace_nth_error : forall a b n k, (k < n)%nat -> exists x, nth_error (linspace a b n) k = Some x /\
  (x == a + inject_Z (Z.of_nat k) * ((b - a) / inject_Z (Z.max 1 (Z.of_nat n - 1))))%Q.
Proof.
  intros a b n k K. exists (nth k (linspace a b n) 0%Q). split; [apply nth_error_nth'; rewrite linspace_length; exact K|].
  destruct n as [|[|n]]; [lia| |].
  - assert (k = 0)%nat by lia. subst. simpl. ring.
  - rewrite linspace_nth by lia. replace (Z.max 1 (Z.of_nat (S (S n)) - 1)) with (Z.of_nat (S (S n)) - 1) by lia. reflexivity.
Qed.
