From Coq Require Import ZArith List Bool String Lia.
From Verif Require Import Py PyLemmas StrModel PersModel MigModel MigSpec.
Import ListNotations.
Open Scope list_scope.
Open Scope Z_scope.

Lemma seqb_refl : forall a, seqb a a = true.
Proof. intro a. unfold seqb. destruct (str_eq_dec a a); [reflexivity | contradiction]. Qed.
Lemma seqb_true : forall a b, seqb a b = true <-> a = b.
Proof. intros a b. unfold seqb. destruct (str_eq_dec a b); split; intro H; try assumption; try reflexivity; try discriminate; contradiction. Qed.
Lemma seqb_false : forall a b, seqb a b = false <-> a <> b.
Proof. intros a b. unfold seqb. destruct (str_eq_dec a b); split; intro H; try assumption; try reflexivity; try discriminate; contradiction. Qed.
Lemma smem_in : forall x l, smem x l = true <-> In x l.
Proof.
  intros x l. unfold smem. rewrite existsb_exists. split.
  - intros (y & I & E). apply seqb_true in E. subst y. exact I.
  - intro I. exists x. split; [exact I | apply seqb_refl].
Qed.
Lemma smem_out : forall x l, smem x l = false <-> ~ In x l.
Proof. intros x l. rewrite <- smem_in. destruct (smem x l); split; intro H; try reflexivity; try discriminate; congruence. Qed.

(** ** Programs without choices *)

Definition pure (p : prog) (es : list effect) : Prop := forall d, p d = (es, None).
Lemma pure_emit : forall e, pure (emit e) [e].
Proof. intros e d. reflexivity. Qed.
Lemma pure_ret : pure ret [].
Proof. intro d. reflexivity. Qed.
Lemma pure_seq : forall p q a b, pure p a -> pure q b -> pure (seq p q) (a ++ b).
Proof. intros p q a b P Q d. unfold seq. rewrite P, Q. reflexivity. Qed.
Lemma pure_each : forall A (l : list A) p h, (forall a, pure (p a) (h a)) -> pure (each l p) (flat_map h l).
Proof. intros A l p h H. induction l as [| a t IH]; cbn [each flat_map]; [apply pure_ret | apply pure_seq; [apply H | exact IH]]. Qed.

Lemma read_all_map : forall fs, read_all (map (fun nf : str * file => (fst nf, Some (snd nf))) fs) = Some fs.
Proof. induction fs as [| [n f] t IH]; cbn [map read_all fst snd]; [reflexivity |]. rewrite IH. reflexivity. Qed.

Lemma apply_all_app : forall a b d, apply_all (a ++ b) d = apply_all b (apply_all a d).
Proof. intros. unfold apply_all. apply fold_left_app. Qed.

(** ** Every file somewhere on its way *)

Definition way := (str * file) -> file -> Prop.
Definition onway (W : way) (fs : list (str * file)) (l : list (str * option file)) : Prop :=
  Forall2 (fun nf s => fst s = fst nf /\ exists f, snd s = Some f /\ W nf f) fs l.
Definition wayed (W : way) (fs : list (str * file)) (e : effect) : Prop :=
  exists nf f, e = Write (fst nf) f /\ In nf fs /\ W nf f.

Lemma sset_onway : forall W fs l n f nf, NoDup (map fst fs) -> onway W fs l -> In nf fs -> n = fst nf -> W nf f -> onway W fs (sset n (Some f) l).
Proof.
  intros W fs l n f nf N O. revert N. induction O as [| x s fs l (E1 & f1 & E2 & W1) O IH]; intros N I E Wf; [destruct I |].
  inversion N as [| ? ? N1 N2]; subst. destruct s as (m, o). cbn [fst snd] in *. cbn [sset]. destruct (seqb (fst nf) m) eqn:Q.
  - apply seqb_true in Q. destruct I as [I | I].
    + subst x. constructor; [| exact O]. cbn [fst snd]. split; [exact E1 | exists f; split; [reflexivity | exact Wf]].
    + exfalso. apply N1. rewrite <- E1, <- Q. apply in_map. exact I.
  - apply seqb_false in Q. destruct I as [I | I]; [subst x; congruence |]. constructor; [| apply IH; auto].
    cbn [fst snd]. split; [exact E1 | exists f1; split; assumption].
Qed.

Lemma apply_onway : forall W fs es d, NoDup (map fst fs) -> Forall (wayed W fs) es -> onway W fs (d_files d) ->
  onway W fs (d_files (apply_all es d)) /\ d_version (apply_all es d) = d_version d.
Proof.
  intros W fs es. induction es as [| e t IH]; intros d N F O; cbn [apply_all fold_left]; [auto |].
  inversion F as [| ? ? (nf & f & E & I & Wf) F2]; subst. fold (apply_all t (apply d (Write (fst nf) f))).
  destruct (IH (apply d (Write (fst nf) f)) N F2) as (A & B).
  - cbn [apply d_files]. apply sset_onway with nf; auto.
  - split; [exact A | exact B].
Qed.

Lemma onway_start : forall (W : way) fs, (forall nf, In nf fs -> W nf (snd nf)) -> onway W fs (map (fun nf => (fst nf, Some (snd nf))) fs).
Proof.
  intros W fs H. induction fs as [| x t IH]; cbn [map]; constructor.
  - cbn [fst snd]. split; [reflexivity | exists (snd x); split; [reflexivity | apply H; left; reflexivity]].
  - apply IH. intros nf I. apply H. right. exact I.
Qed.

Lemma onway_files : forall W fs l, onway W fs l -> exists gs, l = map (fun nf => (fst nf, Some (snd nf))) gs /\
  map fst gs = map fst fs /\ Forall2 (fun nf g => W nf (snd g) /\ fst g = fst nf) fs gs.
Proof.
  intros W fs l O. induction O as [| x s fs l (E1 & f1 & E2 & W1) O (gs & A & B & C)].
  - exists []. repeat split; constructor.
  - exists ((fst s, f1) :: gs). destruct s as (m, o). cbn [fst snd map] in *. subst. split; [reflexivity | split; [congruence |]].
    constructor; [split; [exact W1 | reflexivity] | exact C].
Qed.

(** Writing to every file of a list. *)
Lemma sset_here : forall l1 l2 n (o : option file) o', ~ In n (map fst l1) -> sset n o' (l1 ++ (n, o) :: l2) = l1 ++ (n, o') :: l2.
Proof.
  intros l1 l2 n o o' N. induction l1 as [| [m x] t IH]; cbn [app sset].
  - rewrite seqb_refl. reflexivity.
  - destruct (seqb n m) eqn:Q; [apply seqb_true in Q; subst; exfalso; apply N; left; reflexivity |].
    rewrite IH; [reflexivity |]. intro I. apply N. right. exact I.
Qed.

Definition ctx (c : str * file -> file) (fs : list (str * file)) : list (str * option file) := map (fun nf => (fst nf, Some (c nf))) fs.

Lemma write_each : forall fs1 fs2 (b : str * file -> bool) c c' v, NoDup (map fst (fs1 ++ fs2)) ->
  let e nf := if b nf : bool then [Write (fst nf) (c' nf)] else [] in
  let c2 nf := if b nf : bool then c' nf else c nf in
  apply_all (flat_map e fs2) (Folder (ctx c2 fs1 ++ ctx c fs2) v) = Folder (ctx c2 (fs1 ++ fs2)) v.
Proof.
  intros fs1 fs2 b c c' v. revert fs1. induction fs2 as [| x t IH]; intros fs1 N e c2; cbn [flat_map].
  - cbn [apply_all fold_left ctx map]. rewrite !app_nil_r. reflexivity.
  - rewrite apply_all_app. cbn [ctx map]. fold (ctx c t).
    assert (NX : ~ In (fst x) (map fst fs1)).
    { rewrite map_app in N. cbn [map] in N. apply NoDup_remove_2 in N. intro I. apply N. apply in_or_app. left. exact I. }
    assert (S1 : apply_all (e x) (Folder (ctx c2 fs1 ++ (fst x, Some (c x)) :: ctx c t) v) = Folder (ctx c2 (fs1 ++ [x]) ++ ctx c t) v).
    { unfold ctx at 3. rewrite map_app. cbn [map]. rewrite <- app_assoc. cbn [app]. fold (ctx c2 fs1).
      unfold e, c2 at 3. destruct (b x); cbn [apply_all fold_left apply d_files d_version]; [| reflexivity].
      rewrite sset_here; [reflexivity |]. unfold ctx. rewrite map_map. cbn [fst]. exact NX. }
    rewrite S1. replace (fs1 ++ x :: t) with ((fs1 ++ [x]) ++ t) in N |- * by (rewrite <- app_assoc; reflexivity). apply (IH (fs1 ++ [x]) N).
Qed.

(** ** Renaming *)

Definition matches (r : rule) (e : str * list (str * str)) : Prop := fst r = fst e /\ forall t, snd r t = replaced (snd e) t.

Lemma rules23_matches : Forall2 matches rules23 table23.
Proof. repeat constructor. Qed.
Lemma rules45_matches : Forall2 matches rules45 table45.
Proof. repeat constructor. Qed.

Definition named_by (before : str -> str) (nf : str * file) : file := match f_type (snd nf) with Some t => set_type (before t) (snd nf) | None => snd nf end.

Definition effs (before : str -> str) (r : rule) (nf : str * file) : list effect :=
  match f_type (snd nf) with
  | Some t => if str_in (fst r) t then [Write (fst nf) (set_type (snd r (before t)) (snd nf))] else []
  | None => []
  end.
Lemma pass_pure : forall before r fs, pure (pass before r fs) (flat_map (effs before r) fs).
Proof.
  intros before r fs. apply pure_each. intro nf. unfold effs. destruct (f_type (snd nf)) as [t |]; [| apply pure_ret].
  destruct (str_in (fst r) t); [apply pure_emit | apply pure_ret].
Qed.
Fixpoint all_effs (before : str -> str) (rs : list rule) (fs : list (str * file)) : list effect :=
  match rs with [] => [] | r :: t => flat_map (effs before r) fs ++ all_effs (after_rule before r) t fs end.
Lemma passes_pure : forall rs before fs, pure (passes before rs fs) (all_effs before rs fs).
Proof.
  induction rs as [| r t IH]; intros before fs; cbn [passes all_effs]; [apply pure_ret | apply pure_seq; [apply pass_pure | apply IH]].
Qed.

Lemma pass_apply : forall before r fs v, NoDup (map fst fs) ->
  apply_all (flat_map (effs before r) fs) (Folder (ctx (named_by before) fs) v) = Folder (ctx (named_by (after_rule before r)) fs) v.
Proof.
  intros before r fs v N.
  set (b := fun nf : str * file => match f_type (snd nf) with Some t => str_in (fst r) t | None => false end).
  set (c' := fun nf : str * file => match f_type (snd nf) with Some t => set_type (snd r (before t)) (snd nf) | None => snd nf end).
  pose proof (write_each [] fs b (named_by before) c' v N) as H. cbn [app ctx map] in H. cbv zeta in H.
  assert (E : flat_map (effs before r) fs = flat_map (fun nf => if b nf then [Write (fst nf) (c' nf)] else []) fs).
  { apply flat_map_ext. intro nf. unfold effs, b, c'. destruct (f_type (snd nf)); reflexivity. }
  fold (ctx (named_by before) fs) in H. rewrite E, H. f_equal. unfold ctx. apply map_ext. intro nf. f_equal. f_equal.
  unfold b, c', named_by, after_rule. destruct (f_type (snd nf)) as [t |]; [| reflexivity]. destruct (str_in (fst r) t); reflexivity.
Qed.

Fixpoint last_before (before : str -> str) (rs : list rule) : str -> str :=
  match rs with [] => before | r :: t => last_before (after_rule before r) t end.
Lemma passes_apply : forall rs before fs v, NoDup (map fst fs) ->
  apply_all (all_effs before rs fs) (Folder (ctx (named_by before) fs) v) = Folder (ctx (named_by (last_before before rs)) fs) v.
Proof.
  induction rs as [| r t IH]; intros before fs v N; cbn [all_effs last_before]; [reflexivity |].
  rewrite apply_all_app, pass_apply; [apply IH; exact N | exact N].
Qed.

Lemma last_new : forall rs tb, Forall2 matches rs tb -> forall before t, last_before before rs t = new_from t (before t) tb.
Proof.
  intros rs tb F. induction F as [| r (p, reps) rs tb (M1 & M2) F IH]; intros before t; cbn [last_before new_from]; [reflexivity |].
  rewrite IH. unfold after_rule. cbn [fst snd] in *. rewrite M1, M2. reflexivity.
Qed.

Lemma named_id : forall nf, named_by (fun t => t) nf = snd nf.
Proof. intros (n, f). unfold named_by. cbn [snd]. destruct f as [[t |] ? ? ? ? ? ? ?]; reflexivity. Qed.
Lemma ctx_id : forall fs, ctx (named_by (fun t => t)) fs = map (fun nf => (fst nf, Some (snd nf))) fs.
Proof. intro fs. unfold ctx. apply map_ext. intro nf. rewrite named_id. reflexivity. Qed.

Lemma named_renamed : forall rs tb fs, Forall2 matches rs tb ->
  ctx (named_by (last_before (fun t => t) rs)) fs = map (fun nf => (fst nf, Some (snd nf))) (renamed tb fs).
Proof.
  intros rs tb fs F. unfold ctx, renamed. rewrite map_map. apply map_ext. intros (n, f). cbn [fst snd]. f_equal. f_equal.
  unfold named_by. cbn [snd]. destruct (f_type f) as [t |] eqn:E; cbn [option_map].
  - rewrite (last_new rs tb F). reflexivity.
  - unfold retyped. rewrite <- E. destruct f; reflexivity.
Qed.

Lemma rename_ok : forall rs tb v d fs, Forall2 matches rs tb -> holds d fs ->
  rename rs v d = (all_effs (fun t => t) rs fs ++ [Version v], None) /\
  apply_all (all_effs (fun t => t) rs fs ++ [Version v]) d = Folder (map (fun nf => (fst nf, Some (snd nf))) (renamed tb fs)) (Number v).
Proof.
  intros rs tb v d fs F (H & N). split.
  - unfold rename, reading, look. rewrite H, read_all_map. exact (pure_seq _ _ _ _ (passes_pure rs _ fs) (pure_emit _) d).
  - rewrite apply_all_app. destruct d as (l, ver). cbn [d_files] in H. subst l. rewrite <- ctx_id.
    rewrite passes_apply; [| exact N]. cbn [apply_all fold_left apply d_files]. f_equal. apply named_renamed. exact F.
Qed.

(** The way of a file while it is renamed. *)
Definition rway (tb : table) : way := fun nf f => f = snd nf \/ exists t a, f_type (snd nf) = Some t /\ In a (stages t t tb) /\ f = set_type a (snd nf).

Lemma effs_way : forall rs tb0 tb1 before fs, Forall2 matches rs tb1 ->
  (forall t a, In a (stages t (before t) tb1) -> In a (stages t t tb0)) ->
  Forall (wayed (rway tb0) fs) (all_effs before rs fs).
Proof.
  intros rs tb0 tb1 before fs F. revert before. induction F as [| r (p, reps) rs tb1 (M1 & M2) F IH]; intros before H; cbn [all_effs]; [constructor |].
  cbn [fst snd] in *. apply Forall_app. split.
  - apply Forall_forall. intros e I. apply in_flat_map in I. destruct I as (nf & I & E). unfold effs in E.
    destruct (f_type (snd nf)) as [t |] eqn:T; [| destruct E]. destruct (str_in (fst r) t) eqn:P; [| destruct E].
    destruct E as [E | []]. subst e. exists nf, (set_type (snd r (before t)) (snd nf)). split; [reflexivity | split; [exact I |]].
    right. exists t, (snd r (before t)). split; [exact T | split; [| reflexivity]]. apply H. cbn [stages]. right. rewrite <- M1, P, <- M2.
    destruct tb1 as [| (q, w) tb1]; cbn [stages]; left; reflexivity.
  - apply IH. intros t a I. apply H. cbn [stages]. right. unfold after_rule in I. cbn [fst snd] in I. rewrite M1, M2 in I. exact I.
Qed.

Lemma renamed_way : forall tb fs gs, Forall (fun nf => match f_type (snd nf) with Some t => settled tb t | None => True end) fs ->
  Forall2 (fun nf g => rway tb nf (snd g) /\ fst g = fst nf) fs gs -> renamed tb gs = renamed tb fs.
Proof.
  intros tb fs gs F O. induction O as [| nf g fs gs (Wg & E) O IH]; [reflexivity |]. inversion F as [| ? ? F1 F2]; subst.
  unfold renamed. cbn [map]. f_equal; [| exact (IH F2)]. rewrite E. f_equal.
  destruct Wg as [Q | (t & a & T & I & Q)]; rewrite Q; [reflexivity |]. rewrite T in F1 |- *. cbn [f_type set_type option_map].
  rewrite (F1 a I). unfold retyped, set_type. reflexivity.
Qed.

Lemma rename_redo : forall rs tb v d fs k, Forall2 matches rs tb -> holds d fs ->
  Forall (fun nf => match f_type (snd nf) with Some t => settled tb t | None => True end) fs ->
  (k <= List.length (all_effs (fun t => t) rs fs))%nat ->
  let s := interrupted (rename rs v) d k in
  d_version s = d_version d /\ exists gs, holds s gs /\ renamed tb gs = renamed tb fs.
Proof.
  intros rs tb v d fs k F H ST K s. destruct (rename_ok rs tb v d fs F H) as (E & _).
  assert (Q : s = apply_all (firstn k (all_effs (fun t => t) rs fs)) d).
  { unfold s, interrupted. rewrite E. cbn [fst]. rewrite firstn_app. replace (k - List.length (all_effs (fun t => t) rs fs))%nat with 0%nat by lia.
    cbn [firstn]. rewrite app_nil_r. reflexivity. }
  destruct H as (H & N).
  assert (WA : Forall (wayed (rway tb) fs) (firstn k (all_effs (fun t => t) rs fs))).
  { assert (A : Forall (wayed (rway tb) fs) (all_effs (fun t => t) rs fs)) by (apply effs_way with tb; auto).
    rewrite <- (firstn_skipn k (all_effs (fun t => t) rs fs)) in A. apply Forall_app in A. exact (proj1 A). }
  assert (O0 : onway (rway tb) fs (d_files d)) by (rewrite H; apply onway_start; intros nf _; left; reflexivity).
  destruct (apply_onway (rway tb) fs _ d N WA O0) as (O1 & V1). rewrite <- Q in O1, V1. split; [exact V1 |].
  destruct (onway_files _ _ _ O1) as (gs & A & B & C). exists gs. split; [split; [exact A | rewrite B; exact N] |].
  apply renamed_way; assumption.
Qed.

(** ** WeatheringData *)

Lemma remove_first_here : forall p x q, ~ In x p -> remove_first x (p ++ x :: q) = p ++ q.
Proof.
  intros p x q N. induction p as [| y t IH]; cbn [app remove_first]; [rewrite seqb_refl; reflexivity |].
  destruct (seqb x y) eqn:Q; [apply seqb_true in Q; subst; exfalso; apply N; left; reflexivity |].
  rewrite IH; [reflexivity |]. intro I. apply N. right. exact I.
Qed.

Lemma spaced_tail : forall gone x t, spaced gone (x :: t) -> spaced gone t.
Proof. intros gone x t SP a u v b E. apply (SP (x :: a) u v b). rewrite E. reflexivity. Qed.

Lemma prune_from : forall gone n fuel p q, (List.length q <= n)%nat -> (List.length q <= fuel)%nat ->
  (forall x, In x p -> ~ In x gone) -> spaced gone q ->
  prune fuel (List.length p) gone (p ++ q) = p ++ filter (fun x => negb (smem x gone)) q.
Proof.
  intros gone n. induction n as [| n IH]; intros fuel p q L1 L2 C SP.
  - destruct q; [| simpl in L1; lia]. rewrite !app_nil_r. destruct fuel; cbn [prune]; [reflexivity |].
    rewrite (proj2 (nth_error_None p (List.length p))); [reflexivity | lia].
  - destruct q as [| x t].
    + rewrite !app_nil_r. destruct fuel; cbn [prune]; [reflexivity |].
      rewrite (proj2 (nth_error_None p (List.length p))); [reflexivity | lia].
    + destruct fuel as [| fuel]; [simpl in L2; lia |]. cbn [prune]. rewrite nth_error_app2 by lia. rewrite Nat.sub_diag. cbn [nth_error].
      cbn [filter]. simpl in L1, L2. destruct (smem x gone) eqn:M; cbn [negb].
      * apply smem_in in M. rewrite remove_first_here; [| intro I; exact (C x I M)].
        destruct t as [| y t].
        -- rewrite !app_nil_r. destruct fuel; cbn [prune]; [reflexivity |].
           rewrite (proj2 (nth_error_None p (S (List.length p)))); [reflexivity | lia].
        -- assert (NY : ~ In y gone) by (intro Y; exact (SP [] x y t eq_refl M Y)).
           cbn [filter]. rewrite (proj2 (smem_out y gone) NY). cbn [negb].
           replace (S (List.length p)) with (List.length (p ++ [y])) by (rewrite app_length; simpl; lia).
           replace (p ++ y :: t) with ((p ++ [y]) ++ t) by (rewrite <- app_assoc; reflexivity).
           rewrite IH.
           ++ rewrite <- app_assoc. reflexivity.
           ++ simpl in L1. lia.
           ++ simpl in L2. lia.
           ++ intros z Z0. apply in_app_or in Z0. destruct Z0 as [Z0 | [Z0 | []]]; [exact (C z Z0) | subst z; exact NY].
           ++ exact (spaced_tail _ _ _ (spaced_tail _ _ _ SP)).
      * apply smem_out in M.
        replace (S (List.length p)) with (List.length (p ++ [x])) by (rewrite app_length; simpl; lia).
        replace (p ++ x :: t) with ((p ++ [x]) ++ t) by (rewrite <- app_assoc; reflexivity).
        rewrite IH.
        -- rewrite <- app_assoc. reflexivity.
        -- lia.
        -- lia.
        -- intros z Z0. apply in_app_or in Z0. destruct Z0 as [Z0 | [Z0 | []]]; [exact (C z Z0) | subst z; exact M].
        -- exact (spaced_tail _ _ _ SP).
Qed.

Lemma prune_filter : forall gone l, spaced gone l -> prune (List.length l) 0 gone l = filter (fun x => negb (smem x gone)) l.
Proof. intros gone l SP. apply (prune_from gone (List.length l) (List.length l) [] l); auto. Qed.

Definition wgood (gone : list str) (f : file) : Prop := forall l, f_weath f = Some l -> spaced gone l.
Lemma pruned_unnamed : forall gone f, wgood gone f -> pruned gone f = unnamed gone f.
Proof.
  intros gone f G. unfold pruned, unnamed. f_equal. destruct (f_weath f) as [l |] eqn:E; cbn [option_map]; [| reflexivity].
  f_equal. apply prune_filter. apply G. exact E.
Qed.

Lemma gone_eq : forall fs, map fst (filter (fun nf : str * file => is_type weathering_data (snd nf)) fs) = gone_names fs.
Proof. intro fs. reflexivity. Qed.

Definition wd_effs (fs : list (str * file)) : list effect :=
  map (fun nf => Write (fst nf) (pruned (gone_names fs) (snd nf))) fs ++ map Delete (gone_names fs).

Lemma v3tov4_effs : forall d fs, holds d fs -> v3tov4 d = (wd_effs fs, None).
Proof.
  intros d fs (H & N). unfold v3tov4, reading, look. rewrite H, read_all_map. cbv zeta. rewrite gone_eq. unfold wd_effs.
  rewrite (pure_seq _ _ _ _ (pure_each _ fs _ (fun nf => [Write (fst nf) (pruned (gone_names fs) (snd nf))]) (fun nf => pure_emit _))
                            (pure_each _ (gone_names fs) _ (fun n => [Delete n]) (fun n => pure_emit _)) d).
  assert (FM : forall A (g : A -> effect) l, flat_map (fun a => [g a]) l = map g l).
  { intros A g l. induction l; cbn [flat_map map app]; [reflexivity | f_equal; assumption]. }
  rewrite !FM. reflexivity.
Qed.


(** After the writes, and some of the deletions. *)
Lemma delete_ctx : forall c fs n v, apply (Folder (ctx c fs) v) (Delete n) = Folder (ctx c (filter (fun nf => negb (seqb n (fst nf))) fs)) v.
Proof.
  intros c fs n v. cbn [apply d_files d_version]. f_equal. unfold ctx. induction fs as [| x t IH]; cbn [map filter fst]; [reflexivity |].
  destruct (seqb n (fst x)); cbn [negb map]; rewrite IH; reflexivity.
Qed.
Lemma deletes_ctx : forall c ns fs v, apply_all (map Delete ns) (Folder (ctx c fs) v) =
  Folder (ctx c (filter (fun nf => negb (smem (fst nf) ns)) fs)) v.
Proof.
  intros c ns. induction ns as [| n t IH]; intros fs v; cbn [map apply_all fold_left].
  - cbn [smem existsb negb]. f_equal. f_equal. induction fs as [| x fs IHf]; cbn [filter]; [reflexivity | f_equal; exact IHf].
  - fold (apply_all (map Delete t) (apply (Folder (ctx c fs) v) (Delete n))). rewrite delete_ctx, IH. f_equal. f_equal.
    induction fs as [| x fs IHf]; cbn [filter]; [reflexivity |]. unfold smem at 2. cbn [existsb]. fold (smem (fst x) t).
    assert (SY : seqb (fst x) n = seqb n (fst x)).
    { destruct (seqb n (fst x)) eqn:Q; [apply seqb_true in Q; apply seqb_true; symmetry; exact Q | apply seqb_false in Q; apply seqb_false; congruence]. }
    rewrite SY. destruct (seqb n (fst x)); cbn [negb orb filter]; [exact IHf |].
    destruct (smem (fst x) t); cbn [negb]; [exact IHf | f_equal; exact IHf].
Qed.

Lemma gone_in : forall fs nf, NoDup (map fst fs) -> In nf fs -> smem (fst nf) (gone_names fs) = is_weathering (snd nf).
Proof.
  intros fs nf N I. destruct (is_weathering (snd nf)) eqn:W.
  - apply smem_in. unfold gone_names. apply in_map. apply filter_In. auto.
  - apply smem_out. intro G. unfold gone_names in G. apply in_map_iff in G. destruct G as (mg & E & G). apply filter_In in G. destruct G as (G & WG).
    assert (mg = nf).
    { clear - N I G E. induction fs as [| x t IH]; [destruct I |]. inversion N as [| ? ? N1 N2]; subst.
      destruct I as [I | I], G as [G | G]; subst; auto.
      - exfalso. apply N1. rewrite <- E. apply in_map. exact G.
      - exfalso. apply N1. rewrite E. apply in_map. exact I. }
    subst mg. congruence.
Qed.

Lemma filter_ext_in2 : forall A (f g : A -> bool) l, (forall a, In a l -> f a = g a) -> filter f l = filter g l.
Proof. intros A f g l H. induction l as [| a t IH]; cbn [filter]; [reflexivity |]. rewrite (H a (or_introl eq_refl)), IH; [reflexivity |]. intros b I. apply H. right. exact I. Qed.

Lemma writes_apply : forall c fs v, NoDup (map fst fs) ->
  apply_all (map (fun nf => Write (fst nf) (c nf)) fs) (Folder (map (fun nf => (fst nf, Some (snd nf))) fs) v) = Folder (ctx c fs) v.
Proof.
  intros c fs v N. pose proof (write_each [] fs (fun _ => true) snd c v N) as H. cbn [app ctx map] in H.
  assert (FM : forall l, flat_map (fun nf : str * file => [Write (fst nf) (c nf)]) l = map (fun nf => Write (fst nf) (c nf)) l).
  { intro l. induction l; cbn [flat_map map app]; [reflexivity | f_equal; assumption]. }
  cbv zeta in H. rewrite FM in H. exact H.
Qed.

Lemma v3tov4_apply : forall fs v, NoDup (map fst fs) -> all_spaced fs ->
  apply_all (wd_effs fs) (Folder (map (fun nf => (fst nf, Some (snd nf))) fs) v) =
  Folder (map (fun nf => (fst nf, Some (snd nf))) (without fs)) v.
Proof.
  intros fs v N SP. unfold wd_effs. rewrite apply_all_app, writes_apply, deletes_ctx; [| exact N]. f_equal.
  unfold without. rewrite map_map. cbn [fst snd]. unfold ctx.
  rewrite (filter_ext_in2 _ (fun nf => negb (smem (fst nf) (gone_names fs))) (fun nf => negb (is_weathering (snd nf)))).
  - apply map_ext_in. intros (n, f) I. cbn [fst snd]. f_equal. f_equal. apply pruned_unnamed. intros l E.
    apply filter_In in I. exact (SP n f l (proj1 I) E).
  - intros nf I. f_equal. apply gone_in; assumption.
Qed.

(** An interruption of v3tov4: while writing, every file is as it was or without the names; while deleting, all are. *)
Definition wway (gone : list str) : way := fun nf f => f = snd nf \/ f = unnamed gone (snd nf).

Lemma filter_twice : forall A (p : A -> bool) l, filter p (filter p l) = filter p l.
Proof.
  intros A p l. induction l as [| a t IH]; cbn [filter]; [reflexivity |]. destruct (p a) eqn:E; cbn [filter]; [rewrite E, IH; reflexivity | exact IH].
Qed.
Lemma filter_clean : forall gone gone' (l : list str), incl gone' gone ->
  filter (fun x => negb (smem x gone')) (filter (fun x => negb (smem x gone)) l) = filter (fun x => negb (smem x gone)) l.
Proof.
  intros gone gone' l I. induction l as [| a t IH]; cbn [filter]; [reflexivity |]. destruct (smem a gone) eqn:E; cbn [negb filter]; [exact IH |].
  assert (Q : smem a gone' = false) by (apply smem_out; apply smem_out in E; intro H; apply E, I, H).
  rewrite Q. cbn [negb]. rewrite IH. reflexivity.
Qed.

Lemma unnamed_unnamed : forall gone gone' f, incl gone' gone -> unnamed gone' (unnamed gone f) = unnamed gone f.
Proof.
  intros gone gone' f I. unfold unnamed. cbn. f_equal. destruct (f_weath f) as [l |]; cbn [option_map]; [| reflexivity]. f_equal. apply filter_clean. exact I.
Qed.

Lemma way_type : forall gone nf f, wway gone nf f -> is_weathering f = is_weathering (snd nf).
Proof. intros gone nf f [E | E]; rewrite E; reflexivity. Qed.

Lemma way_gone : forall gone fs gs, Forall2 (fun nf g => wway gone nf (snd g) /\ fst g = fst nf) fs gs -> gone_names gs = gone_names fs.
Proof.
  intros gone fs gs O. unfold gone_names. induction O as [| nf g fs gs (Wg & E) O IH]; [reflexivity |].
  cbn [filter]. rewrite (way_type _ _ _ Wg). destruct (is_weathering (snd nf)); cbn [map]; [rewrite E, IH; reflexivity | exact IH].
Qed.

Lemma clean_spaced : forall gone (l : list str), spaced gone (filter (fun x => negb (smem x gone)) l).
Proof.
  intros gone l a x y b E I _. assert (H : In x (filter (fun x => negb (smem x gone)) l)) by (rewrite E; apply in_or_app; right; left; reflexivity).
  apply filter_In in H. destruct H as (_ & H). apply smem_in in I. rewrite I in H. discriminate H.
Qed.

Lemma way_without : forall gone fs gs, gone = gone_names fs -> Forall2 (fun nf g => wway gone nf (snd g) /\ fst g = fst nf) fs gs -> without gs = without fs.
Proof.
  intros gone fs gs E O. unfold without. rewrite (way_gone _ _ _ O), <- E. clear E.
  induction O as [| nf g fs gs (Wg & E) O IH]; [reflexivity |]. cbn [filter]. rewrite (way_type _ _ _ Wg).
  destruct (is_weathering (snd nf)); cbn [negb map]; [exact IH |]. rewrite E, IH. f_equal. f_equal.
  destruct Wg as [Q | Q]; rewrite Q; [reflexivity | apply unnamed_unnamed; apply incl_refl].
Qed.

Lemma way_spaced : forall gone fs gs, gone = gone_names fs -> Forall2 (fun nf g => wway gone nf (snd g) /\ fst g = fst nf) fs gs -> all_spaced fs -> all_spaced gs.
Proof.
  intros gone fs gs E O SP n f l I W. rewrite (way_gone _ _ _ O), <- E.
  assert (K : exists nf, In nf fs /\ wway gone nf f).
  { clear - O I. induction O as [| nf g fs gs (Wg & Q) O IH]; [destruct I |]. destruct I as [I | I].
    - subst g. exists nf. split; [left; reflexivity | exact Wg].
    - destruct (IH I) as (x & X & Y). exists x. split; [right; exact X | exact Y]. }
  destruct K as ((m, g) & J & [Q | Q]); cbn [snd] in Q; subst f.
  - rewrite E. exact (SP m g l J W).
  - unfold unnamed in W. cbn [f_weath] in W. destruct (f_weath g) as [l0 |]; [| discriminate W]. injection W as W. subst l. apply clean_spaced.
Qed.

Lemma without_part : forall fs (keep : str * file -> bool), NoDup (map fst fs) ->
  (forall nf, In nf fs -> is_weathering (snd nf) = false -> keep nf = true) ->
  let gs := map (fun nf => (fst nf, unnamed (gone_names fs) (snd nf))) (filter keep fs) in
  without gs = without fs /\ all_spaced gs.
Proof.
  intros fs keep N H gs.
  assert (GI : incl (gone_names gs) (gone_names fs)).
  { intros x X. unfold gone_names, gs in X. apply in_map_iff in X. destruct X as ((n, f) & E & X). cbn [fst] in E. subst n.
    apply filter_In in X. destruct X as (X & W). apply in_map_iff in X. destruct X as (nf & E & X). injection E as E1 E2. subst.
    apply filter_In in X. unfold gone_names. apply in_map. apply filter_In. split; [exact (proj1 X) | exact W]. }
  split.
  - assert (K : forall gone gone' xs, incl gone' gone -> (forall nf, In nf xs -> is_weathering (snd nf) = false -> keep nf = true) ->
      map (fun nf => (fst nf, unnamed gone' (snd nf)))
        (filter (fun nf => negb (is_weathering (snd nf))) (map (fun nf => (fst nf, unnamed gone (snd nf))) (filter keep xs))) =
      map (fun nf => (fst nf, unnamed gone (snd nf))) (filter (fun nf => negb (is_weathering (snd nf))) xs)).
    { intros gone gone' xs GI2 H2. induction xs as [| x t IH]; [reflexivity |]. cbn [filter].
      assert (HT : forall nf, In nf t -> is_weathering (snd nf) = false -> keep nf = true) by (intros; apply H2; [right; assumption | assumption]).
      specialize (IH HT). destruct (is_weathering (snd x)) eqn:W; cbn [negb].
      + destruct (keep x); cbn [map filter snd]; [| exact IH]. change (is_weathering (unnamed gone (snd x))) with (is_weathering (snd x)). rewrite W. exact IH.
      + rewrite (H2 x (or_introl eq_refl) W). cbn [map filter snd fst]. change (is_weathering (unnamed gone (snd x))) with (is_weathering (snd x)). rewrite W.
        cbn [negb map fst snd]. rewrite IH. f_equal. f_equal. apply unnamed_unnamed. exact GI2. }
    exact (K (gone_names fs) (gone_names gs) fs GI H).
  - intros n f l I W. unfold gs in I. apply in_map_iff in I. destruct I as (nf & E & I). injection E as E1 E2. subst.
    unfold unnamed in W. cbn [f_weath] in W. destruct (f_weath (snd nf)) as [l0 |]; [| discriminate W]. injection W as W. subst l.
    intros a x y b E X _. assert (IX : In x (filter (fun x => negb (smem x (gone_names fs))) l0)) by (rewrite E; apply in_or_app; right; left; reflexivity).
    apply filter_In in IX. destruct IX as (_ & IX). apply GI in X. apply smem_in in X. rewrite X in IX. discriminate IX.
Qed.

Lemma smem_firstn : forall k x l, smem x (firstn k l) = true -> smem x l = true.
Proof.
  intros k x l H. apply smem_in in H. apply smem_in. rewrite <- (firstn_skipn k l). apply in_or_app. left. exact H.
Qed.

Lemma v3tov4_redo : forall d fs k, holds d fs -> all_spaced fs ->
  let s := interrupted v3tov4 d k in
  d_version s = d_version d /\ exists gs, holds s gs /\ all_spaced gs /\ without gs = without fs.
Proof.
  intros d fs k HD SP s. pose proof (v3tov4_effs d fs HD) as E. destruct HD as (H & N).
  unfold s, interrupted. rewrite E. cbn [fst]. unfold wd_effs. rewrite firstn_app, apply_all_app, map_length.
  destruct (le_lt_dec (List.length fs) k) as [L | L].
  - rewrite (firstn_all2 (map (fun nf : str * file => Write (fst nf) (pruned (gone_names fs) (snd nf))) fs)) by (rewrite map_length; exact L). rewrite firstn_map. destruct d as (l, ver). cbn [d_files] in H. subst l.
    rewrite writes_apply, deletes_ctx; [| exact N]. cbn [d_version d_files]. split; [reflexivity |].
    set (keep := fun nf : str * file => negb (smem (fst nf) (firstn (k - List.length fs) (gone_names fs)))).
    assert (HK : forall nf, In nf fs -> is_weathering (snd nf) = false -> keep nf = true).
    { intros nf I W. unfold keep. destruct (smem (fst nf) (firstn (k - List.length fs) (gone_names fs))) eqn:Q; [| reflexivity].
      apply smem_firstn in Q. rewrite gone_in in Q; [congruence | exact N | exact I]. }
    destruct (without_part fs keep N HK) as (A & B).
    exists (map (fun nf => (fst nf, unnamed (gone_names fs) (snd nf))) (filter keep fs)). split; [| split; [exact B | exact A]]. split.
    + cbn [d_files]. unfold ctx. rewrite map_map. cbn [fst snd]. apply map_ext_in. intros (n, f) I. cbn [fst snd]. f_equal. f_equal.
      apply pruned_unnamed. intros l0 W. apply filter_In in I. exact (SP n f l0 (proj1 I) W).
    + rewrite map_map. cbn [fst]. clearbody keep. clear - N. induction fs as [| x t IH]; cbn [filter map]; [constructor |].
      inversion N as [| ? ? N1 N2]; subst. destruct (keep x); cbn [map]; [| exact (IH N2)]. constructor; [| exact (IH N2)].
      intro I. apply N1. apply in_map_iff in I. destruct I as (y & Y1 & Y2). rewrite <- Y1. apply in_map. apply filter_In in Y2. exact (proj1 Y2).
  - replace (k - List.length fs)%nat with 0%nat by lia. cbn [firstn apply_all fold_left].
    set (gone := gone_names fs).
    assert (WA : Forall (wayed (wway gone) fs) (firstn k (map (fun nf => Write (fst nf) (pruned gone (snd nf))) fs))).
    { apply Forall_forall. intros e I. assert (J : In e (map (fun nf => Write (fst nf) (pruned gone (snd nf))) fs)).
      { rewrite <- (firstn_skipn k (map (fun nf => Write (fst nf) (pruned gone (snd nf))) fs)). apply in_or_app. left. exact I. }
      apply in_map_iff in J. destruct J as ((n, f) & Q & J). subst e. exists (n, f), (pruned gone f). split; [reflexivity | split; [exact J |]].
      right. cbn [snd]. apply pruned_unnamed. intros l W. exact (SP n f l J W). }
    assert (O0 : onway (wway gone) fs (d_files d)) by (rewrite H; apply onway_start; intros nf _; left; reflexivity).
    destruct (apply_onway (wway gone) fs _ d N WA O0) as (O1 & V1). split; [exact V1 |].
    destruct (onway_files _ _ _ O1) as (gs & A & B & C). exists gs. split; [split; [exact A | rewrite B; exact N] |].
    split; [exact (way_spaced gone fs gs eq_refl C SP) | exact (way_without gone fs gs eq_refl C)].
Qed.

(** ** The whole update *)

Lemma renamed_nodup : forall tb fs, NoDup (map fst fs) -> NoDup (map fst (renamed tb fs)).
Proof. intros tb fs N. unfold renamed. rewrite map_map. cbn [fst]. exact N. Qed.

Lemma filter_nodup : forall (keep : str * file -> bool) fs, NoDup (map fst fs) -> NoDup (map fst (filter keep fs)).
Proof.
  intros keep fs N. induction fs as [| x t IH]; cbn [filter map]; [constructor |]. inversion N as [| ? ? N1 N2]; subst.
  destruct (keep x); cbn [map]; [| exact (IH N2)]. constructor; [| exact (IH N2)].
  intro I. apply N1. apply in_map_iff in I. destruct I as (y & Y1 & Y2). rewrite <- Y1. apply in_map. apply filter_In in Y2. exact (proj1 Y2).
Qed.
Lemma without_nodup : forall fs, NoDup (map fst fs) -> NoDup (map fst (without fs)).
Proof. intros fs N. unfold without. rewrite map_map. cbn [fst]. apply filter_nodup. exact N. Qed.

Definition full (fs : list (str * file)) (v : Z) : folder := Folder (map (fun nf => (fst nf, Some (snd nf))) fs) (Number v).

Lemma done4 : forall valid d fs, holds d fs -> exists es, each [4] (nth_step valid) d = (es, None) /\
  es = all_effs (fun t => t) rules45 fs ++ [Version 5] /\ apply_all es d = full (renamed table45 fs) 5.
Proof.
  intros valid d fs H. destruct (rename_ok rules45 table45 5 d fs rules45_matches H) as (A & B).
  exists (all_effs (fun t => t) rules45 fs ++ [Version 5]). cbn [each]. change (nth_step valid 4) with v4tov5. unfold v4tov5, seq, ret. rewrite A.
  split; [rewrite app_nil_r; reflexivity |]. split; [reflexivity | exact B].
Qed.

Lemma step3 : forall d fs, holds d fs -> all_spaced fs -> apply_all (wd_effs fs) d = Folder (map (fun nf => (fst nf, Some (snd nf))) (without fs)) (d_version d).
Proof. intros (l, v) fs (H & N) SP. cbn [d_files] in H. subst l. apply v3tov4_apply; assumption. Qed.

Lemma done3 : forall valid d fs, holds d fs -> all_spaced fs -> exists es2, each [3; 4] (nth_step valid) d = (wd_effs fs ++ es2, None) /\
  each [4] (nth_step valid) (apply_all (wd_effs fs) d) = (es2, None) /\ apply_all (wd_effs fs ++ es2) d = full (renamed table45 (without fs)) 5.
Proof.
  intros valid d fs H SP. pose proof (v3tov4_effs d fs H) as A. pose proof (step3 d fs H SP) as B.
  assert (HW : holds (apply_all (wd_effs fs) d) (without fs)) by (rewrite B; split; [reflexivity | apply without_nodup; exact (proj2 H)]).
  destruct (done4 valid _ _ HW) as (es & C & _ & D). exists es. split; [| split; [exact C | rewrite apply_all_app; exact D]].
  change (each [3; 4] (nth_step valid)) with (seq v3tov4 (each [4] (nth_step valid))). unfold seq. rewrite A, C. reflexivity.
Qed.

Lemma done2 : forall valid d fs, holds d fs -> all_spaced (renamed table23 fs) -> exists es2,
  each [2; 3; 4] (nth_step valid) d = ((all_effs (fun t => t) rules23 fs ++ [Version 3]) ++ es2, None) /\
  each [3; 4] (nth_step valid) (full (renamed table23 fs) 3) = (es2, None) /\
  apply_all (all_effs (fun t => t) rules23 fs ++ [Version 3]) d = full (renamed table23 fs) 3 /\
  apply_all ((all_effs (fun t => t) rules23 fs ++ [Version 3]) ++ es2) d = full (renamed table45 (without (renamed table23 fs))) 5.
Proof.
  intros valid d fs H SP. destruct (rename_ok rules23 table23 3 d fs rules23_matches H) as (A & B). fold (full (renamed table23 fs) 3) in B.
  assert (HF : holds (full (renamed table23 fs) 3) (renamed table23 fs)) by (split; [reflexivity | apply renamed_nodup; exact (proj2 H)]).
  destruct (done3 valid _ _ HF SP) as (es & C & _ & D). exists (wd_effs (renamed table23 fs) ++ es).
  split; [| split; [exact C | split; [exact B | rewrite apply_all_app, B; exact D]]].
  change (each [2; 3; 4] (nth_step valid)) with (seq v2tov3 (each [3; 4] (nth_step valid))). unfold seq, v2tov3. rewrite A, B, C. reflexivity.
Qed.

Lemma update_at : forall valid d v l, d_version d = Number v -> zseq v (Z.to_nat (5 - v)) = l -> update valid d = each l (nth_step valid) d.
Proof. intros valid d v l V L. unfold update, look. rewrite V, L. reflexivity. Qed.

Lemma update4 : forall valid d fs, holds d fs -> d_version d = Number 4 -> snd (update valid d) = None /\ updated valid d = full (renamed table45 fs) 5.
Proof.
  intros valid d fs H V. destruct (done4 valid d fs H) as (es & A & _ & B). unfold updated. rewrite (update_at valid d 4 [4] V eq_refl), A. auto.
Qed.
Lemma update3 : forall valid d fs, holds d fs -> d_version d = Number 3 -> all_spaced fs ->
  snd (update valid d) = None /\ updated valid d = full (renamed table45 (without fs)) 5.
Proof.
  intros valid d fs H V SP. destruct (done3 valid d fs H SP) as (es & A & _ & B). unfold updated. rewrite (update_at valid d 3 [3; 4] V eq_refl), A. auto.
Qed.
Lemma update2 : forall valid d fs, holds d fs -> d_version d = Number 2 -> all_spaced (renamed table23 fs) ->
  snd (update valid d) = None /\ updated valid d = full (renamed table45 (without (renamed table23 fs))) 5.
Proof.
  intros valid d fs H V SP. destruct (done2 valid d fs H SP) as (es & A & _ & _ & B). unfold updated.
  rewrite (update_at valid d 2 [2; 3; 4] V eq_refl), A. auto.
Qed.
Lemma update5 : forall valid fs, snd (update valid (full fs 5)) = None /\ updated valid (full fs 5) = full fs 5.
Proof. intros valid fs. unfold updated, update, look. cbn. auto. Qed.

(** A folder interrupted in the last step, whatever its version. *)
Lemma cut4 : forall d fs k, holds d fs -> all_settled table45 fs ->
  let s := apply_all (firstn k (all_effs (fun t => t) rules45 fs ++ [Version 5])) d in
  s = full (renamed table45 fs) 5 \/ (d_version s = d_version d /\ exists gs, holds s gs /\ renamed table45 gs = renamed table45 fs).
Proof.
  intros d fs k H ST s. destruct (rename_ok rules45 table45 5 d fs rules45_matches H) as (A & B).
  destruct (le_lt_dec k (List.length (all_effs (fun t => t) rules45 fs))) as [L | L].
  - right. pose proof (rename_redo rules45 table45 5 d fs k rules45_matches H ST L) as R. cbv zeta in R. unfold interrupted in R. rewrite A in R. exact R.
  - left. unfold s. rewrite firstn_all2 by (rewrite app_length; cbn [List.length]; lia). exact B.
Qed.

Lemma redo4 : forall valid d fs k, holds d fs -> d_version d = Number 4 -> all_settled table45 fs ->
  let s := interrupted (update valid) d k in snd (update valid s) = None /\ updated valid s = updated valid d.
Proof.
  intros valid d fs k H V ST s. destruct (update4 valid d fs H V) as (_ & U). rewrite U. destruct (done4 valid d fs H) as (es & A & E & _).
  assert (Q : s = apply_all (firstn k (all_effs (fun t => t) rules45 fs ++ [Version 5])) d).
  { unfold s, interrupted. rewrite (update_at valid d 4 [4] V eq_refl), A, E. reflexivity. }
  destruct (cut4 d fs k H ST) as [C | (C & gs & G & R)]; rewrite <- Q in *.
  - rewrite C. apply update5.
  - rewrite V in C. destruct (update4 valid s gs G C) as (X & Y). rewrite Y, R. auto.
Qed.

Lemma renamed_types : forall tb gs fs, renamed tb gs = renamed tb fs -> forall n g, In (n, g) gs -> exists f, In (n, f) fs /\
  option_map (new_name tb) (f_type g) = option_map (new_name tb) (f_type f).
Proof.
  intros tb gs. induction gs as [| x t IH]; intros fs R n g I; [destruct I |]. destruct fs as [| y fs]; [discriminate R |].
  pose proof (f_equal (@tl _) R) as R3. cbn [renamed map tl] in R3.
  pose proof (f_equal (fun l => match l with z :: _ => Some (fst z, f_type (snd z)) | [] => None end) R) as R1. cbn in R1. injection R1 as R1 R2.
  destruct I as [I | I].
  - subst x. cbn [fst snd] in *. exists (snd y). split; [left; destruct y; cbn [fst snd] in *; congruence | exact R2].
  - destruct (IH fs R3 n g I) as (f & F1 & F2). exists f. split; [right; exact F1 | exact F2].
Qed.

Lemma no_gone : forall gs, (forall n g, In (n, g) gs -> is_weathering g = false) -> gone_names gs = [] /\ all_spaced gs /\ without gs = gs.
Proof.
  intros gs H. assert (G : gone_names gs = []).
  { unfold gone_names. replace (filter _ gs) with (@nil (str * file)); [reflexivity |]. symmetry. induction gs as [| [n g] t IH]; [reflexivity |].
    cbn [filter snd]. rewrite (H n g (or_introl eq_refl)). apply IH. intros m h I. apply (H m h). right. exact I. }
  split; [exact G |]. split.
  - intros n f l _ _ a x y b _ X. rewrite G in X. destruct X.
  - unfold without. rewrite G. clear G. induction gs as [| [n g] t IH]; [reflexivity |].
    cbn [filter snd]. rewrite (H n g (or_introl eq_refl)). cbn [negb map fst snd]. f_equal.
    + f_equal. unfold unnamed. destruct g as [ty i w e s wd id r]. cbn. f_equal. destruct w as [l |]; [| reflexivity]. cbn [option_map]. f_equal.
      clear. induction l as [| z l IH]; [reflexivity |]. cbn. f_equal. exact IH.
    + apply IH. intros m h I. apply (H m h). right. exact I.
Qed.

Lemma without_clean : forall fs n g, In (n, g) (without fs) -> is_weathering g = false.
Proof.
  intros fs n g I. unfold without in I. apply in_map_iff in I. destruct I as ((m, f) & E & I). injection E as E1 E2. subst g.
  apply filter_In in I. destruct I as (_ & I). cbn [snd] in I. apply negb_true_iff in I. exact I.
Qed.

Lemma redo3 : forall valid d fs k, holds d fs -> d_version d = Number 3 -> all_spaced fs -> stays (without fs) ->
  let s := interrupted (update valid) d k in snd (update valid s) = None /\ updated valid s = updated valid d.
Proof.
  intros valid d fs k H V SP (ST & NW) s. destruct (update3 valid d fs H V SP) as (_ & U). rewrite U.
  destruct (done3 valid d fs H SP) as (es & A & B & _).
  assert (Q : s = apply_all (firstn k (wd_effs fs ++ es)) d).
  { unfold s, interrupted. rewrite (update_at valid d 3 [3; 4] V eq_refl), A. reflexivity. }
  rewrite firstn_app, apply_all_app in Q. destruct (le_lt_dec k (List.length (wd_effs fs))) as [L | L].
  - replace (k - List.length (wd_effs fs))%nat with 0%nat in Q by lia. cbn [firstn apply_all fold_left] in Q.
    pose proof (v3tov4_redo d fs k H SP) as R. cbv zeta in R. unfold interrupted in R. rewrite (v3tov4_effs d fs H) in R. cbn [fst] in R.
    fold (apply_all (firstn k (wd_effs fs)) d) in Q. rewrite <- Q in R. destruct R as (R1 & gs & R2 & R3 & R4). rewrite V in R1.
    destruct (update3 valid s gs R2 R1 R3) as (X & Y). rewrite Y, R4. auto.
  - rewrite (firstn_all2 (wd_effs fs)) in Q by lia. pose proof (step3 d fs H SP) as S3. 
    assert (HW : holds (apply_all (wd_effs fs) d) (without fs)) by (rewrite S3; split; [reflexivity | apply without_nodup; exact (proj2 H)]).
    destruct (done4 valid _ _ HW) as (es' & B' & E & _). rewrite B in B'. injection B' as B'. subst es'. rewrite E in Q.
    destruct (cut4 _ _ (k - List.length (wd_effs fs)) HW ST) as [C | (C & gs & G & R)]; rewrite <- Q in *.
    + rewrite C. apply update5.
    + rewrite S3 in C. cbn [d_version] in C. rewrite V in C.
      assert (W : forall n g, In (n, g) gs -> is_weathering g = false).
      { intros n g I. destruct (is_weathering g) eqn:W; [exfalso | reflexivity]. destruct (renamed_types _ _ _ R n g I) as (f & F1 & F2).
        unfold is_weathering in W. destruct (f_type g) as [t |]; [| discriminate W]. apply seqb_true in W. subst t. cbn [option_map] in F2.
        destruct (f_type f) as [t |] eqn:T; [| discriminate F2]. cbn [option_map] in F2. injection F2 as F2.
        pose proof (without_clean _ _ _ F1) as F3. rewrite (NW n f t F1 T) in F3; [discriminate F3 |]. rewrite <- F2. vm_compute. reflexivity. }
      destruct (no_gone gs W) as (_ & G2 & G3). destruct (update3 valid s gs G C G2) as (X & Y). rewrite Y, G3, R. auto.
Qed.

Lemma redo2 : forall valid d fs k, holds d fs -> d_version d = Number 2 -> all_spaced (renamed table23 fs) -> all_settled table23 fs ->
  stays (without (renamed table23 fs)) ->
  let s := interrupted (update valid) d k in snd (update valid s) = None /\ updated valid s = updated valid d.
Proof.
  intros valid d fs k H V SP ST SW s. destruct (update2 valid d fs H V SP) as (_ & U). rewrite U.
  destruct (done2 valid d fs H SP) as (es & A & B & F & _).
  set (e1 := all_effs (fun t => t) rules23 fs) in *.
  assert (Q : s = apply_all (firstn k ((e1 ++ [Version 3]) ++ es)) d).
  { unfold s, interrupted. rewrite (update_at valid d 2 [2; 3; 4] V eq_refl), A. reflexivity. }
  destruct (le_lt_dec k (List.length e1)) as [L | L].
  - rewrite <- app_assoc, firstn_app in Q. replace (k - List.length e1)%nat with 0%nat in Q by lia. cbn [firstn] in Q. rewrite app_nil_r in Q.
    pose proof (rename_redo rules23 table23 3 d fs k rules23_matches H ST L) as R. cbv zeta in R. unfold interrupted in R.
    destruct (rename_ok rules23 table23 3 d fs rules23_matches H) as (A' & _). rewrite A' in R. cbn [fst] in R. fold e1 in R.
    rewrite firstn_app in R. replace (k - List.length e1)%nat with 0%nat in R by lia. cbn [firstn] in R. rewrite app_nil_r, <- Q in R.
    destruct R as (R1 & gs & R2 & R3). rewrite V in R1. destruct (update2 valid s gs R2 R1) as (X & Y); [rewrite R3; exact SP |].
    rewrite Y, R3. auto.
  - rewrite firstn_app, (firstn_all2 (e1 ++ [Version 3])), apply_all_app, F in Q by (rewrite app_length; cbn [List.length]; lia).
    assert (HF : holds (full (renamed table23 fs) 3) (renamed table23 fs)) by (split; [reflexivity | apply renamed_nodup; exact (proj2 H)]).
    pose proof (redo3 valid (full (renamed table23 fs) 3) (renamed table23 fs) (k - List.length (e1 ++ [Version 3])) HF eq_refl SP SW) as R.
    cbv zeta in R. unfold interrupted in R. rewrite (update_at valid (full (renamed table23 fs) 3) 3 [3; 4] eq_refl eq_refl), B in R. cbn [fst] in R.
    rewrite <- Q in R. destruct (update3 valid (full (renamed table23 fs) 3) _ HF eq_refl SP) as (_ & U3). rewrite U3 in R. exact R.
Qed.

Lemma all_effs_writes : forall rs before fs, Forall (fun e => exists n f, e = Write n f) (all_effs before rs fs).
Proof.
  induction rs as [| r t IH]; intros before fs; cbn [all_effs]; [constructor |]. apply Forall_app. split; [| apply IH].
  rewrite Forall_forall. intros e I. apply in_flat_map in I. destruct I as (nf & _ & I). unfold effs in I.
  destruct (f_type (snd nf)) as [ty |]; [| destruct I]. destruct (str_in (fst r) ty); [| destruct I].
  destruct I as [I | []]. eauto.
Qed.
Lemma writes_version : forall es d, Forall (fun e => exists n f, e = Write n f) es -> d_version (apply_all es d) = d_version d.
Proof.
  intros es. induction es as [| e t IH]; intros d F; cbn [apply_all fold_left]; [reflexivity |]. inversion F as [| ? ? (n & f & E) F2]; subst.
  fold (apply_all t (apply d (Write n f))). rewrite IH by exact F2. reflexivity.
Qed.
Lemma firstn_in : forall A k (l : list A) x, In x (firstn k l) -> In x l.
Proof. intros A k l x I. rewrite <- (firstn_skipn k l). apply in_or_app. left. exact I. Qed.
Lemma read_torn : forall n l, read_all (sset n None l) = None.
Proof.
  intros n l. induction l as [| [m [f |]] t IH]; cbn [sset]; [reflexivity | |]; destruct (seqb n m); cbn [read_all]; try reflexivity.
  rewrite IH. reflexivity.
Qed.

(** ** v1tov2 *)

Lemma sget_in : forall A n (x : A) l, NoDup (map fst l) -> In (n, x) l -> sget n l = Some x.
Proof.
  intros A n x l N I. induction l as [| [m y] t IH]; [destruct I |]. inversion N as [| ? ? N1 N2]; subst. cbn [sget].
  destruct I as [I | I].
  - injection I as I1 I2. subst m y. rewrite seqb_refl. reflexivity.
  - destruct (seqb n m) eqn:Q; [| exact (IH N2 I)]. apply seqb_true in Q. subst m. exfalso. apply N1. cbn [fst]. apply (in_map fst) in I. exact I.
Qed.
Lemma sget_some_in : forall A n (x : A) l, sget n l = Some x -> In (n, x) l.
Proof.
  intros A n x l H. induction l as [| [m y] t IH]; [discriminate H |]. cbn [sget] in H. destruct (seqb n m) eqn:Q; [| right; exact (IH H)].
  apply seqb_true in Q. injection H as H. subst. left. reflexivity.
Qed.

Lemma lost_type : forall valid f, lost valid f = is_type old_oil f && negb (valid f).
Proof. intros valid f. unfold lost, is_type. destruct (f_type f); reflexivity. Qed.

Definition oil_effs (valid : file -> bool) (nf : str * file) : list effect :=
  if lost valid (snd nf) then [Write (fst nf) (restored valid (snd nf))] else [].
Lemma replace_effs : forall valid fs d, (forall n f, In (n, f) fs -> lost valid f = true -> f_inits f <> None) ->
  replace_oils valid (map (fun nf => (fst nf, Some (snd nf))) fs) d = (flat_map (oil_effs valid) fs, None).
Proof.
  intros valid fs. induction fs as [| [n f] t IH]; intros d H; [reflexivity |]. cbn [map fst snd]. unfold replace_oils. cbn [each flat_map fst snd].
  fold (replace_oils valid (map (fun nf => (fst nf, Some (snd nf))) t)). rewrite <- lost_type. unfold seq, oil_effs at 1. cbn [fst snd].
  destruct (lost valid f) eqn:L.
  - destruct (f_inits f) as [i |] eqn:E; [| exfalso; exact (H n f (or_introl eq_refl) L E)]. unfold emit.
    rewrite IH by (intros m g I; apply (H m g); right; exact I). unfold restored. rewrite L, E. reflexivity.
  - unfold ret. rewrite IH by (intros m g I; apply (H m g); right; exact I). reflexivity.
Qed.
Lemma replace_apply : forall valid fs v, NoDup (map fst fs) ->
  apply_all (flat_map (oil_effs valid) fs) (Folder (map (fun nf => (fst nf, Some (snd nf))) fs) v) =
  Folder (map (fun nf => (fst nf, Some (snd nf))) (all_restored valid fs)) v.
Proof.
  intros valid fs v N. pose proof (write_each [] fs (fun nf => lost valid (snd nf)) snd (fun nf => restored valid (snd nf)) v N) as H.
  cbn [app ctx map] in H. unfold oil_effs. etransitivity; [exact H |]. f_equal. unfold ctx, all_restored. rewrite map_map. apply map_ext.
  intro nf. cbn [fst snd]. unfold restored. destruct (lost valid (snd nf)); reflexivity.
Qed.

Lemma restored_inits : forall valid f, f_inits (restored valid f) = f_inits f.
Proof. intros valid f. unfold restored. destruct (lost valid f); reflexivity. Qed.
Lemma named_restored : forall valid fs, named_inits (all_restored valid fs) = named_inits fs.
Proof.
  intros valid fs. unfold named_inits, all_restored. induction fs as [| x t IH]; [reflexivity |]. cbn [map flat_map snd]. rewrite restored_inits, IH. reflexivity.
Qed.
Lemma restored_names : forall valid fs, map fst (all_restored valid fs) = map fst fs.
Proof. intros valid fs. unfold all_restored. rewrite map_map. reflexivity. Qed.
Lemma restored_tidy : forall valid fs, tidy fs -> tidy (all_restored valid fs).
Proof.
  intros valid fs (N & H). split; [rewrite named_restored; exact N |]. intros n g I. apply in_map_iff in I. destruct I as ((m, f) & E & I).
  cbn [fst snd] in E. injection E as E1 E2. subst m g. destruct (H n f I) as (H1 & H2). split.
  - unfold restored. destruct (lost valid f); [discriminate | exact H1].
  - rewrite restored_inits. destruct H2 as [H2 | (wi & i & t & w & A & B & C & D & E & F)]; [left; exact H2 | right].
    exists wi, i, t, w. split; [exact A |]. split; [| auto]. apply in_map_iff. exists (wi, i). split; [| exact B]. cbn [fst snd]. f_equal.
    unfold restored, lost. rewrite C. destruct (seqb t (lit "gnome.spill.substance.GnomeOil"%string)) eqn:Q; [| reflexivity].
    apply seqb_true in Q. subst t. vm_compute in D. discriminate D.
Qed.

Definition put (fs : list (str * file)) (nf : str * file) : file :=
  match windages fs (snd nf) with Some w => with_windage w (snd nf) | None => snd nf end.
Definition put_effs (fs : list (str * file)) (nf : str * file) : list effect :=
  match windages fs (snd nf) with Some w => [Write (fst nf) (with_windage w (snd nf))] | None => [] end.

Lemma ctx_snoc : forall c a x t, ctx c (a ++ [x]) ++ ctx snd t = ctx c a ++ (fst x, Some (c x)) :: ctx snd t.
Proof. intros c a x t. unfold ctx. rewrite map_app, <- app_assoc. reflexivity. Qed.

Lemma take_effs : forall fs v, NoDup (map fst fs) -> tidy fs -> forall fs2 fs1, fs = fs1 ++ fs2 ->
  take_windages (map fst fs2) (Folder (ctx (put fs) fs1 ++ ctx snd fs2) v) = (flat_map (put_effs fs) fs2, None).
Proof.
  intros fs v N T. induction fs2 as [| (n, f) t IH]; intros fs1 E; [reflexivity |].
  assert (NC : NoDup (map fst (ctx (put fs) fs1 ++ ctx snd ((n, f) :: t)))).
  { unfold ctx. rewrite map_app, !map_map. cbn [fst]. rewrite <- map_app, <- E. exact N. }
  cbn [map fst]. unfold take_windages. cbn [each]. fold (take_windages (map fst t)). unfold seq at 1. unfold read at 1, look at 1. cbn [d_files].
  rewrite (sget_in _ n (Some f) _ NC) by (apply in_or_app; right; left; reflexivity).
  destruct (proj2 T n f) as (T1 & T2); [rewrite E; apply in_or_app; right; left; reflexivity |].
  destruct (f_type f) as [ty |] eqn:TY; [| contradiction]. clear T1.
  assert (MV : (match f_inits f with Some l => move_windages n f l | None => ret end) (Folder (ctx (put fs) fs1 ++ ctx snd ((n, f) :: t)) v) =
               (put_effs fs (n, f), None)).
  { unfold put_effs, windages. cbn [fst snd]. destruct T2 as [T2 | (wi & i & ti & w & A & B & C & D & F & G)]; [rewrite T2; reflexivity |].
    rewrite A. rewrite (sget_in _ wi i fs N B). rewrite F. unfold move_windages. cbn [each]. unfold seq, read, look. cbn [d_files].
    rewrite (sget_in _ wi (Some i) _ NC).
    - rewrite C. unfold init_windages. rewrite D, F. reflexivity.
    - rewrite E in B. apply in_app_or in B. apply in_or_app. destruct B as [B | B]; [left | right]; apply in_map_iff; exists (wi, i); (split; [| exact B]).
      + cbn [fst snd]. unfold put, windages. cbn [snd]. rewrite G. reflexivity.
      + reflexivity. }
  destruct (f_inits f) as [l |] eqn:FI; rewrite MV.
  - cbn [flat_map]. specialize (IH (fs1 ++ [(n, f)])). rewrite <- app_assoc in IH. specialize (IH E).
    assert (AP : apply_all (put_effs fs (n, f)) (Folder (ctx (put fs) fs1 ++ ctx snd ((n, f) :: t)) v) =
                 Folder (ctx (put fs) (fs1 ++ [(n, f)]) ++ ctx snd t) v).
    { rewrite ctx_snoc. unfold put_effs. cbn [fst snd]. assert (P : put fs (n, f) = match windages fs f with Some w => with_windage w f | None => f end) by reflexivity.
      rewrite P. clear P. destruct (windages fs f) as [w |]; [| reflexivity]. cbn [apply_all fold_left apply d_files d_version]. f_equal.
      change (ctx snd ((n, f) :: t)) with ((n, Some f) :: ctx snd t). rewrite sset_here; [reflexivity |].
      rewrite map_app in NC. cbn [ctx map fst snd] in NC. apply NoDup_remove_2 in NC. intro I. apply NC. apply in_or_app. left. exact I. }
    rewrite AP, IH. reflexivity.
  - cbn [flat_map]. specialize (IH (fs1 ++ [(n, f)])). rewrite <- app_assoc in IH. specialize (IH E).
    assert (PE : put_effs fs (n, f) = []) by (unfold put_effs, windages; cbn [snd]; rewrite FI; reflexivity). rewrite PE. cbn [apply_all fold_left app].
    assert (AP : Folder (ctx (put fs) fs1 ++ ctx snd ((n, f) :: t)) v = Folder (ctx (put fs) (fs1 ++ [(n, f)]) ++ ctx snd t) v).
    { rewrite ctx_snoc. cbn [fst]. assert (P : put fs (n, f) = f) by (unfold put, windages; cbn [snd]; rewrite FI; reflexivity). rewrite P. reflexivity. }
    rewrite AP, IH. reflexivity.
Qed.

Lemma put_apply : forall fs v, NoDup (map fst fs) -> apply_all (flat_map (put_effs fs) fs) (Folder (map (fun nf => (fst nf, Some (snd nf))) fs) v) = Folder (ctx (put fs) fs) v.
Proof.
  intros fs v N.
  pose proof (write_each [] fs (fun nf => match windages fs (snd nf) with Some _ => true | None => false end) snd (put fs) v N) as H.
  cbn [app ctx map] in H. etransitivity; [| etransitivity; [exact H |]].
  - f_equal. apply flat_map_ext. intro nf. unfold put_effs, put. destruct (windages fs (snd nf)); reflexivity.
  - f_equal. unfold ctx. apply map_ext. intro nf. unfold put. destruct (windages fs (snd nf)); reflexivity.
Qed.

Lemma unlink_effs : forall gone l v, NoDup gone -> (forall g, In g gone -> In g (map fst l)) -> each gone unlink (Folder l v) = (map Delete gone, None).
Proof.
  induction gone as [| g t IH]; intros l v N H; [reflexivity |]. inversion N as [| ? ? N1 N2]; subst. cbn [each map]. unfold seq, unlink at 1, look. cbn [d_files].
  destruct (sget g l) as [o |] eqn:S.
  - unfold emit. cbn [apply_all fold_left apply d_files d_version]. rewrite IH; [reflexivity | exact N2 |].
    intros x X. pose proof (H x (or_intror X)) as I. apply in_map_iff in I. destruct I as (y & Y1 & Y2). apply in_map_iff. exists y. split; [exact Y1 |].
    apply filter_In. split; [exact Y2 |]. apply negb_true_iff, seqb_false. rewrite Y1. intro Q. apply N1. rewrite Q. exact X.
  - exfalso. pose proof (H g (or_introl eq_refl)) as I. apply in_map_iff in I. destruct I as ((m, o) & M & I). cbn [fst] in M. subst m.
    clear - S I. induction l as [| [m p] t IH]; [destruct I |]. cbn [sget] in S. destruct (seqb g m) eqn:Q; [discriminate S |].
    destruct I as [I | I]; [injection I as I1 I2; subst m; rewrite seqb_refl in Q; discriminate Q | exact (IH S I)].
Qed.

Lemma to_remove_named : forall fs v, NoDup (map fst fs) -> tidy fs -> to_remove (Folder (map (fun nf => (fst nf, Some (snd nf))) fs) v) = named_inits fs.
Proof.
  intros fs v N T. unfold to_remove. cbn [d_files].
  assert (G : forall l, incl l fs -> flat_map (fun nf => match snd nf with
      | Some f => match f_type f, f_inits f with
                  | Some _, Some l => filter (fun wi => match sget wi (map (fun nf => (fst nf, Some (snd nf))) fs) with Some (Some i) => has init_windages i | _ => false end) l
                  | _, _ => [] end
      | None => [] end) (map (fun nf : str * file => (fst nf, Some (snd nf))) l) = named_inits l); [| exact (G fs (incl_refl fs))].
  induction l as [| (n, f) t IH]; intro I; [reflexivity |]. unfold named_inits in *. cbn [map flat_map fst snd]. rewrite IH by (intros x X; apply I; right; exact X).
  f_equal. destruct (proj2 T n f (I _ (or_introl eq_refl))) as (T1 & T2). destruct (f_type f); [| contradiction].
  destruct T2 as [T2 | (wi & i & ti & w & A & B & C & D & F & G)]; [rewrite T2; reflexivity |]. rewrite A. cbn [filter].
  rewrite (sget_in _ wi (Some i)); [unfold has; rewrite C; unfold init_windages; rewrite D; reflexivity | rewrite map_map; exact N |].
  apply in_map_iff. exists (wi, i). auto.
Qed.

Lemma v1tov2_ok : forall valid d fs, holds d fs -> tidy fs -> (forall n f, In (n, f) fs -> lost valid f = true -> f_inits f <> None) ->
  snd (v1tov2 valid d) = None /\ apply_all (fst (v1tov2 valid d)) d = full (with_windages (all_restored valid fs)) 2.
Proof.
  intros valid (l, ver) fs (H & N) T L. cbn [d_files] in H. subst l. set (gs := all_restored valid fs).
  assert (NG : NoDup (map fst gs)) by (unfold gs; rewrite restored_names; exact N).
  pose proof (restored_tidy valid fs T) as TG. fold gs in TG.
  assert (E : v1tov2 valid (Folder (map (fun nf => (fst nf, Some (snd nf))) fs) ver) =
              (flat_map (oil_effs valid) fs ++ flat_map (put_effs gs) gs ++ [Version 2] ++ map Delete (named_inits gs), None)).
  { unfold v1tov2. unfold look at 1. cbn [d_files]. unfold seq at 1. rewrite replace_effs by exact L. rewrite replace_apply by exact N. fold gs.
    unfold look at 1. cbn [d_files]. rewrite to_remove_named by assumption. unfold seq at 1. 
    replace (map fst (map (fun nf : str * file => (fst nf, Some (snd nf))) gs)) with (map fst gs) by (rewrite map_map; reflexivity).
    pose proof (take_effs gs ver NG TG gs [] eq_refl) as TE. cbn [ctx map app] in TE. unfold ctx in TE. rewrite TE.
    rewrite put_apply by exact NG. unfold seq, emit. cbn [apply_all fold_left apply d_files d_version].
    rewrite unlink_effs; [reflexivity | exact (proj1 TG) |]. intros g I. unfold named_inits in I. apply in_flat_map in I. destruct I as ((n, f) & I1 & I2). cbn [snd] in I2.
    unfold ctx. rewrite map_map. cbn [fst].
    destruct (proj2 TG n f I1) as (_ & [T2 | (wi & i & ti & w & A & B & _)]); [rewrite T2 in I2; destruct I2 |]. rewrite A in I2. destruct I2 as [I2 | []].
    subst g. apply (in_map fst) in B. exact B. }
  rewrite E. cbn [fst snd]. split; [reflexivity |]. rewrite !apply_all_app, replace_apply by exact N. fold gs. rewrite put_apply by exact NG.
  cbn [apply_all fold_left apply d_files d_version]. fold (apply_all (map Delete (named_inits gs)) (Folder (ctx (put gs) gs) (Number 2))).
  rewrite deletes_ctx. unfold full, with_windages. f_equal. unfold ctx. rewrite map_map. reflexivity.
Qed.

(** ** v0tov1 *)

Lemma sget_sset_same : forall A n (x : A) l, sget n (sset n x l) = Some x.
Proof.
  intros A n x l. induction l as [| [m y] t IH]; cbn [sset sget]; [rewrite seqb_refl; reflexivity |].
  destruct (seqb n m) eqn:Q; cbn [sget]; rewrite Q; [reflexivity | exact IH].
Qed.
Lemma sget_sset_other : forall A n m (x : A) l, n <> m -> sget n (sset m x l) = sget n l.
Proof.
  intros A n m x l N. induction l as [| [k y] t IH]; cbn [sset sget].
  - apply seqb_false in N. rewrite N. reflexivity.
  - destruct (seqb m k) eqn:Q; cbn [sget].
    + apply seqb_true in Q. subst k. apply seqb_false in N. rewrite N. reflexivity.
    + rewrite IH. reflexivity.
Qed.

Definition spares (n : str) (e : effect) : Prop := match e with Write m _ => n <> m | Delete m => n <> m | Version _ => True end.
Lemma spared : forall n es d, Forall (spares n) es -> sget n (d_files (apply_all es d)) = sget n (d_files d).
Proof.
  intros n es. induction es as [| e t IH]; intros d F; [reflexivity |]. inversion F as [| ? ? F1 F2]; subst. cbn [apply_all fold_left].
  fold (apply_all t (apply d e)). rewrite IH by exact F2. destruct e as [m f | m | v]; cbn [apply d_files spares] in *; [| | reflexivity].
  - apply sget_sset_other. exact F1.
  - generalize (d_files d) as l. induction l as [| [k y] l IHl]; cbn [filter sget fst]; [reflexivity |].
    destruct (seqb m k) eqn:Q; cbn [negb].
    + apply seqb_true in Q. subst k. apply seqb_false in F1. rewrite F1. exact IHl.
    + cbn [sget]. rewrite IHl. reflexivity.
Qed.
Lemma last_write : forall n f a b d, Forall (spares n) b -> sget n (d_files (apply_all (a ++ Write n f :: b) d)) = Some (Some f).
Proof.
  intros n f a b d F. rewrite apply_all_app. cbn [apply_all fold_left]. fold (apply_all b (apply (fold_left apply a d) (Write n f))).
  rewrite spared by exact F. apply sget_sset_same.
Qed.

Definition is_spill (nf : str * file) : bool := has (lit "gnome.spills.spill.Spill"%string) (snd nf).
Definition is_init (nf : str * file) : bool := has (lit "initializers"%string) (snd nf).
Definition named_spill (m : str) (nf : str * file) : effect :=
  let f := snd nf in Write (fst nf) (File (f_type f) (f_inits f) (f_weath f) None (Some m) (f_wind f) (f_id f) (f_rest f)).
Definition named_init (nf : str * file) : list effect :=
  match f_type (snd nf) with Some t => [Write (fst nf) (set_type (py_replace (lit ".elements."%string) (lit "."%string) t) (snd nf))] | None => [] end.
Definition new_file (e : file) : str := sanitize_filename (fst (substance_from e) ++ lit ".json"%string).

Lemma v0tov1_effs : forall d fs n e, holds d fs -> first_type (lit "element_type.ElementType"%string) fs = Some (n, e) ->
  (forall m f, In (m, f) fs -> is_spill (m, f) = true -> f_etype f <> None) ->
  v0tov1 d = (Delete n :: Write (new_file e) (snd (substance_from e)) :: map (named_spill (new_file e)) (filter is_spill fs) ++
              flat_map named_init (filter is_init fs) ++ [Version 1], None).
Proof.
  intros d fs n e (H & N) F S. unfold v0tov1, reading, look. rewrite H, read_all_map. rewrite F. cbv zeta. fold (new_file e).
  unfold seq at 1, emit at 1. unfold seq at 1, emit at 1.
  assert (SP : forall l d', (forall m f, In (m, f) l -> f_etype f <> None) -> each l (fun nf => match f_etype (snd nf) with
      | None => fail KeyErr
      | Some _ => let f := snd nf in emit (Write (fst nf) (File (f_type f) (f_inits f) (f_weath f) None (Some (new_file e)) (f_wind f) (f_id f) (f_rest f)))
      end) d' = (map (named_spill (new_file e)) l, None)).
  { induction l as [| (m, f) t IH]; intros d' HL; [reflexivity |]. cbn [each map]. unfold seq at 1. cbn [fst snd].
    destruct (f_etype f) eqn:Q; [| exfalso; exact (HL m f (or_introl eq_refl) Q)]. unfold emit at 1.
    rewrite IH by (intros k g I; apply (HL k g); right; exact I). reflexivity. }
  unfold seq at 1. rewrite SP by (intros m f I; apply filter_In in I; exact (S m f (proj1 I) (proj2 I))).
  assert (PI : pure (each (filter is_init fs) (fun nf => match f_type (snd nf) with
        | Some t => emit (Write (fst nf) (set_type (py_replace (lit ".elements."%string) (lit "."%string) t) (snd nf)))
        | None => ret end)) (flat_map named_init (filter is_init fs))).
  { apply pure_each. intro nf. unfold named_init. destruct (f_type (snd nf)); [apply pure_emit | apply pure_ret]. }
  unfold seq. unfold is_init in PI at 1. rewrite PI. reflexivity.
Qed.

Lemma v0tov1_spill : forall d fs n e m f, holds d fs -> first_type (lit "element_type.ElementType"%string) fs = Some (n, e) ->
  (forall m f, In (m, f) fs -> is_spill (m, f) = true -> f_etype f <> None) -> In (m, f) fs -> is_spill (m, f) = true -> is_init (m, f) = false ->
  sget m (d_files (apply_all (fst (v0tov1 d)) d)) =
    Some (Some (File (f_type f) (f_inits f) (f_weath f) None (Some (new_file e)) (f_wind f) (f_id f) (f_rest f))).
Proof.
  intros d fs n e m f H F S I SP NI. rewrite (v0tov1_effs d fs n e H F S). cbn [fst].
  assert (IS : In (m, f) (filter is_spill fs)) by (apply filter_In; auto). destruct (in_split _ _ IS) as (l1 & l2 & E). rewrite E, map_app. cbn [map].
  pose proof (filter_nodup is_spill fs (proj2 H)) as ND. rewrite E, map_app in ND. cbn [map fst] in ND. apply NoDup_remove_2 in ND.
  change (named_spill (new_file e) (m, f)) with (Write m (File (f_type f) (f_inits f) (f_weath f) None (Some (new_file e)) (f_wind f) (f_id f) (f_rest f))).
  rewrite <- app_assoc. cbn [app].
  match goal with |- context [Delete n :: Write (new_file e) (snd (substance_from e)) :: map (named_spill (new_file e)) l1 ++ ?x] =>
  change (Delete n :: Write (new_file e) (snd (substance_from e)) :: map (named_spill (new_file e)) l1 ++ x) with
    ((Delete n :: Write (new_file e) (snd (substance_from e)) :: map (named_spill (new_file e)) l1) ++ x) end.
  apply last_write. apply Forall_app. split; [| apply Forall_app; split; [| repeat constructor]].
  - rewrite Forall_forall. intros x X. apply in_map_iff in X. destruct X as (y & Y1 & Y2). subst x. cbn [named_spill spares]. intro Q.
    apply ND. apply in_or_app. right. rewrite Q. apply in_map. exact Y2.
  - rewrite Forall_forall. intros x X. apply in_flat_map in X. destruct X as ((k, g) & Y1 & Y2). apply filter_In in Y1. destruct Y1 as (Y1 & Y3).
    unfold named_init in Y2. destruct (f_type (snd (k, g))); [| destruct Y2]. destruct Y2 as [Y2 | []]. subst x. cbn [spares fst]. intro Q. subst k.
    assert (G : g = f). { pose proof (sget_in _ m g fs (proj2 H) Y1). pose proof (sget_in _ m f fs (proj2 H) I). congruence. }
    subst g. rewrite NI in Y3. discriminate Y3.
Qed.

Lemma v0_spares : forall m e fs k, (forall f, In (k, f) fs -> is_spill (k, f) = false /\ is_init (k, f) = false) ->
  Forall (spares k) (map (named_spill m) (filter is_spill fs) ++ flat_map named_init (filter is_init fs) ++ [Version e]).
Proof.
  intros m e fs k H. apply Forall_app. split; [| apply Forall_app; split; [| repeat constructor]].
  - rewrite Forall_forall. intros x X. apply in_map_iff in X. destruct X as ((a, f) & Y1 & Y2). subst x. cbn [named_spill spares fst snd]. intro Q. subst a.
    apply filter_In in Y2. destruct (H f (proj1 Y2)) as (A & _). rewrite A in Y2. destruct Y2. discriminate.
  - rewrite Forall_forall. intros x X. apply in_flat_map in X. destruct X as ((a, f) & Y1 & Y2). unfold named_init in Y2. apply filter_In in Y1.
    destruct (f_type (snd (a, f))); [| destruct Y2]. destruct Y2 as [Y2 | []]. subst x. cbn [spares fst]. intro Q. subst a.
    destruct (H f (proj1 Y1)) as (_ & A). rewrite A in Y1. destruct Y1. discriminate.
Qed.

Lemma v0_init : forall d fs n e k g t, holds d fs -> first_type (lit "element_type.ElementType"%string) fs = Some (n, e) ->
  (forall m f, In (m, f) fs -> is_spill (m, f) = true -> f_etype f <> None) -> In (k, g) fs -> is_init (k, g) = true -> f_type g = Some t ->
  sget k (d_files (apply_all (fst (v0tov1 d)) d)) = Some (Some (set_type (py_replace (lit ".elements."%string) (lit "."%string) t) g)).
Proof.
  intros d fs n e k g t H F S I NI T. rewrite (v0tov1_effs d fs n e H F S). cbn [fst].
  assert (IS : In (k, g) (filter is_init fs)) by (apply filter_In; auto). destruct (in_split _ _ IS) as (l1 & l2 & E). rewrite E, flat_map_app. cbn [flat_map].
  pose proof (filter_nodup is_init fs (proj2 H)) as ND. rewrite E, map_app in ND. cbn [map fst] in ND. apply NoDup_remove_2 in ND.
  assert (NE : named_init (k, g) = [Write k (set_type (py_replace (lit ".elements."%string) (lit "."%string) t) g)]) by (unfold named_init; cbn [fst snd]; rewrite T; reflexivity).
  rewrite NE, <- !app_assoc. cbn [app]. rewrite app_assoc. rewrite !app_comm_cons. apply last_write.
  apply Forall_app. split; [| repeat constructor]. rewrite Forall_forall. intros x X. apply in_flat_map in X. destruct X as (y & Y1 & Y2). unfold named_init in Y2.
  destruct (f_type (snd y)); [| destruct Y2]. destruct Y2 as [Y2 | []]. subst x. cbn [spares]. intro Q. apply ND. apply in_or_app. right. rewrite Q. apply in_map. exact Y1.
Qed.

Lemma new_file_name : forall e, new_file e = sanitize_filename (substance_name e).
Proof. intro e. unfold new_file, substance_name, substance_from. destruct (f_subst e); reflexivity. Qed.
Lemma made_ok : forall e, made_from e (snd (substance_from e)).
Proof. intro e. unfold made_from, substance_from. destruct (f_subst e); split; reflexivity. Qed.
