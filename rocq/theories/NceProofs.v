(** * Proofs about environment objects made from a file *)

From Coq Require Import ZArith List Bool Lia.
From Verif Require Import Py PyLemmas NceModel NceSpec.
Import ListNotations.
Open Scope Z_scope.

Lemma has_exists cs c l : has cs c l <-> existsb (fun o => k_is cs (o_cls o) c) l = true.
Proof. unfold has. rewrite existsb_exists. reflexivity. Qed.

Lemma has_dec cs c l : has cs c l \/ ~ has cs c l.
Proof.
  destruct (existsb (fun o => k_is cs (o_cls o) c) l) eqn:E; [left; apply has_exists; exact E |].
  right. intros H. apply has_exists in H. congruence.
Qed.

Lemma has_app cs c a b : has cs c a -> has cs c (a ++ b).
Proof. intros (o & I & E). exists o. split; [apply in_or_app; left; exact I | exact E]. Qed.

(** What link leaves: another name is not touched; the name is the last object of the class or as it was. *)
Lemma link_other cs ref klass n env : n <> ref -> forall i kw, dget n (link cs ref klass i env kw) = dget n kw.
Proof.
  intros N. induction env as [| o t IH]; intros i kw; [reflexivity |]. cbn [link]. rewrite IH. destruct (k_is cs (o_cls o) klass); [| reflexivity].
  rewrite dget_dset. destruct (Z.eqb_spec n ref); [contradiction | reflexivity].
Qed.

Lemma link_self cs ref klass env : forall i kw,
  (~ has cs klass env /\ link cs ref klass i env kw = kw) \/
  (exists k, dget ref (link cs ref klass i env kw) = Some (Made (i + k)) /\ last_of cs klass env k).
Proof.
  induction env as [| o t IH]; intros i kw.
  - left. split; [intros (o & [] & _) | reflexivity].
  - cbn [link]. destruct (IH (S i) (if k_is cs (o_cls o) klass then dset ref (Made i) kw else kw)) as [(H & E) | (k & E & (o' & N & K) & L)].
    + destruct (k_is cs (o_cls o) klass) eqn:K.
      * right. exists O. rewrite E, dget_dset, Z.eqb_refl, Nat.add_0_r. split; [reflexivity |]. split.
        -- exists o. split; [reflexivity | exact K].
        -- intros [| j] x X KX; [lia |]. exfalso. apply H. exists x. split; [cbn [nth_error] in X; exact (nth_error_In _ _ X) | exact KX].
      * left. rewrite E. split; [| reflexivity]. intros (x & [X | X] & KX); [subst x; congruence | apply H; exists x; split; assumption].
    + right. exists (S k). rewrite E. split; [f_equal; f_equal; lia |]. split.
      * exists o'. split; [exact N | exact K].
      * intros [| j] x X KX; [lia |]. cbn [nth_error] in X. specialize (L j x X KX). lia.
Qed.

Lemma dmem_get (k : Z) (d : list (Z * rv)) : dmem k d = false <-> dget k d = None.
Proof. unfold dmem. destruct (dget k d); split; congruence. Qed.

(** All that refs adds. *)
Lemma refs_adds cs f c g req : forall kw env kw1 env1, refs cs f c g req kw env = (kw1, env1) ->
  exists more, env1 = env ++ more /\ forall o, In o more -> o_cls o = c /\ o_grid o = g /\ f_make f c g (o_refs o) = true.
Proof.
  induction req as [| (ref, klass) t IH]; intros kw env kw1 env1 E; cbn [refs] in E.
  - injection E as <- <-. exists []. rewrite app_nil_r. split; [reflexivity | intros o []].
  - cbv zeta in E. destruct (dmem ref (link cs ref klass 0 env kw)); [exact (IH _ _ _ _ E) |].
    destruct (f_make f c g (link cs ref klass 0 env kw)) eqn:M.
    + destruct (IH _ _ _ _ E) as (more & -> & H). exists (Obj c g (link cs ref klass 0 env kw) :: more). rewrite <- app_assoc. split; [reflexivity |].
      intros o [<- | I]; [repeat split; exact M | exact (H o I)].
    + exact (IH _ _ _ _ E).
Qed.

Lemma one_adds cs f g kw env c : exists more, one cs f g kw env c = env ++ more /\
  (forall o, In o more -> o_cls o = c /\ o_grid o = g /\ f_make f c g (o_refs o) = true) /\ (more <> [] -> k_var cs c = true /\ ~ has cs c env).
Proof.
  unfold one. destruct (k_var cs c && negb (existsb (fun o => k_is cs (o_cls o) c) env)) eqn:B.
  - apply andb_prop in B. destruct B as (V & N). apply negb_true_iff in N.
    assert (NH : ~ has cs c env) by (intros H; apply has_exists in H; congruence).
    destruct (refs cs f c g (k_req cs c) kw env) as (kw1, env1) eqn:E. destruct (refs_adds _ _ _ _ _ _ _ _ _ E) as (more & -> & H).
    destruct (f_make f c g kw1) eqn:M.
    + exists (more ++ [Obj c g kw1]). rewrite app_assoc. split; [reflexivity |]. split; [| auto].
      intros o I. apply in_app_or in I. destruct I as [I | [<- | []]]; [exact (H o I) | repeat split; exact M].
    + exists more. split; [reflexivity | auto].
  - exists []. rewrite app_nil_r. split; [reflexivity |]. split; [intros o [] | congruence].
Qed.

Lemma all_adds cs f g kw l : forall env, exists more, fold_left (one cs f g kw) l env = env ++ more /\
  forall o, In o more -> In (o_cls o) l /\ k_var cs (o_cls o) = true /\ o_grid o = g /\ f_make f (o_cls o) g (o_refs o) = true.
Proof.
  induction l as [| c t IH]; intros env; cbn [fold_left].
  - exists []. rewrite app_nil_r. split; [reflexivity | intros o []].
  - destruct (one_adds cs f g kw env c) as (m1 & -> & H1 & V). destruct (IH (env ++ m1)) as (m2 & -> & H2).
    exists (m1 ++ m2). rewrite app_assoc. split; [reflexivity |]. intros o I. apply in_app_or in I. destruct I as [I | I].
    + destruct (H1 o I) as (C & G & M). assert (NE : m1 <> []) by (intros ->; destruct I). destruct (V NE) as (V' & _). rewrite C. repeat split; auto. left. reflexivity.
    + destruct (H2 o I) as (C & V' & G & M). repeat split; auto. right. exact C.
Qed.

(** A class that is tried has an object after it, or could not be made. *)
Lemma one_has cs f g kw env c : (forall x, k_is cs x x = true) -> k_var cs c = true ->
  has cs c (one cs f g kw env c) \/ (exists kw', f_make f c g kw' = false /\ (k_req cs c = [] -> kw' = kw)).
Proof.
  intros Re V. unfold one. rewrite V. cbn [andb]. destruct (existsb (fun o => k_is cs (o_cls o) c) env) eqn:X; cbn [negb]; [left; apply has_exists; exact X |].
  destruct (refs cs f c g (k_req cs c) kw env) as (kw1, env1) eqn:E. destruct (f_make f c g kw1) eqn:M.
  - left. exists (Obj c g kw1). split; [apply in_or_app; right; left; reflexivity | apply Re].
  - right. exists kw1. split; [exact M |]. intros Q. rewrite Q in E. cbn [refs] in E. congruence.
Qed.

Lemma all_has cs f g kw l : (forall x, k_is cs x x = true) -> forall env c, In c l -> k_var cs c = true ->
  has cs c (fold_left (one cs f g kw) l env) \/ (exists kw', f_make f c g kw' = false /\ (k_req cs c = [] -> kw' = kw)).
Proof.
  intros Re. induction l as [| a t IH]; intros env c I V; [destruct I |]. cbn [fold_left]. destruct I as [-> | I]; [| exact (IH _ _ I V)].
  destruct (one_has cs f g kw env c Re V) as [H | H]; [left | right; exact H].
  destruct (all_adds cs f g kw t (one cs f g kw env c)) as (m & -> & _). apply has_app. exact H.
Qed.

(** A class whose references are found adds one object or none. *)
Lemma refs_found cs f c g req env : NoDup (map fst req) -> forall kw,
  (forall ref klass, In (ref, klass) req -> has cs klass env \/ dget ref kw <> None) ->
  exists kw1, refs cs f c g req kw env = (kw1, env) /\
    (forall ref klass, In (ref, klass) req ->
       (exists k, dget ref kw1 = Some (Made k) /\ last_of cs klass env k) \/ (~ has cs klass env /\ dget ref kw1 = dget ref kw)) /\
    (forall n, ~ In n (map fst req) -> dget n kw1 = dget n kw).
Proof.
  induction req as [| (ref, klass) t IH]; intros ND kw H; cbn [refs map fst] in *.
  - exists kw. split; [reflexivity |]. split; [intros ? ? [] | reflexivity].
  - cbv zeta. inversion ND as [| ? ? N1 N2]; subst.
    pose proof (link_self cs ref klass env 0 kw) as LS.
    assert (D : dmem ref (link cs ref klass 0 env kw) = true).
    { destruct (dmem ref (link cs ref klass 0 env kw)) eqn:D; [reflexivity |]. apply dmem_get in D. destruct LS as [(NH & E) | (k & E & _)]; [| congruence].
      rewrite E in D. destruct (H ref klass (or_introl eq_refl)); contradiction. }
    rewrite D. destruct (IH N2 (link cs ref klass 0 env kw)) as (kw1 & E & F & O).
    { intros r k I. destruct (H r k (or_intror I)) as [X | X]; [left; exact X | right]. rewrite link_other; [exact X |].
      intros ->. apply N1. apply in_map_iff. exists (ref, k). split; [reflexivity | exact I]. }
    exists kw1. split; [exact E |]. split.
    + intros r k [I | I].
      * injection I as <- <-. rewrite (O ref N1). destruct LS as [(NH & L) | (j & L & La)]; [right; rewrite L; auto | left; exists j; auto].
      * destruct (F r k I) as [X | (NH & X)]; [left; exact X | right]. split; [exact NH |]. rewrite X. apply link_other.
        intros ->. apply N1. apply in_map_iff. exists (ref, k). split; [reflexivity | exact I].
    + intros n N. rewrite O by (intros I; apply N; right; exact I). apply link_other. intros ->. apply N. left. reflexivity.
Qed.

(** References are to earlier objects. *)
Definition back (l : list obj) : Prop := forall p o n k, nth_error l p = Some o -> dget n (o_refs o) = Some (Made k) -> (k < p)%nat.
Definition below (m : nat) (kw : list (Z * rv)) : Prop := forall n k, dget n kw = Some (Made k) -> (k < m)%nat.

Lemma link_below cs ref klass m env : forall i kw, (i + length env <= m)%nat -> below m kw -> below m (link cs ref klass i env kw).
Proof.
  induction env as [| o t IH]; intros i kw L B; cbn [link]; [exact B |]. cbn [length] in L. apply IH; [lia |].
  destruct (k_is cs (o_cls o) klass); [| exact B]. intros n k. rewrite dget_dset. destruct (n =? ref); [intros E; injection E as <-; lia | apply B].
Qed.

Lemma back_app l o : back l -> below (length l) (o_refs o) -> back (l ++ [o]).
Proof.
  intros Bk Bl p x n k N E. destruct (Nat.lt_ge_cases p (length l)) as [L | L].
  - rewrite nth_error_app1 in N by exact L. exact (Bk p x n k N E).
  - rewrite nth_error_app2 in N by exact L. destruct (p - length l)%nat eqn:Q; cbn [nth_error] in N; [| destruct n0; discriminate].
    injection N as <-. specialize (Bl n k E). lia.
Qed.

Lemma below_le a b kw : (a <= b)%nat -> below a kw -> below b kw.
Proof. intros L B n k E. specialize (B n k E). lia. Qed.

Lemma refs_back cs f c g req : forall kw env kw1 env1, refs cs f c g req kw env = (kw1, env1) -> back env -> below (length env) kw ->
  back env1 /\ below (length env1) kw1.
Proof.
  induction req as [| (ref, klass) t IH]; intros kw env kw1 env1 E Bk Bl; cbn [refs] in E.
  - injection E as <- <-. auto.
  - cbv zeta in E. assert (LB := link_below cs ref klass (length env) env 0 kw (le_n _) Bl).
    destruct (dmem ref (link cs ref klass 0 env kw)); [exact (IH _ _ _ _ E Bk LB) |].
    destruct (f_make f c g (link cs ref klass 0 env kw)).
    + apply (IH _ _ _ _ E); [apply back_app; [exact Bk | exact LB] |]. rewrite app_length. cbn [length].
      intros n k. rewrite dget_dset. destruct (n =? ref); [intros X; injection X as <-; lia | intros X; specialize (LB n k X); lia].
    + apply (IH _ _ _ _ E); [exact Bk |]. intros n k. rewrite dget_dset. destruct (n =? ref); [discriminate | apply LB].
Qed.

Lemma all_back cs f g kw l : outside kw -> forall env, back env -> back (fold_left (one cs f g kw) l env).
Proof.
  intros Ou. assert (Bl : forall m, below m kw) by (intros m n k E; exfalso; exact (Ou n k E)).
  induction l as [| c t IH]; intros env Bk; cbn [fold_left]; [exact Bk |]. apply IH. unfold one.
  destruct (k_var cs c && _); [| exact Bk]. destruct (refs cs f c g (k_req cs c) kw env) as (kw1, env1) eqn:E.
  destruct (refs_back _ _ _ _ _ _ _ _ _ E Bk (Bl _)) as (B1 & B2). destruct (f_make f c g kw1); [apply back_app; assumption | exact B1].
Qed.

Lemma no_repeats_app cs l o : no_repeats cs l -> ~ has cs (o_cls o) l -> no_repeats cs (l ++ [o]).
Proof.
  intros NR NH a x b E. destruct (exists_last (l := x :: b)) as (r & y & Q); [discriminate |]. rewrite Q, app_assoc in E.
  apply app_inj_tail in E. destruct E as (-> & <-). destruct r as [| z r].
  - cbn [app] in Q. injection Q as -> ->. rewrite app_nil_r in NH. exact NH.
  - cbn [app] in Q. injection Q as -> ->. exact (NR a z r eq_refl).
Qed.

Lemma env_from_eq cs f l grid kw e : env_from cs f (Some l) grid kw = Ok e ->
  exists g, (g = match grid with Some _ => None | None => f_grid f end) /\ (grid = None -> g <> None) /\ e = fold_left (one cs f g kw) l [].
Proof.
  unfold env_from. destruct grid as [g |].
  - cbn [bind]. intros E. injection E as <-. exists None. split; [reflexivity |]. split; [discriminate | reflexivity].
  - destruct (f_grid f) as [g |] eqn:G; cbn [bind]; [| discriminate]. intros E. injection E as <-. exists (Some g). split; [reflexivity |]. split; [discriminate | reflexivity].
Qed.

Lemma env_from_snoc cs f l c grid kw e : env_from cs f (Some l) grid kw = Ok e ->
  exists g, g = (match grid with Some _ => None | None => f_grid f end) /\ env_from cs f (Some (l ++ [c])) grid kw = Ok (one cs f g kw e c).
Proof.
  unfold env_from. destruct grid as [g |].
  - cbn [bind]. intros E. injection E as <-. exists None. split; [reflexivity |]. rewrite fold_left_app. reflexivity.
  - destruct (f_grid f) as [g |] eqn:G; cbn [bind]; [| discriminate]. intros E. injection E as <-. exists (Some g). split; [reflexivity |]. rewrite fold_left_app. reflexivity.
Qed.
