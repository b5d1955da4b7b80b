(** * Proofs about appearances *)

From Coq Require Import ZArith List Bool Lia String.
From Verif Require Import Py PyLemmas StrModel StrLemmas AppModel AppSpec.
Import ListNotations.
Open Scope list_scope.
Open Scope Z_scope.

Lemma sget_in {V} k (d : list (str * V)) : sget k d <> None <-> In k (map fst d).
Proof.
  induction d as [| [k' v] d IH]; cbn [sget map fst In]; [split; [intros H; destruct (H eq_refl) | intros []] |].
  destruct (seqb k k') eqn:E.
  - apply seqb_iff in E. split; [intros _; left; symmetry; exact E | discriminate].
  - rewrite IH. split; [intros H; right; exact H |]. intros [Q | H]; [| exact H]. subst k'. rewrite seqb_refl in E. discriminate E.
Qed.
Lemma set_all_get k d : dict d -> forall attrs, sget k (set_all d attrs) = match sget k d with Some v => Some v | None => sget k attrs end.
Proof.
  unfold dict. induction d as [| [k' v] d IH]; intros N attrs; cbn [set_all sget]; [reflexivity |]. cbn [map fst] in N. apply NoDup_cons_iff in N. destruct N as (NI & N).
  rewrite (IH N), sget_sset. destruct (seqb k k') eqn:E; [| reflexivity]. apply seqb_iff in E. subst k'.
  destruct (sget k d) eqn:G; [| reflexivity]. destruct NI. apply sget_in. rewrite G. discriminate.
Qed.
Lemma filter_get n k (d : list (str * Z)) : k <> n -> sget k (filter (fun p => negb (seqb n (fst p))) d) = sget k d.
Proof.
  intros K. induction d as [| [k' v] d IH]; [reflexivity |]. cbn [filter fst]. destruct (seqb n k') eqn:E; cbn [negb sget].
  - apply seqb_iff in E. subst k'. destruct (seqb k n) eqn:Q; [apply seqb_iff in Q; contradiction | exact IH].
  - destruct (seqb k k'); [reflexivity | exact IH].
Qed.
Lemma filter_dict n d : dict d -> dict (filter (fun p => negb (seqb n (fst p))) d).
Proof.
  unfold dict. induction d as [| [k v] d IH]; intros N; [exact N |]. cbn [map fst] in N. apply NoDup_cons_iff in N. destruct N as (NI & N). cbn [filter fst].
  destruct (seqb n k); cbn [negb]; [exact (IH N) |]. cbn [map fst]. constructor; [| exact (IH N)]. intros I. apply NI. apply in_map_iff in I. destruct I as (x & X & I). apply filter_In in I. apply in_map_iff. exists x. split; [exact X | exact (proj1 I)].
Qed.
Lemma pop_ok names : forall d d1, pop_all names d = Ok d1 -> dict d -> dict d1 /\ (forall k, ~ In k names -> sget k d1 = sget k d) /\ (forall n, In n names -> sget n d <> None).
Proof.
  induction names as [| n names IH]; intros d d1 H D; cbn [pop_all] in H.
  - injection H as <-. split; [exact D |]. split; [reflexivity | intros n []].
  - destruct (sget n d) eqn:G; [| discriminate H]. destruct (IH _ _ H (filter_dict n d D)) as (D1 & K & P). split; [exact D1 |]. split.
    + intros k NI. rewrite K by (intros I; apply NI; right; exact I). apply filter_get. intros ->. apply NI. left. reflexivity.
    + intros m [<- | I]; [rewrite G; discriminate |]. destruct (seqb m n) eqn:E; [apply seqb_iff in E; subst m; rewrite G; discriminate |]. specialize (P m I). rewrite filter_get in P; [exact P |].
      intros ->. rewrite seqb_refl in E. discriminate E.
Qed.
Lemma pop_gone names : forall d d1 k, pop_all names d = Ok d1 -> In k names -> sget k d1 = None.
Proof.
  assert (G : forall names d d1 k, pop_all names d = Ok d1 -> sget k d = None -> sget k d1 = None).
  { clear names. induction names as [| n l IH]; intros d d1 k H N; cbn [pop_all] in H; [injection H as <-; exact N |]. destruct (sget n d) eqn:Q; [| discriminate H]. apply (IH _ _ k H).
    rewrite filter_get; [exact N |]. intros ->. rewrite N in Q. discriminate Q. }
  induction names as [| n l IH]; intros d d1 k H I; [destruct I |]. destruct I as [<- | I]; cbn [pop_all] in H; (destruct (sget n d) eqn:Q; [| discriminate H]).
  - apply (G _ _ _ n H). clear. induction d as [| [k v] d IH]; [reflexivity |]. cbn [filter fst]. destruct (seqb n k) eqn:E; cbn [negb sget]; [exact IH | rewrite E; exact IH].
  - exact (IH _ _ k H I).
Qed.
Lemma add_keys_in k names : forall keys, In k (add_keys names keys) <-> In k names \/ In k keys.
Proof.
  induction names as [| n t IH]; intros keys; cbn [add_keys In]; [tauto |]. rewrite IH. destruct (smem n keys) eqn:M.
  - apply smem_iff in M. split; [tauto |]. intros [[<- | H] | H]; tauto.
  - rewrite in_app_iff. cbn [In]. tauto.
Qed.
Lemma add_data_get k keys attrs : forall data, sget k (add_data keys attrs data) = if smem k keys then Some (sget k attrs) else sget k data.
Proof.
  unfold smem. induction keys as [| n t IH]; intros data; cbn [add_data existsb]; [reflexivity |]. rewrite IH. destruct (existsb (seqb k) t); [rewrite orb_true_r; reflexivity |]. rewrite orb_false_r, sget_sset.
  destruct (seqb k n) eqn:E; [apply seqb_iff in E; subst n |]; reflexivity.
Qed.

(** After any updates: the attributes hold what was given last, and are the keys. *)
Lemma history kw l : dict kw -> Forall dict l -> forall o o', new_app kw = Ok o -> updates l o = Ok o' ->
  forall k, setting k -> latest k (kw :: l) (sget k (a_attrs o')) /\ (In k (a_keys o') <-> sget k (a_attrs o') <> None).
Proof.
  intros D F o o' N. revert o'. induction l as [| d l IH] using rev_ind; intros o' U k K.
  - unfold new_app in N. destruct (_ || _); [discriminate N |]. injection N as <-. injection U as <-. cbn [a_attrs a_keys]. rewrite (set_all_get k kw D). cbn [sget].
    assert (L := latest_before k [] kw None). assert (L1 := latest_here k [] kw). cbn [app] in L, L1. rewrite <- sget_in. destruct (sget k kw) eqn:G.
    + split; [exact (L1 z eq_refl) | tauto].
    + split; [exact (L eq_refl (latest_none k)) | tauto].
  - apply Forall_app in F. destruct F as (F & F1). apply Forall_inv in F1.
    assert (S1 : exists o1, updates l o = Ok o1 /\ update_app d o1 = (o', Ok tt)).
    { clear - U. revert o U. induction l as [| x l IH]; intros o U; cbn [app updates] in U |- *.
      - exists o. split; [reflexivity |]. destruct (update_app d o) as [o1 [[] | e]]; [injection U as <-; reflexivity | discriminate U].
      - destruct (update_app x o) as [o1 [u | e]]; [exact (IH o1 U) | discriminate U]. }
    destruct S1 as (o1 & U1 & U2). destruct (IH F o1 U1 k K) as (L & I). clear IH U N U1. unfold update_app in U2.
    set (o2 := match sget (lit "name"%string) d with Some v => _ | None => _ end) in U2.
    assert (A2 : sget k (a_attrs o2) = sget k (a_attrs o1)).
    { unfold o2. destruct (sget (lit "name"%string) d); [| reflexivity]. cbn [a_attrs]. rewrite sget_sset. destruct (seqb k (lit "name"%string)) eqn:E; [apply seqb_iff in E; destruct (proj1 K E) | reflexivity]. }
    assert (K2 : a_keys o2 = a_keys o1) by (unfold o2; destruct (sget (lit "name"%string) d); reflexivity).
    destruct (pop_all _ d) as [d1 | e] eqn:P; [| discriminate U2]. destruct (pop_ok _ d d1 P F1) as (D1 & G & _). injection U2 as <-. cbn [a_attrs a_keys].
    assert (NK : ~ In k [lit "name"%string; lit "obj_type"%string; lit "id"%string]) by (destruct K as (Ka & Kb & Kc); intros [Q | [Q | [Q | []]]]; symmetry in Q; contradiction).
    rewrite (set_all_get k d1 D1), (G k NK), A2, add_keys_in, <- sget_in, (G k NK), K2.
    change (kw :: l ++ [d]) with ((kw :: l) ++ [d]). destruct (sget k d) eqn:Gd.
    + split; [exact (latest_here k _ d z Gd) |]. split; [discriminate | intros _; left; discriminate].
    + split; [exact (latest_before k _ d _ Gd L) |]. tauto.
Qed.
