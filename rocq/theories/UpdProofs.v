(** * Proofs about changing an object from a dictionary *)
From Verif Require Import Py PyLemmas UpdModel UpdSpec.

(** ** Basics *)

Section JsonInd.
  Variable P : json -> Prop.
  Hypothesis Hn : P JNull.
  Hypothesis Hp : forall v, P (JP v).
  Hypothesis Hb : P JBad.
  Hypothesis Ho : forall id c fs, Forall (fun kj => P (snd kj)) fs -> P (JO id c fs).
  Hypothesis Hl : forall l, Forall P l -> P (JL l).
  Fixpoint json_ind2 (j : json) : P j :=
    match j with
    | JNull => Hn
    | JP v => Hp v
    | JBad => Hb
    | JO id c fs => Ho id c fs
        ((fix go (l : list (Z * json)) : Forall (fun kj => P (snd kj)) l :=
            match l with
            | [] => Forall_nil _
            | kj :: r => Forall_cons kj (json_ind2 (snd kj)) (go r)
            end) fs)
    | JL l => Hl l
        ((fix go (l : list json) : Forall P l :=
            match l with
            | [] => Forall_nil _
            | j :: r => Forall_cons j (json_ind2 j) (go r)
            end) l)
    end.
End JsonInd.

Lemma upd_same : forall A (f : Z -> A) x a, upd f x a x = a.
Proof. intros; unfold upd; now rewrite Z.eqb_refl. Qed.
Lemma upd_other : forall A (f : Z -> A) x a y, y <> x -> upd f x a y = f y.
Proof. intros; unfold upd; now rewrite (proj2 (Z.eqb_neq _ _) H). Qed.

Lemma oeqb_iff : forall a b, oeqb a b = true <-> a = b.
Proof.
  intros [a|] [b|]; simpl; split; intro H; try discriminate; auto.
  - apply Z.eqb_eq in H; now subst.
  - inversion H; apply Z.eqb_refl.
Qed.
Lemma oeqb_no : forall a b, oeqb a b = false <-> a <> b.
Proof.
  intros; rewrite <- oeqb_iff; destruct (oeqb a b); split; intro; congruence.
Qed.
Lemma mem_iff : forall y l, existsb (oeqb y) l = true <-> In y l.
Proof.
  intros; rewrite existsb_exists; split.
  - intros [z [A B]]; apply oeqb_iff in B; now subst.
  - intro; exists y; split; [assumption|now apply oeqb_iff].
Qed.

Lemma dget_dset_same : forall (V : Type) k (v : V) d, dget k (dset k v d) = Some v.
Proof.
  induction d as [|[k' v'] r IH]; simpl; [now rewrite Z.eqb_refl|].
  destruct (Z.eqb_spec k k'); simpl.
  - now rewrite Z.eqb_refl.
  - destruct (Z.eqb_spec k k'); [contradiction|exact IH].
Qed.
Lemma dget_dset_other : forall (V : Type) k k' (v : V) d, k' <> k -> dget k' (dset k v d) = dget k' d.
Proof.
  induction d as [|[k2 v2] r IH]; intro N; simpl.
  - destruct (Z.eqb_spec k' k); [contradiction|reflexivity].
  - destruct (Z.eqb_spec k k2); simpl.
    + subst. destruct (Z.eqb_spec k' k2); [contradiction|reflexivity].
    + destruct (Z.eqb_spec k' k2); auto.
Qed.
Lemma dset_dset : forall (V : Type) k (v w : V) d, dset k v (dset k w d) = dset k v d.
Proof.
  induction d as [|[k' v'] r IH]; simpl; [now rewrite Z.eqb_refl|].
  destruct (Z.eqb_spec k k'); simpl.
  - now rewrite Z.eqb_refl.
  - destruct (Z.eqb_spec k k'); [contradiction|now rewrite IH].
Qed.
Lemma dset_same : forall (V : Type) k (v : V) d, dget k d = Some v -> dset k v d = d.
Proof.
  induction d as [|[k' v'] r IH]; simpl; [discriminate|].
  destruct (Z.eqb_spec k k'); simpl; intro H.
  - congruence.
  - now rewrite IH.
Qed.
Lemma dget_in : forall (V : Type) k (v : V) d, dget k d = Some v -> In (k, v) d.
Proof.
  induction d as [|[k' v'] r IH]; simpl; [discriminate|].
  destruct (Z.eqb_spec k k'); intro H; [left; congruence|right; auto].
Qed.
Lemma dget_map : forall (A B : Type) (f : A -> B) k d,
  dget k (map (fun kj => (fst kj, f (snd kj))) d) = option_map f (dget k d).
Proof.
  induction d as [|[k' v'] r IH]; simpl; [reflexivity|].
  destruct (k =? k'); [reflexivity|exact IH].
Qed.

(** Adding items one after the other keeps the first occurrences. *)
Lemma filter_comm : forall A (f g : A -> bool) l, filter f (filter g l) = filter g (filter f l).
Proof.
  induction l as [|a r IH]; simpl; [reflexivity|].
  destruct (g a) eqn:G, (f a) eqn:F; simpl; rewrite ?F, ?G; congruence.
Qed.
Lemma filter_and : forall A (f g : A -> bool) l, filter f (filter g l) = filter (fun x => f x && g x) l.
Proof.
  induction l as [|a r IH]; simpl; [reflexivity|].
  destruct (g a) eqn:G; simpl; rewrite ?andb_true_r, ?andb_false_r; [|exact IH].
  destruct (f a); congruence.
Qed.
Fixpoint add_all (l : list (option Z)) (ys : list (option Z)) : list (option Z) :=
  match ys with
  | [] => l
  | y :: r => add_all (if existsb (oeqb y) l then l else l ++ [y]) r
  end.
Lemma add_all_firsts : forall ys l,
  add_all l ys = l ++ filter (fun y => negb (existsb (oeqb y) l)) (firsts ys).
Proof.
  induction ys as [|y r IH]; intro l; simpl; [now rewrite app_nil_r|].
  rewrite IH. destruct (existsb (oeqb y) l) eqn:E; simpl.
  - f_equal. rewrite filter_and. apply filter_ext_in. intros b Hb.
    destruct (oeqb y b) eqn:B; simpl.
    + apply oeqb_iff in B; subst b. rewrite E. reflexivity.
    + now rewrite andb_true_r.
  - rewrite <- app_assoc; simpl. do 2 f_equal. rewrite filter_and.
    apply filter_ext_in; intros b Hb. rewrite existsb_app; simpl. rewrite orb_false_r.
    rewrite negb_orb. f_equal. f_equal.
    destruct (oeqb y b) eqn:B; destruct (oeqb b y) eqn:C; auto.
    + apply oeqb_iff in B. symmetry in B; apply oeqb_iff in B; congruence.
    + apply oeqb_iff in C. symmetry in C; apply oeqb_iff in C; congruence.
Qed.
Lemma add_all_nil : forall ys, add_all [] ys = firsts ys.
Proof.
  intro. rewrite add_all_firsts; simpl.
  induction (firsts ys); simpl; congruence.
Qed.

(** ** The table of references *)
Section Table.
  Variable schema : Z -> list node.

  Lemma nexts_iff : forall o y, In y (nexts schema o) <-> refers schema o y.
  Proof.
    intros o y. unfold nexts, refers. rewrite in_flat_map. split.
    - intros [nd [Hn Hy]]. destruct (dget (n_name nd) (o_at o)) as [v|] eqn:E; [|contradiction].
      exists nd, v. split; [exact Hn|split; [exact E|]].
      destruct v as [p|[z|]|l]; simpl in Hy; try contradiction.
      + destruct Hy as [<-|[]]; now left.
      + right. exists l; split; [reflexivity|]. apply in_flat_map in Hy.
        destruct Hy as [[z|] [A B]]; simpl in B; [destruct B as [<-|[]]; exact A|contradiction].
    - intros [nd [v [Hn [E D]]]]. exists nd; split; [exact Hn|]. rewrite E.
      destruct D as [->|[l [-> Hl]]]; simpl; [now left|].
      apply in_flat_map. exists (Some y); split; [exact Hl|now left].
  Qed.

  Lemma fold_reg : forall (Q : (Z -> option Z) -> Prop) n h l r,
    (forall y r, In y l -> Q r -> Q (reg schema n h r y)) -> Q r ->
    Q (fold_left (fun r y => reg schema n h r y) l r).
  Proof.
    intros Q n h l; induction l as [|y t IH]; intros r H Hr; simpl; [exact Hr|].
    apply IH; [intros; apply H; [right; assumption|assumption]|].
    apply H; [now left|exact Hr].
  Qed.

  (** Entries stay. *)
  Lemma reg_mono : forall n h x r i y, r i = Some y -> reg schema n h r x i = Some y.
  Proof.
    induction n as [|n IH]; intros h x r i y H; simpl; [exact H|].
    assert (H1 : (match r x with None => upd r x (Some x) | Some _ => r end) i = Some y).
    { destruct (r x) eqn:E; [exact H|]. destruct (Z.eq_dec i x) as [->|N]; [congruence|].
      now rewrite upd_other. }
    destruct (h x); [|exact H1].
    apply (fold_reg (fun r => r i = Some y)); [|exact H1].
    intros; now apply IH.
  Qed.

  (** What is entered is inside the object. *)
  Lemma reg_only : forall (K : Z -> Prop) n h, (forall z o y, K z -> h z = Some o -> refers schema o y -> K y) ->
    forall x r i y, K x -> reg schema n h r x i = Some y -> r i = Some y \/ (y = i /\ K i).
  Proof.
    intros K n h Hc; induction n as [|n IH]; intros x r i y Kx H; simpl in H; [now left|].
    set (r1 := match r x with None => upd r x (Some x) | Some _ => r end) in *.
    assert (H1 : forall y, r1 i = Some y -> r i = Some y \/ (y = i /\ K i)).
    { subst r1. intros y0 H0. destruct (r x) eqn:E; [now left|].
      destruct (Z.eq_dec i x) as [->|N].
      - rewrite upd_same in H0. inversion H0; subst. now right.
      - rewrite upd_other in H0 by exact N. now left. }
    destruct (h x) as [o|] eqn:Ex; [|now apply H1].
    revert H.
    refine (fold_reg (fun R => R i = Some y -> r i = Some y \/ y = i /\ K i) n h (nexts schema o) r1 _ (H1 y)).
    intros z r2 Hz H2 H3. apply IH in H3.
    - destruct H3 as [H3|H3]; [now apply H2|now right].
    - apply nexts_iff in Hz. eapply Hc; eassumption.
  Qed.

  (** The levels are enough: everything inside is entered. *)
  Lemma reg_all : forall (rank : Z -> nat) h,
    (forall x o y, h x = Some o -> refers schema o y -> (rank y < rank x)%nat) ->
    forall n x r, (rank x < n)%nat ->
    forall z, (forall y, r z = Some y -> y = z) -> within schema h x z -> reg schema n h r x z = Some z.
  Proof.
    intros rank h Hr. 
    assert (Hself : forall n x r i, (forall y, r i = Some y -> y = i) ->
              forall y, reg schema n h r x i = Some y -> y = i).
    { intros n x r i Hi y H. apply (reg_only (fun _ => True)) in H; auto.
      destruct H as [H|[H _]]; auto. }
    assert (Hw : forall x z, within schema h x z -> z = x \/
              exists o y, h x = Some o /\ refers schema o y /\ within schema h y z).
    { intros x z W. induction W as [|y o z W IH Hy Hz]; [now left|].
      right. destruct IH as [->|[o' [y' [A [B C]]]]].
      - exists o, z. split; [exact Hy|split; [exact Hz|constructor]].
      - exists o', y'. split; [exact A|split; [exact B|]]. econstructor; eassumption. }
    induction n as [|n IH]; intros x r Hn z Hz W; [lia|]. simpl.
    set (r1 := match r x with None => upd r x (Some x) | Some _ => r end).
    assert (Hz1 : forall y, r1 z = Some y -> y = z).
    { subst r1. intros y Hy. destruct (r x) eqn:E; [now apply Hz|].
      destruct (Z.eq_dec z x) as [->|N]; [rewrite upd_same in Hy; congruence|].
      rewrite upd_other in Hy by exact N. now apply Hz. }
    destruct (Hw _ _ W) as [->|[o [y [Hx [Hy Wy]]]]].
    - assert (r1 x = Some x).
      { subst r1. destruct (r x) eqn:E; [rewrite E; f_equal; now apply Hz|apply upd_same]. }
      destruct (h x) as [o|]; [|assumption].
      apply (fold_reg (fun R => R x = Some x)); [|assumption].
      intros; now apply reg_mono.
    - rewrite Hx. apply nexts_iff in Hy. clearbody r1. revert r1 Hz1.
      assert (Hl : forall w, In w (nexts schema o) -> (rank w < n)%nat).
      { intros w Hw'. apply nexts_iff in Hw'. pose proof (Hr _ _ _ Hx Hw'). lia. }
      revert Hy Hl. induction (nexts schema o) as [|w t IHt]; intros Hy Hl r1 Hz1; [contradiction|].
      simpl. destruct Hy as [->|Hy].
      + apply (fold_reg (fun R => R z = Some z)).
        * intros; now apply reg_mono.
        * apply IH; [apply Hl; now left|exact Hz1|exact Wy].
      + apply IHt; [exact Hy|intros; apply Hl; now right|].
        intros y' H'. eapply Hself; [|exact H']. exact Hz1.
  Qed.
End Table.

(** ** Sending back what is so *)
Definition same (s s' : st) : Prop :=
  (forall z, heap s' z = heap s z) /\ (forall i, refs s' i = refs s i) /\ next s' = next s.
Lemma same_refl : forall s, same s s.
Proof. intro; repeat split. Qed.
Lemma same_trans : forall a b c, same a b -> same b c -> same a c.
Proof. intros a b c (A & B & C) (D & E & F); repeat split; intros; congruence. Qed.

Lemma get_attr_some : forall x k s o v, heap s x = Some o -> dget k (o_at o) = Some v -> get_attr x k s = (s, Ok v).
Proof. intros x k s o v H D; unfold get_attr; now rewrite H, D. Qed.
Lemma set_attr_some : forall x k v s o, heap s x = Some o ->
  set_attr x k v s = (ST (upd (heap s) x (Some (OB (o_cls o) (dset k v (o_at o))))) (refs s) (next s), Ok tt).
Proof. intros x k v s o H; unfold set_attr; now rewrite H. Qed.
Lemma set_attr_same : forall x k v s o, heap s x = Some o -> dget k (o_at o) = Some v ->
  exists s', set_attr x k v s = (s', Ok tt) /\ same s s'.
Proof.
  intros x k v s o H D. rewrite (set_attr_some x k v s o H). eexists; split; [reflexivity|].
  split; [|split; reflexivity]. intro z; simpl. destruct (Z.eq_dec z x) as [->|N].
  - rewrite upd_same, dset_same by exact D. rewrite H. now destruct o.
  - now rewrite upd_other.
Qed.

Lemma put_item_new : forall coll l y, (coll = true -> y <> None /\ ~ In y l) -> put_item coll l y = Ok (l ++ [y]).
Proof.
  intros [|] l y H; simpl; [|reflexivity]. destruct (H eq_refl) as (A & B).
  destruct y as [z|]; [|congruence]. destruct (existsb (oeqb (Some z)) l) eqn:E; [|reflexivity].
  apply mem_iff in E; contradiction.
Qed.

Section Round.
  Variable schema : Z -> list node.
  Variable init : Z -> dict val.
  Variable h0 : Z -> option obj.
  Variable rank : Z -> nat.
  Hypothesis Hrank : forall x o y, h0 x = Some o -> refers schema o y -> (rank y < rank x)%nat.
  Hypothesis Htyped : forall x o nd, h0 x = Some o -> In nd (schema (o_cls o)) ->
    exists v, dget (n_name nd) (o_at o) = Some v /\ of_kind (n_kind nd) v.

  Definition ready (s : st) (y : Z) : Prop :=
    (forall z, (rank z <= rank y)%nat -> heap s z = h0 z) /\
    (forall z, within schema h0 y z -> refs s z = Some z).
  Definition calm (j : json) : Prop := forall y s, agrees schema h0 j y -> ready s y ->
    exists s', w_one (work_of schema init j) false s = (s', Ok (Some y)) /\ same s s'.

  Lemma ready_same : forall s s' y, same s s' -> ready s y -> ready s' y.
  Proof.
    intros s s' y (A & B & _) (C & D). split; intros z H; [rewrite A; auto|rewrite B; auto].
  Qed.
  Lemma within_child : forall x o y z, h0 x = Some o -> refers schema o y -> within schema h0 y z -> within schema h0 x z.
  Proof.
    intros x o y z Hx Hr W. induction W as [|w ow z W IH Hw Hz].
    - eapply within_step; [apply within_self|exact Hx|exact Hr].
    - eapply within_step; eassumption.
  Qed.

  Lemma fill_same : forall coll x k c d js l, Forall calm js -> agrees_items schema h0 js l ->
    forall pre s, (coll = true -> NoDup (pre ++ l) /\ ~ In None l) ->
    heap s x = Some (OB c (dset k (VL pre) d)) ->
    (forall y, In (Some y) l -> (rank y < rank x)%nat) ->
    (forall z, (rank z <= rank x)%nat -> z <> x -> heap s z = h0 z) ->
    (forall y z, In (Some y) l -> within schema h0 y z -> refs s z = Some z) ->
    exists s', fill coll x k (map (fun j => w_one (work_of schema init j)) js) s = (s', Ok tt) /\
      heap s' x = Some (OB c (dset k (VL (pre ++ l)) d)) /\
      (forall z, z <> x -> heap s' z = heap s z) /\ (forall i, refs s' i = refs s i) /\ next s' = next s.
  Proof.
    intros coll x k c d js; induction js as [|j js IH]; intros l Hc Ha pre s Hd Hx Hl Hh Hr; inversion Ha; subst.
    - exists s. rewrite app_nil_r. split; [reflexivity|]. auto.
    - match goal with [A : agrees _ _ j y, B : agrees_items _ _ js l0 |- _] => rename A into Ag, B into Ai end.
      inversion Hc as [|j' js' Cj Cjs]; subst. cbn [map fill]. unfold bindM at 1.
      destruct (Cj y s Ag) as (s1 & E1 & (S1 & S2 & S3)).
      { split.
        - intros z Hz. pose proof (Hl y (or_introl eq_refl)). apply Hh; [lia|]. intros ->. lia.
        - intros z W. eapply Hr; [now left|exact W]. }
      rewrite E1. rewrite <- S1 in Hx. unfold bindM at 1.
      rewrite (get_attr_some x k s1 _ _ Hx (dget_dset_same _ _ _ _)).
      unfold bindM at 1. rewrite put_item_new.
      2:{ intro C. destruct (Hd C) as (N & M1). split; [discriminate|]. intro I.
          apply NoDup_remove_2 in N. apply N. apply in_or_app; now left. }
      unfold lift. unfold bindM at 1. rewrite (set_attr_some x k _ s1 _ Hx). cbn [o_cls o_at].
      rewrite dset_dset.
      match goal with |- exists s', fill _ _ _ _ ?u = _ /\ _ =>
        destruct (IH l0 Cjs Ai (pre ++ [Some y]) u) as (s2 & E2 & X2 & O2 & R2 & N2); [| | | | |exists s2] end.
      + intro C. destruct (Hd C) as (N & M1). split; [now rewrite <- app_assoc|]. intro I; apply M1; now right.
      + cbn [heap]. apply upd_same.
      + intros y' I'. apply Hl; now right.
      + intros z Hz Nz. cbn [heap]. rewrite upd_other by exact Nz. rewrite S1. now apply Hh.
      + intros y' z I' W. cbn [refs]. rewrite S2. eapply Hr; [right; exact I'|exact W].
      + split; [exact E2|]. split; [rewrite X2, <- app_assoc; reflexivity|]. split; [|split].
        * intros z Nz. rewrite O2 by exact Nz. cbn [heap]. rewrite upd_other by exact Nz. apply S1.
        * intro i. rewrite R2. cbn [refs]. apply S2.
        * rewrite N2. cbn [next]. exact S3.
    - match goal with [B : agrees_items _ _ js l0 |- _] => rename B into Ai end.
      inversion Hc as [|j' js' Cj Cjs]; subst. cbn [map fill work_of w_one]. unfold bindM at 1, ret at 1. unfold bindM at 1.
      rewrite (get_attr_some x k s _ _ Hx (dget_dset_same _ _ _ _)).
      unfold bindM at 1. rewrite put_item_new.
      2:{ intro C. destruct (Hd C) as (N & M1). exfalso; apply M1; now left. }
      unfold lift. unfold bindM at 1. rewrite (set_attr_some x k _ s _ Hx). cbn [o_cls o_at].
      rewrite dset_dset.
      match goal with |- exists s', fill _ _ _ _ ?u = _ /\ _ =>
        destruct (IH l0 Cjs Ai (pre ++ [None]) u) as (s2 & E2 & X2 & O2 & R2 & N2); [| | | | |exists s2] end.
      + intro C. destruct (Hd C) as (N & M1). split; [now rewrite <- app_assoc|]. intro I; apply M1; now right.
      + cbn [heap]. apply upd_same.
      + intros y' I'. apply Hl; now right.
      + intros z Hz Nz. cbn [heap]. rewrite upd_other by exact Nz. now apply Hh.
      + intros y' z I' W. cbn [refs]. eapply Hr; [right; exact I'|exact W].
      + split; [exact E2|]. split; [rewrite X2, <- app_assoc; reflexivity|]. split; [|split].
        * intros z Nz. rewrite O2 by exact Nz. cbn [heap]. now rewrite upd_other.
        * intro i. now rewrite R2.
        * now rewrite N2.
  Qed.

  Definition kept (o : obj) (kv : Z * option val) : Prop :=
    match snd kv with None => True | Some (VL _) => False | Some v => dget (fst kv) (o_at o) = Some v end.

  Lemma process_same : forall nd x o j s, calm j -> h0 x = Some o -> ready s x -> In nd (schema (o_cls o)) ->
    (exists v, dget (n_name nd) (o_at o) = Some v /\ agrees_val schema h0 j v) ->
    match j with JL js => Forall calm js | _ => True end ->
    exists r s', process nd x (work_of schema init j) s = (s', Ok r) /\ same s s' /\ kept o (n_name nd, r).
  Proof.
    intros nd x o j s Hc Hx Hrd Hnd (v & Dv & Av) Hjs.
    destruct (Htyped x o nd Hx Hnd) as (v' & Dv' & Kv). rewrite Dv in Dv'; inversion Dv'; subst v'.
    assert (Hxs : heap s x = Some o) by (rewrite <- Hx; apply (proj1 Hrd); lia).
    unfold process. destruct (n_kind nd) eqn:Ek.
    - destruct v; try contradiction. inversion Av; subst. simpl. exists (Some (VP v)), s. unfold bindM, lift, ret.
      split; [reflexivity|]. split; [apply same_refl|exact Dv].
    - destruct v as [|[y|]|]; try contradiction; inversion Av; subst.
      + assert (Rf : refers schema o y) by (exists nd, (VO (Some y)); auto).
        destruct (Hc y s H1) as (s1 & E1 & S1).
        { split.
          - intros z Hz. apply (proj1 Hrd). pose proof (Hrank _ _ _ Hx Rf). lia.
          - intros z W. apply (proj2 Hrd). eapply within_child; eassumption. }
        unfold bindM. rewrite E1. exists (Some (VO (Some y))), s1. split; [reflexivity|]. split; [exact S1|exact Dv].
      + simpl. exists (Some (VO None)), s. unfold bindM, ret. split; [reflexivity|]. split; [apply same_refl|exact Dv].
    - destruct v as [| |l]; try contradiction. inversion Av as [| | |js l' Ai]; subst. cbn [work_of w_items].
      unfold bindM at 1. rewrite (set_attr_some x _ _ s o Hxs). unfold bindM at 1, lift at 1. unfold bindM at 1.
      assert (Rf : forall y, In (Some y) l -> refers schema o y).
      { intros y I. exists nd, (VL l). split; [exact Hnd|]. split; [exact Dv|]. right. exists l. auto. }
      match goal with |- exists r s', match fill _ _ _ _ ?u with _ => _ end = _ /\ _ =>
        destruct (fill_same (is_coll Many) x (n_name nd) (o_cls o) (o_at o) js l Hjs Ai [] u)
          as (s2 & E2 & X2 & O2 & R2 & N2); [intro C; discriminate| | | | |] end.
      + cbn [heap]. apply upd_same.
      + intros y I. exact (Hrank x o y Hx (Rf y I)).
      + intros z Hz Nz. cbn [heap]. rewrite upd_other by exact Nz. now apply (proj1 Hrd).
      + intros y z I W. cbn [refs]. apply (proj2 Hrd). exact (within_child x o y z Hx (Rf y I) W).
      + rewrite E2. unfold ret. exists None, s2. split; [reflexivity|]. split; [|exact I].
        split; [|split; [intro i; rewrite R2; reflexivity|rewrite N2; reflexivity]].
        intro z. destruct (Z.eq_dec z x) as [->|Nz].
        * rewrite X2. simpl. rewrite dset_same by exact Dv. rewrite Hxs. now destruct o.
        * rewrite O2 by exact Nz. cbn [heap]. now apply upd_other.
    - destruct v as [| |l]; try contradiction. inversion Av as [| | |js l' Ai]; subst. cbn [work_of w_items].
      unfold bindM at 1. rewrite (set_attr_some x _ _ s o Hxs). unfold bindM at 1, lift at 1. unfold bindM at 1.
      assert (Rf : forall y, In (Some y) l -> refers schema o y).
      { intros y I. exists nd, (VL l). split; [exact Hnd|]. split; [exact Dv|]. right. exists l. auto. }
      match goal with |- exists r s', match fill _ _ _ _ ?u with _ => _ end = _ /\ _ =>
        destruct (fill_same (is_coll Coll) x (n_name nd) (o_cls o) (o_at o) js l Hjs Ai [] u)
          as (s2 & E2 & X2 & O2 & R2 & N2); [intro C; exact Kv| | | | |] end.
      + cbn [heap]. apply upd_same.
      + intros y I. exact (Hrank x o y Hx (Rf y I)).
      + intros z Hz Nz. cbn [heap]. rewrite upd_other by exact Nz. now apply (proj1 Hrd).
      + intros y z I W. cbn [refs]. apply (proj2 Hrd). exact (within_child x o y z Hx (Rf y I) W).
      + rewrite E2. unfold ret. exists None, s2. split; [reflexivity|]. split; [|exact I].
        split; [|split; [intro i; rewrite R2; reflexivity|rewrite N2; reflexivity]].
        intro z. destruct (Z.eq_dec z x) as [->|Nz].
        * rewrite X2. simpl. rewrite dset_same by exact Dv. rewrite Hxs. now destruct o.
        * rewrite O2 by exact Nz. cbn [heap]. now apply upd_other.
  Qed.

  Definition calm2 (j : json) : Prop := calm j /\ match j with JL js => Forall calm js | _ => True end.

  Lemma read_same : forall fs x o, Forall (fun kj => calm2 (snd kj)) fs -> h0 x = Some o ->
    (forall k j, In (k, j) fs -> updatable schema (o_cls o) k ->
       exists v, dget k (o_at o) = Some v /\ agrees_val schema h0 j v) ->
    forall nds, incl nds (schema (o_cls o)) -> forall s, ready s x ->
    exists vs s', read_all nds x (works schema init fs) s = (s', Ok vs) /\ same s s' /\ Forall (kept o) vs.
  Proof.
    intros fs x o Hc Hx Hf; induction nds as [|nd r IH]; intros Hi s Hrd; cbn [read_all].
    - exists [], s. split; [reflexivity|]. split; [apply same_refl|constructor].
    - assert (Hi' : incl r (schema (o_cls o))) by (intros a Ha; apply Hi; now right).
      destruct (n_upd nd) eqn:Eu; [|now apply IH].
      unfold works. rewrite dget_map. fold (works schema init fs).
      destruct (dget (n_name nd) fs) as [j|] eqn:Ej; simpl; [|now apply IH].
      apply dget_in in Ej.
      assert (Hnd : In nd (schema (o_cls o))) by (apply Hi; now left).
      destruct (Hf _ _ Ej) as (v & Dv & Av); [exists nd; auto|].
      assert (Hxs : heap s x = Some o) by (rewrite <- Hx; apply (proj1 Hrd); lia).
      unfold bindM at 1. rewrite (get_attr_some x _ s o v Hxs Dv).
      rewrite Forall_forall in Hc. specialize (Hc _ Ej). destruct Hc as (Hc1 & Hc2). simpl in Hc1, Hc2.
      destruct (process_same nd x o j s Hc1 Hx Hrd Hnd) as (q & s1 & E1 & S1 & K1); [eauto|exact Hc2|].
      unfold bindM at 1. rewrite E1.
      destruct (IH Hi' s1 (ready_same _ _ _ S1 Hrd)) as (vs & s2 & E2 & S2 & K2).
      unfold bindM at 1. fold (works schema init fs). rewrite E2. unfold ret.
      exists ((n_name nd, q) :: vs), s2. split; [reflexivity|]. split; [eapply same_trans; eassumption|now constructor].
  Qed.

  Lemma write_same : forall x o vs, Forall (kept o) vs -> forall s, heap s x = Some o ->
    exists s', write_all x vs false s = (s', Ok false) /\ same s s'.
  Proof.
    intros x o; induction vs as [|[k [v|]] r IH]; intros Hk s Hx; cbn [write_all].
    - exists s. split; [reflexivity|apply same_refl].
    - inversion Hk; subst. unfold kept in H1; simpl in H1.
      assert (D : dget k (o_at o) = Some v) by (destruct v; [assumption|assumption|contradiction]).
      unfold bindM at 1. rewrite (get_attr_some x k s o v Hx D).
      destruct (set_attr_same x k v s o Hx D) as (s1 & E1 & S1).
      unfold bindM at 1. rewrite E1.
      assert (attr_changed v v = false) as ->.
      { destruct v; simpl; [now rewrite Z.eqb_refl| |contradiction].
        rewrite (proj2 (oeqb_iff y y) eq_refl). reflexivity. }
      destruct (IH H2 s1) as (s2 & E2 & S2); [now rewrite (proj1 S1)|].
      exists s2. split; [exact E2|eapply same_trans; eassumption].
    - inversion Hk; subst. now apply IH.
  Qed.

  Lemma update_same : forall fs x o s, Forall (fun kj => calm2 (snd kj)) fs -> h0 x = Some o -> ready s x ->
    (forall k j, In (k, j) fs -> updatable schema (o_cls o) k ->
       exists v, dget k (o_at o) = Some v /\ agrees_val schema h0 j v) ->
    exists s', update schema x (works schema init fs) s = (s', Ok false) /\ same s s'.
  Proof.
    intros fs x o s Hc Hx Hrd Hf. unfold update.
    assert (Hxs : heap s x = Some o) by (rewrite <- Hx; apply (proj1 Hrd); lia).
    rewrite Hxs.
    destruct (read_same fs x o Hc Hx Hf (schema (o_cls o)) (fun a H => H) s Hrd) as (vs & s1 & E1 & S1 & K1).
    unfold bindM. rewrite E1.
    destruct (write_same x o vs K1 s1) as (s2 & E2 & S2); [rewrite (proj1 S1); exact Hxs|].
    exists s2. split; [exact E2|eapply same_trans; eassumption].
  Qed.

  Lemma calm_all : forall j, calm2 j.
  Proof.
    apply json_ind2.
    - split; [|exact I]. intros y s A. inversion A.
    - intro v. split; [|exact I]. intros y s A. inversion A.
    - split; [|exact I]. intros y s A. inversion A.
    - intros id c fs Hfs. split; [|exact I]. intros y s A Hrd. inversion A; subst.
      cbn [work_of w_one]. fold (works schema init fs). unfold one.
      rewrite (proj2 Hrd y (within_self _ _ _)).
      destruct (update_same fs y o s Hfs H3 Hrd H4) as (s1 & E1 & S1).
      exists s1. unfold bindM. rewrite E1. split; [reflexivity|exact S1].
    - intros l Hl. split.
      + intros y s A. inversion A.
      + eapply Forall_impl; [|exact Hl]. intros a (Ha & _). exact Ha.
  Qed.
End Round.

Theorem put_back : forall schema init s x o fs, sound schema s -> heap s x = Some o ->
  (forall k j, In (k, j) fs -> updatable schema (o_cls o) k ->
     exists v, dget k (o_at o) = Some v /\ agrees_val schema (heap s) j v) ->
  exists s', put schema init x fs s = (s', Ok false) /\ unchanged s s'.
Proof.
  intros schema init s x o fs (Hw & rank & Hr) Hx Hf.
  assert (HR : forall a oa y, heap s a = Some oa -> refers schema oa y -> (rank y < rank a)%nat).
  { intros a oa y Ha Hy. exact (proj2 (Hr a oa Ha) y Hy). }
  unfold put. set (s1 := ST _ _ _).
  destruct (update_same schema init (heap s) rank HR
     (fun a oa nd Ha Hn => proj1 (proj2 (Hw a oa Ha)) nd Hn) fs x o s1) as (s2 & E2 & (S1 & S2 & S3)).
  - apply Forall_forall. intros kj _. apply calm_all; [exact HR|].
    intros a oa nd Ha Hn. exact (proj1 (proj2 (Hw a oa Ha)) nd Hn).
  - exact Hx.
  - split; [reflexivity|]. intros z W. unfold s1, register. cbn [refs].
    apply (reg_all schema rank (heap s) HR); [apply (Hr x o Hx)|discriminate|exact W].
  - exact Hf.
  - exists s2. split; [exact E2|]. split; [exact S1|exact S3].
Qed.

(** ** What an update can touch *)
Definition mono (s s' : st) : Prop :=
  next s <= next s' /\ forall i y, refs s i = Some y -> refs s' i = Some y.
Lemma mono_refl : forall s, mono s s.
Proof. split; [lia|auto]. Qed.
Lemma mono_trans : forall a b c, mono a b -> mono b c -> mono a c.
Proof. intros a b c (A & B) (C & D). split; [lia|auto]. Qed.

Section Frame.
  Variable schema : Z -> list node.
  Variable init : Z -> dict val.
  Hypothesis Hinit : forall c k v, dget k (init c) = Some v -> targets v = [].
  Variable h0 : Z -> option obj.
  Variable x0 : Z.
  Variable n0 : Z.
  Hypothesis Hold : forall z, within schema h0 x0 z -> z < n0.

  (** New objects and those inside [x0]. *)
  Definition K (z : Z) : Prop := n0 <= z \/ within schema h0 x0 z.

  Definition inv (s : st) : Prop :=
    (forall y o, heap s y = Some o -> y < next s) /\ n0 <= next s /\
    (forall i y, refs s i = Some y -> K y /\ y < next s /\ (y = i \/ n0 <= y)) /\
    (forall z o y, K z -> heap s z = Some o -> refers schema o y -> K y /\ y < next s).
  Definition fine (s : st) (v : val) : Prop := forall y, In y (targets v) -> K y /\ y < next s.

  Lemma fine_mono : forall s s' v, mono s s' -> fine s v -> fine s' v.
  Proof. intros s s' v (A & _) F y I. destruct (F y I). split; [assumption|lia]. Qed.

  Lemma refers_fine : forall s z o k v, inv s -> K z -> heap s z = Some o ->
    (exists nd, In nd (schema (o_cls o)) /\ n_name nd = k) -> dget k (o_at o) = Some v -> fine s v.
  Proof.
    intros s z o k v (_ & _ & _ & I4) Kz Hz (nd & Hn & <-) D y I.
    apply (I4 z o y Kz Hz). exists nd, v. split; [exact Hn|]. split; [exact D|].
    destruct v as [|[w|]|l]; simpl in I; try contradiction.
    - destruct I as [<-|[]]. now left.
    - right. exists l. split; [reflexivity|]. apply in_flat_map in I.
      destruct I as ([w|] & A & B); simpl in B; [destruct B as [<-|[]]; exact A|contradiction].
  Qed.

  Lemma refers_dset : forall c d k v y, refers schema (OB c (dset k v d)) y ->
    In y (targets v) \/ refers schema (OB c d) y.
  Proof.
    intros c d k v y (nd & w & Hn & D & T). cbn [o_cls o_at] in *.
    destruct (Z.eq_dec (n_name nd) k) as [E|N].
    - rewrite E, dget_dset_same in D. inversion D; subst w. left.
      destruct T as [->|(l & -> & I)]; simpl; [now left|]. apply in_flat_map. exists (Some y). split; [exact I|now left].
    - rewrite dget_dset_other in D by exact N. right. exists nd, w. auto.
  Qed.

  Lemma set_inv : forall s x o k v s', inv s -> heap s x = Some o -> fine s v ->
    s' = ST (upd (heap s) x (Some (OB (o_cls o) (dset k v (o_at o))))) (refs s) (next s) ->
    inv s' /\ mono s s'.
  Proof.
    intros s x o k v s' (I1 & I2 & I3 & I4) Hx F ->. split; [|split; [simpl; lia|auto]].
    split; [|split; [exact I2|split; [exact I3|]]]; cbn [heap next refs].
    - intros y oy H. destruct (Z.eq_dec y x) as [->|N]; [now apply (I1 x o)|].
      rewrite upd_other in H by exact N. now apply (I1 y oy).
    - intros z oz y Kz H R. destruct (Z.eq_dec z x) as [->|N].
      + rewrite upd_same in H. inversion H; subst oz. apply refers_dset in R.
        destruct R as [I|R]; [now apply F|]. apply (I4 x o y Kz Hx). now destruct o.
      + rewrite upd_other in H by exact N. now apply (I4 z oz y).
  Qed.

  Section Names.
    Variable names : list Z.
    (** What may be changed. *)
    Definition free (y : Z) : Prop := n0 <= y \/ (In y names /\ within schema h0 x0 y).
    Definition post (s s' : st) : Prop := inv s' /\ mono s s' /\
      forall y o, heap s y = Some o -> exists o', heap s' y = Some o' /\ o_cls o' = o_cls o /\
        (n0 <= y \/ forall k, ~ updatable schema (o_cls o) k -> dget k (o_at o') = dget k (o_at o)) /\
        (~ free y -> o' = o).

    Lemma post_refl : forall s, inv s -> post s s.
    Proof. intros s H. split; [exact H|]. split; [apply mono_refl|]. intros y o E; exists o; auto 6. Qed.
    Lemma post_trans : forall a b c, post a b -> post b c -> post a c.
    Proof.
      intros a b c (A1 & A2 & A3) (B1 & B2 & B3). split; [exact B1|]. split; [eapply mono_trans; eassumption|].
      intros y o E. destruct (A3 y o E) as (o1 & E1 & C1 & U1 & F1).
      destruct (B3 y o1 E1) as (o2 & E2 & C2 & U2 & F2). exists o2. split; [exact E2|]. split; [congruence|]. split.
      - destruct U1 as [L|U1]; [now left|]. destruct U2 as [L|U2]; [now left|]. right.
        intros k N. rewrite U2, U1; [reflexivity|exact N|congruence].
      - intro N. rewrite (F2 N). auto.
    Qed.
    Lemma K_free : forall y, free y -> K y.
    Proof. intros y [H|(_ & H)]; [now left|now right]. Qed.

    Lemma set_post : forall s x o k v, inv s -> free x -> heap s x = Some o -> updatable schema (o_cls o) k ->
      fine s v -> post s (fst (set_attr x k v s)).
    Proof.
      intros s x o k v I Fx Hx U F. rewrite (set_attr_some x k v s o Hx). cbn [fst].
      destruct (set_inv s x o k v _ I Hx F eq_refl) as (A & B). split; [exact A|]. split; [exact B|].
      intros y oy H. cbn [heap]. destruct (Z.eq_dec y x) as [->|N].
      - rewrite upd_same. rewrite Hx in H; inversion H; subst oy. eexists; split; [reflexivity|].
        split; [reflexivity|]. split; [|contradiction]. right. intros k' N'. cbn [o_at]. apply dget_dset_other.
        intros ->. contradiction.
      - rewrite upd_other by exact N. exists oy. auto 6.
    Qed.

    Definition okitem (it : bool -> M (option Z)) : Prop := forall cr s, inv s ->
      post s (fst (it cr s)) /\ forall y, snd (it cr s) = Ok y -> fine (fst (it cr s)) (VO y).
    Definition okw (w : work) : Prop :=
      okitem (w_one w) /\ forall its, w_items w = Ok its -> Forall okitem its.

    Lemma put_item_fine : forall coll l y l' s, put_item coll l y = Ok l' -> fine s (VL l) -> fine s (VO y) -> fine s (VL l').
    Proof.
      intros coll l y l' s E F G.
      assert (H : fine s (VL (l ++ [y]))).
      { intros z I. simpl in I. rewrite flat_map_app in I. apply in_app_or in I. destruct I as [I|I]; [now apply F|].
        apply G. simpl in I. rewrite app_nil_r in I. destruct y; exact I. }
      unfold put_item in E. destruct coll; [|inversion E; subst; exact H].
      destruct y; [|discriminate]. destruct (existsb _ _); inversion E; subst; assumption.
    Qed.

    Lemma class_kept : forall s s' x c, post s s' -> (exists o, heap s x = Some o /\ o_cls o = c) ->
      exists o, heap s' x = Some o /\ o_cls o = c.
    Proof.
      intros s s' x c (_ & _ & P) (o & H & E). destruct (P x o H) as (o' & H' & C & _). exists o'. split; [exact H'|congruence].
    Qed.

    Lemma upd_node : forall c k, updatable schema c k -> exists nd, In nd (schema c) /\ n_name nd = k.
    Proof. intros c k (nd & A & B & _). exists nd; auto. Qed.

    Lemma fill_post : forall coll x c k items, free x -> updatable schema c k -> Forall okitem items ->
      forall s, inv s -> (exists o, heap s x = Some o /\ o_cls o = c) -> post s (fst (fill coll x k items s)).
    Proof.
      intros coll x c k items Fx U; induction items as [|it r IH]; intros Ho s I Hc; cbn [fill].
      - apply post_refl; exact I.
      - inversion Ho as [|? ? Hit Hr]; subst. destruct (Hit false s I) as (P1 & G1).
        unfold bindM at 1. destruct (it false s) as [s1 [y|e]] eqn:E1; cbn [fst snd] in *; [|exact P1].
        pose proof (class_kept _ _ _ _ P1 Hc) as (o1 & H1 & C1). pose proof (proj1 P1) as I1.
        unfold bindM at 1. unfold get_attr. rewrite H1.
        destruct (dget k (o_at o1)) as [v|] eqn:D1; [|exact P1].
        destruct v as [| |l]; try exact P1.
        unfold bindM at 1, lift. destruct (put_item coll l y) as [l'|e] eqn:E2; [|exact P1].
        assert (F2 : fine s1 (VL l')).
        { eapply put_item_fine; [exact E2| |now apply G1].
          apply (refers_fine s1 x o1 k); [exact I1|exact (K_free x Fx)|exact H1|rewrite C1; now apply upd_node|exact D1]. }
        assert (P2 := set_post s1 x o1 k (VL l') I1 Fx H1 ltac:(rewrite C1; exact U) F2).
        unfold bindM at 1. rewrite (set_attr_some x k _ s1 o1 H1) in *. cbn [fst] in P2.
        eapply post_trans; [exact P1|]. eapply post_trans; [exact P2|].
        apply IH; [exact Hr|apply P2|]. eapply class_kept; [exact P2|]. exists o1; auto.
    Qed.

    Lemma process_post : forall nd x c w, free x -> In nd (schema c) -> n_upd nd = true -> okw w ->
      forall s, inv s -> (exists o, heap s x = Some o /\ o_cls o = c) ->
      post s (fst (process nd x w s)) /\
      forall v, snd (process nd x w s) = Ok (Some v) -> fine (fst (process nd x w s)) v.
    Proof.
      intros nd x c w Fx Hn Hu (Ho & Hi) s I Hc.
      assert (U : updatable schema c (n_name nd)) by (exists nd; auto).
      assert (LST : forall coll, let m := (step _ <- set_attr x (n_name nd) (VL []);
           step items <- lift (w_items w);
           step _ <- fill coll x (n_name nd) items; ret (@None val)) in
           post s (fst (m s)) /\ forall v, snd (m s) = Ok (Some v) -> fine (fst (m s)) v).
      { intros coll m. unfold m. destruct Hc as (o & H & C).
        assert (P1 := set_post s x o (n_name nd) (VL []) I Fx H ltac:(rewrite C; exact U) ltac:(intros y [])).
        unfold bindM. rewrite (set_attr_some x _ _ s o H) in *. cbn [fst] in P1. unfold lift.
        destruct (w_items w) as [its|e] eqn:Ei; [|split; [exact P1|discriminate]].
        match goal with |- context [fill coll x (n_name nd) its ?u] => set (s1 := u) in * end.
        assert (P2 := fill_post coll x c (n_name nd) its Fx U (Hi its eq_refl) s1 (proj1 P1)
                       (class_kept _ _ _ _ P1 (ex_intro _ o (conj H C)))).
        destruct (fill coll x (n_name nd) its s1) as [s2 [[]|e]]; cbn [fst snd] in *;
          (split; [eapply post_trans; eassumption|discriminate]). }
      unfold process. destruct (n_kind nd).
      - unfold bindM, lift, ret. destruct (w_plain w); cbn [fst snd]; (split; [apply post_refl; exact I|]).
        + intros v E; inversion E; subst. intros y [].
        + discriminate.
      - destruct (Ho false s I) as (P1 & G1). unfold bindM, ret.
        destruct (w_one w false s) as [s1 [y|e]]; cbn [fst snd] in *; (split; [exact P1|]).
        + intros v E; inversion E; subst. now apply G1.
        + discriminate.
      - apply (LST (is_coll Many)).
      - apply (LST (is_coll Coll)).
    Qed.

    Definition okvals (s : st) (c : Z) (vs : list (Z * option val)) : Prop :=
      forall k v, In (k, Some v) vs -> updatable schema c k /\ fine s v.

    Lemma read_post : forall nds x c ws, free x -> incl nds (schema c) -> Forall (fun kw => okw (snd kw)) ws ->
      forall s, inv s -> (exists o, heap s x = Some o /\ o_cls o = c) ->
      post s (fst (read_all nds x ws s)) /\
      forall vs, snd (read_all nds x ws s) = Ok vs -> okvals (fst (read_all nds x ws s)) c vs.
    Proof.
      intros nds x c ws Fx; induction nds as [|nd r IH]; intros Hi Hw s I Hc; cbn [read_all].
      - split; [apply post_refl; exact I|]. intros vs E; inversion E; subst. intros k v [].
      - assert (Hi' : incl r (schema c)) by (intros a Ha; apply Hi; now right).
        destruct (n_upd nd) eqn:Eu; [|now apply IH].
        destruct (dget (n_name nd) ws) as [w|] eqn:Ew; [|now apply IH].
        apply dget_in in Ew. rewrite Forall_forall in Hw. pose proof (Hw _ Ew) as Ow. simpl in Ow.
        unfold bindM, get_attr. destruct Hc as (o & H & C). rewrite H.
        destruct (dget (n_name nd) (o_at o)) as [v0|]; [|split; [apply post_refl; exact I|discriminate]].
        destruct (process_post nd x c w Fx (Hi nd (or_introl eq_refl)) Eu Ow s I (ex_intro _ o (conj H C))) as (P1 & G1).
        destruct (process nd x w s) as [s1 [v|e]] eqn:E1; cbn [fst snd] in *; [|split; [exact P1|discriminate]].
        destruct (IH Hi' ltac:(rewrite Forall_forall; exact Hw) s1 (proj1 P1)
                    (class_kept _ _ _ _ P1 (ex_intro _ o (conj H C)))) as (P2 & G2).
        destruct (read_all r x ws s1) as [s2 [vs|e]]; cbn [fst snd ret] in *; (split; [eapply post_trans; eassumption|]); [|discriminate].
        intros vs' E; inversion E; subst. intros k v' [J|J].
        + inversion J; subst. split; [exists nd; split; [apply Hi; now left|auto]|].
          eapply fine_mono; [exact (proj1 (proj2 P2))|now apply G1].
        + exact (G2 vs eq_refl k v' J).
    Qed.

    Lemma write_post : forall x c vs, free x -> forall b s, inv s -> (exists o, heap s x = Some o /\ o_cls o = c) ->
      okvals s c vs -> post s (fst (write_all x vs b s)).
    Proof.
      intros x c vs Fx; induction vs as [|[k [v|]] r IH]; intros b s I Hc Hv; cbn [write_all].
      - apply post_refl; exact I.
      - destruct Hc as (o & H & C). destruct (Hv k v (or_introl eq_refl)) as (U & F).
        unfold bindM at 1. unfold get_attr. rewrite H. destruct (dget k (o_at o)) as [cur|]; [|apply post_refl; exact I].
        assert (P1 := set_post s x o k v I Fx H ltac:(rewrite C; exact U) F).
        unfold bindM at 1. rewrite (set_attr_some x k v s o H) in *. cbn [fst] in P1.
        eapply post_trans; [exact P1|]. apply IH; [apply P1| |].
        + eapply class_kept; [exact P1|]. exists o; auto.
        + intros k' v' J. destruct (Hv k' v' (or_intror J)) as (U' & F'). split; [exact U'|].
          eapply fine_mono; [exact (proj1 (proj2 P1))|exact F'].
      - apply IH; [exact I|exact Hc|]. intros k' v' J. apply Hv. now right.
    Qed.

    Lemma update_post : forall x ws, free x -> Forall (fun kw => okw (snd kw)) ws ->
      forall s, inv s -> post s (fst (update schema x ws s)).
    Proof.
      intros x ws Fx Hw s I. unfold update. destruct (heap s x) as [o|] eqn:H; [|apply post_refl; exact I].
      destruct (read_post (schema (o_cls o)) x (o_cls o) ws Fx (fun a H => H) Hw s I (ex_intro _ o (conj H eq_refl))) as (P1 & G1).
      unfold bindM. destruct (read_all (schema (o_cls o)) x ws s) as [s1 [vs|e]]; cbn [fst snd] in *; [|exact P1].
      eapply post_trans; [exact P1|]. apply (write_post x (o_cls o)); [exact Fx|apply P1| |now apply G1].
      eapply class_kept; [exact P1|]. exists o; auto.
    Qed.

    Lemma build_post : forall coll items, Forall okitem items -> forall l s, inv s -> fine s (VL l) ->
      post s (fst (build coll items l s)) /\
      forall l', snd (build coll items l s) = Ok l' -> fine (fst (build coll items l s)) (VL l').
    Proof.
      intros coll; induction items as [|it r IH]; intros Ho l s I F; cbn [build].
      - split; [apply post_refl; exact I|]. intros l' E; inversion E; subst. exact F.
      - inversion Ho as [|? ? Hit Hr]; subst. destruct (Hit true s I) as (P1 & G1).
        unfold bindM. destruct (it true s) as [s1 [y|e]]; cbn [fst snd] in *; [|split; [exact P1|discriminate]].
        unfold lift. destruct (put_item coll l y) as [l1|e] eqn:E2; [|split; [exact P1|discriminate]].
        assert (F1 : fine s1 (VL l1)).
        { eapply put_item_fine; [exact E2| |now apply G1]. eapply fine_mono; [exact (proj1 (proj2 P1))|exact F]. }
        destruct (IH Hr l1 s1 (proj1 P1) F1) as (P2 & G2). split; [eapply post_trans; eassumption|exact G2].
    Qed.

    Definition finevals (s : st) (vs : dict val) : Prop := forall k v, In (k, v) vs -> fine s v.
    Lemma new_post : forall nds ws, Forall (fun kw => okw (snd kw)) ws -> forall s, inv s ->
      post s (fst (new_attrs nds ws s)) /\
      forall vs, snd (new_attrs nds ws s) = Ok vs -> finevals (fst (new_attrs nds ws s)) vs.
    Proof.
      intros nds ws Hw; induction nds as [|nd r IH]; intros s I; cbn [new_attrs].
      - split; [apply post_refl; exact I|]. intros vs E; inversion E; subst. intros k v [].
      - destruct (dget (n_name nd) ws) as [w|] eqn:Ew; [|now apply IH].
        destruct (w_null w); [now apply IH|].
        apply dget_in in Ew. rewrite Forall_forall in Hw. destruct (Hw _ Ew) as (Ho & Hi). simpl in Ho, Hi.
        set (m := match n_kind nd with Plain => _ | _ => _ end).
        assert (PM : post s (fst (m s)) /\ forall v, snd (m s) = Ok v -> fine (fst (m s)) v).
        { unfold m. destruct (n_kind nd).
          - unfold bindM, lift, ret. destruct (w_plain w); cbn [fst snd]; (split; [apply post_refl; exact I|]).
            + intros v E; inversion E; subst. intros y [].
            + discriminate.
          - destruct (Ho true s I) as (P1 & G1). unfold bindM, ret.
            destruct (w_one w true s) as [s1 [y|e]]; cbn [fst snd] in *; (split; [exact P1|]).
            + intros v E; inversion E; subst. now apply G1.
            + discriminate.
          - unfold bindM, lift, ret. destruct (w_items w) as [its|e] eqn:Ei; cbn [fst snd]; [|split; [apply post_refl; exact I|discriminate]].
            destruct (build_post (is_coll Many) its (Hi its eq_refl) [] s I ltac:(intros y [])) as (P1 & G1).
            destruct (build (is_coll Many) its [] s) as [s1 [l|e]]; cbn [fst snd] in *; (split; [exact P1|]).
            + intros v E; inversion E; subst. now apply G1.
            + discriminate.
          - unfold bindM, lift, ret. destruct (w_items w) as [its|e] eqn:Ei; cbn [fst snd]; [|split; [apply post_refl; exact I|discriminate]].
            destruct (build_post (is_coll Coll) its (Hi its eq_refl) [] s I ltac:(intros y [])) as (P1 & G1).
            destruct (build (is_coll Coll) its [] s) as [s1 [l|e]]; cbn [fst snd] in *; (split; [exact P1|]).
            + intros v E; inversion E; subst. now apply G1.
            + discriminate. }
        destruct PM as (P1 & G1). unfold bindM. destruct (m s) as [s1 [v|e]]; cbn [fst snd] in *; [|split; [exact P1|discriminate]].
        destruct (IH s1 (proj1 P1)) as (P2 & G2).
        destruct (new_attrs r ws s1) as [s2 [vs|e]]; cbn [fst snd ret] in *; (split; [eapply post_trans; eassumption|]); [|discriminate].
        intros vs' E; inversion E; subst. intros k v' J.
        assert (J' : (k, v') = (n_name nd, v) \/ In (k, v') vs).
        { destruct (n_ro nd); [now right|]. destruct J as [J|J]; [left; congruence|now right]. }
        destruct J' as [J'|J'].
        + inversion J'; subst. eapply fine_mono; [exact (proj1 (proj2 P2))|now apply G1].
        + exact (G2 vs eq_refl k v' J').
    Qed.

    Lemma fold_dset_get : forall (vs : dict val) d k v,
      dget k (fold_left (fun d kv => dset (fst kv) (snd kv) d) vs d) = Some v ->
      In (k, v) vs \/ dget k d = Some v.
    Proof.
      induction vs as [|[k' v'] r IH]; intros d k v H; simpl in *; [now right|].
      apply IH in H. destruct H as [H|H]; [left; now right|].
      destruct (Z.eq_dec k k') as [->|N].
      - rewrite dget_dset_same in H. inversion H; subst. left; now left.
      - rewrite dget_dset_other in H by exact N. now right.
    Qed.

    Lemma register_inv : forall s r x, inv s -> K x -> x < next s ->
      (forall i y, r i = Some y -> K y /\ y < next s /\ (y = i \/ n0 <= y)) ->
      forall i y, register schema s r x i = Some y -> K y /\ y < next s /\ (y = i \/ n0 <= y).
    Proof.
      intros s r x (I1 & I2 & I3 & I4) Kx Lx Hr i y H. unfold register in H.
      apply (reg_only schema (fun z => K z /\ z < next s)) in H; [| |auto].
      - destruct H as [H|(-> & A & B)]; [now apply Hr|]. auto.
      - intros z o w (Kz & _) Hz R. exact (I4 z o w Kz Hz R).
    Qed.

    Lemma create_post : forall id c ws, Forall (fun kw => okw (snd kw)) ws -> forall s, inv s ->
      post s (fst (create schema init id c ws s)) /\
      forall y, snd (create schema init id c ws s) = Ok y ->
        exists z, y = Some z /\ K z /\ z < next (fst (create schema init id c ws s)) /\ (n0 <= z \/ id = Some z).
    Proof.
      intros id c ws Hw s I. unfold create, bindM.
      destruct (new_post (schema c) ws Hw s I) as (P1 & G1).
      destruct (new_attrs (schema c) ws s) as [s1 [vs|e]]; cbn [fst snd] in *; [|split; [exact P1|discriminate]].
      specialize (G1 vs eq_refl). pose proof (proj1 P1) as IS1. destruct IS1 as (I1 & I2 & I3 & I4).
      destruct (match id with Some i => refs s1 i | None => None end) as [z|] eqn:Ez; cbn [fst snd].
      - split; [exact P1|]. intros y E; inversion E; subst. exists z. split; [reflexivity|].
        destruct id as [i|]; [|discriminate]. destruct (I3 i z Ez) as (A & B & C). split; [exact A|]. split; [exact B|].
        destruct C as [->|C]; [now right|now left].
      - set (x := next s1). set (o := OB c _).
        set (s2 := ST (upd (heap s1) x (Some o)) (refs s1) (x + 1)).
        assert (FO : forall y, refers schema o y -> K y /\ y < next s1).
        { intros y (nd & v & Hn & D & T). cbn [o o_at] in D. apply fold_dset_get in D.
          assert (IN : In y (targets v)).
          { destruct T as [->|(l & -> & J)]; simpl; [now left|]. apply in_flat_map. exists (Some y). split; [exact J|now left]. }
          destruct D as [D|D]; [exact (G1 _ _ D y IN)|]. rewrite (Hinit _ _ _ D) in IN. destruct IN. }
        assert (IV2 : inv s2).
        { split; [|split; [simpl; unfold x; lia|split]]; cbn [s2 heap refs next].
          - intros y oy H. destruct (Z.eq_dec y x) as [->|N]; [lia|]. rewrite upd_other in H by exact N.
            specialize (I1 y oy H). unfold x; lia.
          - intros i y H. destruct (I3 i y H) as (A & B & C). split; [exact A|]. split; [unfold x; lia|exact C].
          - intros z oz y Kz H R. destruct (Z.eq_dec z x) as [->|N].
            + rewrite upd_same in H. inversion H; subst oz. destruct (FO y R). split; [assumption|unfold x; lia].
            + rewrite upd_other in H by exact N. destruct (I4 z oz y Kz H R). split; [assumption|unfold x; lia]. }
        assert (KX : K x) by (left; exact I2).
        assert (RI : forall i y, register schema s2 (refs s2) x i = Some y -> K y /\ y < next s2 /\ (y = i \/ n0 <= y)).
        { apply register_inv; [exact IV2|exact KX|simpl; lia|]. apply IV2. }
        set (r' := match id with Some i => upd _ i (Some x) | None => _ end).
        assert (RI' : forall i y, r' i = Some y -> K y /\ y < next s2 /\ (y = i \/ n0 <= y)).
        { intros i y H. unfold r' in H. destruct id as [j|]; [|now apply RI].
          destruct (Z.eq_dec i j) as [->|N]; [|rewrite upd_other in H by exact N; now apply RI].
          rewrite upd_same in H. inversion H; subst y. split; [exact KX|]. split; [simpl; lia|]. right. exact I2. }
        split.
        + eapply post_trans; [exact P1|]. destruct IV2 as (J1 & J2 & J3 & J4).
          split; [split; [exact J1|split; [exact J2|split; [exact RI'|exact J4]]]|]. split.
          * split; [simpl; unfold x; lia|]. intros i y H. cbn [refs]. unfold r'. destruct id as [j|].
            -- destruct (Z.eq_dec i j) as [->|N]; [congruence|]. rewrite upd_other by exact N. now apply reg_mono.
            -- now apply reg_mono.
          * intros y oy H. exists oy. split; [|auto 6]. cbn [heap s2]. rewrite upd_other; [exact H|].
            specialize (I1 y oy H). unfold x; lia.
        + intros y E; inversion E; subst. exists x. split; [reflexivity|]. split; [exact KX|]. split; [simpl; lia|]. left. exact I2.
    Qed.

    (** What is found for an item: the object known by its id, else a new
        one, or one that became known by that id meanwhile. *)
    Definition found (s s' : st) (id : option Z) (y : option Z) : Prop :=
      exists z, y = Some z /\ K z /\ z < next s' /\
        match id with
        | Some i => refs s i = Some z \/ (refs s i = None /\ (n0 <= z \/ z = i))
        | None => n0 <= z
        end.

    Lemma one_post : forall id c ws, Forall (fun kw => okw (snd kw)) ws ->
      (forall i, id = Some i -> In i names) -> forall cr s, inv s ->
      post s (fst (one schema init id c ws cr s)) /\
      forall y, snd (one schema init id c ws cr s) = Ok y -> found s (fst (one schema init id c ws cr s)) id y.
    Proof.
      intros id c ws Hw Hid cr s I. unfold one.
      destruct (match id with Some i => refs s i | None => None end) as [x|] eqn:Ex.
      - destruct id as [i|]; [|discriminate]. pose proof I as IS. destruct IS as (I1 & I2 & I3 & I4).
        destruct (I3 i x Ex) as (A & B & C).
        assert (Fx : free x).
        { destruct C as [->|C]; [|now left]. destruct A as [A|A]; [now left|right; auto]. }
        destruct cr.
        + set (s1 := ST (heap s) (register schema s (fun _ => None) x) (next s)).
          assert (IV1 : inv s1).
          { split; [exact I1|split; [exact I2|split; [|exact I4]]]. cbn [refs s1 next].
            apply register_inv; [exact I|exact A|exact B|discriminate]. }
          assert (P1 := update_post x ws Fx Hw s1 IV1).
          assert (PP : forall s2, post s1 s2 -> post s (ST (heap s2) (refs s) (next s2))).
          { intros s2 ((J1 & J2 & J3 & J4) & (M1 & _) & F). cbn [s1 next] in M1. split; [split; [exact J1|split; [exact J2|split; [|exact J4]]]|].
            - intros j y H. cbn [next]. destruct (I3 j y H) as (A' & B' & C'). split; [exact A'|]. split; [lia|exact C'].
            - split; [split; [exact M1|auto]|]. exact F. }
          destruct (update schema x ws s1) as [s2 [b|e]]; cbn [fst snd] in *; (split; [apply PP; exact P1|]); [|discriminate].
          intros y E; inversion E; subst. exists x. split; [reflexivity|]. split; [exact A|]. split; [|now left].
          cbn [next]. destruct P1 as (_ & (M1 & _) & _). cbn [s1 next] in M1. lia.
        + assert (P1 := update_post x ws Fx Hw s I). unfold bindM, ret.
          destruct (update schema x ws s) as [s2 [b|e]]; cbn [fst snd] in *; (split; [exact P1|]); [|discriminate].
          intros y E; inversion E; subst. exists x. split; [reflexivity|]. split; [exact A|]. split; [|now left].
          destruct P1 as (_ & (M1 & _) & _). lia.
      - destruct c as [c|]; cbn [fst snd]; [|split; [apply post_refl; exact I|discriminate]].
        destruct (create_post id c ws Hw s I) as (P1 & G1). split; [exact P1|].
        intros y E. destruct (G1 y E) as (z & -> & A & B & C). exists z. split; [reflexivity|]. split; [exact A|]. split; [exact B|].
        destruct id as [i|].
        + right. split; [exact Ex|]. destruct C as [C|C]; [now left|right; congruence].
        + destruct C as [C|C]; [exact C|discriminate].
    Qed.

    Lemma found_fine : forall s s' id y, found s s' id y -> fine s' (VO y).
    Proof. intros s s' id y (z & -> & A & B & _) w [<-|[]]. auto. Qed.

    Lemma work_ok : forall j, incl (named j) names -> okw (work_of schema init j).
    Proof.
      apply (json_ind2 (fun j => incl (named j) names -> okw (work_of schema init j))).
      - intros _. split; [|discriminate]. intros cr s I. cbn [work_of w_one ret fst snd].
        split; [apply post_refl; exact I|]. intros y E; inversion E; subst. intros z [].
      - intros v _. split; [|discriminate]. intros cr s I. split; [apply post_refl; exact I|discriminate].
      - intros _. split; [|discriminate]. intros cr s I. split; [apply post_refl; exact I|discriminate].
      - intros id c fs IH Hn. cbn [named] in Hn. split; [|discriminate]. intros cr s I.
        cbn [work_of w_one]. fold (works schema init fs).
        assert (Hw : Forall (fun kw => okw (snd kw)) (works schema init fs)).
        { apply Forall_forall. intros kw Ikw. unfold works in Ikw. apply in_map_iff in Ikw.
          destruct Ikw as (kj & <- & Ikj). cbn [snd]. rewrite Forall_forall in IH. apply (IH kj Ikj).
          intros i Ii. apply Hn. apply in_or_app. right. apply in_flat_map. exists kj; auto. }
        assert (Hid : forall i, id = Some i -> In i names).
        { intros i ->. apply Hn. now left. }
        destruct (one_post id c (works schema init fs) Hw Hid cr s I) as (P1 & G1).
        split; [exact P1|]. intros y E. exact (found_fine _ _ _ _ (G1 y E)).
      - intros l IH Hn. cbn [named] in Hn. split.
        + intros cr s I. split; [apply post_refl; exact I|discriminate].
        + intros its E. cbn [work_of w_items] in E. inversion E; subst its. apply Forall_forall. intros it Iit.
          apply in_map_iff in Iit. destruct Iit as (j & <- & Ij). rewrite Forall_forall in IH.
          apply (IH j Ij). intros i Ii. apply Hn. apply in_flat_map. exists j; auto.
    Qed.

    Lemma works_ok : forall fs, incl (named_in fs) names -> Forall (fun kw => okw (snd kw)) (works schema init fs).
    Proof.
      intros fs Hn. apply Forall_forall. intros kw Ikw. unfold works in Ikw. apply in_map_iff in Ikw.
      destruct Ikw as (kj & <- & Ikj). cbn [snd]. apply work_ok.
      intros i Ii. apply Hn. apply in_flat_map. exists kj; auto.
    Qed.
  End Names.
End Frame.

Lemma start_inv : forall schema s x o, sound schema s -> heap s x = Some o ->
  (forall z, within schema (heap s) x z -> heap s z <> None /\ z < next s) /\
  inv schema (heap s) x (next s) (ST (heap s) (register schema s (fun _ => None) x) (next s)) /\
  (forall z, within schema (heap s) x z -> register schema s (fun _ => None) x z = Some z).
Proof.
  intros schema s x o (Hw & rank & Hr) Hx.
  assert (EX : forall z, within schema (heap s) x z -> heap s z <> None).
  { intros z W. destruct W as [|y oy z W Hy R]; [congruence|]. exact (proj2 (proj2 (Hw y oy Hy)) z R). }
  assert (LT : forall z, within schema (heap s) x z -> z < next s).
  { intros z W. destruct (heap s z) as [oz|] eqn:E; [|now apply EX in W]. apply (Hw z oz E). }
  split; [auto|]. split.
  - split; [intros y oy H; apply (Hw y oy H)|]. split; [cbn [next]; lia|]. cbn [heap refs next]. split.
    + intros i y H. unfold register in H.
      apply (reg_only schema (within schema (heap s) x)) in H; [|intros; econstructor; eassumption|constructor].
      destruct H as [H|(-> & W)]; [discriminate|]. split; [now right|]. auto.
    + intros z oz y [Kz|Kz] H R.
      * destruct (Hw z oz H) as ((_ & L) & _). lia.
      * assert (W : within schema (heap s) x y) by (econstructor; eassumption). split; [now right|auto].
  - intros z W. unfold register. apply (reg_all schema rank (heap s)); [|apply (Hr x o Hx)|discriminate|exact W].
    intros a oa y Ha Hy. exact (proj2 (Hr a oa Ha) y Hy).
Qed.

(** After an update, failed or not, an object is changed only if it is [x]
    or is inside [x] and named, and only in attributes that may be updated. *)
Theorem put_frame : forall schema init s x o fs, sound schema s ->
  (forall c k v, dget k (init c) = Some v -> targets v = []) -> heap s x = Some o ->
  forall y oy, heap s y = Some oy ->
  exists oy', heap (fst (put schema init x fs s)) y = Some oy' /\ o_cls oy' = o_cls oy /\
  (forall k, ~ updatable schema (o_cls oy) k -> dget k (o_at oy') = dget k (o_at oy)) /\
  (~ (y = x \/ (In y (named_in fs) /\ within schema (heap s) x y)) -> oy' = oy).
Proof.
  intros schema init s x o fs HS HI Hx y oy Hy.
  destruct (start_inv schema s x o HS Hx) as (EX & I & RA).
  unfold put. set (s1 := ST (heap s) _ _) in *.
  assert (Hold : forall z, within schema (heap s) x z -> z < next s) by (intros z W; apply (EX z W)).
  assert (P := update_post schema init HI (heap s) x (next s) Hold (x :: named_in fs) x (works schema init fs)
     ltac:(right; split; [now left|constructor])
     (works_ok schema init HI (heap s) x (next s) Hold (x :: named_in fs) fs ltac:(intros i Ii; now right)) s1 I).
  destruct P as (_ & _ & P). destruct (P y oy Hy) as (oy' & A & B & C & D). exists oy'.
  split; [exact A|]. split; [exact B|]. 
  assert (Ly : y < next s) by (apply (proj1 HS y oy Hy)).
  split; [destruct C as [C|C]; [lia|exact C]|].
  intro N. apply D. intros [F|([->|F] & W)]; [lia|apply N; now left|apply N; right; auto].
Qed.

(** ** What an update writes *)
Section Effect.
  Variable schema : Z -> list node.
  Variable init : Z -> dict val.
  Hypothesis Hinit : forall c k v, dget k (init c) = Some v -> targets v = [].
  Variable s0 : st.
  (** The object that is updated from outside, and one inside it (or itself). *)
  Variable x t : Z.
  Hypothesis Hwt : within schema (heap s0) x t.
  Variable names : list Z.
  Hypothesis Hout : ~ In t names.
  Hypothesis Hx0 : t < next s0.
  Hypothesis Hold : forall z, within schema (heap s0) x z -> z < next s0.

  Definition full (s : st) : Prop := forall z, within schema (heap s0) x z -> refs s z = Some z.
  Definition good (s : st) : Prop := inv schema (heap s0) x (next s0) s /\ full s.
  Lemma good_post : forall s s', good s -> post schema (heap s0) x (next s0) names s s' ->
    good s' /\ mono s s' /\ forall o, heap s t = Some o -> heap s' t = Some o.
  Proof.
    intros s s' (I & F) (I' & (M1 & M2) & P). split; [split; [exact I'|intros z W; apply M2; now apply F]|].
    split; [split; assumption|]. intros o H. destruct (P t o H) as (o' & H' & _ & _ & E).
    rewrite H'. f_equal. apply E. intros [L|(L & _)]; [lia|contradiction].
  Qed.

  Lemma registered : forall i c ws cr s s' z, w_one (WK (Raise ValueErr) (one schema init (Some i) c ws) (Raise AttrErr) false) cr s = (s', Ok (Some z)) ->
    mono s s' -> refs s' i = Some z.
  Proof.
    intros i c ws cr s s' z E (_ & M1). cbn [w_one] in E. unfold one in E. destruct (refs s i) as [y|] eqn:Er.
    - apply M1 in Er. destruct cr.
      + destruct (update schema y ws _) as [s2 [b|e]]; inversion E; subst; exact Er.
      + unfold bindM, ret in E. destruct (update schema y ws s) as [s2 [b|e]]; inversion E; subst; exact Er.
    - destruct c as [c|]; [|discriminate]. unfold create, bindM in E.
      destruct (new_attrs (schema c) ws s) as [s1 [vs|e]]; [|discriminate].
      destruct (refs s1 i) as [y|] eqn:E1; inversion E; subst; [exact E1|]. cbn [refs]. apply upd_same.
  Qed.
  Lemma item_known : forall j cr s s' y, incl (named j) names -> good s ->
    w_one (work_of schema init j) cr s = (s', Ok y) -> stands_for schema (refs s') s0 s' x j y.
  Proof.
    intros j cr s s' y Hn (I & F) E. destruct j as [|v| |id c fs|l]; try (destruct cr; discriminate).
    - inversion E; subst. left; auto.
    - right. pose proof E as E'. cbn [work_of w_one] in E. fold (works schema init fs) in E. cbn [named] in Hn.
      assert (Hw := works_ok schema init Hinit (heap s0) x (next s0) Hold names fs
        ltac:(intros i Ii; apply Hn; apply in_or_app; now right)).
      destruct (one_post schema init Hinit (heap s0) x (next s0) Hold names id c (works schema init fs) Hw
        ltac:(intros i ->; apply Hn; now left) cr s I) as (P & G).
      rewrite E in G, P. cbn [fst snd] in G, P. destruct (G y eq_refl) as (z & -> & Kz & Lz & D). clear G.
      exists id, c, fs, z. split; [reflexivity|]. split; [reflexivity|]. split.
      { intros i ->. exact (registered i c _ cr s s' z E' (proj1 (proj2 P))). }
      destruct id as [i|].
      + destruct D as [D|(D & C)].
        * destruct Kz as [Kz|Kz].
          -- right. split; [|auto]. intros i' E2 W. inversion E2; subst i'. rewrite (F i W) in D. inversion D; subst.
             apply Hold in W. lia.
          -- left. destruct I as (_ & _ & I3 & _). destruct (I3 i z D) as (_ & _ & [->|L]); [auto|].
             apply Hold in Kz. lia.
        * right. split.
          -- intros i' E2 W. inversion E2; subst i'. rewrite (F i W) in D. discriminate.
          -- split; [|exact Lz]. destruct C as [C| ->]; [exact C|].
             destruct Kz as [Kz|Kz]; [exact Kz|]. rewrite (F i Kz) in D. discriminate.
      + right. split; [discriminate|]. auto.
  Qed.
  Lemma stands_mono : forall s s' j y, mono s s' -> stands_for schema (refs s) s0 s x j y -> stands_for schema (refs s') s0 s' x j y.
  Proof.
    intros s s' j y (L & M1) [H|(id & c & fs & z & E & Ez & R & H)]; [now left|]. right. exists id, c, fs, z.
    split; [exact E|]. split; [exact Ez|]. split; [intros i Ei; apply M1; now apply R|].
    destruct H as [H|(H & Lz)]; [now left|]. right. split; [exact H|lia].
  Qed.
  Lemma means_mono : forall s s' k j v, mono s s' -> means schema (refs s) s0 s x k j v -> means schema (refs s') s0 s' x k j v.
  Proof.
    intros s s' k j v L H. destruct k; simpl in *; [exact H| | |].
    - destruct H as (y & -> & H). exists y. split; [reflexivity|]. eapply stands_mono; eassumption.
    - destruct H as (js & l & -> & -> & H). exists js, l. split; [reflexivity|]. split; [reflexivity|].
      eapply Forall2_impl; [|exact H]. intros; eapply stands_mono; eassumption.
    - destruct H as (js & l & -> & -> & H & N). exists js, l. split; [reflexivity|]. split; [reflexivity|]. split; [|exact N].
      eapply Forall2_impl; [|exact H]. intros; eapply stands_mono; eassumption.
  Qed.

  Definition but (k : Z) (o o' : obj) : Prop :=
    o_cls o' = o_cls o /\ forall k', k' <> k -> dget k' (o_at o') = dget k' (o_at o).

  Lemma fill_effect : forall coll k js, incl (flat_map named js) names ->
    forall pre s o, good s -> heap s t = Some o -> dget k (o_at o) = Some (VL pre) ->
    (exists nd, In nd (schema (o_cls o)) /\ n_name nd = k) ->
    let out := fill coll t k (map (fun j => w_one (work_of schema init j)) js) s in
    good (fst out) /\ mono s (fst out) /\
    exists o', heap (fst out) t = Some o' /\ but k o o' /\
      (snd out = Ok tt -> exists l, dget k (o_at o') = Some (VL (if coll then add_all pre l else pre ++ l)) /\
         Forall2 (stands_for schema (refs (fst out)) s0 (fst out) x) js l /\ (coll = true -> ~ In None l)).
  Proof.
    intros coll k js; induction js as [|j js IH]; intros Hn pre s o G Hx D Hk; cbn [map fill].
    - split; [exact G|]. split; [apply mono_refl|]. exists o. split; [exact Hx|]. split; [split; auto|].
      intros _. exists []. simpl. rewrite app_nil_r. split; [destruct coll; exact D|]. split; [constructor|auto].
    - cbn [flat_map] in Hn.
      assert (Hj : incl (named j) names) by (intros a Ha; apply Hn; apply in_or_app; now left).
      assert (Hjs : incl (flat_map named js) names) by (intros a Ha; apply Hn; apply in_or_app; now right).
      destruct (work_ok schema init Hinit (heap s0) x (next s0) Hold names j Hj) as (Ok1 & _).
      destruct (Ok1 false s (proj1 G)) as (P1 & F1). destruct (good_post _ _ G P1) as (G1 & L1 & X1).
      unfold bindM, lift. destruct (w_one (work_of schema init j) false s) as [s1 [y|e]] eqn:E1; cbn [fst snd] in *.
      2:{ split; [exact G1|]. split; [exact L1|]. exists o. split; [now apply X1|]. split; [split; auto|discriminate]. }
      assert (S1 := item_known j false s s1 y Hj G E1). assert (H1 := X1 o Hx).
      rewrite (get_attr_some t k s1 o _ H1 D).
      destruct (put_item coll pre y) as [l'|e] eqn:E2; cbn [fst snd].
      2:{ split; [exact G1|]. split; [exact L1|]. exists o. split; [exact H1|]. split; [split; auto|discriminate]. }
      rewrite (set_attr_some t k (VL l') s1 o H1).
      match goal with |- context [fill coll t k _ ?u] => set (s2 := u) end.
      assert (F2 : fine schema (heap s0) x (next s0) s1 (VL l')).
      { eapply put_item_fine; [exact E2| |now apply F1].
        apply (refers_fine schema (heap s0) x (next s0) s1 t o k); [apply G1|right; exact Hwt|exact H1|exact Hk|exact D]. }
      destruct (set_inv schema init Hinit (heap s0) x (next s0) Hold s1 t o k (VL l') s2 (proj1 G1) H1 F2 eq_refl) as (I2 & M2).
      assert (G2 : good s2) by (split; [exact I2|intros z W; apply (proj2 M2); apply G1; exact W]).
      assert (H2 : heap s2 t = Some (OB (o_cls o) (dset k (VL l') (o_at o)))) by (cbn [s2 heap]; apply upd_same).
      specialize (IH Hjs l' s2 _ G2 H2 (dget_dset_same _ _ _ _) Hk).
      destruct IH as (A & B & o' & C & (D1 & D2) & E).
      split; [exact A|]. split; [eapply mono_trans; [exact L1|eapply mono_trans; eassumption]|]. exists o'. split; [exact C|]. split.
      { split; [exact D1|]. intros k' N. rewrite D2 by exact N. cbn [o_at]. now apply dget_dset_other. }
      intro R. destruct (E R) as (l & E3 & E4 & E5). exists (y :: l). unfold put_item in E2. destruct coll.
      + destruct y as [y|]; [|discriminate]. inversion E2; subst l'. split; [exact E3|]. split.
        * constructor; [|exact E4]. eapply stands_mono; [|exact S1]. eapply mono_trans; eassumption.
        * intros _ [J|J]; [discriminate|exact (E5 eq_refl J)].
      + inversion E2; subst l'. rewrite <- app_assoc in E3. split; [exact E3|]. split; [|discriminate].
        constructor; [|exact E4]. eapply stands_mono; [|exact S1]. eapply mono_trans; eassumption.
  Qed.

  Lemma process_effect : forall nd j, incl (named j) names -> forall s o, good s -> heap s t = Some o ->
    In nd (schema (o_cls o)) ->
    let out := process nd t (work_of schema init j) s in
    good (fst out) /\ mono s (fst out) /\
    exists o', heap (fst out) t = Some o' /\ but (n_name nd) o o' /\
      (~ is_list (n_kind nd) -> o' = o /\ forall r, snd out = Ok r -> exists v, r = Some v /\ (forall l, v <> VL l) /\
          means schema (refs (fst out)) s0 (fst out) x (n_kind nd) j v) /\
      (is_list (n_kind nd) -> forall r, snd out = Ok r -> r = None /\
          exists v, dget (n_name nd) (o_at o') = Some v /\ means schema (refs (fst out)) s0 (fst out) x (n_kind nd) j v).
  Proof.
    intros nd j Hn s o G Hx Hk.
    assert (LST : forall coll, let out := (step _ <- set_attr t (n_name nd) (VL []);
           step items <- lift (w_items (work_of schema init j));
           step _ <- fill coll t (n_name nd) items; ret (@None val)) s in
       good (fst out) /\ mono s (fst out) /\
       exists o', heap (fst out) t = Some o' /\ but (n_name nd) o o' /\
         forall r, snd out = Ok r -> r = None /\ exists js l, j = JL js /\
           dget (n_name nd) (o_at o') = Some (VL (if coll then firsts l else l)) /\
           Forall2 (stands_for schema (refs (fst out)) s0 (fst out) x) js l /\ (coll = true -> ~ In None l)).
    { intros coll out. subst out. unfold bindM. rewrite (set_attr_some t _ _ s o Hx).
      match goal with |- context [lift _ ?u] => set (s1 := u) end.
      destruct (set_inv schema init Hinit (heap s0) x (next s0) Hold s t o (n_name nd) (VL []) s1 (proj1 G) Hx
                  ltac:(intros y []) eq_refl) as (I1 & M1).
      assert (G1 : good s1) by (split; [exact I1|intros z W; apply (proj2 M1); apply G; exact W]).
      assert (H1 : heap s1 t = Some (OB (o_cls o) (dset (n_name nd) (VL []) (o_at o)))) by (cbn [s1 heap]; apply upd_same).
      unfold lift. destruct (w_items (work_of schema init j)) as [its|e] eqn:Ei; cbn [fst snd].
      2:{ split; [exact G1|]. split; [exact M1|]. eexists. split; [exact H1|]. split; [|discriminate].
          split; [reflexivity|]. intros k' N. cbn [o_at]. now apply dget_dset_other. }
      destruct j as [| | | |js]; try discriminate. cbn [work_of w_items] in Ei. inversion Ei; subst its.
      pose proof (fill_effect coll (n_name nd) js Hn [] s1 _ G1 H1 (dget_dset_same _ _ _ _)
                    (ex_intro _ nd (conj Hk eq_refl))) as FE.
      cbv zeta in FE. cbn [o_cls] in FE.
      destruct (fill coll t (n_name nd) (map (fun j => w_one (work_of schema init j)) js) s1) as [s2 [[]|e]]; cbn [fst snd ret] in *;
        destruct FE as (A & B & o' & C & (D1 & D2) & E); (split; [exact A|]); (split; [exact (mono_trans _ _ _ M1 B)|]);
        exists o'; (split; [exact C|]); (split; [split; [exact D1|intros k' N; rewrite D2 by exact N; cbn [o_at]; now apply dget_dset_other]|]).
      - intros r R; inversion R; subst r. split; [reflexivity|]. destruct (E eq_refl) as (l & E1 & E2 & E3).
        exists js, l. split; [reflexivity|]. split; [|auto]. destruct coll; [now rewrite add_all_nil in E1|exact E1].
      - discriminate. }
    unfold process. unfold is_list. destruct (n_kind nd) eqn:Ek; cbv zeta.
    - unfold bindM, lift, ret. destruct (w_plain (work_of schema init j)) as [a|e] eqn:Ep; cbn [fst snd];
        (split; [exact G|]); (split; [apply mono_refl|]); exists o; (split; [exact Hx|]); (split; [split; auto|]); (split; [|intros [?|?]; discriminate]);
        intros _; (split; [reflexivity|]); intros r R; [|discriminate].
      inversion R; subst r. exists (VP a). split; [reflexivity|]. split; [discriminate|]. exists a. split; [|reflexivity].
      destruct j; cbn [work_of w_plain] in Ep; try discriminate. congruence.
    - destruct (work_ok schema init Hinit (heap s0) x (next s0) Hold names j Hn) as (Ok1 & _).
      destruct (Ok1 false s (proj1 G)) as (P1 & F1). destruct (good_post _ _ G P1) as (G1 & L1 & X1).
      unfold bindM, ret. destruct (w_one (work_of schema init j) false s) as [s1 [y|e]] eqn:E1; cbn [fst snd] in *;
        (split; [exact G1|]); (split; [exact L1|]); exists o; (split; [now apply X1|]); (split; [split; auto|]); (split; [|intros [?|?]; discriminate]);
        intros _; (split; [reflexivity|]); intros r R; [|discriminate].
      inversion R; subst r. exists (VO y). split; [reflexivity|]. split; [discriminate|]. exists y. split; [reflexivity|].
      exact (item_known j false s s1 y Hn G E1).
    - destruct (LST (is_coll Many)) as (A & B & o' & C & D & E). split; [exact A|]. split; [exact B|]. exists o'.
      split; [exact C|]. split; [exact D|]. split; [intros N; exfalso; apply N; auto|]. intros _ r R.
      destruct (E r R) as (-> & js & l & -> & E1 & E2 & E3). split; [reflexivity|].
      eexists. split; [exact E1|]. exists js, l. split; [reflexivity|]. split; [reflexivity|exact E2].
    - destruct (LST (is_coll Coll)) as (A & B & o' & C & D & E). split; [exact A|]. split; [exact B|]. exists o'.
      split; [exact C|]. split; [exact D|]. split; [intros N; exfalso; apply N; auto|]. intros _ r R.
      destruct (E r R) as (-> & js & l & -> & E1 & E2 & E3). split; [reflexivity|].
      eexists. split; [exact E1|]. exists js, l. split; [reflexivity|]. split; [reflexivity|]. split; [exact E2|now apply E3].
  Qed.

  Lemma kind_dec : forall k, is_list k \/ ~ is_list k.
  Proof. intros []; unfold is_list; [right|right|left|left]; auto; intros [?|?]; discriminate. Qed.

  Lemma read_effect : forall fs, incl (named_in fs) names ->
    forall nds, NoDup (map n_name nds) -> forall s o, good s -> heap s t = Some o ->
    incl nds (schema (o_cls o)) -> (forall nd, In nd nds -> dget (n_name nd) (o_at o) <> None) ->
    let out := read_all nds t (works schema init fs) s in
    good (fst out) /\ mono s (fst out) /\
    exists o', heap (fst out) t = Some o' /\ o_cls o' = o_cls o /\
      (forall k, ~ list_sent nds fs k -> dget k (o_at o') = dget k (o_at o)) /\
      (forall vs, snd out = Ok vs ->
         NoDup (map fst vs) /\ (forall k, In k (map fst vs) -> In k (map n_name nds)) /\
         (forall k v, In (k, Some v) vs -> (forall l, v <> VL l) /\ exists nd j, In nd nds /\ n_upd nd = true /\ n_name nd = k /\
            ~ is_list (n_kind nd) /\ dget k fs = Some j /\ means schema (refs (fst out)) s0 (fst out) x (n_kind nd) j v) /\
         (forall nd j, In nd nds -> n_upd nd = true -> dget (n_name nd) fs = Some j ->
            (is_list (n_kind nd) -> exists v, dget (n_name nd) (o_at o') = Some v /\ means schema (refs (fst out)) s0 (fst out) x (n_kind nd) j v) /\
            (~ is_list (n_kind nd) -> exists v, In (n_name nd, Some v) vs))).
  Proof.
    intros fs Hn; induction nds as [|nd r IH]; intros ND s o G Hx Hi Hd; cbn [read_all].
    - split; [exact G|]. split; [apply mono_refl|]. exists o. split; [exact Hx|]. split; [reflexivity|]. split; [auto|].
      intros vs E; inversion E; subst. split; [constructor|]. split; [auto|]. split; [intros k v []|intros nd j []].
    - cbn [map] in ND. inversion ND as [|? ? ND1 ND2]; subst.
      assert (Hi' : incl r (schema (o_cls o))) by (intros a Ha; apply Hi; now right).
      assert (Hd' : forall nd, In nd r -> dget (n_name nd) (o_at o) <> None) by (intros a Ha; apply Hd; now right).
      assert (SKIP : (n_upd nd = false \/ dget (n_name nd) fs = None) ->
        let out := read_all r t (works schema init fs) s in
        good (fst out) /\ mono s (fst out) /\
        exists o', heap (fst out) t = Some o' /\ o_cls o' = o_cls o /\
          (forall k, ~ list_sent (nd :: r) fs k -> dget k (o_at o') = dget k (o_at o)) /\
          (forall vs, snd out = Ok vs ->
             NoDup (map fst vs) /\ (forall k, In k (map fst vs) -> In k (map n_name (nd :: r))) /\
             (forall k v, In (k, Some v) vs -> (forall l, v <> VL l) /\ exists nd0 j, In nd0 (nd :: r) /\ n_upd nd0 = true /\ n_name nd0 = k /\
                ~ is_list (n_kind nd0) /\ dget k fs = Some j /\ means schema (refs (fst out)) s0 (fst out) x (n_kind nd0) j v) /\
             (forall nd0 j, In nd0 (nd :: r) -> n_upd nd0 = true -> dget (n_name nd0) fs = Some j ->
                (is_list (n_kind nd0) -> exists v, dget (n_name nd0) (o_at o') = Some v /\ means schema (refs (fst out)) s0 (fst out) x (n_kind nd0) j v) /\
                (~ is_list (n_kind nd0) -> exists v, In (n_name nd0, Some v) vs)))).
      { intros SK. destruct (IH ND2 s o G Hx Hi' Hd') as (A & B & o' & C & D & E & F).
        split; [exact A|]. split; [exact B|]. exists o'. split; [exact C|]. split; [exact D|]. split.
        - intros k N. apply E. intros (n & j & J1 & J2). apply N. exists n, j. split; [now right|exact J2].
        - intros vs R. destruct (F vs R) as (F1 & F2 & F3 & F4). split; [exact F1|]. split; [intros k J; right; now apply F2|]. split.
          + intros k v J. destruct (F3 k v J) as (NL & n & j & J1 & J2). split; [exact NL|]. exists n, j. split; [now right|exact J2].
          + intros n j [<-|J] U S; [destruct SK; congruence|now apply F4]. }
      destruct (n_upd nd) eqn:Eu; [|apply SKIP; now left].
      unfold works. rewrite dget_map. fold (works schema init fs).
      destruct (dget (n_name nd) fs) as [j|] eqn:Ej; cbn [option_map]; [|apply SKIP; now right]. clear SKIP.
      destruct (dget (n_name nd) (o_at o)) as [v0|] eqn:Ev; [|exfalso; exact (Hd nd (or_introl eq_refl) Ev)].
      unfold bindM. rewrite (get_attr_some t _ s o v0 Hx Ev).
      assert (Hj : incl (named j) names).
      { intros i Ii. apply Hn. apply dget_in in Ej. apply in_flat_map. exists (n_name nd, j). auto. }
      pose proof (process_effect nd j Hj s o G Hx (Hi nd (or_introl eq_refl))) as PE. cbv zeta in PE.
      destruct (process nd t (work_of schema init j) s) as [s1 [v|e]]; cbn [fst snd] in *;
        destruct PE as (A1 & B1 & o1 & C1 & (D1 & D2) & E1 & F1).
      2:{ split; [exact A1|]. split; [exact B1|]. exists o1. split; [exact C1|]. split; [exact D1|]. split; [|discriminate].
          intros k N. destruct (Z.eq_dec k (n_name nd)) as [->|Nk]; [|now apply D2].
          destruct (kind_dec (n_kind nd)) as [L|L].
          - exfalso. apply N. exists nd, j. split; [now left|auto].
          - destruct (E1 L) as (-> & _). reflexivity. }
      assert (Hi1 : incl r (schema (o_cls o1))) by (rewrite D1; exact Hi').
      assert (Hd1 : forall nd, In nd r -> dget (n_name nd) (o_at o1) <> None).
      { intros n J. rewrite D2; [now apply Hd'|]. intro Q. apply ND1. rewrite <- Q. now apply in_map. }
      destruct (IH ND2 s1 o1 A1 C1 Hi1 Hd1) as (A & B & o' & C & D & E & F).
      destruct (read_all r t (works schema init fs) s1) as [s2 [vs|e]]; cbn [fst snd ret] in *;
        (split; [exact A|]); (split; [exact (mono_trans _ _ _ B1 B)|]); exists o'; (split; [exact C|]); (split; [congruence|]).
      2:{ split; [|discriminate]. intros k N. rewrite E.
          - destruct (Z.eq_dec k (n_name nd)) as [->|Nk]; [|now apply D2].
            destruct (kind_dec (n_kind nd)) as [L|L].
            + exfalso. apply N. exists nd, j. split; [now left|auto].
            + destruct (E1 L) as (-> & _). reflexivity.
          - intros (n & j' & J1 & J2). apply N. exists n, j'. split; [now right|exact J2]. }
      assert (NOT : ~ list_sent r fs (n_name nd)).
      { intros (n & j' & J1 & _ & J3 & _). apply ND1. rewrite <- J3. now apply in_map. }
      split.
      { intros k N. rewrite E.
        - destruct (Z.eq_dec k (n_name nd)) as [->|Nk]; [|now apply D2].
          destruct (kind_dec (n_kind nd)) as [L|L].
          + exfalso. apply N. exists nd, j. split; [now left|auto].
          + destruct (E1 L) as (-> & _). reflexivity.
        - intros (n & j' & J1 & J2). apply N. exists n, j'. split; [now right|exact J2]. }
      intros vs' R; inversion R; subst vs'. destruct (F vs eq_refl) as (F2 & F3 & F4 & F5).
      split; [|split; [|split]].
      + cbn [map fst]. constructor; [|exact F2]. intro J. apply ND1. now apply F3.
      + intros k [<-|J]; [now left|right; now apply F3].
      + intros k v' [J|J].
        * inversion J; subst. destruct (kind_dec (n_kind nd)) as [L|L].
          -- destruct (F1 L (Some v') eq_refl) as (Q & _). discriminate.
          -- destruct (E1 L) as (_ & Q). destruct (Q (Some v') eq_refl) as (w & W & NL & M1). inversion W; subst w.
             split; [exact NL|]. exists nd, j. split; [now left|]. split; [exact Eu|]. split; [reflexivity|]. split; [exact L|]. split; [exact Ej|].
             eapply means_mono; eassumption.
        * destruct (F4 k v' J) as (NL & n & j' & J1 & J2). split; [exact NL|]. exists n, j'. split; [now right|exact J2].
      + intros n j' [<-|J] U S.
        * rewrite Ej in S; inversion S; subst j'. split; intro L.
          -- destruct (F1 L v eq_refl) as (-> & w & W & M1). exists w. split; [rewrite E by exact NOT; exact W|].
             eapply means_mono; eassumption.
          -- destruct (E1 L) as (_ & Q). destruct (Q v eq_refl) as (w & -> & _). exists w. now left.
        * destruct (F5 n j' J U S) as (Q1 & Q2). split; [exact Q1|]. intro L. destruct (Q2 L) as (w & W). exists w. now right.
  Qed.

  Lemma write_effect : forall vs, NoDup (map fst vs) -> (forall k v, In (k, Some v) vs -> forall l, v <> VL l) ->
    forall b s o, heap s t = Some o -> (forall k v, In (k, Some v) vs -> dget k (o_at o) <> None) ->
    exists s' o' b', write_all t vs b s = (s', Ok b') /\ heap s' t = Some o' /\ o_cls o' = o_cls o /\ (next s' = next s /\ refs s' = refs s) /\
      (forall k v, In (k, Some v) vs -> dget k (o_at o') = Some v) /\
      (forall k, (forall v, ~ In (k, Some v) vs) -> dget k (o_at o') = dget k (o_at o)) /\
      (b' = true <-> b = true \/ exists k v cur, In (k, Some v) vs /\ dget k (o_at o) = Some cur /\ cur <> v).
  Proof.
    induction vs as [|[k [v|]] r IH]; intros ND NL b s o Hx Hd; cbn [write_all].
    - exists s, o, b. split; [reflexivity|]. split; [exact Hx|]. split; [reflexivity|]. split; [auto|].
      split; [intros k v []|]. split; [auto|]. split; [auto|]. intros [?|(k & v & cur & [] & _)]; assumption.
    - cbn [map fst] in ND. inversion ND as [|? ? ND1 ND2]; subst.
      destruct (dget k (o_at o)) as [cur|] eqn:Ec; [|exfalso; exact (Hd k v (or_introl eq_refl) Ec)].
      unfold bindM at 1. rewrite (get_attr_some t k s o cur Hx Ec). unfold bindM at 1. rewrite (set_attr_some t k v s o Hx).
      assert (NK : forall k' v', In (k', Some v') r -> k' <> k).
      { intros k' v' J ->. apply ND1. apply (in_map fst) in J. exact J. }
      match goal with |- context [write_all t r _ ?u] => set (s1 := u) end.
      destruct (IH ND2 ltac:(intros; eapply NL; right; eassumption) (b || attr_changed cur v) s1
         (OB (o_cls o) (dset k v (o_at o)))) as (s' & o' & b' & A & B & C & N & D & E & F).
      + cbn [s1 heap]. apply upd_same.
      + intros k' v' J. cbn [o_at]. rewrite dget_dset_other; [|exact (NK k' v' J)]. apply (Hd k' v'). now right.
      + exists s', o', b'. split; [exact A|]. split; [exact B|]. split; [exact C|]. split; [exact N|].
        assert (OK' : dget k (o_at o') = Some v).
        { rewrite E; [cbn [o_at]; apply dget_dset_same|]. intros v' J. exact (NK k v' J eq_refl). }
        split; [|split].
        * intros k' v' [J|J]; [inversion J; subst; exact OK'|now apply D].
        * intros k' Nk. rewrite E; [|intros v' J; exact (Nk v' (or_intror J))]. cbn [o_at]. apply dget_dset_other.
          intros ->. exact (Nk v (or_introl eq_refl)).
        * rewrite F, orb_true_iff.
          assert (CH : attr_changed cur v = true <-> cur <> v).
          { pose proof (NL k v (or_introl eq_refl)) as NLv.
            destruct cur as [a|a|a], v as [b1|b1|b1]; simpl; try (split; [congruence|reflexivity]); try (exfalso; now apply (NLv b1)).
            - rewrite negb_true_iff, Z.eqb_neq. split; congruence.
            - rewrite negb_true_iff, oeqb_no. split; congruence. }
          rewrite CH. split.
          -- intros [[Q|Q]|(k' & v' & cur' & J & Q1 & Q2)].
             ++ now left.
             ++ right. exists k, v, cur. split; [now left|auto].
             ++ right. exists k', v', cur'. split; [now right|]. cbn [o_at] in Q1.
                rewrite dget_dset_other in Q1; [auto|exact (NK k' v' J)].
          -- intros [Q|(k' & v' & cur' & [J|J] & Q1 & Q2)].
             ++ left; now left.
             ++ inversion J; subst. rewrite Ec in Q1; inversion Q1; subst. left; now right.
             ++ right. exists k', v', cur'. split; [exact J|]. cbn [o_at]. rewrite dget_dset_other; [auto|exact (NK k' v' J)].
    - cbn [map fst] in ND. inversion ND as [|? ? ND1 ND2]; subst.
      destruct (IH ND2 ltac:(intros; eapply NL; right; eassumption) b s o Hx
         ltac:(intros k' v' J; apply (Hd k' v'); now right)) as (s' & o' & b' & A & B & C & N & D & E & F).
      exists s', o', b'. split; [exact A|]. split; [exact B|]. split; [exact C|]. split; [exact N|]. split; [|split].
      + intros k' v' [J|J]; [discriminate|now apply D].
      + intros k' Nk. apply E. intros v' J. exact (Nk v' (or_intror J)).
      + rewrite F. split; (intros [Q|(k' & v' & cur & J & Q)]; [now left|right; exists k', v', cur]).
        * split; [now right|exact Q].
        * destruct J as [J|J]; [discriminate|]. split; [exact J|exact Q].
  Qed.

  Lemma update_effect : forall fs, incl (named_in fs) names -> forall s1 o, good s1 -> heap s1 t = Some o ->
    NoDup (map n_name (schema (o_cls o))) -> (forall nd, In nd (schema (o_cls o)) -> dget (n_name nd) (o_at o) <> None) ->
    let out := update schema t (works schema init fs) s1 in let s' := fst out in
    good s' /\ mono s1 s' /\
    exists o', heap s' t = Some o' /\ o_cls o' = o_cls o /\
      (forall b, snd out = Ok b ->
         (forall nd j, In nd (schema (o_cls o)) -> n_upd nd = true -> dget (n_name nd) fs = Some j ->
            exists v, dget (n_name nd) (o_at o') = Some v /\ means schema (refs s') s0 s' x (n_kind nd) j v) /\
         (forall k, (forall j, dget k fs = Some j -> ~ updatable schema (o_cls o) k) -> dget k (o_at o') = dget k (o_at o)) /\
         (b = true <-> exists nd, In nd (schema (o_cls o)) /\ ~ is_list (n_kind nd) /\
            dget (n_name nd) (o_at o') <> dget (n_name nd) (o_at o))) /\
      (forall e, snd out = Raise e ->
         forall k, ~ list_sent (schema (o_cls o)) fs k -> dget k (o_at o') = dget k (o_at o)).
  Proof.
    intros fs Hn s1 o G Hx HN Hd. cbv zeta.
    unfold update. rewrite Hx.
    pose proof (read_effect fs Hn (schema (o_cls o)) HN s1 o G Hx (fun a H => H) Hd) as RE. cbv zeta in RE.
    unfold bindM. destruct (read_all (schema (o_cls o)) t (works schema init fs) s1) as [s2 [vs|e]] eqn:RR; cbn [fst snd] in *;
      destruct RE as (A & B & o1 & C & D & E & F).
    2:{ split; [exact A|]. split; [exact B|]. exists o1. split; [exact C|]. split; [exact D|]. split; [discriminate|]. intros e' _. exact E. }
    destruct (F vs eq_refl) as (F1 & F2 & F3 & F4).
    assert (NODE : forall nd1 nd2, In nd1 (schema (o_cls o)) -> In nd2 (schema (o_cls o)) -> n_name nd1 = n_name nd2 -> nd1 = nd2).
    { clear - HN. induction (schema (o_cls o)) as [|a r IH]; intros n1 n2 J1 J2 Q; [destruct J1|].
      cbn [map] in HN. inversion HN as [|? ? H1 H2]; subst. destruct J1 as [<-|J1], J2 as [<-|J2]; auto.
      - exfalso. apply H1. rewrite Q. now apply in_map.
      - exfalso. apply H1. rewrite <- Q. now apply in_map. }
    assert (NLS : forall k v, In (k, Some v) vs -> ~ list_sent (schema (o_cls o)) fs k).
    { intros k v J (nd & j & J1 & J2 & J3 & J4 & _). destruct (F3 k v J) as (_ & nd' & j' & K1 & K2 & K3 & K4 & _).
      rewrite (NODE nd nd' J1 K1) in J4 by congruence. contradiction. }
    destruct (write_effect vs F1 (fun k v J => proj1 (F3 k v J)) false s2 o1 C) as (s3 & o' & b' & W & X3 & C3 & N3 & D3 & E3 & B3).
    { intros k v J. rewrite E by exact (NLS k v J). destruct (F3 k v J) as (_ & nd & j & J1 & _ & <- & _). now apply Hd. }
    assert (M3 : mono s2 s3) by (destruct N3 as (N3 & R3); split; [lia|rewrite R3; auto]).
    rewrite W. cbn [fst snd]. split; [|split; [exact (mono_trans _ _ _ B M3)|]].
    { pose proof (update_post schema init Hinit (heap s0) x (next s0) Hold (t :: names) t (works schema init fs)
        ltac:(right; split; [now left|exact Hwt])
        (works_ok schema init Hinit (heap s0) x (next s0) Hold (t :: names) fs ltac:(intros i Ii; right; now apply Hn)) s1 (proj1 G)) as UP.
      unfold update in UP. rewrite Hx in UP. unfold bindM in UP. rewrite RR, W in UP. cbn [fst] in UP. destruct UP as (I3 & M4 & _).
      split; [exact I3|]. intros z W'. apply (proj2 M4). now apply G. }
    exists o'. split; [exact X3|]. split; [congruence|]. split; [|discriminate].
    intros b R; inversion R; subst b. clear R. split; [|split].
    - intros nd j J1 J2 J3. destruct (F4 nd j J1 J2 J3) as (G1 & G2). destruct (kind_dec (n_kind nd)) as [L|L].
      + destruct (G1 L) as (v & Dv & Mv). exists v. split.
        * rewrite E3; [exact Dv|]. intros v' J'. apply (NLS _ _ J'). exists nd, j. auto.
        * apply (means_mono s2); [exact M3|exact Mv].
      + destruct (G2 L) as (v & Jv). exists v. split; [now apply D3|].
        destruct (F3 _ _ Jv) as (_ & nd' & j' & K1 & K2 & K3 & K4 & K5 & K6).
        rewrite (NODE nd' nd K1 J1 K3) in K6. rewrite J3 in K5; inversion K5; subst. apply (means_mono s2); [exact M3|exact K6].
    - intros k N. rewrite E3.
      + apply E. intros (nd & j & J1 & J2 & J3 & J4 & J5). apply (N j J5). exists nd. auto.
      + intros v J. destruct (F3 k v J) as (_ & nd & j & J1 & J2 & J3 & J4 & J5 & _). apply (N j J5). exists nd. auto.
    - rewrite B3. split.
      + intros [Q|(k & v & cur & J & Q1 & Q2)]; [discriminate|].
        destruct (F3 k v J) as (_ & nd & j & J1 & J2 & J3 & J4 & _). exists nd. split; [exact J1|]. split; [exact J4|].
        rewrite J3, (D3 k v J), <- E, Q1 by exact (NLS k v J). congruence.
      + intros (nd & J1 & J2 & J3). right.
        assert (NS : ~ list_sent (schema (o_cls o)) fs (n_name nd)).
        { intros (nd' & j & K1 & K2 & K3 & K4 & _). rewrite (NODE nd' nd K1 J1 K3) in K4. contradiction. }
        assert (SENT : exists v, In (n_name nd, Some v) vs).
        { destruct (dget (n_name nd) fs) as [j|] eqn:Ej.
          - destruct (n_upd nd) eqn:Eu.
            + exact (proj2 (F4 nd j J1 Eu Ej) J2).
            + exfalso. apply J3. rewrite E3; [now apply E|]. intros v J. destruct (F3 _ _ J) as (_ & nd' & j' & K1 & K2 & K3 & _).
              rewrite (NODE nd' nd K1 J1 K3) in K2. congruence.
          - exfalso. apply J3. rewrite E3; [now apply E|]. intros v J. destruct (F3 _ _ J) as (_ & nd' & j' & _ & _ & _ & _ & K5 & _). congruence. }
        destruct SENT as (v & Jv). rewrite (D3 _ _ Jv), <- E in J3 by exact NS.
        destruct (dget (n_name nd) (o_at o1)) as [cur|] eqn:Q.
        * exists (n_name nd), v, cur. split; [exact Jv|]. split; [exact Q|congruence].
        * exfalso. apply (Hd nd J1). rewrite <- E by exact NS. exact Q.
  Qed.
End Effect.

Theorem put_effect : forall schema init s x o fs, sound schema s ->
  (forall c k v, dget k (init c) = Some v -> targets v = []) ->
  (forall c, NoDup (map n_name (schema c))) -> heap s x = Some o -> ~ In x (named_in fs) ->
  let s' := fst (put schema init x fs s) in
  exists o', heap s' x = Some o' /\ o_cls o' = o_cls o /\
    (forall b, snd (put schema init x fs s) = Ok b ->
       (forall nd j, In nd (schema (o_cls o)) -> n_upd nd = true -> dget (n_name nd) fs = Some j ->
          exists v, dget (n_name nd) (o_at o') = Some v /\ means schema (refs s') s s' x (n_kind nd) j v) /\
       (forall k, (forall j, dget k fs = Some j -> ~ updatable schema (o_cls o) k) -> dget k (o_at o') = dget k (o_at o)) /\
       (b = true <-> exists nd, In nd (schema (o_cls o)) /\ ~ is_list (n_kind nd) /\
          dget (n_name nd) (o_at o') <> dget (n_name nd) (o_at o))) /\
    (forall e, snd (put schema init x fs s) = Raise e ->
       forall k, ~ list_sent (schema (o_cls o)) fs k -> dget k (o_at o') = dget k (o_at o)).
Proof.
  intros schema init s x o fs HS HI HN Hx NX. cbv zeta.
  destruct (start_inv schema s x o HS Hx) as (EX & I & RA).
  unfold put. set (s1 := ST (heap s) _ _) in *.
  assert (Hold : forall z, within schema (heap s) x z -> z < next s) by (intros z W; apply (EX z W)).
  assert (Lx : x < next s) by (apply (proj1 HS x o Hx)).
  assert (Hd : forall nd, In nd (schema (o_cls o)) -> dget (n_name nd) (o_at o) <> None).
  { intros nd Hn. destruct (proj1 (proj2 (proj1 HS x o Hx)) nd Hn) as (v & D & _). congruence. }
  destruct (update_effect schema init HI s x x (within_self _ _ _) (named_in fs) NX Lx Hold fs (fun a H => H) s1 o (conj I RA) Hx (HN _) Hd)
    as (_ & _ & H). exact H.
Qed.

(** ** What is written in the objects inside *)
Lemma read_ext : forall (schema : Z -> list node) nds x ws ws', (forall nd, In nd nds -> dget (n_name nd) ws' = dget (n_name nd) ws) ->
  forall s, read_all nds x ws' s = read_all nds x ws s.
Proof.
  intros _ nds x ws ws'; induction nds as [|nd r IH]; intros H s; cbn [read_all]; [reflexivity|].
  assert (IH' : forall s, read_all r x ws' s = read_all r x ws s) by (apply IH; intros; apply H; now right).
  destruct (n_upd nd); [|apply IH']. rewrite (H nd (or_introl eq_refl)).
  destruct (dget (n_name nd) ws) as [w|]; [|apply IH'].
  unfold bindM. destruct (get_attr x (n_name nd) s) as [s1 [v|e]]; [|reflexivity].
  destruct (process nd x w s1) as [s2 [q|e]]; [|reflexivity]. now rewrite IH'.
Qed.
Definition without (k : Z) (fs : list (Z * json)) : list (Z * json) := filter (fun kj => negb (fst kj =? k)) fs.
Lemma dget_without : forall k k' fs, k' <> k -> dget k' (without k fs) = dget k' fs.
Proof.
  intros k k' fs N; induction fs as [|[a j] r IH]; [reflexivity|]. unfold without in *. cbn [filter fst].
  destruct (Z.eqb_spec a k) as [->|Na]; cbn [negb].
  - rewrite IH. simpl. destruct (Z.eqb_spec k' k); [contradiction|reflexivity].
  - simpl. now rewrite IH.
Qed.
Lemma count_zero : forall y l, count_occ Z.eq_dec l y = 0%nat <-> ~ In y l.
Proof. intros. symmetry. apply count_occ_not_In. Qed.
Lemma count_pos : forall y l, In y l -> (0 < count_occ Z.eq_dec l y)%nat.
Proof. intros y l H. apply (count_occ_In Z.eq_dec) in H. lia. Qed.
Lemma without_count : forall k y j fs, dget k fs = Some j -> In y (named j) ->
  count_occ Z.eq_dec (named_in fs) y = 1%nat -> ~ In y (named_in (without k fs)).
Proof.
  intros k y j fs; induction fs as [|[a b] r IH]; intros D I C; [discriminate|].
  unfold named_in in *. simpl in C. rewrite count_occ_app in C. simpl in D. unfold without in *. simpl.
  destruct (Z.eqb_spec a k) as [->|N].
  - rewrite Z.eqb_refl in D. inversion D; subst b. cbn [negb]. apply count_pos in I.
    assert (Z0 : count_occ Z.eq_dec (flat_map (fun kj => named (snd kj)) r) y = 0%nat) by lia.
    apply count_zero in Z0. intro H. apply Z0. apply in_flat_map in H. destruct H as (kj & A & B).
    apply filter_In in A. apply in_flat_map. exists kj. tauto.
  - assert (D' : dget k r = Some j).
    { destruct (Z.eqb_spec k a); [congruence|]. destruct (Z.eqb_spec a k); [congruence|]. exact D. }
    simpl. intro H. apply in_app_or in H.
    assert (P : (0 < count_occ Z.eq_dec (flat_map (fun kj => named (snd kj)) r) y)%nat).
    { apply count_pos. apply in_flat_map. exists (k, j). split; [now apply dget_in|exact I]. }
    destruct H as [H|H]; [apply count_pos in H; lia|]. apply IH in H; [exact H|exact D'|exact I|lia].
Qed.

Section Nested.
  Variable schema : Z -> list node.
  Variable init : Z -> dict val.
  Hypothesis Hinit : forall c k v, dget k (init c) = Some v -> targets v = [].
  Hypothesis HN : forall c, NoDup (map n_name (schema c)).
  Variable s0 : st.
  Variable x : Z.
  Hypothesis Hold : forall z, within schema (heap s0) x z -> z < next s0.
  Variable y : Z.
  Variable oy : obj.
  Hypothesis Hwy : within schema (heap s0) x y.
  Hypothesis Hty : forall nd, In nd (schema (o_cls oy)) -> dget (n_name nd) (o_at oy) <> None.
  Variable fy : list (Z * json).

  Definition fits (s : st) : Prop := good schema s0 x s /\
    forall z o, heap s0 z = Some o -> exists o', heap s z = Some o' /\ o_cls o' = o_cls o.
  Notation Post := (post schema (heap s0) x (next s0)).
  Notation WO j := (w_one (work_of schema init j)).

  Lemma fits_post : forall names s s', fits s -> Post names s s' ->
    fits s' /\ mono s s' /\ (~ In y names -> heap s y = Some oy -> heap s' y = Some oy).
  Proof.
    intros names s s' ((I & F) & C) P. pose proof P as P0. destruct P as (I' & (M1 & M2) & P). split; [split|split].
    - split; [exact I'|]. intros z W. apply M2. now apply F.
    - intros z o H. apply (class_kept schema (heap s0) x (next s0) names s s' z (o_cls o) P0). exact (C z o H).
    - split; assumption.
    - intros N H. destruct (P y oy H) as (o' & H' & _ & _ & E). rewrite H'. f_equal. apply E.
      intros [L|(L & _)]; [|contradiction]. apply Hold in Hwy. lia.
  Qed.
  Lemma item_post : forall j cr s, fits s -> Post (named j) s (fst (WO j cr s)).
  Proof.
    intros j cr s F. destruct (work_ok schema init Hinit (heap s0) x (next s0) Hold (named j) j (fun a H => H)) as (A & _).
    apply (A cr s). apply F.
  Qed.

  Definition done (s : st) : Prop := exists o', heap s y = Some o' /\ o_cls o' = o_cls oy /\
    (forall nd j, In nd (schema (o_cls oy)) -> n_upd nd = true -> dget (n_name nd) fy = Some j ->
       exists v, dget (n_name nd) (o_at o') = Some v /\ means schema (refs s) s0 s x (n_kind nd) j v) /\
    (forall k, (forall j, dget k fy = Some j -> ~ updatable schema (o_cls oy) k) -> dget k (o_at o') = dget k (o_at oy)).
  Lemma done_keep : forall names s s', fits s -> Post names s s' -> ~ In y names -> done s -> done s'.
  Proof.
    intros names s s' F P N (o' & H & C & D & E). destruct (fits_post names s s' F P) as (_ & M1 & _).
    exists o'. split; [|split; [exact C|split; [|exact E]]].
    - destruct P as (_ & _ & P). destruct (P y o' H) as (o2 & H' & _ & _ & Q). rewrite H'. f_equal. apply Q.
      intros [L|(L & _)]; [|contradiction]. apply Hold in Hwy. lia.
    - intros nd j A B G. destruct (D nd j A B G) as (v & V & W). exists v. split; [exact V|].
      eapply means_mono; eassumption.
  Qed.

  Definition does (j : json) : Prop := forall s, fits s -> heap s y = Some oy -> forall s' r,
    WO j false s = (s', Ok r) -> done s'.

  Lemma fill_nested : forall coll z k c j, does j -> In y (named j) -> z <> y -> within schema (heap s0) x z -> updatable schema c k ->
    forall js, In j js -> count_occ Z.eq_dec (flat_map named js) y = 1%nat ->
    forall s, fits s -> heap s y = Some oy -> (exists o, heap s z = Some o /\ o_cls o = c) -> forall s',
    fill coll z k (map (fun j => WO j) js) s = (s', Ok tt) -> done s'.
  Proof.
    intros coll z k c j Hj Iy Nz Wz U; induction js as [|j0 js IH]; intros Ij Ct s F Hy Hz s' E; [destruct Ij|].
    cbn [flat_map] in Ct. rewrite count_occ_app in Ct. cbn [map fill] in E. unfold bindM, lift in E.
    assert (P1 := item_post j0 false s F).
    destruct (WO j0 false s) as [s1 [y1|e]] eqn:E1; [|discriminate]. cbn [fst] in P1.
    destruct (fits_post _ _ _ F P1) as (F1 & M1 & K1).
    pose proof (class_kept _ _ _ _ _ _ _ _ _ P1 Hz) as (o1 & H1 & C1).
    unfold get_attr in E. rewrite H1 in E. destruct (dget k (o_at o1)) as [[| |l]|] eqn:D1; try discriminate.
    destruct (put_item coll l y1) as [l'|e] eqn:E2; [|discriminate].
    rewrite (set_attr_some z k (VL l') s1 o1 H1) in E.
    set (s2 := ST (upd (heap s1) z (Some (OB (o_cls o1) (dset k (VL l') (o_at o1))))) (refs s1) (next s1)) in *.
    assert (P2 : Post [z] s1 s2).
    { assert (Fz : free schema (heap s0) x (next s0) [z] z) by (right; split; [now left|exact Wz]).
      assert (FL : fine schema (heap s0) x (next s0) s1 (VL l')).
      { eapply put_item_fine; [exact E2| |].
        - apply (refers_fine schema (heap s0) x (next s0) s1 z o1 k); [apply F1|now right|exact H1|rewrite C1; now apply upd_node|exact D1].
        - destruct (work_ok schema init Hinit (heap s0) x (next s0) Hold (named j0) j0 (fun a H => H)) as (A & _).
          destruct (A false s (proj1 (proj1 F))) as (_ & G). rewrite E1 in G. now apply G. }
      pose proof (set_post schema init Hinit (heap s0) x (next s0) Hold [z] s1 z o1 k (VL l') (proj1 (proj1 F1)) Fz H1 ltac:(rewrite C1; exact U) FL) as Q.
      rewrite (set_attr_some z k (VL l') s1 o1 H1) in Q. exact Q. }
    assert (NZ : ~ In y [z]) by (intros [Q|[]]; contradiction).
    destruct (fits_post _ _ _ F1 P2) as (F2 & M2 & K2).
    pose proof (class_kept _ _ _ _ _ _ _ _ _ P2 (ex_intro _ o1 (conj H1 C1))) as H2.
    destruct Ij as [->|Ij].
    - assert (D : done s2). { apply (done_keep _ _ _ F1 P2 NZ). exact (Hj s F Hy s1 y1 E1). }
      apply count_pos in Iy. assert (Z0 : count_occ Z.eq_dec (flat_map named js) y = 0%nat) by lia. apply count_zero in Z0.
      assert (P3 := fill_post schema init Hinit (heap s0) x (next s0) Hold (z :: flat_map named js) coll z c k (map (fun j => WO j) js)
         ltac:(right; split; [now left|exact Wz]) U).
      rewrite <- (f_equal fst E : _ = s'). apply (done_keep (z :: flat_map named js) s2); [exact F2| |intros [Q|Q]; contradiction|exact D].
      apply P3; [|apply F2|exact H2]. apply Forall_forall. intros it It. apply in_map_iff in It. destruct It as (jj & <- & Jj).
      apply work_ok; [exact Hinit|exact Hold|]. intros a Ha. right. apply in_flat_map. exists jj; auto.
    - assert (Iy2 : In y (flat_map named js)) by (apply in_flat_map; exists j; auto).
      apply count_pos in Iy2. assert (Z0 : count_occ Z.eq_dec (named j0) y = 0%nat) by lia. apply count_zero in Z0.
      apply (IH Ij ltac:(apply count_zero in Z0; lia) s2 F2); [apply K2; [exact NZ|]; now apply K1|exact H2|exact E].
  Qed.

  Definition sub (k : kind) (j0 : json) : Prop :=
    (k = One /\ does j0) \/ (is_list k /\ exists js j, j0 = JL js /\ In j js /\ does j /\ In y (named j)).

  Lemma process_nested : forall nd z c j0, sub (n_kind nd) j0 -> count_occ Z.eq_dec (named j0) y = 1%nat -> z <> y ->
    within schema (heap s0) x z -> In nd (schema c) -> n_upd nd = true ->
    forall s, fits s -> heap s y = Some oy -> (exists o, heap s z = Some o /\ o_cls o = c) -> forall s' r,
    process nd z (work_of schema init j0) s = (s', Ok r) -> done s'.
  Proof.
    intros nd z c j0 S Ct Nz Wz In_ Up s F Hy Hz s' r E.
    assert (U : updatable schema c (n_name nd)) by (exists nd; auto).
    assert (LST : forall coll js j, j0 = JL js -> In j js -> does j -> In y (named j) ->
       (step _ <- set_attr z (n_name nd) (VL []); step items <- lift (w_items (work_of schema init j0));
        step _ <- fill coll z (n_name nd) items; ret (@None val)) s = (s', Ok r) -> done s').
    { intros coll js j -> Ij Dj Iy E'. destruct Hz as (o & H & C). unfold bindM, lift in E'.
      rewrite (set_attr_some z _ _ s o H) in E'. cbn [work_of w_items] in E'.
      match type of E' with context [fill _ _ _ _ ?u] => set (s1 := u) in * end.
      assert (P : Post [z] s s1).
      { pose proof (set_post schema init Hinit (heap s0) x (next s0) Hold [z] s z o (n_name nd) (VL []) (proj1 (proj1 F))
          ltac:(right; split; [now left|exact Wz]) H ltac:(rewrite C; exact U) ltac:(intros a [])) as Q.
        rewrite (set_attr_some z _ _ s o H) in Q. exact Q. }
      destruct (fits_post _ _ _ F P) as (F1 & M1 & K1).
      destruct (fill coll z (n_name nd) (map (fun j => WO j) js) s1) as [s2 [[]|e]] eqn:EF; [|discriminate].
      unfold ret in E'. inversion E'; subst.
      apply (fill_nested coll z (n_name nd) (o_cls o) j Dj Iy Nz Wz U js Ij Ct s1 F1); [|exact (class_kept _ _ _ _ _ _ _ _ _ P (ex_intro _ o (conj H eq_refl)))|exact EF].
      apply K1; [intros [Q|[]]; contradiction|exact Hy]. }
    unfold process in E. destruct S as [(K1 & D)|(K1 & js & j & J1 & J2 & J3 & J4)].
    - rewrite K1 in E. unfold bindM, ret in E. destruct (WO j0 false s) as [s1 [y1|e]] eqn:E1; [|discriminate].
      inversion E; subst. exact (D s F Hy s' y1 E1).
    - destruct K1 as [K1|K1]; rewrite K1 in E; eapply LST; eassumption.
  Qed.

  Lemma read_nested : forall z c fs nd0 j0, sub (n_kind nd0) j0 -> In y (named j0) -> z <> y -> within schema (heap s0) x z ->
    n_upd nd0 = true -> dget (n_name nd0) fs = Some j0 -> count_occ Z.eq_dec (named_in fs) y = 1%nat ->
    forall nds, incl nds (schema c) -> NoDup (map n_name nds) -> In nd0 nds ->
    forall s, fits s -> heap s y = Some oy -> (exists o, heap s z = Some o /\ o_cls o = c) -> forall s' vs,
    read_all nds z (works schema init fs) s = (s', Ok vs) -> done s'.
  Proof.
    intros z c fs nd0 j0 S Iy Nz Wz Up D0 Ct; induction nds as [|nd r IH]; intros Hi ND In0 s F Hy Hz s' vs E; [destruct In0|].
    cbn [map] in ND. inversion ND as [|? ? ND1 ND2]; subst.
    assert (Hi' : incl r (schema c)) by (intros a Ha; apply Hi; now right).
    assert (NW := without_count (n_name nd0) y j0 fs D0 Iy Ct).
    assert (C0 : count_occ Z.eq_dec (named j0) y = 1%nat).
    { apply dget_in in D0. apply in_split in D0. destruct D0 as (a & b & ->). unfold named_in in Ct.
      rewrite flat_map_app in Ct. cbn [flat_map] in Ct. rewrite !count_occ_app in Ct. simpl in Ct.
      apply count_pos in Iy. lia. }
    cbn [read_all] in E. destruct In0 as [->|In0].
    - rewrite Up in E. unfold works in E. rewrite dget_map, D0 in E. cbn [option_map] in E. fold (works schema init fs) in E.
      unfold bindM, get_attr in E. destruct Hz as (o & H & C). rewrite H in E.
      destruct (dget (n_name nd0) (o_at o)) as [v0|]; [|discriminate].
      assert (P1 := proj1 (process_post schema init Hinit (heap s0) x (next s0) Hold (z :: named j0) nd0 z c (work_of schema init j0)
         ltac:(right; split; [now left|exact Wz]) (Hi nd0 (or_introl eq_refl)) Up
         (work_ok schema init Hinit (heap s0) x (next s0) Hold (z :: named j0) j0 ltac:(intros a Ha; now right)) s (proj1 (proj1 F)) (ex_intro _ o (conj H C)))).
      destruct (process nd0 z (work_of schema init j0) s) as [s1 [v|e]] eqn:E1; [|discriminate]. cbn [fst] in P1.
      assert (D1 := process_nested nd0 z c j0 S C0 Nz Wz (Hi nd0 (or_introl eq_refl)) Up s F Hy (ex_intro _ o (conj H C)) s1 v E1).
      destruct (fits_post _ _ _ F P1) as (F1 & _ & _).
      assert (ER := read_ext schema r z (works schema init fs) (works schema init (without (n_name nd0) fs))).
      assert (P2 := proj1 (read_post schema init Hinit (heap s0) x (next s0) Hold (z :: named_in (without (n_name nd0) fs)) r z c
         (works schema init (without (n_name nd0) fs)) ltac:(right; split; [now left|exact Wz]) Hi'
         (works_ok schema init Hinit (heap s0) x (next s0) Hold (z :: named_in (without (n_name nd0) fs)) (without (n_name nd0) fs) ltac:(intros a Ha; now right)) s1 (proj1 (proj1 F1))
         (class_kept _ _ _ _ _ _ _ _ _ P1 (ex_intro _ o (conj H C))))).
      rewrite ER in P2.
      2:{ intros nd J. unfold works. rewrite !dget_map. rewrite dget_without; [reflexivity|]. intro Q. apply ND1. rewrite <- Q. now apply in_map. }
      fold (works schema init fs) in *.
      destruct (read_all r z (works schema init fs) s1) as [s2 [vs2|e]]; [|discriminate]. unfold ret in E. inversion E; subst.
      cbn [fst] in P2. apply (done_keep _ _ _ F1 P2); [intros [Q|Q]; contradiction|exact D1].
    - assert (N0 : n_name nd <> n_name nd0) by (intro Q; apply ND1; rewrite Q; now apply in_map).
      destruct (n_upd nd) eqn:Eu; [|exact (IH Hi' ND2 In0 s F Hy Hz s' vs E)].
      unfold works in E. rewrite dget_map in E. fold (works schema init fs) in E.
      destruct (dget (n_name nd) fs) as [j|] eqn:Ej; cbn [option_map] in E; [|exact (IH Hi' ND2 In0 s F Hy Hz s' vs E)].
      unfold bindM, get_attr in E. destruct Hz as (o & H & C). rewrite H in E.
      destruct (dget (n_name nd) (o_at o)) as [v0|]; [|discriminate].
      assert (NJ : ~ In y (named j)).
      { intro Q. apply NW. unfold named_in. apply in_flat_map. exists (n_name nd, j). split; [|exact Q]. unfold without.
        apply filter_In. split; [now apply dget_in|]. cbn [fst]. apply negb_true_iff. now apply Z.eqb_neq. }
      assert (P1 := proj1 (process_post schema init Hinit (heap s0) x (next s0) Hold (z :: named j) nd z c (work_of schema init j)
         ltac:(right; split; [now left|exact Wz]) (Hi nd (or_introl eq_refl)) Eu
         (work_ok schema init Hinit (heap s0) x (next s0) Hold (z :: named j) j ltac:(intros a Ha; now right)) s (proj1 (proj1 F)) (ex_intro _ o (conj H C)))).
      destruct (process nd z (work_of schema init j) s) as [s1 [v|e]] eqn:E1; [|discriminate]. cbn [fst] in P1.
      destruct (fits_post _ _ _ F P1) as (F1 & _ & K1).
      fold (works schema init fs) in *.
      destruct (read_all r z (works schema init fs) s1) as [s2 [vs2|e]] eqn:E2; [|discriminate]. unfold ret in E. inversion E; subst.
      apply (IH Hi' ND2 In0 s1 F1 ltac:(apply K1; [intros [Q|Q]; contradiction|exact Hy])
               (class_kept _ _ _ _ _ _ _ _ _ P1 (ex_intro _ o (conj H eq_refl))) s' vs2 E2).
  Qed.

  Lemma update_nested : forall z oz c fs nd0 j0, heap s0 z = Some oz -> sub (n_kind nd0) j0 -> In y (named j0) -> z <> y -> within schema (heap s0) x z ->
    In nd0 (schema (o_cls oz)) -> n_upd nd0 = true -> dget (n_name nd0) fs = Some j0 -> count_occ Z.eq_dec (named (JO (Some z) c fs)) y = 1%nat ->
    does (JO (Some z) c fs).
  Proof.
    intros z oz c fs nd0 j0 Hz S Iy Nz Wz In0 Up D0 Ct s F Hy s' r E. cbn [work_of w_one] in E. fold (works schema init fs) in E.
    cbn [named] in Ct. rewrite count_occ_app in Ct. simpl in Ct. destruct (Z.eq_dec z y); [contradiction|]. simpl in Ct. fold (named_in fs) in Ct.
    unfold one in E. rewrite (proj2 (proj1 F) z Wz) in E. unfold bindM in E.
    destruct (update schema z (works schema init fs) s) as [s1 [b|e]] eqn:EU; [|discriminate]. unfold ret in E; inversion E; subst.
    destruct (proj2 F z oz Hz) as (o & H & C). unfold update in EU. rewrite H, C in EU. unfold bindM in EU.
    assert (RP := read_post schema init Hinit (heap s0) x (next s0) Hold (z :: named_in fs) (schema (o_cls oz)) z (o_cls oz)
         (works schema init fs) ltac:(right; split; [now left|exact Wz]) (fun a H => H)
         (works_ok schema init Hinit (heap s0) x (next s0) Hold (z :: named_in fs) fs ltac:(intros a Ha; now right)) s (proj1 (proj1 F)) (ex_intro _ o (conj H C))).
    destruct (read_all (schema (o_cls oz)) z (works schema init fs) s) as [s1 [vs|e]] eqn:ER; [|discriminate]. cbn [fst snd] in RP. destruct RP as (P1 & OV).
    assert (D1 := read_nested z (o_cls oz) fs nd0 j0 S Iy Nz Wz Up D0 Ct (schema (o_cls oz)) (fun a H => H) (HN _) In0 s F Hy (ex_intro _ o (conj H C)) s1 vs ER).
    destruct (fits_post _ _ _ F P1) as (F1 & _ & _).
    assert (P2 := write_post schema init Hinit (heap s0) x (next s0) Hold [z] z (o_cls oz) vs ltac:(right; split; [now left|exact Wz]) false s1 (proj1 (proj1 F1))
        (class_kept _ _ _ _ _ _ _ _ _ P1 (ex_intro _ o (conj H C))) (OV vs eq_refl)).
    rewrite EU in P2. cbn [fst] in P2. apply (done_keep _ _ _ F1 P2); [intros [Q|[]]; contradiction|exact D1].
  Qed.

  Lemma here_does : forall c, count_occ Z.eq_dec (named (JO (Some y) c fy)) y = 1%nat -> does (JO (Some y) c fy).
  Proof.
    intros c Ct s F Hy s' r E. cbn [work_of w_one] in E. fold (works schema init fy) in E.
    cbn [named] in Ct. rewrite count_occ_app in Ct. simpl in Ct. destruct (Z.eq_dec y y) as [_|Q]; [|contradiction]. simpl in Ct. fold (named_in fy) in Ct.
    assert (NY : ~ In y (named_in fy)) by (apply count_zero; lia).
    unfold one in E. rewrite (proj2 (proj1 F) y Hwy) in E. unfold bindM in E.
    pose proof (update_effect schema init Hinit s0 x y Hwy (named_in fy) NY (Hold y Hwy) Hold fy (fun a H => H) s oy (proj1 F) Hy (HN _) Hty) as UE.
    cbv zeta in UE. destruct (update schema y (works schema init fy) s) as [s1 [b|e]] eqn:EU; [|discriminate]. unfold ret in E; inversion E; subst.
    cbn [fst snd] in UE. destruct UE as (_ & _ & o' & A & B & C & _). destruct (C b eq_refl) as (C1 & C2 & _).
    exists o'. auto.
  Qed.
End Nested.

Lemma sends_named : forall schema h x j y fs, sends schema h x j y fs -> In y (named j).
Proof.
  intros schema h x j y fs H; induction H; cbn [named].
  - now left.
  - apply in_or_app. right. apply in_flat_map. exists (n_name nd, j). split; [now apply dget_in|exact IHsends].
  - apply in_or_app. right. apply in_flat_map. exists (n_name nd, JL js). split; [now apply dget_in|]. cbn [snd named].
    apply in_flat_map. exists j. auto.
Qed.
Lemma sends_within : forall schema h x j y fs, sends schema h x j y fs -> within schema h x y.
Proof. intros schema h x j y fs H; induction H; assumption. Qed.

Lemma sends_does : forall schema init, (forall c k v, dget k (init c) = Some v -> targets v = []) ->
  (forall c, NoDup (map n_name (schema c))) -> forall s0 x, (forall z, within schema (heap s0) x z -> z < next s0) ->
  forall j y fy, sends schema (heap s0) x j y fy ->
  forall oy, (forall nd, In nd (schema (o_cls oy)) -> dget (n_name nd) (o_at oy) <> None) ->
  count_occ Z.eq_dec (named j) y = 1%nat -> does schema init s0 x y oy fy j.
Proof.
  intros schema init HI HN s0 x Hold j y fy H; induction H as [y c fs W|z c fz oz nd j y fs W Hz In0 Up K D SD IH|z c fz oz nd js j y fs W Hz In0 Up K D Ij SD IH];
    intros oy Hty Ct.
  - apply here_does; assumption.
  - assert (Iy := sends_named _ _ _ _ _ _ SD).
    assert (CT : count_occ Z.eq_dec (named j) y = 1%nat /\ z <> y).
    { cbn [named] in Ct. rewrite count_occ_app in Ct. simpl in Ct.
      apply dget_in in D. apply in_split in D. destruct D as (a & b & ->).
      rewrite flat_map_app in Ct. cbn [flat_map] in Ct. rewrite !count_occ_app in Ct. cbn [snd] in Ct.
      apply count_pos in Iy. destruct (Z.eq_dec z y); simpl in Ct; split; try assumption; lia. }
    destruct CT as (C1 & Nz).
    eapply update_nested; [exact HI|exact HN|exact Hold|eapply sends_within; exact SD|exact Hty|exact Hz|left; split; [exact K|now apply IH]|exact Iy|exact Nz|exact W|exact In0|exact Up|exact D|exact Ct].
  - assert (Iy := sends_named _ _ _ _ _ _ SD).
    assert (Iy2 : In y (named (JL js))) by (cbn [named]; apply in_flat_map; exists j; auto).
    assert (CT : count_occ Z.eq_dec (named j) y = 1%nat /\ z <> y).
    { cbn [named] in Ct. rewrite count_occ_app in Ct. simpl in Ct.
      apply dget_in in D. apply in_split in D. destruct D as (a & b & ->).
      rewrite flat_map_app in Ct. cbn [flat_map] in Ct. rewrite !count_occ_app in Ct. cbn [snd named] in Ct.
      apply in_split in Ij. destruct Ij as (p & q & ->). rewrite flat_map_app in Ct. cbn [flat_map] in Ct. rewrite !count_occ_app in Ct.
      apply count_pos in Iy. destruct (Z.eq_dec z y); simpl in Ct; split; try assumption; lia. }
    destruct CT as (C1 & Nz).
    eapply update_nested; [exact HI|exact HN|exact Hold|eapply sends_within; exact SD|exact Hty|exact Hz|right; split; [exact K|]|exact Iy2|exact Nz|exact W|exact In0|exact Up|exact D|exact Ct].
    exists js, j. auto.
Qed.

(** Every object that the text has fields for, once, gets what was sent. *)
Theorem put_sends : forall schema init s x o c fs s' b, sound schema s ->
  (forall c k v, dget k (init c) = Some v -> targets v = []) ->
  (forall c, NoDup (map n_name (schema c))) -> heap s x = Some o ->
  put schema init x fs s = (s', Ok b) ->
  forall y oy fy, sends schema (heap s) x (JO (Some x) c fs) y fy -> heap s y = Some oy ->
  count_occ Z.eq_dec (named (JO (Some x) c fs)) y = 1%nat ->
  exists o', heap s' y = Some o' /\ o_cls o' = o_cls oy /\
    (forall nd j, In nd (schema (o_cls oy)) -> n_upd nd = true -> dget (n_name nd) fy = Some j ->
       exists v, dget (n_name nd) (o_at o') = Some v /\ means schema (refs s') s s' x (n_kind nd) j v) /\
    (forall k, (forall j, dget k fy = Some j -> ~ updatable schema (o_cls oy) k) -> dget k (o_at o') = dget k (o_at oy)).
Proof.
  intros schema init s x o c fs s' b HS HI HN Hx E y oy fy SD Hy Ct.
  destruct (start_inv schema s x o HS Hx) as (EX & I & RA).
  assert (Hold : forall z, within schema (heap s) x z -> z < next s) by (intros z W; apply (EX z W)).
  unfold put in E. set (s1 := ST (heap s) _ _) in *.
  assert (D := sends_does schema init HI HN s x Hold _ y fy SD oy).
  assert (Hd : forall nd, In nd (schema (o_cls oy)) -> dget (n_name nd) (o_at oy) <> None).
  { intros nd Hn. destruct (proj1 (proj2 (proj1 HS y oy Hy)) nd Hn) as (v & Dv & _). congruence. }
  apply (D Hd Ct s1) with (r := Some x).
  - split; [split; [exact I|exact RA]|]. intros z oz Hz. exists oz. auto.
  - exact Hy.
  - cbn [work_of w_one]. fold (works schema init fs). unfold one. cbn [s1 refs]. rewrite (RA x (within_self _ _ _)). unfold bindM. fold s1. rewrite E. reflexivity.
Qed.

(** ** What a new object is made of *)
Section New.
  Variable schema : Z -> list node.
  Variable init : Z -> dict val.
  Hypothesis Hinit : forall c k v, dget k (init c) = Some v -> targets v = [].
  Variable s0 : st.
  Variable x : Z.
  Hypothesis Hold : forall z, within schema (heap s0) x z -> z < next s0.
  Notation Good := (good schema s0 x).
  Notation WO j := (w_one (work_of schema init j)).
  Notation Means s := (means schema (refs s) s0 s x).

  Lemma item_new : forall j s s' y, Good s -> WO j true s = (s', Ok y) ->
    Good s' /\ mono s s' /\ stands_for schema (refs s') s0 s' x j y.
  Proof.
    intros j s s' y G E.
    destruct (work_ok schema init Hinit (heap s0) x (next s0) Hold (named j) j (fun a H => H)) as (A & _).
    destruct (A true s (proj1 G)) as ((I' & M1 & _) & _). rewrite E in I', M1. cbn [fst] in I', M1.
    split; [split; [exact I'|]|split; [exact M1|]].
    - intros z W. apply (proj2 M1). now apply G.
    - exact (item_known schema init Hinit s0 x x (named j) Hold j true s s' y (fun a H => H) G E).
  Qed.

  Lemma build_effect : forall coll js pre s s' l, Good s -> build coll (map (fun j => WO j) js) pre s = (s', Ok l) ->
    Good s' /\ mono s s' /\ exists ys, l = (if coll then add_all pre ys else pre ++ ys) /\
      Forall2 (stands_for schema (refs s') s0 s' x) js ys /\ (coll = true -> ~ In None ys).
  Proof.
    intros coll; induction js as [|j js IH]; intros pre s s' l G E; cbn [map build] in E.
    - unfold ret in E. inversion E; subst. split; [exact G|]. split; [apply mono_refl|]. exists [].
      split; [destruct coll; [reflexivity|now rewrite app_nil_r]|]. split; [constructor|auto].
    - unfold bindM, lift in E. destruct (WO j true s) as [s1 [y|e]] eqn:E1; [|discriminate].
      destruct (item_new j s s1 y G E1) as (G1 & M1 & S1).
      destruct (put_item coll pre y) as [l1|e] eqn:E2; [|discriminate].
      destruct (IH l1 s1 s' l G1 E) as (G2 & M2 & ys & -> & F2 & N2).
      split; [exact G2|]. split; [exact (mono_trans _ _ _ M1 M2)|]. exists (y :: ys).
      assert (S2 : stands_for schema (refs s') s0 s' x j y) by (exact (stands_mono schema init Hinit s0 x x Hold s1 s' j y M2 S1)).
      unfold put_item in E2. destruct coll.
      + destruct y as [y|]; [|discriminate]. inversion E2; subst l1. split; [reflexivity|]. split; [now constructor|].
        intros _ [J|J]; [discriminate|exact (N2 eq_refl J)].
      + inversion E2; subst l1. split; [now rewrite <- app_assoc|]. split; [now constructor|discriminate].
  Qed.

  Lemma new_effect : forall fs nds, NoDup (map n_name nds) -> forall s s' vs, Good s ->
    new_attrs nds (works schema init fs) s = (s', Ok vs) ->
    Good s' /\ mono s s' /\ NoDup (map fst vs) /\
    (forall k v, In (k, v) vs -> exists nd j, In nd nds /\ n_name nd = k /\ n_ro nd = false /\ dget k fs = Some j /\ j <> JNull) /\
    (forall nd j, In nd nds -> n_ro nd = false -> dget (n_name nd) fs = Some j -> j <> JNull ->
       exists v, In (n_name nd, v) vs /\ Means s' (n_kind nd) j v).
  Proof.
    intros fs; induction nds as [|nd r IH]; intros ND s s' vs G E; cbn [new_attrs] in E.
    - unfold ret in E. inversion E; subst. split; [exact G|]. split; [apply mono_refl|]. split; [constructor|]. split; [intros k v []|intros nd j []].
    - cbn [map] in ND. inversion ND as [|? ? ND1 ND2]; subst.
      assert (SKIP : (forall j, dget (n_name nd) fs = Some j -> j = JNull) ->
         new_attrs r (works schema init fs) s = (s', Ok vs) ->
         Good s' /\ mono s s' /\ NoDup (map fst vs) /\
         (forall k v, In (k, v) vs -> exists nd0 j, In nd0 (nd :: r) /\ n_name nd0 = k /\ n_ro nd0 = false /\ dget k fs = Some j /\ j <> JNull) /\
         (forall nd0 j, In nd0 (nd :: r) -> n_ro nd0 = false -> dget (n_name nd0) fs = Some j -> j <> JNull ->
            exists v, In (n_name nd0, v) vs /\ Means s' (n_kind nd0) j v)).
      { intros SK E'. destruct (IH ND2 s s' vs G E') as (A & B & C & D & F). split; [exact A|]. split; [exact B|]. split; [exact C|]. split.
        - intros k v J. destruct (D k v J) as (n & j & J1 & J2). exists n, j. split; [now right|exact J2].
        - intros n j [<-|J] Rn Dn Nn; [exfalso; apply Nn; now apply SK|now apply F]. }
      unfold works in E. rewrite dget_map in E. fold (works schema init fs) in E.
      destruct (dget (n_name nd) fs) as [j|] eqn:Ej; cbn [option_map] in E; [|apply SKIP; [discriminate|exact E]].
      assert (NU : w_null (work_of schema init j) = true <-> j = JNull) by (destruct j; simpl; split; (reflexivity || discriminate)).
      destruct (w_null (work_of schema init j)) eqn:En.
      { apply SKIP; [|exact E]. intros j' Q; inversion Q; subst j'. now apply NU. }
      clear SKIP. assert (Nj : j <> JNull) by (intro Q; apply NU in Q; discriminate).
      unfold bindM at 1 in E. fold (works schema init fs) in E.
      match type of E with (match ?m s with _ => _ end) = _ => set (mm := m) in * end.
      assert (ONE : forall s1 v, mm s = (s1, Ok v) -> Good s1 /\ mono s s1 /\ Means s1 (n_kind nd) j v).
      { intros s1 v Em. unfold mm in Em. destruct (n_kind nd) eqn:Ek.
        - unfold bindM, lift, ret in Em. destruct j; cbn [work_of w_plain] in Em; try discriminate. inversion Em; subst.
          split; [exact G|]. split; [apply mono_refl|]. exists v0. auto.
        - unfold bindM, ret in Em. destruct (WO j true s) as [s2 [y|e]] eqn:E1; [|discriminate]. inversion Em; subst.
          destruct (item_new j s s1 y G E1) as (G1 & M1 & S1). split; [exact G1|]. split; [exact M1|]. exists y. auto.
        - unfold bindM, lift, ret in Em. destruct j as [| | | |js]; cbn [work_of w_items] in Em; try discriminate.
          destruct (build (is_coll Many) (map (fun j => WO j) js) [] s) as [s2 [l|e]] eqn:E1; [|discriminate]. inversion Em; subst.
          destruct (build_effect _ _ _ _ _ _ G E1) as (G1 & M1 & ys & L1 & F1 & _). simpl in L1. subst l.
          split; [exact G1|]. split; [exact M1|]. exists js, ys. auto.
        - unfold bindM, lift, ret in Em. destruct j as [| | | |js]; cbn [work_of w_items] in Em; try discriminate.
          destruct (build (is_coll Coll) (map (fun j => WO j) js) [] s) as [s2 [l|e]] eqn:E1; [|discriminate]. inversion Em; subst.
          destruct (build_effect _ _ _ _ _ _ G E1) as (G1 & M1 & ys & L1 & F1 & N1). simpl in L1. rewrite add_all_nil in L1. subst l.
          split; [exact G1|]. split; [exact M1|]. exists js, ys. split; [reflexivity|]. split; [reflexivity|]. split; [exact F1|now apply N1]. }
      destruct (mm s) as [s1 [v|e]] eqn:Em; [|discriminate]. destruct (ONE s1 v eq_refl) as (G1 & M1 & V1).
      unfold bindM in E. destruct (new_attrs r (works schema init fs) s1) as [s2 [vs2|e]] eqn:E2; [|discriminate]. unfold ret in E. inversion E; subst s' vs.
      destruct (IH ND2 s1 s2 vs2 G1 E2) as (A & B & C & D & F). split; [exact A|]. split; [exact (mono_trans _ _ _ M1 B)|].
      assert (NI : ~ In (n_name nd) (map fst vs2)).
      { intro J. apply in_map_iff in J. destruct J as ((k & w) & Q & J). simpl in Q. subst k. destruct (D _ _ J) as (n & j' & J1 & J2 & _).
        apply ND1. rewrite <- J2. now apply in_map. }
      assert (V2 : Means s2 (n_kind nd) j v) by (exact (means_mono schema init Hinit s0 x x Hold s1 s2 (n_kind nd) j v B V1)).
      destruct (n_ro nd) eqn:Er.
      + split; [exact C|]. split.
        * intros k w J. destruct (D k w J) as (n & j' & J1 & J2). exists n, j'. split; [now right|exact J2].
        * intros n j' [<-|J] Rn Dn Nn; [congruence|now apply F].
      + split; [cbn [map fst]; now constructor|]. split.
        * intros k w [J|J]; [inversion J; subst; exists nd, j; split; [now left|auto]|].
          destruct (D k w J) as (n & j' & J1 & J2). exists n, j'. split; [now right|exact J2].
        * intros n j' [<-|J] Rn Dn Nn.
          -- rewrite Ej in Dn; inversion Dn; subst j'. exists v. split; [now left|exact V2].
          -- destruct (F n j' J Rn Dn Nn) as (w & W1 & W2). exists w. split; [now right|exact W2].
  Qed.
End New.

Lemma fold_dset_in : forall (vs : dict val) d k v, NoDup (map fst vs) -> In (k, v) vs ->
  dget k (fold_left (fun d kv => dset (fst kv) (snd kv) d) vs d) = Some v.
Proof.
  assert (OUT : forall (vs : dict val) d k, ~ In k (map fst vs) -> dget k (fold_left (fun d kv => dset (fst kv) (snd kv) d) vs d) = dget k d).
  { induction vs as [|[a b] r IH]; intros d k N; [reflexivity|]. simpl in *. rewrite IH by tauto. apply dget_dset_other. intros ->. tauto. }
  induction vs as [|[a b] r IH]; intros d k v ND I; [destruct I|]. simpl in *. inversion ND; subst. destruct I as [Q|I].
  - inversion Q; subst. rewrite OUT by assumption. apply dget_dset_same.
  - now apply IH.
Qed.
Lemma fold_dset_out : forall (vs : dict val) d k, (forall v, ~ In (k, v) vs) ->
  dget k (fold_left (fun d kv => dset (fst kv) (snd kv) d) vs d) = dget k d.
Proof.
  induction vs as [|[a b] r IH]; intros d k N; [reflexivity|]. simpl in *. rewrite IH.
  - apply dget_dset_other. intros ->. apply (N b). now left.
  - intros v J. apply (N v). now right.
Qed.

(** A new object sent to [x] has what was sent for it and else what its
    class gives it. *)
Theorem put_new : forall schema init s x o nd c fs s' b, sound schema s ->
  (forall c k v, dget k (init c) = Some v -> targets v = []) ->
  (forall c, NoDup (map n_name (schema c))) -> heap s x = Some o ->
  In nd (schema (o_cls o)) -> n_upd nd = true -> n_kind nd = One ->
  put schema init x [(n_name nd, JO None (Some c) fs)] s = (s', Ok b) ->
  exists o' z oz, heap s' x = Some o' /\ dget (n_name nd) (o_at o') = Some (VO (Some z)) /\ next s <= z /\
    heap s' z = Some oz /\ o_cls oz = c /\
    (forall nd' j, In nd' (schema c) -> n_ro nd' = false -> dget (n_name nd') fs = Some j -> j <> JNull ->
       exists v, dget (n_name nd') (o_at oz) = Some v /\ means schema (refs s') s s' x (n_kind nd') j v) /\
    (forall k, (forall nd' j, In nd' (schema c) -> n_name nd' = k -> n_ro nd' = false -> dget k fs = Some j -> j = JNull) ->
       dget k (o_at oz) = dget k (init c)).
Proof.
  intros schema init s x o nd c fs s' b HS HI HN Hx Hnd Up Kd E.
  destruct (start_inv schema s x o HS Hx) as (EX & I & RA).
  assert (Hold : forall z, within schema (heap s) x z -> z < next s) by (intros z W; apply (EX z W)).
  unfold put in E. set (s1 := ST (heap s) _ _) in *.
  unfold update in E. cbn [s1 heap] in E. rewrite Hx in E. fold s1 in E. unfold bindM in E.
  set (ws := works schema init [(n_name nd, JO None (Some c) fs)]) in *.
  assert (G : good schema s x s1) by (split; [exact I|exact RA]).
  assert (DW : forall n, dget (n_name n) ws = if n_name n =? n_name nd then Some (work_of schema init (JO None (Some c) fs)) else None) by (intro n; reflexivity).
  (* the part of the schema that is read: only the node nd *)
  assert (R : forall nds, NoDup (map n_name nds) -> forall s2 vs, In nd nds -> incl nds (schema (o_cls o)) -> read_all nds x ws s1 = (s2, Ok vs) ->
     exists s3 r, w_one (work_of schema init (JO None (Some c) fs)) false s1 = (s3, Ok r) /\ s2 = s3 /\ vs = [(n_name nd, Some (VO r))]).
  { assert (NONE : forall nds, ~ In (n_name nd) (map n_name nds) -> forall s2, read_all nds x ws s2 = (s2, Ok [])).
    { induction nds as [|n r IH]; intros N s2; [reflexivity|]. cbn [read_all map] in *. rewrite DW.
      destruct (Z.eqb_spec (n_name n) (n_name nd)) as [Q|Q]; [exfalso; apply N; now left|]. destruct (n_upd n); apply IH; intro; apply N; now right. }
    induction nds as [|n r IH]; intros ND s2 vs J Hi ER; [destruct J|]. cbn [map] in ND. inversion ND as [|? ? N1 N2]; subst.
    assert (Hi' : incl r (schema (o_cls o))) by (intros a Ha; apply Hi; now right).
    cbn [read_all] in ER. destruct J as [->|J].
    - rewrite Up, DW, Z.eqb_refl in ER. unfold bindM, get_attr in ER. cbn [s1 heap] in ER. rewrite Hx in ER. fold s1 in ER.
      destruct (dget (n_name nd) (o_at o)) as [v0|]; [|discriminate]. unfold process in ER. rewrite Kd in ER. unfold bindM, ret in ER.
      destruct (w_one (work_of schema init (JO None (Some c) fs)) false s1) as [s3 [q|e]]; [|discriminate].
      rewrite NONE in ER by exact N1. inversion ER; subst. exists s2, q. auto.
    - rewrite DW in ER. destruct (Z.eqb_spec (n_name n) (n_name nd)) as [Q|Q].
      + exfalso. apply N1. rewrite Q. now apply in_map.
      + apply (IH N2 s2 vs J Hi'). destruct (n_upd n); exact ER. }
  destruct (read_all (schema (o_cls o)) x ws s1) as [s2 [vs|e]] eqn:ER; [|discriminate].
  destruct (R (schema (o_cls o)) (HN _) s2 vs Hnd (fun a H => H) ER) as (s3 & r & EW & -> & ->). clear R ER.
  assert (KEEP : exists o3, heap s3 x = Some o3 /\ o_cls o3 = o_cls o).
  { destruct (work_ok schema init HI (heap s) x (next s) Hold (named (JO None (Some c) fs)) (JO None (Some c) fs) (fun a H => H)) as (A & _).
    destruct (A false s1 (proj1 G)) as (P & _). rewrite EW in P. cbn [fst] in P. exact (class_kept _ _ _ _ _ _ _ _ _ P (ex_intro _ o (conj Hx eq_refl))). }
  cbn [work_of w_one] in EW. fold (works schema init fs) in EW. unfold one, create, bindM in EW.
  destruct (new_attrs (schema c) (works schema init fs) s1) as [s4 [vs|e]] eqn:EN; [|discriminate].
  destruct (new_effect schema init HI s x Hold fs (schema c) (HN c) s1 s4 vs G EN) as (G4 & M4 & N4 & D4 & F4).
  inversion EW as [[Q1 Q2]]. subst r. set (z := next s4) in *. set (oz := OB c _) in *.
  assert (M5 : mono s4 s3).
  { rewrite <- Q1. split; [cbn [next]; lia|]. intros i w H. cbn [refs]. now apply reg_mono. }
  assert (Lz : next s <= z) by (apply G4).
  assert (Lx : x < next s) by (apply (proj1 HS x o Hx)).
  assert (Hz : heap s3 z = Some oz) by (rewrite <- Q1; cbn [heap]; apply upd_same).
  destruct KEEP as (o3 & H3 & C3). clear Q1.
  cbn [write_all] in E. unfold bindM, get_attr in E. rewrite H3 in E.
  destruct (dget (n_name nd) (o_at o3)) as [cur|]; [|discriminate].
  rewrite (set_attr_some x _ _ s3 o3 H3) in E. unfold ret in E. inversion E; subst s' b. cbn [heap refs].
  exists (OB (o_cls o3) (dset (n_name nd) (VO (Some z)) (o_at o3))), z, oz.
  split; [apply upd_same|]. split; [cbn [o_at]; apply dget_dset_same|]. split; [exact Lz|].
  split; [rewrite upd_other by lia; exact Hz|]. split; [reflexivity|]. split.
  - intros nd' j J1 J2 J3 J4. destruct (F4 nd' j J1 J2 J3 J4) as (v & V1 & V2). exists v. split.
    + cbn [oz o_at]. now apply fold_dset_in.
    + pose proof (means_mono schema init HI s x x Hold s4 s3 (n_kind nd') j v M5 V2) as Q. exact Q.
  - intros k N. cbn [oz o_at]. apply fold_dset_out. intros v J. destruct (D4 k v J) as (n & j & J1 & J2 & J3 & J4 & J5). apply J5. eapply N; eassumption.
Qed.
