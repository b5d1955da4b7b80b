From Coq Require Import ZArith List Bool Lia.
From Verif Require Import Py PyLemmas StrModel MrgModel MrgSpec.
Import ListNotations.
Open Scope list_scope.
Open Scope Z_scope.

Lemma zmem_in : forall x l, zmem x l = true <-> In x l.
Proof.
  intros x l. unfold zmem. rewrite existsb_exists. split.
  - intros (y & I & E). apply Z.eqb_eq in E. subst y. exact I.
  - intro I. exists x. split; [exact I | apply Z.eqb_refl].
Qed.
Lemma zmem_out : forall x l, zmem x l = false <-> ~ In x l.
Proof.
  intros x l. rewrite <- zmem_in. destruct (zmem x l); split; intro H; try reflexivity; try discriminate; try congruence.
Qed.

Lemma nodup_snoc : forall (l : list Z) x, NoDup l -> ~ In x l -> NoDup (l ++ [x]).
Proof.
  intros l x N I. induction l as [| a t IH]; simpl.
  - constructor; [intros [] | constructor].
  - inversion N as [| ? ? N1 N2]; subst. constructor.
    + intro H. apply in_app_or in H. destruct H as [H | [H | []]]; [exact (N1 H) | subst; apply I; left; reflexivity].
    + apply IH; [exact N2 | intro H; apply I; right; exact H].
Qed.

(** ** The environment grows by what is reached *)

Definition grown (w : world) (env : list Z) (x : Z) (env' : list Z) : Prop :=
  (exists l, env' = env ++ l) /\ NoDup env' /\ incl env' (w_objs w) /\
  (forall y, In y env' -> ~ In y env -> reach (w_refs w) x y /\ incl (w_refs w y) env').

Lemma hook_grown : forall w, sound w -> forall f env x,
  In x (w_objs w) -> incl env (w_objs w) -> NoDup env -> (List.length (w_objs w) < f + List.length env)%nat ->
  grown w env x (hook (w_refs w) f env x) /\ incl (w_refs w x) (hook (w_refs w) f env x).
Proof.
  intros w SW. induction f as [| f IH]; intros env x X IE N L.
  - exfalso. pose proof (NoDup_incl_length N IE). simpl in L. lia.
  - cbn [hook].
    assert (G : forall l env0, incl l (w_refs w x) -> (exists l0, env0 = env ++ l0) -> NoDup env0 -> incl env0 (w_objs w) ->
              (forall y, In y env0 -> ~ In y env -> reach (w_refs w) x y /\ incl (w_refs w y) env0) ->
              let e := fold_left (fun e r => if zmem r e then e else hook (w_refs w) f (e ++ [r]) r) l env0 in
              grown w env x e /\ incl l e /\ (exists l1, e = env0 ++ l1)).
    { induction l as [| r t IHl]; intros env0 IL (l0 & E0) N0 I0 C0; cbn [fold_left]; cbv zeta.
      - split; [| split].
        + split; [exists l0; exact E0 | split; [exact N0 | split; [exact I0 | exact C0]]].
        + intros ? [].
        + exists []. symmetry. apply app_nil_r.
      - assert (RX : In r (w_refs w x)) by (apply IL; left; reflexivity).
        assert (RO : In r (w_objs w)) by (apply (SW x X); exact RX).
        assert (IT : incl t (w_refs w x)) by (intros z Z0; apply IL; right; exact Z0).
        destruct (zmem r env0) eqn:M.
        + apply zmem_in in M.
          destruct (IHl env0 IT (ex_intro _ l0 E0) N0 I0 C0) as (A & B & (l1 & P)).
          split; [exact A | split; [| exists l1; exact P]].
          intros z [Z0 | Z0]; [subst z; rewrite P; apply in_or_app; left; exact M | exact (B z Z0)].
        + apply zmem_out in M.
          assert (N1 : NoDup (env0 ++ [r])) by (apply nodup_snoc; assumption).
          assert (I1 : incl (env0 ++ [r]) (w_objs w)).
          { intros z Z0. apply in_app_or in Z0. destruct Z0 as [Z0 | [Z0 | []]]; [exact (I0 z Z0) | subst z; exact RO]. }
          assert (L1 : (List.length (w_objs w) < f + List.length (env0 ++ [r]))%nat).
          { rewrite app_length. subst env0. rewrite app_length. simpl. lia. }
          destruct (IH (env0 ++ [r]) r RO I1 N1 L1) as (((l2 & P2) & N2 & I2 & C2) & R2).
          set (e1 := hook (w_refs w) f (env0 ++ [r]) r) in *.
          assert (C1 : forall y, In y e1 -> ~ In y env -> reach (w_refs w) x y /\ incl (w_refs w y) e1).
          { intros y Y NY. destruct (in_dec Z.eq_dec y (env0 ++ [r])) as [Q | Q].
            - apply in_app_or in Q. destruct Q as [Q | [Q | []]].
              + destruct (C0 y Q NY) as (A & B). split; [exact A |].
                intros z Z0. rewrite P2. apply in_or_app. left. apply in_or_app. left. exact (B z Z0).
              + subst y. split; [apply reach_one; exact RX | exact R2].
            - destruct (C2 y Y Q) as (A & B). split; [apply reach_more with r; assumption | exact B]. }
          destruct (IHl e1 IT) as (A & B & (l3 & P3)).
          * exists (l0 ++ [r] ++ l2). rewrite P2, E0. rewrite <- !app_assoc. reflexivity.
          * exact N2.
          * exact I2.
          * exact C1.
          * split; [exact A | split].
            -- intros z [Z0 | Z0]; [| exact (B z Z0)]. subst z. rewrite P3, P2. apply in_or_app. left. apply in_or_app. left.
               apply in_or_app. right. left. reflexivity.
            -- exists ([r] ++ l2 ++ l3). rewrite P3, P2. rewrite <- !app_assoc. reflexivity. }
    destruct (G (w_refs w x) env (incl_refl _)) as (A & B & C).
    + exists []. symmetry. apply app_nil_r.
    + exact N.
    + exact IE.
    + intros y Y NY. contradiction.
    + split; [exact A | exact B].
Qed.

Lemma bring_grown : forall w env x, sound w -> In x (w_objs w) -> incl env (w_objs w) -> NoDup env ->
  grown w env x (bring w env x) /\ incl (w_refs w x) (bring w env x).
Proof.
  intros w env x SW X I N. unfold bring. apply hook_grown; try assumption. lia.
Qed.

Lemma grown_incl : forall w env x env', grown w env x env' -> incl env env'.
Proof.
  intros w env x env' ((l & P) & _) z Z0. rewrite P. apply in_or_app. left. exact Z0.
Qed.

(** ** Collections *)

Lemma in_oc_add : forall x y l, In y (oc_add x l) <-> In y l \/ y = x.
Proof.
  intros x y l. unfold oc_add. destruct (zmem x l) eqn:M.
  - apply zmem_in in M. split; [intro H; left; exact H | intros [H | H]; [exact H | subst; exact M]].
  - rewrite in_app_iff. simpl. split; intros [H | H]; auto. destruct H as [H | []]; auto.
Qed.
Lemma nodup_oc_add : forall x l, NoDup l -> NoDup (oc_add x l).
Proof.
  intros x l N. unfold oc_add. destruct (zmem x l) eqn:M; [exact N |]. apply zmem_out in M. apply nodup_snoc; assumption.
Qed.
Lemma in_oc_remove : forall x y l, In y (oc_remove x l) <-> In y l /\ y <> x.
Proof.
  intros x y l. unfold oc_remove. rewrite filter_In. rewrite Bool.negb_true_iff, Z.eqb_neq. reflexivity.
Qed.
Lemma in_oc_replace : forall x y z l, In x l -> (In z (oc_replace x y l) <-> z = y \/ In z l /\ z <> x).
Proof.
  intros x y z l X. unfold oc_replace. rewrite in_map_iff. split.
  - intros (a & E & I). apply filter_In in I. destruct I as (I & C). destruct (a =? x) eqn:A.
    + left. symmetry. exact E.
    + subst z. right. apply Z.eqb_neq in A. split; [exact I | exact A].
  - intros [E | (I & NE)].
    + exists x. split; [rewrite Z.eqb_refl; symmetry; exact E | apply filter_In; split; [exact X | rewrite Z.eqb_refl; reflexivity]].
    + destruct (Z.eq_dec z y) as [E | NY].
      * exists x. split; [rewrite Z.eqb_refl; symmetry; exact E | apply filter_In; split; [exact X | rewrite Z.eqb_refl; reflexivity]].
      * exists z. apply Z.eqb_neq in NE. apply Z.eqb_neq in NY. split; [rewrite NE; reflexivity |].
        apply filter_In. split; [exact I | rewrite NE, NY; reflexivity].
Qed.
Lemma nodup_oc_replace : forall x y l, NoDup l -> NoDup (oc_replace x y l).
Proof.
  intros x y l N. unfold oc_replace. induction l as [| a t IH]; simpl; [constructor |].
  inversion N as [| ? ? N1 N2]; subst. destruct (a =? x) eqn:A; simpl.
  - apply Z.eqb_eq in A. subst a. rewrite Z.eqb_refl. constructor; [| exact (IH N2)].
    rewrite in_map_iff. intros (b & E & I). apply filter_In in I. destruct I as (I & C).
    destruct (b =? x) eqn:B.
    + apply Z.eqb_eq in B. subst b. exact (N1 I).
    + simpl in C. subst b. rewrite Z.eqb_refl in C. discriminate C.
  - destruct (a =? y) eqn:AY; simpl; [exact (IH N2) |]. rewrite A. constructor; [| exact (IH N2)].
    rewrite in_map_iff. intros (b & E & I). apply filter_In in I. destruct I as (I & C).
    destruct (b =? x) eqn:B.
    + subst a. rewrite Z.eqb_refl in AY. discriminate AY.
    + subst b. exact (N1 I).
Qed.

Lemma get_set_same : forall c l m, get_coll c (set_coll c l m) = l.
Proof. intros [] l m; reflexivity. Qed.
Lemma get_set_other : forall c d l m, c <> d -> get_coll c (set_coll d l m) = get_coll c m.
Proof. intros [] [] l m NE; try reflexivity; exfalso; apply NE; reflexivity. Qed.
Lemma get_hooked : forall w c d x m, c <> Environment -> get_coll c (hooked w d x m) = get_coll c m.
Proof. intros w c [] x m NE; cbn [hooked]; try reflexivity; apply get_set_other; exact NE. Qed.
Lemma get_env : forall m, get_coll Environment m = m_env m.
Proof. reflexivity. Qed.

Definition coll_dec : forall c d : coll, {c = d} + {c <> d}.
Proof. decide equality. Defined.

Lemma users_in : forall m x, In x (users m) <-> exists c, hooks c /\ In x (get_coll c m).
Proof.
  intros m x. unfold users. rewrite !in_app_iff. split.
  - intros [H | [H | H]].
    + exists Movers. split; [left; reflexivity | exact H].
    + exists Weatherers. split; [right; left; reflexivity | exact H].
    + exists Environment. split; [right; right; reflexivity | exact H].
  - intros (c & [E | [E | E]] & I); subst c; cbn [get_coll] in I; auto.
Qed.

Lemma within_get : forall w m, within w m <->
  (forall c, hooks c -> incl (get_coll c m) (w_objs w)) /\ (forall c, NoDup (get_coll c m)).
Proof.
  intros w m. unfold within. split.
  - intros (I & N1 & N2 & N3 & N4 & N5). split.
    + intros c H x X. apply I. apply users_in. exists c. split; assumption.
    + intros []; assumption.
  - intros (I & N). split; [| repeat split].
    + intros x X. apply users_in in X. destruct X as (c & H & X). exact (I c H x X).
    + exact (N Movers).
    + exact (N Weatherers).
    + exact (N Environment).
    + exact (N Outputters).
    + exact (N Spills).
Qed.

(** Setting a collection, then calling its callback. *)
Definition put (w : world) (c : coll) (x : Z) (l : list Z) (m : model) : model := hooked w c x (set_coll c l m).

Definition env0 (c : coll) (l : list Z) (m : model) : list Z := match c with Environment => l | _ => m_env m end.

Lemma put_env : forall w c x l m, m_env (put w c x l m) =
  match c with Movers | Weatherers | Environment => bring w (env0 c l m) x | Outputters | Spills => m_env m end.
Proof. intros w [] x l m; reflexivity. Qed.
Lemma put_get : forall w c d x l m, d <> Environment -> get_coll d (put w c x l m) = if coll_dec d c then l else get_coll d m.
Proof.
  intros w c d x l m NE. unfold put. rewrite get_hooked; [| exact NE]. destruct (coll_dec d c) as [E | E].
  - subst d. apply get_set_same.
  - apply get_set_other. exact E.
Qed.

Lemma put_ok : forall w c x l m, sound w -> within w m -> In x (w_objs w) -> NoDup l -> (hooks c -> incl l (w_objs w)) ->
  within w (put w c x l m) /\ incl (env0 c l m) (m_env (put w c x l m)) /\
  (hooks c -> incl (w_refs w x) (m_env (put w c x l m))) /\
  (exists t, m_env (put w c x l m) = env0 c l m ++ t) /\
  (forall y, In y (m_env (put w c x l m)) -> ~ In y (env0 c l m) ->
     hooks c /\ reach (w_refs w) x y /\ incl (w_refs w y) (m_env (put w c x l m))).
Proof.
  intros w c x l m SW WI X NL IL. apply within_get in WI. destruct WI as (WI & WN).
  assert (IE : incl (env0 c l m) (w_objs w)).
  { destruct c; cbn [env0]; try exact (WI Environment (or_intror (or_intror eq_refl))).
    apply IL. right. right. reflexivity. }
  assert (NE : NoDup (env0 c l m)).
  { destruct c; cbn [env0]; try exact (WN Environment). exact NL. }
  destruct (bring_grown w (env0 c l m) x SW X IE NE) as (G & R).
  pose proof (grown_incl _ _ _ _ G) as GI. destruct G as (P & GN & GO & GC).
  pose proof (put_env w c x l m) as PE.
  assert (K : hooks c \/ ~ hooks c).
  { destruct c; unfold hooks; try (left; auto; fail); right; intros [E | [E | E]]; discriminate E. }
  assert (M : (hooks c /\ m_env (put w c x l m) = bring w (env0 c l m) x) \/ (~ hooks c /\ m_env (put w c x l m) = m_env m)).
  { destruct K as [K | K]; [left | right]; (split; [exact K |]); rewrite PE; destruct c; try reflexivity; exfalso;
      try (destruct K as [E | [E | E]]; discriminate E); apply K; unfold hooks; auto. }
  assert (V : ~ hooks c -> env0 c l m = m_env m).
  { intro NK. destruct c; try reflexivity. exfalso. apply NK. right. right. reflexivity. }
  split; [| split; [| split; [| split]]].
  - apply within_get. split.
    + intros d H. destruct (coll_dec d Environment) as [E | E].
      * subst d. rewrite get_env. destruct M as [(K1 & M) | (K1 & M)]; rewrite M; [exact GO |].
        exact (WI Environment (or_intror (or_intror eq_refl))).
      * rewrite put_get; [| exact E]. destruct (coll_dec d c) as [Q | Q]; [subst d; exact (IL H) | exact (WI d H)].
    + intro d. destruct (coll_dec d Environment) as [E | E].
      * subst d. rewrite get_env. destruct M as [(K1 & M) | (K1 & M)]; rewrite M; [exact GN | exact (WN Environment)].
      * rewrite put_get; [| exact E]. destruct (coll_dec d c); [exact NL | exact (WN d)].
  - destruct M as [(K1 & M) | (K1 & M)]; rewrite M; [exact GI | rewrite (V K1); apply incl_refl].
  - intro K1. destruct M as [(K2 & M) | (K2 & M)]; [rewrite M; exact R | contradiction].
  - destruct M as [(K2 & M) | (K2 & M)]; rewrite M; [exact P | rewrite (V K2); exists []; symmetry; apply app_nil_r].
  - intros y Y NY. destruct M as [(K2 & M) | (K2 & M)].
    + rewrite M in Y |- *. split; [exact K2 | exact (GC y Y NY)].
    + rewrite M, <- (V K2) in Y. contradiction.
Qed.

Lemma put_brought : forall w c x l m, sound w -> within w m -> In x (w_objs w) -> NoDup l -> (hooks c -> incl l (w_objs w)) ->
  (forall z, In z l -> In z (get_coll c m) \/ z = x) -> incl (m_env m) (env0 c l m) ->
  brought w m -> brought w (put w c x l m).
Proof.
  intros w c x l m SW WI X NL IL HL HE B y Y.
  destruct (put_ok w c x l m SW WI X NL IL) as (_ & GE & GR & _ & GC).
  assert (OLD : In y (users m) -> incl (w_refs w y) (m_env (put w c x l m))).
  { intros U z Z0. apply GE, HE. exact (B y U z Z0). }
  apply users_in in Y. destruct Y as (d & H & Y). destruct (coll_dec d Environment) as [E | E].
  - subst d. rewrite get_env in Y. destruct (in_dec Z.eq_dec y (env0 c l m)) as [Q | Q].
    + destruct (coll_dec c Environment) as [E | E].
      * subst c. cbn [env0] in Q. destruct (HL y Q) as [A | A].
        -- apply OLD. apply users_in. exists Environment. split; assumption.
        -- subst y. apply GR. exact H.
      * apply OLD. apply users_in. exists Environment. split; [exact H |]. destruct c; try exact Q. exfalso. apply E. reflexivity.
    + destruct (GC y Y Q) as (_ & _ & C). exact C.
  - rewrite put_get in Y; [| exact E]. destruct (coll_dec d c) as [Q | Q].
    + subst d. destruct (HL y Y) as [A | A].
      * apply OLD. apply users_in. exists c. split; assumption.
      * subst y. apply GR. exact H.
    + apply OLD. apply users_in. exists d. split; assumption.
Qed.

Lemma add_put : forall w c x m, add w c x m = m /\ In x (get_coll c m) \/
  (~ In x (get_coll c m) /\ add w c x m = put w c x (get_coll c m ++ [x]) m).
Proof.
  intros w c x m. unfold add, oc_add. destruct (zmem x (get_coll c m)) eqn:M.
  - left. split; [reflexivity | apply zmem_in; exact M].
  - right. split; [apply zmem_out; exact M | reflexivity].
Qed.

Lemma add_pre : forall w c x m, within w m -> In x (w_objs w) -> ~ In x (get_coll c m) ->
  NoDup (get_coll c m ++ [x]) /\ (hooks c -> incl (get_coll c m ++ [x]) (w_objs w)).
Proof.
  intros w c x m WI X NX. apply within_get in WI. destruct WI as (WI & WN). split.
  - apply nodup_snoc; [exact (WN c) | exact NX].
  - intros H z Z0. apply in_app_or in Z0. destruct Z0 as [Z0 | [Z0 | []]]; [exact (WI c H z Z0) | subst z; exact X].
Qed.

Lemma add_ok : forall w c x m, sound w -> within w m -> In x (w_objs w) ->
  within w (add w c x m) /\ (brought w m -> brought w (add w c x m)).
Proof.
  intros w c x m SW WI X. destruct (add_put w c x m) as [(E & _) | (NX & E)]; rewrite E; [split; auto |].
  destruct (add_pre w c x m WI X NX) as (NL & IL). split.
  - exact (proj1 (put_ok w c x _ m SW WI X NL IL)).
  - apply put_brought; try assumption.
    + intros z Z0. apply in_app_or in Z0. destruct Z0 as [Z0 | [Z0 | []]]; auto.
    + intros z Z0. destruct c; cbn [env0 get_coll]; try exact Z0. apply in_or_app. left. exact Z0.
Qed.

Lemma add_other : forall w c d x m, d <> c -> d <> Environment -> get_coll d (add w c x m) = get_coll d m.
Proof.
  intros w c d x m NE NV. destruct (add_put w c x m) as [(E & _) | (NX & E)]; rewrite E; [reflexivity |].
  rewrite put_get; [| exact NV]. destruct (coll_dec d c); [contradiction | reflexivity].
Qed.
Lemma add_same : forall w c x m, c <> Environment -> get_coll c (add w c x m) = oc_add x (get_coll c m).
Proof.
  intros w c x m NV. unfold oc_add. destruct (add_put w c x m) as [(E & I) | (NX & E)]; rewrite E.
  - apply zmem_in in I. rewrite I. reflexivity.
  - apply zmem_out in NX. rewrite NX. rewrite put_get; [| exact NV]. destruct (coll_dec c c); [reflexivity | contradiction].
Qed.

(** The environment after adding. *)
Lemma add_env : forall w c x m, sound w -> within w m -> In x (w_objs w) ->
  exists t, m_env (add w c x m) = m_env m ++ t /\
    forall y, In y t -> (c = Environment /\ y = x) \/ reach (w_refs w) x y.
Proof.
  intros w c x m SW WI X. destruct (add_put w c x m) as [(E & _) | (NX & E)]; rewrite E.
  - exists []. split; [symmetry; apply app_nil_r | intros ? []].
  - destruct (add_pre w c x m WI X NX) as (NL & IL).
    destruct (put_ok w c x _ m SW WI X NL IL) as (W1 & GE & GR & (t & P) & GC).
    apply within_get in W1. destruct W1 as (_ & N1). specialize (N1 Environment). rewrite get_env, P in N1.
    assert (C : forall y, In y t -> reach (w_refs w) x y).
    { intros y Y. apply GC.
      - rewrite P. apply in_or_app. right. exact Y.
      - intro Q. apply in_split in Q. destruct Q as (a & b & Q). rewrite Q in N1. rewrite <- app_assoc in N1.
        apply NoDup_remove_2 in N1. apply N1. rewrite !in_app_iff. auto. }
    destruct (coll_dec c Environment) as [V | V].
    + subst c. cbn [env0 get_coll] in *. exists ([x] ++ t). split; [rewrite P; rewrite <- app_assoc; reflexivity |].
      intros y [Y | Y]; [left; auto | right; exact (C y Y)].
    + exists t. split; [rewrite P; destruct c; try reflexivity; exfalso; apply V; reflexivity |].
      intros y Y. right. exact (C y Y).
Qed.

Lemma add_there : forall w c x m, sound w -> within w m -> In x (w_objs w) -> In x (get_coll c (add w c x m)).
Proof.
  intros w c x m SW WI X. destruct (add_put w c x m) as [(E & I) | (NX & E)]; rewrite E; [exact I |].
  destruct (coll_dec c Environment) as [V | V].
  - subst c. destruct (add_pre w Environment x m WI X NX) as (NL & IL).
    destruct (put_ok w Environment x _ m SW WI X NL IL) as (_ & GE & _). apply GE. cbn [env0].
    apply in_or_app. right. left. reflexivity.
  - rewrite put_get; [| exact V]. destruct (coll_dec c c); [| contradiction]. apply in_or_app. right. left. reflexivity.
Qed.

Lemma add_keeps : forall w c d x z m, sound w -> within w m -> In x (w_objs w) -> In z (get_coll d m) -> In z (get_coll d (add w c x m)).
Proof.
  intros w c d x z m SW WI X I. destruct (coll_dec d Environment) as [V | V].
  - subst d. rewrite get_env in *. destruct (add_env w c x m SW WI X) as (t & P & _). rewrite P. apply in_or_app. left. exact I.
  - destruct (coll_dec d c) as [E | E].
    + subst d. rewrite add_same; [| exact V]. apply in_oc_add. left. exact I.
    + rewrite add_other; assumption.
Qed.

(** ** Several additions *)

Lemma merge_coll_ok : forall w c l m, sound w -> within w m -> (forall x, In x l -> In x (w_objs w)) ->
  within w (merge_coll w c l m) /\ (brought w m -> brought w (merge_coll w c l m)) /\
  (exists t, m_env (merge_coll w c l m) = m_env m ++ t /\
     forall y, In y t -> exists x, In x l /\ ~ In x (get_coll c m) /\ ((c = Environment /\ y = x) \/ reach (w_refs w) x y)) /\
  (forall x, In x l -> In x (get_coll c (merge_coll w c l m))) /\
  (forall d x, In x (get_coll d m) -> In x (get_coll d (merge_coll w c l m))).
Proof.
  intros w c l. unfold merge_coll. induction l as [| a t IH]; intros m SW WI I; cbn [fold_left].
  - split; [exact WI | split; [auto | split; [| split]]].
    + exists []. split; [symmetry; apply app_nil_r | intros ? []].
    + intros ? [].
    + auto.
  - assert (A : In a (w_objs w)) by (apply I; left; reflexivity).
    destruct (add_ok w c a m SW WI A) as (W1 & B1).
    assert (IT : forall x, In x t -> In x (w_objs w)) by (intros; apply I; right; assumption).
    destruct (IH (add w c a m) SW W1 IT) as (W2 & B2 & (t2 & P2 & R2) & TH & KE).
    split; [exact W2 | split; [auto | split; [| split]]].
    + destruct (add_env w c a m SW WI A) as (t1 & P1 & R1). exists (t1 ++ t2). split; [rewrite P2, P1; rewrite <- app_assoc; reflexivity |].
      intros y Y. apply in_app_or in Y. destruct Y as [Y | Y].
      * exists a. split; [left; reflexivity | split; [| exact (R1 y Y)]].
        intro Q. destruct (add_put w c a m) as [(E & _) | (NX & _)]; [| contradiction].
        rewrite E in P1. assert (t1 = []) by (apply (app_inv_head (m_env m)); rewrite <- P1; symmetry; apply app_nil_r).
        subst t1. destruct Y.
      * destruct (R2 y Y) as (x & X & NX & Q). exists x. split; [right; exact X | split; [| exact Q]].
        intro Q2. apply NX. apply add_keeps; assumption.
    + intros x [E | X]; [subst x; apply KE; apply add_there; assumption | exact (TH x X)].
    + intros d x X. apply KE. apply add_keeps; assumption.
Qed.

Lemma merge_coll_other : forall w c d l m, d <> c -> d <> Environment -> get_coll d (merge_coll w c l m) = get_coll d m.
Proof.
  intros w c d l. unfold merge_coll. induction l as [| a t IH]; intros m NE NV; cbn [fold_left]; [reflexivity |].
  rewrite IH; [apply add_other; assumption | exact NE | exact NV].
Qed.

Lemma filter_none : forall (f : Z -> bool) l, (forall x, In x l -> f x = false) -> filter f l = [].
Proof.
  intros f l H. induction l as [| a t IH]; simpl; [reflexivity |]. rewrite (H a (or_introl eq_refl)). apply IH. intros x X. apply H. right. exact X.
Qed.

Lemma merge_coll_same : forall w c l m, c <> Environment -> NoDup l ->
  get_coll c (merge_coll w c l m) = get_coll c m ++ new_in (get_coll c m) l.
Proof.
  intros w c l. unfold merge_coll. induction l as [| a t IH]; intros m NV N; cbn [fold_left].
  - symmetry. apply app_nil_r.
  - inversion N as [| ? ? N1 N2]; subst. rewrite (IH _ NV N2). rewrite add_same; [| exact NV]. unfold oc_add, new_in. cbn [filter].
    destruct (zmem a (get_coll c m)) eqn:M; cbn [negb]; [reflexivity |]. rewrite <- app_assoc. cbn [app]. f_equal. f_equal.
    apply filter_ext_in. intros x X. f_equal. destruct (zmem x (get_coll c m)) eqn:Q.
    + apply zmem_in. apply in_or_app. left. apply zmem_in. exact Q.
    + apply zmem_out. intro H. apply in_app_or in H. destruct H as [H | [H | []]].
      * apply zmem_in in H. congruence.
      * subst x. contradiction.
Qed.

Lemma merge_coll_id : forall w c l m, incl l (get_coll c m) -> merge_coll w c l m = m.
Proof.
  intros w c l. unfold merge_coll. induction l as [| a t IH]; intros m I; cbn [fold_left]; [reflexivity |].
  assert (A : In a (get_coll c m)) by (apply I; left; reflexivity).
  destruct (add_put w c a m) as [(E & _) | (NX & _)]; [| contradiction]. rewrite E. apply IH. intros x X. apply I. right. exact X.
Qed.

(** ** Merging *)

Definition attrs (m other : model) : model :=
  Model (m_movers m) (m_weath m) (m_env m) (m_outs m) (m_spills m) (m_map m)
        (or_else (m_dur m) (m_dur other)) (or_else (m_step m) (m_step other)) (or_else (m_nts m) (m_nts other)).
Lemma attrs_get : forall c m o, get_coll c (attrs m o) = get_coll c m.
Proof. intros [] m o; reflexivity. Qed.

Lemma merge_eq : forall w m o, merge w m o =
  merge_coll w Spills (m_spills o) (merge_coll w Outputters (m_outs o) (merge_coll w Environment (m_env o)
   (merge_coll w Weatherers (m_weath o) (merge_coll w Movers (m_movers o) (attrs m o))))).
Proof. reflexivity. Qed.

Lemma add_attrs : forall w c x m, m_map (add w c x m) = m_map m /\ m_dur (add w c x m) = m_dur m /\ m_step (add w c x m) = m_step m /\
  m_nts (add w c x m) = m_nts m.
Proof.
  intros w c x m. unfold add. destruct (zmem x (get_coll c m)); [auto |]. destruct c; cbn [hooked set_coll m_map m_dur m_step m_nts]; auto.
Qed.
Lemma merge_coll_attrs : forall w c l m, m_map (merge_coll w c l m) = m_map m /\ m_dur (merge_coll w c l m) = m_dur m /\
  m_step (merge_coll w c l m) = m_step m /\ m_nts (merge_coll w c l m) = m_nts m.
Proof.
  intros w c l. unfold merge_coll. induction l as [| a t IH]; intro m; cbn [fold_left]; [auto |].
  destruct (IH (add w c a m)) as (A & B & C & D). rewrite A, B, C, D. apply add_attrs.
Qed.
Lemma merge_attrs : forall w m o, m_map (merge w m o) = m_map m /\ m_dur (merge w m o) = or_else (m_dur m) (m_dur o) /\
  m_step (merge w m o) = or_else (m_step m) (m_step o) /\ m_nts (merge w m o) = or_else (m_nts m) (m_nts o).
Proof.
  intros w m o. rewrite merge_eq.
  repeat match goal with |- context [merge_coll w ?c ?l ?x] =>
    let A := fresh in let B := fresh in let C := fresh in let D := fresh in
    destruct (merge_coll_attrs w c l x) as (A & B & C & D); rewrite A, B, C, D; clear A B C D end.
  auto.
Qed.

(** The steps of a merge, outermost last. *)
Definition mg1 w m o := merge_coll w Movers (m_movers o) (attrs m o).
Definition mg2 w m o := merge_coll w Weatherers (m_weath o) (mg1 w m o).
Definition mg3 w m o := merge_coll w Environment (m_env o) (mg2 w m o).
Definition mg4 w m o := merge_coll w Outputters (m_outs o) (mg3 w m o).

Lemma outs_in : forall w c l m, c = Outputters \/ c = Spills -> within w m ->
  NoDup (get_coll c m) -> 
  within w (merge_coll w c l m) /\ m_env (merge_coll w c l m) = m_env m /\ users (merge_coll w c l m) = users m /\
  (forall x, In x l -> In x (get_coll c (merge_coll w c l m))) /\
  (forall d x, In x (get_coll d m) -> In x (get_coll d (merge_coll w c l m))).
Proof.
  intros w c l m HC WI N. revert m WI N. unfold merge_coll. induction l as [| a t IH]; intros m WI N; cbn [fold_left].
  - split; [exact WI | split; [reflexivity | split; [reflexivity | split; [intros ? [] | auto]]]].
  - assert (ST : within w (add w c a m) /\ m_env (add w c a m) = m_env m /\ users (add w c a m) = users m /\
                 get_coll c (add w c a m) = oc_add a (get_coll c m) /\ (forall d, d <> c -> get_coll d (add w c a m) = get_coll d m)).
    { assert (G : get_coll c (add w c a m) = oc_add a (get_coll c m)).
      { apply add_same. destruct HC as [E | E]; subst c; discriminate. }
      assert (V : m_env (add w c a m) = m_env m /\ users (add w c a m) = users m /\ forall d, d <> c -> get_coll d (add w c a m) = get_coll d m).
      { unfold add. destruct (zmem a (get_coll c m)); [auto |]. destruct HC as [E | E]; subst c; cbn [hooked];
          (split; [reflexivity | split; [reflexivity | intros d D; apply get_set_other; exact D]]). }
      destruct V as (V1 & V2 & V3). split; [| auto].
      apply within_get in WI. destruct WI as (WI & WN). apply within_get. split.
      - intros d H. rewrite V3; [exact (WI d H) |]. intro E. subst d. destruct HC as [E | E]; subst c; destruct H as [H | [H | H]]; discriminate H.
      - intro d. destruct (coll_dec d c) as [E | E]; [subst d; rewrite G; apply nodup_oc_add; exact N | rewrite V3; [exact (WN d) | exact E]]. }
    destruct ST as (W1 & E1 & U1 & G1 & O1).
    assert (N1 : NoDup (get_coll c (add w c a m))) by (rewrite G1; apply nodup_oc_add; exact N).
    destruct (IH (add w c a m) W1 N1) as (W2 & E2 & U2 & T2 & K2).
    assert (K1 : forall d x, In x (get_coll d m) -> In x (get_coll d (add w c a m))).
    { intros d x X. destruct (coll_dec d c) as [E | E]; [subst d; rewrite G1; apply in_oc_add; left; exact X | rewrite O1; assumption]. }
    split; [exact W2 | split; [congruence | split; [congruence | split]]].
    + intros x [E | X]; [subst x; apply K2; rewrite G1; apply in_oc_add; right; reflexivity | exact (T2 x X)].
    + intros d x X. apply K2, K1, X.
Qed.

Lemma merge_all : forall w m o, sound w -> within w m -> within w o ->
  within w (merge w m o) /\ (brought w m -> brought w (merge w m o)) /\
  (exists t, m_env (merge w m o) = m_env m ++ t /\
     forall y, In y t -> In y (m_env o) \/ exists c x, hooks c /\ In x (get_coll c o) /\ ~ In x (get_coll c m) /\ reach (w_refs w) x y) /\
  (forall c x, In x (get_coll c o) -> In x (get_coll c (merge w m o))) /\
  (forall c x, In x (get_coll c m) -> In x (get_coll c (merge w m o))).
Proof.
  intros w m o SW WM WO. pose proof WM as WM'. pose proof WO as WO'.
  apply within_get in WO'. destruct WO' as (OI & ON).
  assert (W0 : within w (attrs m o)) by exact WM.
  assert (hm : hooks Movers) by (left; reflexivity).
  assert (hw : hooks Weatherers) by (right; left; reflexivity).
  assert (he : hooks Environment) by (right; right; reflexivity).
  destruct (merge_coll_ok w Movers (m_movers o) (attrs m o) SW W0 (OI Movers hm)) as (W1 & B1 & (t1 & P1 & R1) & T1 & K1).
  fold (mg1 w m o) in *.
  destruct (merge_coll_ok w Weatherers (m_weath o) (mg1 w m o) SW W1 (OI Weatherers hw)) as (W2 & B2 & (t2 & P2 & R2) & T2 & K2).
  fold (mg2 w m o) in *.
  destruct (merge_coll_ok w Environment (m_env o) (mg2 w m o) SW W2 (OI Environment he)) as (W3 & B3 & (t3 & P3 & R3) & T3 & K3).
  fold (mg3 w m o) in *.
  assert (N3 : NoDup (get_coll Outputters (mg3 w m o))) by (apply within_get in W3; apply W3).
  destruct (outs_in w Outputters (m_outs o) (mg3 w m o) (or_introl eq_refl) W3 N3) as (W4 & E4 & U4 & T4 & K4).
  fold (mg4 w m o) in *.
  assert (N4 : NoDup (get_coll Spills (mg4 w m o))) by (apply within_get in W4; apply W4).
  destruct (outs_in w Spills (m_spills o) (mg4 w m o) (or_intror eq_refl) W4 N4) as (W5 & E5 & U5 & T5 & K5).
  assert (EQ : merge w m o = merge_coll w Spills (m_spills o) (mg4 w m o)) by reflexivity.
  rewrite EQ. split; [exact W5 | split; [| split; [| split]]].
  - intros B x X. rewrite E5, E4. rewrite U5, U4 in X. exact (B3 (B2 (B1 B)) x X).
  - exists (t1 ++ t2 ++ t3). split.
    + rewrite E5, E4, P3, P2, P1. change (m_env (attrs m o)) with (m_env m). rewrite <- !app_assoc. reflexivity.
    + intros y Y. apply in_app_or in Y. destruct Y as [Y | Y]; [| apply in_app_or in Y; destruct Y as [Y | Y]].
      * destruct (R1 y Y) as (x & X & NX & [(Q & _) | Q]); [discriminate Q |]. right. exists Movers, x. auto.
      * destruct (R2 y Y) as (x & X & NX & [(Q & _) | Q]); [discriminate Q |]. right. exists Weatherers, x.
        split; [exact hw | split; [exact X | split; [| exact Q]]]. intro I. apply NX. exact (K1 Weatherers x I).
      * destruct (R3 y Y) as (x & X & NX & [(_ & Q) | Q]); [left; subst y; exact X |]. right. exists Environment, x.
        split; [exact he | split; [exact X | split; [| exact Q]]]. intro I. apply NX. exact (K2 Environment x (K1 Environment x I)).
  - intros c x X. destruct c; cbn [get_coll] in X.
    + exact (K5 Movers x (K4 Movers x (K3 Movers x (K2 Movers x (T1 x X))))).
    + exact (K5 Weatherers x (K4 Weatherers x (K3 Weatherers x (T2 x X)))).
    + exact (K5 Environment x (K4 Environment x (T3 x X))).
    + exact (K5 Outputters x (T4 x X)).
    + exact (T5 x X).
  - intros c x X. rewrite <- (attrs_get c m o) in X. exact (K5 c x (K4 c x (K3 c x (K2 c x (K1 c x X))))).
Qed.

Lemma merge_list : forall w m o c, c <> Environment -> within w o ->
  get_coll c (merge w m o) = get_coll c m ++ new_in (get_coll c m) (get_coll c o).
Proof.
  intros w m o c NV WO. apply within_get in WO. destruct WO as (_ & N). rewrite merge_eq. specialize (N c).
  destruct c; try (exfalso; apply NV; reflexivity); cbn [get_coll] in N.
  - do 4 (rewrite merge_coll_other; [| discriminate | discriminate]). rewrite merge_coll_same; [| discriminate | exact N]. reflexivity.
  - do 3 (rewrite merge_coll_other; [| discriminate | discriminate]). rewrite merge_coll_same; [| discriminate | exact N].
    rewrite merge_coll_other; [reflexivity | discriminate | discriminate].
  - rewrite merge_coll_other; [| discriminate | discriminate]. rewrite merge_coll_same; [| discriminate | exact N].
    do 3 (rewrite merge_coll_other; [| discriminate | discriminate]). reflexivity.
  - rewrite merge_coll_same; [| discriminate | exact N]. do 4 (rewrite merge_coll_other; [| discriminate | discriminate]). reflexivity.
Qed.

Lemma or_else_same : forall a, or_else a a = a.
Proof. intros [a |]; reflexivity. Qed.
Lemma or_else_twice : forall a b, or_else (or_else a b) b = or_else a b.
Proof. intros [a |] [b |]; reflexivity. Qed.

Lemma attrs_merged : forall w m o, attrs (merge w m o) o = merge w m o.
Proof.
  intros w m o. destruct (merge_attrs w m o) as (A & B & C & D). unfold attrs. rewrite B, C, D, !or_else_twice, <- B, <- C, <- D.
  destruct (merge w m o); reflexivity.
Qed.

Lemma merge_incl : forall w m o, attrs m o = m -> (forall c, incl (get_coll c o) (get_coll c m)) -> merge w m o = m.
Proof.
  intros w m o E I. rewrite merge_eq, E.
  rewrite (merge_coll_id w Movers); [| exact (I Movers)].
  rewrite (merge_coll_id w Weatherers); [| exact (I Weatherers)].
  rewrite (merge_coll_id w Environment); [| exact (I Environment)].
  rewrite (merge_coll_id w Outputters); [| exact (I Outputters)].
  rewrite (merge_coll_id w Spills); [| exact (I Spills)]. reflexivity.
Qed.

(** ** Scripts *)

Lemma nodup_filter : forall (f : Z -> bool) l, NoDup l -> NoDup (filter f l).
Proof. intros. apply NoDup_filter. assumption. Qed.

Lemma set_coll_within : forall w c l m, within w m -> NoDup l -> (hooks c -> incl l (w_objs w)) -> within w (set_coll c l m).
Proof.
  intros w c l m WI N I. apply within_get in WI. destruct WI as (WI & WN). apply within_get. split.
  - intros d H. destruct (coll_dec d c) as [E | E]; [subst d; rewrite get_set_same; exact (I H) | rewrite get_set_other; [exact (WI d H) | exact E]].
  - intro d. destruct (coll_dec d c) as [E | E]; [subst d; rewrite get_set_same; exact N | rewrite get_set_other; [exact (WN d) | exact E]].
Qed.

Lemma remove_within : forall w c x m, within w m -> within w (fst (remove c x m)).
Proof.
  intros w c x m WI. unfold remove. destruct (zmem x (get_coll c m)); cbn [fst]; [| exact WI].
  pose proof WI as W2. apply within_get in W2. destruct W2 as (W2 & WN). apply set_coll_within; [exact WI | apply nodup_filter; exact (WN c) |].
  intros H z Z0. apply in_oc_remove in Z0. exact (W2 c H z (proj1 Z0)).
Qed.
Lemma replace_pre : forall w c x y m, within w m -> In y (w_objs w) -> In x (get_coll c m) ->
  NoDup (oc_replace x y (get_coll c m)) /\ (hooks c -> incl (oc_replace x y (get_coll c m)) (w_objs w)).
Proof.
  intros w c x y m WI Y X. apply within_get in WI. destruct WI as (W2 & WN). split; [apply nodup_oc_replace; exact (WN c) |].
  intros H z Z0. apply in_oc_replace in Z0; [| exact X]. destruct Z0 as [Z0 | (Z0 & _)]; [subst z; exact Y | exact (W2 c H z Z0)].
Qed.
Lemma replace_within : forall w c x y m, sound w -> within w m -> In y (w_objs w) -> within w (fst (replace w c x y m)).
Proof.
  intros w c x y m SW WI Y. unfold replace. destruct (zmem x (get_coll c m)) eqn:M; cbn [fst]; [| exact WI].
  apply zmem_in in M. destruct (replace_pre w c x y m WI Y M) as (N & I).
  exact (proj1 (put_ok w c y _ m SW WI Y N I)).
Qed.

Lemma step_world : forall w m o, steady o -> fst (step (w, m) o) = w.
Proof. intros w m [] S; try reflexivity; destruct S. Qed.

Lemma step_within : forall w m o, sound w -> within w m -> op_within w o -> (forall x l, o <> Refer x l) -> within w (snd (step (w, m) o)).
Proof.
  intros w m o SW WI OW NR. destruct o as [c x | c x | c x y | other | x l]; cbn [step snd op_within] in *.
  - exact (proj1 (add_ok w c x m SW WI OW)).
  - apply remove_within; assumption.
  - apply replace_within; assumption.
  - exact (proj1 (merge_all w m other SW WI OW)).
  - exfalso. exact (NR x l eq_refl).
Qed.

Lemma step_brought : forall w m o, sound w -> within w m -> op_within w o -> steady o -> brought w m -> brought w (snd (step (w, m) o)).
Proof.
  intros w m o SW WI OW ST B. destruct o as [c x | c x | c x y | other | x l]; cbn [step snd op_within steady] in *.
  - exact (proj2 (add_ok w c x m SW WI OW) B).
  - unfold remove. destruct (zmem x (get_coll c m)); cbn [fst]; [| exact B].
    assert (E : m_env (set_coll c (oc_remove x (get_coll c m)) m) = m_env m).
    { destruct c; try reflexivity. exfalso. apply ST. reflexivity. }
    intros z Z0. rewrite E. apply B. apply users_in in Z0. destruct Z0 as (d & H & Z0). apply users_in. exists d. split; [exact H |].
    destruct (coll_dec d c) as [Q | Q].
    + subst d. rewrite get_set_same in Z0. apply in_oc_remove in Z0. exact (proj1 Z0).
    + rewrite get_set_other in Z0; assumption.
  - unfold replace. destruct (zmem x (get_coll c m)) eqn:M; cbn [fst]; [| exact B].
    apply zmem_in in M. destruct (replace_pre w c x y m WI OW M) as (N & I).
    apply (put_brought w c y _ m SW WI OW N I).
    + intros z Z0. apply in_oc_replace in Z0; [| exact M]. destruct Z0 as [Z0 | (Z0 & _)]; auto.
    + destruct c; cbn [env0]; try apply incl_refl. exfalso. apply ST. reflexivity.
    + exact B.
  - exact (proj1 (proj2 (merge_all w m other SW WI OW)) B).
  - destruct ST.
Qed.

Lemma run_brought : forall ops w m, sound w -> within w m -> Forall (op_within w) ops -> Forall steady ops -> brought w m ->
  brought w (snd (run (w, m) ops)) /\ within w (snd (run (w, m) ops)).
Proof.
  induction ops as [| o t IH]; intros w m SW WI OW ST B; cbn [run fold_left]; [split; assumption |].
  inversion OW as [| ? ? O1 O2]; subst. inversion ST as [| ? ? S1 S2]; subst.
  pose proof (step_world w m o S1) as SE.
  assert (NR : forall x l, o <> Refer x l) by (intros x l E; subst o; exact S1).
  pose proof (step_within w m o SW WI O1 NR) as W1. pose proof (step_brought w m o SW WI O1 S1 B) as B1.
  destruct (step (w, m) o) as (w1, m1). cbn [fst snd] in *. subst w1. exact (IH w m1 SW W1 O2 S2 B1).
Qed.

Lemma run_within : forall ops w m, sound w -> within w m -> Forall (op_within w) ops ->
  Forall (fun o => match o with Refer _ _ => False | _ => True end) ops ->
  fst (run (w, m) ops) = w /\ within w (snd (run (w, m) ops)).
Proof.
  induction ops as [| o t IH]; intros w m SW WI OW NR; cbn [run fold_left]; [split; [reflexivity | assumption] |].
  inversion OW as [| ? ? O1 O2]; subst. inversion NR as [| ? ? S1 S2]; subst.
  assert (N1 : forall x l, o <> Refer x l) by (intros x l E; subst o; exact S1).
  pose proof (step_within w m o SW WI O1 N1) as W1.
  assert (SE : fst (step (w, m) o) = w) by (destruct o; try reflexivity; destruct S1).
  destruct (step (w, m) o) as (w1, m1). cbn [fst snd] in *. subst w1. exact (IH w m1 SW W1 O2 S2).
Qed.

(** Whatever is in a collection stays until it is taken. *)
Lemma step_keeps : forall w m o c x, sound w -> within w m -> op_within w o -> ~ takes c x o ->
  In x (get_coll c m) -> In x (get_coll c (snd (step (w, m) o))).
Proof.
  intros w m o c x SW WI OW NT I. destruct o as [d y | d y | d y z | other | y l]; cbn [step snd op_within takes] in *.
  - apply add_keeps; assumption.
  - unfold remove. destruct (zmem y (get_coll d m)); cbn [fst]; [| exact I].
    destruct (coll_dec c d) as [E | E]; [| rewrite get_set_other; assumption]. subst d. rewrite get_set_same. apply in_oc_remove.
    split; [exact I |]. intro E. apply NT. split; [reflexivity | symmetry; exact E].
  - unfold replace. destruct (zmem y (get_coll d m)) eqn:M; cbn [fst]; [| exact I]. apply zmem_in in M.
    destruct (replace_pre w d y z m WI OW M) as (N & IN).
    assert (L : d = c -> In x (oc_replace y z (get_coll d m))).
    { intro E. subst d. apply in_oc_replace; [exact M |]. destruct (Z.eq_dec x z) as [Q | Q]; [left; exact Q | right; split; [exact I |]].
      intro E. subst y. apply NT. split; [reflexivity | split; [reflexivity | intro E; apply Q; symmetry; exact E]]. }
    destruct (put_ok w d z _ m SW WI OW N IN) as (_ & GE & _). fold (put w d z (oc_replace y z (get_coll d m)) m).
    destruct (coll_dec c Environment) as [V | V].
    + subst c. rewrite get_env. apply GE. destruct d; cbn [env0]; try exact I. exact (L eq_refl).
    + rewrite put_get; [| exact V]. destruct (coll_dec c d) as [E | E]; [apply L; symmetry; exact E | exact I].
  - destruct (merge_all w m other SW WI OW) as (_ & _ & _ & _ & K). exact (K c x I).
  - exact I.
Qed.

Lemma run_keeps : forall ops w m c x, sound w -> within w m -> Forall (op_within w) ops ->
  Forall (fun o => match o with Refer _ _ => False | _ => True end) ops -> Forall (fun o => ~ takes c x o) ops ->
  In x (get_coll c m) -> In x (get_coll c (snd (run (w, m) ops))).
Proof.
  induction ops as [| o t IH]; intros w m c x SW WI OW NR NT I; cbn [run fold_left]; [exact I |].
  inversion OW as [| ? ? O1 O2]; subst. inversion NR as [| ? ? S1 S2]; subst. inversion NT as [| ? ? T1 T2]; subst.
  assert (N1 : forall x l, o <> Refer x l) by (intros z l E; subst o; exact S1).
  pose proof (step_within w m o SW WI O1 N1) as W1. pose proof (step_keeps w m o c x SW WI O1 T1 I) as K1.
  assert (SE : fst (step (w, m) o) = w) by (destruct o; try reflexivity; destruct S1).
  destruct (step (w, m) o) as (w1, m1). cbn [fst snd] in *. subst w1. exact (IH w m1 c x SW W1 O2 S2 T2 K1).
Qed.

Lemma reach_closed : forall w m x y, brought w m -> In x (users m) -> reach (w_refs w) x y -> In y (m_env m).
Proof.
  intros w m x y B X R. revert X. induction R as [a b H | a b c H R IH]; intro X.
  - exact (B a X b H).
  - apply IH. apply users_in. exists Environment. split; [right; right; reflexivity | exact (B a X b H)].
Qed.

Lemma contains_iff : forall m x, contains_object m x = true <-> m_map m = x \/ exists c, In x (get_coll c m).
Proof.
  intros m x. unfold contains_object. rewrite orb_true_iff, Z.eqb_eq, existsb_exists. split.
  - intros [E | (c & _ & I)]; [left; exact E | right; exists c; apply zmem_in; exact I].
  - intros [E | (c & I)]; [left; exact E | right; exists c; split; [destruct c; simpl; tauto | apply zmem_in; exact I]].
Qed.

(** ** Standard weathering *)

Lemma seqb_iff : forall a b, seqb a b = true <-> a = b.
Proof. intros a b. unfold seqb. destruct (str_eq_dec a b); split; intro H; try assumption; try reflexivity; try discriminate; contradiction. Qed.

Lemma by_name_iff : forall s c, by_name s = Some c <-> named s c.
Proof.
  intros s c. unfold by_name, named. split.
  - repeat match goal with |- (if seqb ?a ?b then _ else _) = _ -> _ =>
      let E := fresh "E" in destruct (seqb a b) eqn:E; [apply seqb_iff in E; intro H; injection H as H; subst; tauto | clear E] end.
    intro H. discriminate H.
  - intros [(E & K) | [(E & K) | [(E & K) | [(E & K) | (E & K)]]]]; subst; reflexivity.
Qed.

Lemma add_names_ok : forall l cs rest ws, Forall2 (fun s c => named (lower s) c) l cs -> add_names (l ++ rest) ws = add_names rest (ws ++ cs).
Proof.
  intros l cs rest ws F. revert ws. induction F as [| s c l cs H F IH]; intro ws; cbn [app add_names].
  - rewrite app_nil_r. reflexivity.
  - apply by_name_iff in H. rewrite H, IH. rewrite <- app_assoc. reflexivity.
Qed.
