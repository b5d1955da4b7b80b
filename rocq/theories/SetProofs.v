(** * Proofs about the start of a run *)
From Coq Require Import Lia.
From Verif Require Import Py PyLemmas OrderModel SetModel SetSpec.
Open Scope Z_scope.

Lemma dget_dset : forall V (d : dict V) k v k', dget k' (dset k v d) = if k' =? k then Some v else dget k' d.
Proof.
  induction d as [|[a b] r IH]; intros k v k'; simpl.
  - destruct (k' =? k); reflexivity.
  - destruct (Z.eqb_spec k a) as [->|N]; simpl.
    + destruct (Z.eqb_spec k' a); reflexivity.
    + rewrite IH. destruct (Z.eqb_spec k' a) as [->|]; [|reflexivity].
      destruct (Z.eqb_spec a k); [congruence|reflexivity].
Qed.

Lemma upd_same : forall h x o, upd h x o x = o.
Proof. intros. unfold upd. rewrite Z.eqb_refl. reflexivity. Qed.
Lemma upd_other : forall h x o y, y <> x -> upd h x o y = h y.
Proof. intros. unfold upd. destruct (Z.eqb_spec y x); [contradiction|reflexivity]. Qed.

(** ** Gathering *)
Section G.
  Variable eqv : Z -> Z -> bool.
  (** The head of the list for a name. *)
  Definition hd_of (d : dict (list Z)) (n : name) : option Z :=
    match dget n d with Some (y :: _) => Some y | _ => None end.
  (** No list is empty. *)
  Definition full (d : dict (list Z)) := forall n, dget n d <> Some [].

  Lemma add_ref_hd : forall x d n k, full d -> full (add_ref eqv x d n) /\
    hd_of (add_ref eqv x d n) k = match hd_of d k with Some y => Some y | None => if k =? n then Some x else None end.
  Proof.
    intros x d n k F. unfold add_ref.
    destruct (dget n d) as [l|] eqn:E.
    - destruct l as [|y l]; [exfalso; eapply F; eauto|].
      destruct (existsb _ _).
      + split; [exact F|]. unfold hd_of. destruct (dget k d) as [[|z w]|] eqn:E2.
        * exfalso; eapply F; eauto.
        * reflexivity.
        * destruct (Z.eqb_spec k n); [subst; congruence|reflexivity].
      + split.
        * intros j. rewrite dget_dset. destruct (j =? n); [discriminate|apply F].
        * unfold hd_of. rewrite dget_dset. destruct (Z.eqb_spec k n) as [->|N].
          -- rewrite E. reflexivity.
          -- destruct (dget k d) as [[|z w]|]; reflexivity.
    - split.
      + intros j. rewrite dget_dset. destruct (j =? n); [discriminate|apply F].
      + unfold hd_of. rewrite dget_dset. destruct (Z.eqb_spec k n) as [->|N].
        * rewrite E. reflexivity.
        * destruct (dget k d) as [[|z w]|]; reflexivity.
  Qed.
  Lemma gather1_hd : forall ns x d k, full d -> full (fold_left (add_ref eqv x) ns d) /\
    hd_of (fold_left (add_ref eqv x) ns d) k = match hd_of d k with Some y => Some y | None => if zmem k ns then Some x else None end.
  Proof.
    induction ns as [|n r IH]; intros x d k F; simpl.
    - split; [exact F|]. destruct (hd_of d k); reflexivity.
    - destruct (add_ref_hd x d n k F) as (F1 & H1). destruct (IH x _ k F1) as (F2 & H2).
      split; [exact F2|]. rewrite H2, H1. destruct (hd_of d k); [reflexivity|].
      unfold zmem. simpl. destruct (k =? n); reflexivity.
  Qed.
  Lemma offers_iff : forall h n x, offers h n x <-> In n (offered (o_ref (h x))).
  Proof.
    intros h n x. unfold offers. destruct (o_ref (h x)) as [|m|ns]; simpl; split.
    - intros [Q|(ns & Q & _)]; discriminate.
    - intros [].
    - intros [Q|(ns & Q & _)]; [|discriminate]. inversion Q. auto.
    - intros [->|[]]. auto.
    - intros [Q|(ns' & Q & I)]; [discriminate|]. inversion Q; subst. exact I.
    - intros I. right. exists ns. auto.
  Qed.

  (** The first object of the list that offers the name. *)
  Fixpoint first_in (h : heap) (n : name) (l : list Z) : option Z :=
    match l with [] => None | x :: r => if zmem n (offered (o_ref (h x))) then Some x else first_in h n r end.
  Lemma gather_hd : forall l h d k, full d -> full (gather eqv h l d) /\
    hd_of (gather eqv h l d) k = match hd_of d k with Some y => Some y | None => first_in h k l end.
  Proof.
    induction l as [|x r IH]; intros h d k F.
    - simpl. split; [exact F|]. destruct (hd_of d k); reflexivity.
    - change (gather eqv h (x :: r) d) with (gather eqv h r (gather1 eqv h d x)).
      destruct (gather1_hd (offered (o_ref (h x))) x d k F) as (F1 & H1).
      fold (gather1 eqv h d x) in F1, H1.
      destruct (IH h _ k F1) as (F2 & H2). split; [exact F2|].
      rewrite H2, H1. simpl. destruct (hd_of d k); [reflexivity|].
      destruct (zmem _ _); reflexivity.
  Qed.
  Lemma first_in_app : forall h n a b, first_in h n (a ++ b) = match first_in h n a with Some y => Some y | None => first_in h n b end.
  Proof. induction a as [|x r IH]; intros b; simpl; [reflexivity|]. destruct (zmem _ _); [reflexivity|apply IH]. Qed.
  Definition all_refs (h : heap) (m : model) : dict (list Z) :=
    gather eqv h (m_outs m) (gather eqv h (m_weath m) (gather eqv h (m_movers m) (gather eqv h [m_map m] (gather eqv h (m_env m) [])))).
  Lemma all_refs_hd : forall h m n, hd_of (all_refs h m) n = first_in h n (sources m).
  Proof.
    intros h m n. unfold all_refs, sources.
    assert (F0 : full []) by (intros k; discriminate).
    destruct (gather_hd (m_env m) h [] n F0) as (F1 & H1).
    destruct (gather_hd [m_map m] h _ n F1) as (F2 & H2).
    destruct (gather_hd (m_movers m) h _ n F2) as (F3 & H3).
    destruct (gather_hd (m_weath m) h _ n F3) as (F4 & H4).
    destruct (gather_hd (m_outs m) h _ n F4) as (F5 & H5).
    rewrite H5, H4, H3, H2, H1. change (hd_of [] n) with (@None Z).
    rewrite !first_in_app.
    destruct (first_in h n (m_env m)); [reflexivity|].
    destruct (first_in h n [m_map m]); [reflexivity|].
    destruct (first_in h n (m_movers m)); [reflexivity|].
    destruct (first_in h n (m_weath m)); reflexivity.
  Qed.

  (** ** Attaching *)
  Definition own (v : option (option Z)) (d : option Z) : option (option Z) :=
    match v, d with Some None, Some y => Some (Some y) | _, _ => v end.
  Lemma attach_names_spec : forall ns d o, (forall n, In n ns -> o_attr o n <> None) ->
    exists o', attach_names d ns o = Ok o' /\ same_but_refs o o' /\
      forall k, o_attr o' k = if zmem k ns then own (o_attr o k) (hd_of d k) else o_attr o k.
  Proof.
    induction ns as [|n r IH]; intros d o D.
    - exists o. split; [reflexivity|]. split; [repeat split|]. reflexivity.
    - assert (X : exists o1, match dget n d with
                 | Some (y :: _) =>
                     match o_attr o n with
                     | None => Raise AttrErr
                     | Some None => Ok (set_attr n (Some y) o)
                     | Some (Some _) => Ok o
                     end
                 | _ => Ok o
                 end = Ok o1 /\ same_but_refs o o1 /\
                 forall k, o_attr o1 k = if k =? n then own (o_attr o k) (hd_of d k) else o_attr o k).
      { assert (Dn := D n (or_introl eq_refl)). unfold hd_of.
        destruct (dget n d) as [[|y l]|] eqn:E.
        - exists o. split; [reflexivity|]. split; [repeat split|]. intros k. destruct (Z.eqb_spec k n) as [->|]; [|reflexivity].
          rewrite E. unfold own. destruct (o_attr o n) as [[|]|]; reflexivity.
        - destruct (o_attr o n) as [[z|]|] eqn:A; [| |contradiction].
          + exists o. split; [reflexivity|]. split; [repeat split|]. intros k. destruct (Z.eqb_spec k n) as [->|]; [|reflexivity].
            rewrite E, A. reflexivity.
          + exists (set_attr n (Some y) o). split; [reflexivity|]. split; [repeat split|]. intros k. simpl.
            destruct (Z.eqb_spec k n) as [->|]; [|reflexivity]. rewrite E, A. reflexivity.
        - exists o. split; [reflexivity|]. split; [repeat split|]. intros k. destruct (Z.eqb_spec k n) as [->|]; [|reflexivity].
          rewrite E. unfold own. destruct (o_attr o n) as [[|]|]; reflexivity. }
      destruct X as (o1 & E1 & S1 & A1).
      destruct (IH d o1) as (o2 & E2 & S2 & A2).
      { intros k I. rewrite A1. destruct (Z.eqb_spec k n) as [->|].
        - assert (N0 := D n (or_introl eq_refl)). unfold own. destruct (o_attr o n) as [[|]|]; [discriminate| |contradiction].
          destruct (hd_of d n); discriminate.
        - apply D. right. exact I. }
      exists o2. split.
      + simpl. rewrite E1. simpl. exact E2.
      + split.
        * destruct S1 as (a1 & a2 & a3 & a4 & a5 & a6 & a7). destruct S2 as (b1 & b2 & b3 & b4 & b5 & b6 & b7).
          repeat split; congruence.
        * intros k. rewrite A2, A1. unfold zmem. simpl. destruct (k =? n); simpl.
          -- destruct (existsb (Z.eqb k) r); [|reflexivity]. unfold own. destruct (o_attr o k) as [[|]|]; try reflexivity.
             destruct (hd_of d k); reflexivity.
          -- reflexivity.
  Qed.
  (** What one object ends up with. *)
  Definition final (d : dict (list Z)) (o : obj) (k : name) : option (option Z) :=
    match o_req o with
    | Some ns => if o_mdr o && zmem k ns then own (o_attr o k) (hd_of d k) else o_attr o k
    | None => o_attr o k
    end.
  Lemma attach1_spec : forall d h x, (forall ns n, o_req (h x) = Some ns -> In n ns -> o_attr (h x) n <> None) ->
    exists h', attach1 d h x = Ok h' /\ (forall y, y <> x -> h' y = h y) /\ same_but_refs (h x) (h' x) /\
      forall k, o_attr (h' x) k = final d (h x) k.
  Proof.
    intros d h x D. unfold attach1, final.
    destruct (o_req (h x)) as [ns|] eqn:E.
    - destruct (o_mdr (h x)) eqn:M.
      + destruct (attach_names_spec ns d (h x)) as (o & E1 & S1 & A1).
        { intros n I. exact (D ns n eq_refl I). }
        rewrite E1. simpl. exists (upd h x o). split; [reflexivity|]. split; [intros y N; apply upd_other; exact N|].
        rewrite upd_same. split; [exact S1|]. intros k. rewrite A1. reflexivity.
      + exists h. split; [reflexivity|]. split; [reflexivity|]. split; [repeat split|]. reflexivity.
    - exists h. split; [reflexivity|]. split; [reflexivity|]. split; [repeat split|]. reflexivity.
  Qed.
  Lemma own_twice : forall v d, own (own v d) d = own v d.
  Proof. intros [[|]|] [|]; reflexivity. Qed.
  Lemma final_twice : forall d o o', same_but_refs o o' -> (forall k, o_attr o' k = final d o k) -> forall k, final d o' k = final d o k.
  Proof.
    intros d o o' (a1 & a2 & a3 & _) A k. unfold final. rewrite <- a2, <- a3.
    destruct (o_req o) as [ns|] eqn:E; [|rewrite A; unfold final; rewrite E; reflexivity].
    destruct (o_mdr o && zmem k ns) eqn:M; [|rewrite A; unfold final; rewrite E, M; reflexivity].
    rewrite A. unfold final. rewrite E, M. apply own_twice.
  Qed.
  Lemma attach_all_spec : forall l d h, declared h l ->
    exists h', attach_all d l h = Ok h' /\ (forall x, same_but_refs (h x) (h' x)) /\
      forall x k, o_attr (h' x) k = if zmem x l then final d (h x) k else o_attr (h x) k.
  Proof.
    induction l as [|x r IH]; intros d h D.
    - exists h. split; [reflexivity|]. split; [intros; repeat split|]. reflexivity.
    - destruct (attach1_spec d h x) as (h1 & E1 & O1 & S1 & A1).
      { intros ns n E I. exact (D x ns n (or_introl eq_refl) E I). }
      assert (SB : forall y, same_but_refs (h y) (h1 y)).
      { intros y. destruct (Z.eq_dec y x) as [->|N]; [exact S1|]. rewrite (O1 y N). repeat split. }
      destruct (IH d h1) as (h2 & E2 & S2 & A2).
      { intros y ns n I E J. destruct (Z.eq_dec y x) as [->|N].
        - destruct S1 as (_ & s2 & _). rewrite <- s2 in E. assert (N0 := D x ns n (or_introl eq_refl) E J).
          rewrite A1. unfold final. rewrite E. destruct (o_mdr (h x) && zmem n ns); [|exact N0].
          unfold own. destruct (o_attr (h x) n) as [[|]|]; [discriminate| |contradiction]. destruct (hd_of d n); discriminate.
        - rewrite (O1 y N) in *. exact (D y ns n (or_intror I) E J). }
      exists h2. split; [simpl; rewrite E1; exact E2|]. split.
      + intros y. destruct (SB y) as (a1 & a2 & a3 & a4 & a5 & a6 & a7). destruct (S2 y) as (b1 & b2 & b3 & b4 & b5 & b6 & b7).
        repeat split; congruence.
      + intros y k. rewrite A2. unfold zmem. simpl. destruct (Z.eqb_spec y x) as [->|N]; simpl.
        * destruct (existsb (Z.eqb x) r).
          -- apply (final_twice d (h x)); [exact S1|exact A1].
          -- apply A1.
        * rewrite (O1 y N). reflexivity.
  Qed.
  Lemma zmem_iff : forall x l, zmem x l = true <-> In x l.
  Proof.
    intros x l. unfold zmem. rewrite existsb_exists. split.
    - intros (y & I & E). apply Z.eqb_eq in E. subst. exact I.
    - intros I. exists x. split; [exact I|apply Z.eqb_refl].
  Qed.
  Lemma zmem_no : forall x l, ~ In x l -> zmem x l = false.
  Proof. intros x l N. destruct (zmem x l) eqn:E; [|reflexivity]. apply zmem_iff in E. contradiction. Qed.
  Lemma first_in_some : forall h n l y, first_in h n l = Some y <-> first_offer h n l y.
  Proof.
    induction l as [|x r IH]; intros y; simpl.
    - split; [discriminate|]. intros (a & b & E & _). destruct a; discriminate.
    - destruct (zmem n (offered (o_ref (h x)))) eqn:Z0.
      + apply zmem_iff in Z0. apply offers_iff in Z0. split.
        * intros E. inversion E; subst. exists [], r. split; [reflexivity|]. split; [exact Z0|]. intros z [].
        * intros (a & b & E & O1 & N). destruct a as [|z a]; simpl in E; inversion E; subst; [reflexivity|].
          exfalso. exact (N z (or_introl eq_refl) Z0).
      + rewrite IH. split.
        * intros (a & b & E & O1 & N). exists (x :: a), b. split; [simpl; congruence|]. split; [exact O1|].
          intros z [<-|I]; [|exact (N z I)]. intros Q. apply offers_iff in Q. apply zmem_iff in Q. congruence.
        * intros (a & b & E & O1 & N). destruct a as [|z a]; simpl in E; inversion E; subst.
          -- apply offers_iff in O1. apply zmem_iff in O1. congruence.
          -- exists a, b. split; [reflexivity|]. split; [exact O1|]. intros z' I. apply N. right. exact I.
  Qed.
  Lemma first_in_none : forall h n l, first_in h n l = None <-> (forall x, In x l -> ~ offers h n x).
  Proof.
    induction l as [|x r IH]; simpl.
    - split; [intros _ x []|reflexivity].
    - destruct (zmem n (offered (o_ref (h x)))) eqn:Z0.
      + split; [discriminate|]. intros N. apply zmem_iff in Z0. apply offers_iff in Z0. exfalso. exact (N x (or_introl eq_refl) Z0).
      + rewrite IH. split.
        * intros N y [<-|I]; [|exact (N y I)]. intros Q. apply offers_iff in Q. apply zmem_iff in Q. congruence.
        * intros N y I. apply N. right. exact I.
  Qed.
  Lemma first_offer_unique : forall h n l y z, first_offer h n l y -> first_offer h n l z -> y = z.
  Proof. intros h n l y z A B. apply first_in_some in A. apply first_in_some in B. congruence. Qed.

  Theorem attach_main : forall m h, declared h (takers m) ->
    exists h', attach eqv m h = Ok h' /\ (forall x, same_but_refs (h x) (h' x)) /\
    forall x n,
      (In x (takers m) -> asks h n x -> forall y, first_offer h n (sources m) y -> o_attr (h' x) n = Some (Some y)) /\
      ((~ In x (takers m) \/ ~ asks h n x \/ forall y, In y (sources m) -> ~ offers h n y) -> o_attr (h' x) n = o_attr (h x) n).
  Proof.
    intros m h D. destruct (attach_all_spec (takers m) (all_refs h m) h D) as (h' & E & SB & A).
    exists h'. split; [exact E|]. split; [exact SB|]. intros x n. split.
    - intros I (M & (ns & Q & J) & N) y F. rewrite A. rewrite (proj2 (zmem_iff x (takers m)) I). unfold final.
      rewrite Q, M, (proj2 (zmem_iff n ns) J). simpl. rewrite N, all_refs_hd.
      rewrite (proj2 (first_in_some h n (sources m) y) F). reflexivity.
    - intros C. rewrite A. destruct (zmem x (takers m)) eqn:Z0; [|reflexivity]. apply zmem_iff in Z0.
      unfold final. destruct (o_req (h x)) as [ns|] eqn:Q; [|reflexivity].
      destruct (o_mdr (h x) && zmem n ns) eqn:M; [|reflexivity].
      apply andb_prop in M. destruct M as (M & J). apply zmem_iff in J.
      unfold own. destruct (o_attr (h x) n) as [[|]|] eqn:N; [reflexivity| |reflexivity].
      rewrite all_refs_hd. destruct (first_in h n (sources m)) as [y|] eqn:F; [|reflexivity].
      exfalso. destruct C as [C|[C|C]].
      + contradiction.
      + apply C. split; [exact M|]. split; [|exact N]. exists ns. split; assumption.
      + apply (first_in_none h n (sources m)) in C. congruence.
  Qed.
End G.

(** ** Switches *)
Fixpoint last_role (n : name) (h : heap) (ws : list Z) : option Z :=
  match ws with
  | [] => None
  | x :: r => match last_role n h r with Some y => Some y | None => if is_one n (o_ref (h x)) then Some x else None end
  end.
Lemma last_role_ext : forall n h h' ws, (forall x, In x ws -> o_ref (h x) = o_ref (h' x)) -> last_role n h ws = last_role n h' ws.
Proof.
  induction ws as [|x r IH]; intros E; simpl; [reflexivity|].
  rewrite IH; [|intros y I; apply E; right; exact I]. rewrite (E x (or_introl eq_refl)). reflexivity.
Qed.
Lemma is_one_iff : forall n r, is_one n r = true <-> r = One n.
Proof.
  intros n [|m|l]; simpl; split; try discriminate.
  - intros E. apply Z.eqb_eq in E. congruence.
  - intros E. inversion E. apply Z.eqb_refl.
Qed.
Lemma last_role_some : forall n h ws x, last_role n h ws = Some x <-> last_of n h ws x.
Proof.
  induction ws as [|y r IH]; intros x; simpl.
  - split; [discriminate|]. intros (a & b & E & _). destruct a; discriminate.
  - destruct (last_role n h r) as [z|] eqn:L.
    + split.
      * intros E. inversion E; subst. apply IH in E. destruct (proj1 (IH x) eq_refl) as (a & b & E1 & R1 & N).
        exists (y :: a), b. split; [simpl; congruence|]. split; assumption.
      * intros (a & b & E & R1 & N). destruct a as [|y' a]; simpl in E; inversion E; subst.
        -- exfalso. destruct (proj1 (IH z) eq_refl) as (a & b' & E1 & R2 & _). apply (N z); [|exact R2].
           rewrite E1. apply in_or_app. right. left. reflexivity.
        -- apply IH. exists a, b. split; [reflexivity|]. split; assumption.
    + assert (NR : forall z, In z r -> ~ role n (h z)).
      { clear IH. induction r as [|z r IH]; simpl in *; [intros ? []|].
        destruct (last_role n h r); [discriminate|]. destruct (is_one n (o_ref (h z))) eqn:Q; [discriminate|].
        intros w [<-|I]; [|exact (IH eq_refl w I)]. intros R1. apply is_one_iff in R1. congruence. }
      destruct (is_one n (o_ref (h y))) eqn:Q.
      * split.
        -- intros E. inversion E; subst. exists [], r. split; [reflexivity|]. split; [apply is_one_iff; exact Q|exact NR].
        -- intros (a & b & E & R1 & N). destruct a as [|y' a]; simpl in E; inversion E; subst; [reflexivity|].
           exfalso. apply (NR x); [apply in_or_app; right; left; reflexivity|exact R1].
      * split; [discriminate|]. intros (a & b & E & R1 & N). exfalso. destruct a as [|y' a]; simpl in E; inversion E; subst.
        -- apply is_one_iff in R1. congruence.
        -- apply (NR x); [apply in_or_app; right; left; reflexivity|exact R1].
Qed.
Lemma last_role_none : forall n h ws, last_role n h ws = None -> forall x, In x ws -> ~ role n (h x).
Proof.
  induction ws as [|y r IH]; simpl; intros E x; [intros []|].
  destruct (last_role n h r); [discriminate|]. destruct (is_one n (o_ref (h y))) eqn:Q; [discriminate|].
  intros [<-|I]; [|exact (IH eq_refl x I)]. intros R1. apply is_one_iff in R1. congruence.
Qed.
Definition special (o : obj) : bool := is_one spreading (o_ref o) || is_one langmuir (o_ref o).
Lemma look_fold : forall ws s, NoDup ws ->
  let s' := fold_left look ws s in
  (forall x, ~ In x ws -> s_heap s' x = s_heap s x) /\
  (forall x, In x ws -> s_heap s' x = if special (s_heap s x) then set_on false (s_heap s x) else s_heap s x) /\
  s_area s' = s_area s || existsb (fun x => is_on (s_heap s x) && o_area (s_heap s x)) ws /\
  s_spread s' = match last_role spreading (s_heap s) ws with Some x => Some x | None => s_spread s end /\
  s_lang s' = match last_role langmuir (s_heap s) ws with Some x => Some x | None => s_lang s end.
Proof.
  induction ws as [|x r IH]; intros s ND; cbv zeta.
  - simpl. split; [reflexivity|]. split; [intros x []|]. rewrite orb_false_r. auto.
  - inversion ND as [|? ? NI ND']; subst. simpl fold_left.
    destruct (IH (look s x) ND') as (H1 & H2 & H3 & H4 & H5).
    assert (LO : forall y, y <> x -> s_heap (look s x) y = s_heap s y).
    { intros y N. unfold look. destruct (is_one spreading _); [simpl; apply upd_other; exact N|].
      destruct (is_one langmuir _); [simpl; apply upd_other; exact N|reflexivity]. }
    assert (LX : s_heap (look s x) x = if special (s_heap s x) then set_on false (s_heap s x) else s_heap s x).
    { unfold look, special. destruct (is_one spreading _) eqn:A; simpl; [apply upd_same|].
      destruct (is_one langmuir _) eqn:B; simpl; [apply upd_same|reflexivity]. }
    assert (NX : forall y, In y r -> y <> x) by (intros y I ->; contradiction).
    split; [|split; [|split; [|split]]].
    + intros y N. rewrite H1 by (intros I; apply N; right; exact I). apply LO. intros ->. apply N. left. reflexivity.
    + intros y [<-|I].
      * rewrite H1 by exact NI. exact LX.
      * rewrite H2 by exact I. rewrite LO by (apply NX; exact I). reflexivity.
    + rewrite H3. simpl existsb.
      assert (E : s_area (look s x) = s_area s || (is_on (s_heap s x) && o_area (s_heap s x))).
      { unfold look. destruct (is_one spreading _); [reflexivity|]. destruct (is_one langmuir _); reflexivity. }
      rewrite E, <- orb_assoc. f_equal. f_equal.
      clear -LO NX. induction r as [|y r IH]; simpl; [reflexivity|].
      rewrite LO by (apply NX; left; reflexivity). rewrite IH by (intros z I; apply NX; right; exact I). reflexivity.
    + rewrite H4. simpl last_role. rewrite (last_role_ext spreading (s_heap (look s x)) (s_heap s)) by (intros y I; rewrite LO by (apply NX; exact I); reflexivity).
      destruct (last_role spreading (s_heap s) r); [reflexivity|].
      unfold look. destruct (is_one spreading (o_ref (s_heap s x))); [reflexivity|]. destruct (is_one langmuir _); reflexivity.
    + rewrite H5. simpl last_role. rewrite (last_role_ext langmuir (s_heap (look s x)) (s_heap s)) by (intros y I; rewrite LO by (apply NX; exact I); reflexivity).
      destruct (last_role langmuir (s_heap s) r); [reflexivity|].
      unfold look. destruct (is_one spreading (o_ref (s_heap s x))) eqn:A.
      * simpl. destruct (is_one langmuir (o_ref (s_heap s x))) eqn:B; [|reflexivity].
        apply is_one_iff in A. apply is_one_iff in B. rewrite A in B. discriminate.
      * destruct (is_one langmuir _); reflexivity.
Qed.
Lemma area_used_iff : forall h ws, existsb (fun x => is_on (h x) && o_area (h x)) ws = true <-> area_used h ws.
Proof.
  intros h ws. rewrite existsb_exists. unfold area_used. split.
  - intros (x & I & E). apply andb_prop in E. destruct E as (E1 & E2). exists x. split; [exact I|]. split; [|exact E2].
    unfold is_on in E1. destruct (o_on (h x)) as [b|]; [subst; reflexivity|discriminate].
  - intros (x & I & E1 & E2). exists x. split; [exact I|]. unfold is_on. rewrite E1, E2. reflexivity.
Qed.
Lemma set_on_same : forall o b, o_on o = Some b -> set_on b o = o.
Proof. intros [] b E. simpl in *. subst. reflexivity. Qed.

Lemma switch_idle : forall f g h ws, NoDup ws -> proper_weatherers h ws -> ~ area_used h ws ->
  snd (switch f g h ws) = ws /\ forall x, fst (switch f g h ws) x = h x.
Proof.
  intros f g h ws ND OK NA. unfold switch.
  destruct (look_fold ws (ST h false None None) ND) as (H1 & H2 & H3 & H4 & H5).
  set (s := fold_left look ws (ST h false None None)) in *. cbn [s_heap s_area s_spread s_lang] in *.
  rewrite H3. simpl orb. destruct (existsb _ ws) eqn:E; [apply area_used_iff in E; contradiction|].
  simpl. split; [reflexivity|]. intros x.
  destruct (in_dec Z.eq_dec x ws) as [I|N]; [|apply H1; exact N].
  rewrite H2 by exact I. destruct (special (h x)) eqn:Sp; [|reflexivity].
  apply set_on_same. destruct (OK x I) as (O1 & O2).
  destruct (o_on (h x)) as [b|] eqn:B; [|contradiction]. destruct b; [|reflexivity].
  exfalso. apply NA. exists x. split; [exact I|]. split; [exact B|]. apply O2. unfold special in Sp.
  apply orb_prop in Sp. destruct Sp as [Sp|Sp]; apply is_one_iff in Sp; [left|right]; exact Sp.
Qed.

Lemma NoDup_snoc : forall (l : list Z) x, NoDup l -> ~ In x l -> NoDup (l ++ [x]).
Proof.
  induction l as [|y r IH]; intros x ND NI; simpl; [constructor; [intros []|constructor]|].
  inversion ND; subst. constructor.
  - intros I. apply in_app_or in I. destruct I as [I|[<-|[]]]; [contradiction|]. apply NI. left. reflexivity.
  - apply IH; [assumption|]. intros I. apply NI. right. exact I.
Qed.

(** One of the two halves of the switching on. *)
Lemma turn_on_spec : forall n sp new o h0 h ws, NoDup ws -> ~ In new ws -> o_ref o = One n -> o_on o = Some true ->
  (forall x, In x ws -> o_ref (h x) = o_ref (h0 x)) ->
  (forall x, In x ws -> role n (h x) -> o_on (h x) = Some false) ->
  sp = last_role n h0 ws ->
  let (h', ws') := turn_on sp new o h ws in
  exists x, one_on n h' ws' x /\
    (last_of n h0 ws x \/ ((forall z, In z ws -> ~ role n (h0 z)) /\ x = new)) /\
    (ws' = ws \/ ws' = ws ++ [new]) /\ NoDup ws' /\
    (x = new /\ ws' = ws ++ [new] \/ last_of n h0 ws x /\ ws' = ws) /\
    (forall y, y <> x -> h' y = h y) /\
    (forall y, In y ws' -> role n (h' y) <-> (role n (h0 y) /\ In y ws) \/ y = new) /\
    (In x ws -> h' x = set_on true (h x)) /\ (x = new -> h' x = o).
Proof.
  intros n sp new o h0 h ws ND NN RO OO RF OFF ->. unfold turn_on.
  destruct (last_role n h0 ws) as [x|] eqn:L.
  - assert (LO := proj1 (last_role_some n h0 ws x) L).
    assert (I : In x ws) by (destruct LO as (a & b & -> & _); apply in_or_app; right; left; reflexivity).
    assert (RX : role n (h x)) by (destruct LO as (a & b & _ & R1 & _); unfold role; rewrite RF by exact I; exact R1).
    exists x. split.
    { split; [exact I|]. split; [rewrite upd_same; exact RX|]. intros y J R1. split.
      - intros O1. destruct (Z.eq_dec y x) as [->|N]; [reflexivity|]. rewrite upd_other in * by exact N.
        rewrite OFF in O1 by assumption. discriminate.
      - intros ->. rewrite upd_same. reflexivity. }
    split; [left; exact LO|]. split; [left; reflexivity|]. split; [exact ND|]. split; [right; split; [exact LO|reflexivity]|].
    split; [intros y N; apply upd_other; exact N|]. split.
    { intros y J. split.
      - intros R1. left. split; [|exact J]. unfold role. rewrite <- RF by exact J.
        destruct (Z.eq_dec y x) as [->|N]; [exact RX|]. rewrite upd_other in R1 by exact N. exact R1.
      - intros [(R1 & _)| ->]; [|contradiction]. unfold role in *. rewrite <- RF in R1 by exact J.
        destruct (Z.eq_dec y x) as [->|N]; [rewrite upd_same; exact R1|rewrite upd_other by exact N; exact R1]. }
    split; [intros _; apply upd_same|]. intros ->. contradiction.
  - assert (LN := last_role_none n h0 ws L).
    exists new. split.
    { split; [apply in_or_app; right; left; reflexivity|]. split; [rewrite upd_same; exact RO|].
      intros y J R1. split.
      - intros _. apply in_app_or in J. destruct J as [J|[<-|[]]]; [|reflexivity].
        exfalso. assert (N : y <> new) by (intros ->; contradiction). rewrite upd_other in R1 by exact N.
        apply (LN y J). unfold role in *. rewrite <- RF by exact J. exact R1.
      - intros ->. rewrite upd_same. exact OO. }
    split; [right; split; [exact LN|reflexivity]|]. split; [right; reflexivity|]. split; [apply NoDup_snoc; assumption|].
    split; [left; split; reflexivity|]. split; [intros y N; apply upd_other; exact N|]. split.
    { intros y J. split.
      - intros R1. apply in_app_or in J. destruct J as [J|[<-|[]]]; [|right; reflexivity].
        left. split; [|exact J]. assert (N : y <> new) by (intros ->; contradiction). rewrite upd_other in R1 by exact N.
        unfold role in *. rewrite <- RF by exact J. exact R1.
      - intros [(R1 & J1)| ->]; [|rewrite upd_same; exact RO]. exfalso. exact (LN y J1 R1). }
    split; [intros I; contradiction|]. intros _. apply upd_same.
Qed.

Lemma role_excl : forall o, role spreading o -> ~ role langmuir o.
Proof. unfold role. intros o A B. rewrite A in B. discriminate. Qed.

Theorem switch_main : forall f g h ws, NoDup ws -> ~ In f ws -> ~ In g ws -> f <> g -> proper_weatherers h ws -> area_used h ws ->
  let (h', ws') := switch f g h ws in
  exists s l, one_on spreading h' ws' s /\ one_on langmuir h' ws' l /\
    (last_of spreading h ws s \/ ((forall z, In z ws -> ~ role spreading (h z)) /\ s = f)) /\
    (last_of langmuir h ws l \/ ((forall z, In z ws -> ~ role langmuir (h z)) /\ l = g)) /\
    NoDup ws' /\
    (forall x, In x ws' <-> In x ws \/ x = s \/ x = l) /\
    (forall x, ~ role spreading (h x) -> ~ role langmuir (h x) -> x <> f -> x <> g -> h' x = h x).
Proof.
  intros f g h ws ND NF NG FG OK AU. unfold switch.
  destruct (look_fold ws (ST h false None None) ND) as (H1 & H2 & H3 & H4 & H5).
  set (st := fold_left look ws (ST h false None None)) in *. cbn [s_heap s_area s_spread s_lang] in *.
  rewrite H3, (proj2 (area_used_iff h ws) AU). simpl orb. cbv iota.
  set (h0 := s_heap st) in *.
  assert (RF : forall x, o_ref (h0 x) = o_ref (h x)).
  { intros x. destruct (in_dec Z.eq_dec x ws) as [I|N]; [|rewrite H1 by exact N; reflexivity].
    rewrite H2 by exact I. destruct (special (h x)); reflexivity. }
  assert (OFF : forall x, In x ws -> role spreading (h0 x) \/ role langmuir (h0 x) -> o_on (h0 x) = Some false).
  { intros x I R1. rewrite H2 by exact I. unfold role in R1. rewrite RF in R1.
    assert (Sp : special (h x) = true).
    { unfold special. apply orb_true_iff. destruct R1 as [R1|R1]; [left|right]; apply is_one_iff; exact R1. }
    rewrite Sp. reflexivity. }
  assert (T1 := turn_on_spec spreading (s_spread st) f fay h h0 ws ND NF eq_refl eq_refl (fun x _ => RF x)
               (fun x I R1 => OFF x I (or_introl R1))).
  rewrite H4 in T1. rewrite H4.
  assert (E1 : match last_role spreading h ws with Some x => Some x | None => None end = last_role spreading h ws) by (destruct (last_role spreading h ws); reflexivity).
  specialize (T1 E1). destruct (turn_on _ f fay h0 ws) as [h1 ws1].
  destruct T1 as (s & ON1 & LS & W1 & ND1 & C1 & K1 & R1 & S1 & S2).
  assert (NG1 : ~ In g ws1).
  { destruct W1 as [->| ->]; [exact NG|]. intros I. apply in_app_or in I. destruct I as [I|[I|[]]]; [contradiction|congruence]. }
  assert (SI : In s ws1) by apply ON1.
  assert (RS : role spreading (h1 s)) by apply ON1.
  assert (RF1 : forall x, In x ws -> o_ref (h1 x) = o_ref (h x)).
  { intros x I. destruct (Z.eq_dec x s) as [->|N].
    - rewrite S1 by exact I. simpl. apply RF.
    - rewrite K1 by exact N. apply RF. }
  (* the roles of the Langmuir half are those of the original heap, but with f in the list *)
  assert (LR : last_role langmuir h ws = last_role langmuir h1 ws1).
  { destruct W1 as [->| ->].
    - apply last_role_ext. intros x I. symmetry. apply RF1. exact I.
    - assert (Sf : s = f) by (destruct C1 as [(-> & _)|(_ & C1)]; [reflexivity|];
        exfalso; assert (LL := f_equal (@length Z) C1); rewrite app_length in LL; simpl in LL; lia).
      assert (X : forall l, (forall x, In x l -> o_ref (h1 x) = o_ref (h x)) -> last_role langmuir h1 (l ++ [f]) = last_role langmuir h l).
      { induction l as [|y r IH]; intros Q; simpl.
        - rewrite <- Sf. unfold role in RS. rewrite RS. reflexivity.
        - rewrite IH by (intros x I; apply Q; right; exact I). rewrite (Q y (or_introl eq_refl)). reflexivity. }
      symmetry. apply X. exact RF1. }
  assert (OFF1 : forall x, In x ws1 -> role langmuir (h1 x) -> o_on (h1 x) = Some false).
  { intros x I RL. assert (N : x <> s) by (intros ->; exact (role_excl _ RS RL)). rewrite K1 in * by exact N.
    destruct (in_dec Z.eq_dec x ws) as [J|J].
    - apply OFF; [exact J|right; exact RL].
    - exfalso. destruct W1 as [->| ->]; [contradiction|]. apply in_app_or in I. destruct I as [I|[<-|[]]]; [contradiction|].
      destruct C1 as [(-> & _)|(_ & C1)]; [congruence|].
      assert (LL := f_equal (@length Z) C1); rewrite app_length in LL; simpl in LL; lia. }
  assert (T2 := turn_on_spec langmuir (s_lang st) g lang h1 h1 ws1 ND1 NG1 eq_refl eq_refl (fun x _ => eq_refl) OFF1).
  rewrite H5 in T2. rewrite H5.
  assert (E2 : match last_role langmuir h ws with Some x => Some x | None => None end = last_role langmuir h1 ws1).
  { rewrite <- LR. destruct (last_role langmuir h ws); reflexivity. }
  specialize (T2 E2). destruct (turn_on _ g lang h1 ws1) as [h2 ws2].
  destruct T2 as (l & ON2 & LL & W2 & ND2 & C2 & K2 & R2 & S3 & S4).
  assert (RL : role langmuir (h2 l)) by apply ON2.
  assert (SL : s <> l).
  { intros ->. destruct LL as [(a & b & _ & R3 & _)|(_ & ->)]; [exact (role_excl _ RS R3)|contradiction]. }
  assert (RF2 : forall x, In x ws1 -> o_ref (h2 x) = o_ref (h1 x)).
  { intros x I. destruct (Z.eq_dec x l) as [->|N]; [rewrite S3 by exact I; reflexivity|rewrite K2 by exact N; reflexivity]. }
  assert (IN1 : forall x, In x ws1 <-> In x ws \/ x = s).
  { intros x. destruct C1 as [(-> & ->)|(LO & ->)].
    - rewrite in_app_iff. simpl. split; [intros [?|[?|[]]]; [left; assumption|right; congruence]|intros [?| ->]; auto].
    - split; [auto|]. intros [?| ->]; [assumption|]. destruct LO as (a & b & -> & _). apply in_or_app. right. left. reflexivity. }
  assert (IN2 : forall x, In x ws2 <-> In x ws1 \/ x = l).
  { intros x. destruct C2 as [(-> & ->)|(LO & ->)].
    - rewrite in_app_iff. simpl. split; [intros [?|[?|[]]]; [left; assumption|right; congruence]|intros [?| ->]; auto].
    - split; [auto|]. intros [?| ->]; [assumption|]. destruct LO as (a & b & -> & _). apply in_or_app. right. left. reflexivity. }
  exists s, l. split; [|split; [exact ON2|split; [exact LS|split; [|split; [exact ND2|split]]]]].
  - destruct ON1 as (_ & _ & ON1). split; [apply IN2; left; exact SI|]. split.
    + unfold role. rewrite RF2 by exact SI. exact RS.
    + intros y I RY. apply IN2 in I. destruct (Z.eq_dec y l) as [->|N]; [exfalso; exact (role_excl _ RY RL)|].
      destruct I as [I|I]; [|contradiction]. rewrite K2 in * by exact N. apply ON1; assumption.
  - destruct LL as [LL|(LL & ->)].
    + left. apply last_role_some. rewrite LR. apply last_role_some. exact LL.
    + right. split; [|reflexivity]. intros z I RZ. apply (LL z); [apply IN1; left; exact I|].
      unfold role in *. rewrite RF1 by exact I. exact RZ.
  - intros x. rewrite IN2, IN1. tauto.
  - intros x N1 N2 NF1 NG1'. rewrite K2, K1.
    + destruct (in_dec Z.eq_dec x ws) as [I|N]; [|unfold h0; apply H1; exact N].
      unfold h0. rewrite H2 by exact I. destruct (special (h x)) eqn:Sp; [|reflexivity].
      exfalso. unfold special in Sp. apply orb_prop in Sp. destruct Sp as [Sp|Sp]; apply is_one_iff in Sp; contradiction.
    + intros ->. destruct LS as [(a & b & _ & R3 & _)|(_ & ->)]; contradiction.
    + intros ->. destruct LL as [(a & b & E & R3 & _)|(_ & ->)]; [|contradiction].
      assert (I : In l ws1) by (rewrite E; apply in_or_app; right; left; reflexivity).
      apply IN1 in I. destruct I as [I|I]; [|congruence]. apply N2. unfold role in *. rewrite <- RF1 by exact I. exact R3.
Qed.

(** ** Finding *)
Lemma find_ref_first : forall h n l, find_ref h n l = first_in h n l.
Proof.
  induction l as [|x r IH]; simpl; [reflexivity|].
  unfold zmem. destruct (o_ref (h x)) as [|m|ns]; simpl.
  - exact IH.
  - rewrite orb_false_r. rewrite (Z.eqb_sym n m). destruct (m =? n); [reflexivity|exact IH].
  - destruct (existsb (Z.eqb n) ns); [reflexivity|exact IH].
Qed.
Lemma find_ref_ext : forall h h' n l, (forall x, o_ref (h x) = o_ref (h' x)) -> find_ref h n l = find_ref h' n l.
Proof. intros h h' n l E. induction l as [|x r IH]; simpl; [reflexivity|]. rewrite E, IH. reflexivity. Qed.
Lemma find_test : forall h n x, (match o_ref (h x) with NoRef => false | One m => m =? n | Many ns => existsb (Z.eqb n) ns end) = true <-> offers h n x.
Proof.
  intros h n x. rewrite offers_iff. destruct (o_ref (h x)) as [|m|ns]; simpl.
  - split; [discriminate|intros []].
  - rewrite Z.eqb_eq. split; [auto|]. intros [?|[]]; assumption.
  - apply zmem_iff.
Qed.

(** ** The environment *)
Lemma oc_add_in : forall x l y, In y (oc_add x l) <-> In y l \/ y = x.
Proof.
  intros x l y. unfold oc_add. destruct (zmem x l) eqn:E.
  - apply zmem_iff in E. split; [auto|]. intros [?| ->]; assumption.
  - rewrite in_app_iff. simpl. split; [intros [?|[?|[]]]; [left; assumption|right; congruence]|intros [?| ->]; auto].
Qed.
Lemma oc_add_nodup : forall x l, NoDup l -> NoDup (oc_add x l).
Proof.
  intros x l ND. unfold oc_add. destruct (zmem x l) eqn:E; [exact ND|]. apply NoDup_snoc; [exact ND|].
  intros I. apply zmem_iff in I. congruence.
Qed.
Lemma oc_add_prefix : forall x l, exists new, oc_add x l = l ++ new.
Proof. intros x l. unfold oc_add. destruct (zmem x l); [exists []; rewrite app_nil_r; reflexivity|eexists; reflexivity]. Qed.
Lemma add_env_plain : forall h items env, NoDup env ->
  snd (add_env h false items env) = false /\ NoDup (fst (add_env h false items env)) /\
  (forall y, In y (fst (add_env h false items env)) <-> In y env \/ In y items) /\
  exists new, fst (add_env h false items env) = env ++ new.
Proof.
  induction items as [|x r IH]; intros env ND; simpl.
  - split; [reflexivity|]. split; [exact ND|]. split; [tauto|]. exists []. rewrite app_nil_r. reflexivity.
  - destruct (IH (oc_add x env) (oc_add_nodup x env ND)) as (A & B & C & new & D).
    split; [exact A|]. split; [exact B|]. split.
    + intros y. rewrite C, oc_add_in. split; [intros [[?| ->]|?]; auto|intros [?|[<-|?]]; auto].
    + destruct (oc_add_prefix x env) as (n1 & E1). exists (n1 ++ new). rewrite D, E1, app_assoc. reflexivity.
Qed.
Lemma replace_class_spec : forall h x l l', replace_class h x l = Some l' ->
  exists a y b, l = a ++ y :: b /\ l' = a ++ x :: b /\ o_cls (h y) = o_cls (h x) /\ forall z, In z a -> o_cls (h z) <> o_cls (h x).
Proof.
  induction l as [|y r IH]; intros l' E; simpl in E; [discriminate|].
  destruct (Z.eqb_spec (o_cls (h y)) (o_cls (h x))) as [C|C].
  - inversion E; subst. exists [], y, r. split; [reflexivity|]. split; [reflexivity|]. split; [exact C|]. intros z [].
  - destruct (replace_class h x r) as [r'|] eqn:E1; [|discriminate]. inversion E; subst.
    destruct (IH r' eq_refl) as (a & z & b & -> & -> & C1 & N). exists (y :: a), z, b.
    split; [reflexivity|]. split; [reflexivity|]. split; [exact C1|]. intros w [<-|I]; [exact C|exact (N w I)].
Qed.
Lemma replace_class_none : forall h x l, replace_class h x l = None -> forall z, In z l -> o_cls (h z) <> o_cls (h x).
Proof.
  induction l as [|y r IH]; intros E z; simpl in *; [intros []|].
  destruct (Z.eqb_spec (o_cls (h y)) (o_cls (h x))) as [C|C]; [discriminate|].
  destruct (replace_class h x r); [discriminate|]. intros [<-|I]; [exact C|exact (IH eq_refl z I)].
Qed.

(** ** Validation *)
Definition items_of (m : model) : list Z := m_movers m ++ m_weath m ++ m_env m ++ m_outs m.
(** An object without a reference it will not get from the model. *)
Definition lacks (o : obj) : Prop := o_lax o = false /\ o_mdr o = false /\ exists n, In n std /\ o_attr o n = Some None.
(** A name that must be found in the environment. *)
Definition wants (o : obj) (n : name) : Prop := o_mdr o = true /\ In n std /\ o_attr o n <> None.

Lemma skipped_iff : forall o, skipped o = false <-> takes_part o.
Proof. intros o. unfold skipped, takes_part. destruct (o_on o) as [[|]|]; split; congruence. Qed.
Lemma validate1_iff : forall o, validate1 o = false <-> lacks o.
Proof.
  intros o. unfold validate1, lacks, validate_refs. destruct (o_lax o); [split; [discriminate|intros (? & _); discriminate]|].
  cbn [snd]. set (q := filter _ std). destruct q as [|n r] eqn:F; unfold q in F; clear q.
  - split; [discriminate|]. intros (_ & _ & n & I & A). exfalso.
    assert (J : In n []) by (rewrite <- F; apply filter_In; rewrite A; split; [exact I|reflexivity]). exact J.
  - assert (J : In n (n :: r)) by (left; reflexivity). rewrite <- F in J. apply filter_In in J. destruct J as (J1 & J2).
    split.
    + intros M. split; [reflexivity|]. split; [exact M|]. exists n. split; [exact J1|]. destruct (o_attr o n) as [[|]|]; congruence.
    + intros (_ & M & _). exact M.
Qed.
Lemma required_iff : forall o n, In n (required o) <-> wants o n.
Proof.
  intros o n. unfold required, wants. destruct (o_mdr o).
  - rewrite filter_In. unfold has_attr. destruct (o_attr o n); split; intros H; try (destruct H as (? & ?)); auto.
    + split; [reflexivity|]. split; [assumption|discriminate].
    + destruct H0; split; [assumption|reflexivity].
    + discriminate.
    + destruct H0 as (_ & H0). contradiction.
  - split; [intros []|intros (? & _); discriminate].
Qed.
Lemma validate_false : forall h m, validate h m = false <->
  exists x, In x (items_of m) /\ takes_part (h x) /\
    (lacks (h x) \/ exists n, wants (h x) n /\ forall y, In y (m_env m) -> ~ offers h n y).
Proof.
  intros h m. unfold validate. fold (items_of m). set (L := filter _ (items_of m)).
  assert (IL : forall x, In x L <-> In x (items_of m) /\ takes_part (h x)).
  { intros x. unfold L. rewrite filter_In, negb_true_iff, skipped_iff. reflexivity. }
  clearbody L. rewrite andb_false_iff. split.
  - intros [E|E].
    + apply not_true_iff_false in E. rewrite forallb_forall in E.
      assert (X : exists x, In x L /\ validate1 (h x) = false).
      { clear IL. induction L as [|x r IH]; [exfalso; apply E; intros x []|].
        destruct (validate1 (h x)) eqn:V.
        - destruct IH as (y & I & Q).
          + intros F. apply E. intros y [<-|I]; [exact V|exact (F y I)].
          + exists y. split; [right; exact I|exact Q].
        - exists x. split; [left; reflexivity|exact V]. }
      destruct X as (x & I & V). apply IL in I. destruct I as (I & T). exists x. split; [exact I|]. split; [exact T|]. left.
      apply validate1_iff. exact V.
    + apply not_true_iff_false in E. rewrite forallb_forall in E.
      set (N := flat_map (fun x => required (h x)) L) in *.
      assert (X : exists n, In n N /\ find_ref h n (m_env m) = None).
      { clearbody N. induction N as [|n r IH]; [exfalso; apply E; intros x []|].
        destruct (find_ref h n (m_env m)) eqn:V.
        - destruct IH as (k & I & Q).
          + intros F. apply E. intros y [<-|I]; [rewrite V; reflexivity|exact (F y I)].
          + exists k. split; [right; exact I|exact Q].
        - exists n. split; [left; reflexivity|exact V]. }
      destruct X as (n & I & V). unfold N in I. apply in_flat_map in I. destruct I as (x & I & J).
      apply IL in I. destruct I as (I & T). exists x. split; [exact I|]. split; [exact T|]. right. exists n.
      split; [apply required_iff; exact J|]. apply first_in_none. rewrite <- find_ref_first. exact V.
  - intros (x & I & T & [LA|(n & W & NO)]).
    + left. apply not_true_iff_false. rewrite forallb_forall. intros F.
      assert (V := F x (proj2 (IL x) (conj I T))). apply validate1_iff in LA. congruence.
    + right. apply not_true_iff_false. rewrite forallb_forall. intros F.
      assert (J : In n (flat_map (fun y => required (h y)) L)).
      { apply in_flat_map. exists x. split; [apply IL; split; assumption|apply required_iff; exact W]. }
      assert (V := F n J). apply first_in_none in NO. rewrite <- find_ref_first in NO. rewrite NO in V. discriminate.
Qed.

(** Names that are written differently are the same as far as [asks] goes. *)
Theorem begin_complete : forall eqv f g m h m' h',
  begin_run eqv f g m h = Ok (m', h', true) ->
  declared (fst (switch f g h (m_weath m))) (takers m') ->
  forall x n, In x (items_of m') -> takes_part (h' x) -> In n std -> o_attr (h' x) n <> None ->
  (o_mdr (h' x) = true -> exists ns, o_req (h' x) = Some ns /\ In n ns) ->
  o_lax (h' x) = false \/ o_mdr (h' x) = true ->
  exists y, o_attr (h' x) n = Some (Some y).
Proof.
  intros eqv f g m h m' h' B D x n I T N A RQ LX. unfold begin_run in B.
  destruct (switch f g h (m_weath m)) as [h1 ws]. simpl fst in D.
  set (m1 := Mod _ _ _ ws _ _) in B. destruct (attach eqv m1 h1) as [h2|] eqn:E; [|discriminate].
  simpl in B. inversion B; subst m' h'. clear B. rename H2 into V.
  destruct (attach_main eqv m1 h1 D) as (h2' & E2 & SB & AT). rewrite E in E2. inversion E2; subst h2'. clear E2.
  destruct (o_mdr (h2 x)) eqn:M.
  - destruct (RQ eq_refl) as (ns & Q & J).
    destruct (o_attr (h2 x) n) as [[y|]|] eqn:AX; [exists y; reflexivity| |contradiction].
    exfalso. destruct (SB x) as (b1 & b2 & b3 & _).
    assert (W : wants (h2 x) n) by (split; [exact M|split; [exact N|rewrite AX; discriminate]]).
    assert (F : exists y, first_offer h1 n (sources m1) y).
    { destruct (find_ref h2 n (m_env m1)) as [y|] eqn:FR.
      - assert (FR' : find_ref h1 n (m_env m1) = Some y).
        { rewrite <- FR. apply find_ref_ext. intros z. apply SB. }
        rewrite find_ref_first in FR'. exists y. apply first_in_some. unfold sources. rewrite first_in_app, FR'. reflexivity.
      - exfalso. assert (VF : validate h2 m1 = false).
        { apply validate_false. exists x. split; [exact I|]. split; [exact T|]. right. exists n. split; [exact W|].
          apply first_in_none. rewrite <- find_ref_first. exact FR. }
        rewrite V in VF. discriminate. }
    destruct F as (y & F). destruct (AT x n) as (A1 & A2).
    assert (IT : In x (takers m1)).
    { unfold items_of in I. unfold takers. repeat rewrite in_app_iff in *. tauto. }
    destruct (o_attr (h1 x) n) as [[z|]|] eqn:A0.
    + rewrite A2 in AX; [congruence|]. right. left. intros (_ & _ & Q3). congruence.
    + rewrite (A1 IT) with (y := y) in AX; [discriminate| |exact F].
      split; [congruence|]. split; [|exact A0]. exists ns. split; [congruence|exact J].
    + rewrite A2 in AX; [congruence|]. right. left. intros (_ & _ & Q3). congruence.
  - destruct LX as [LX|LX]; [|discriminate].
    destruct (o_attr (h2 x) n) as [[y|]|] eqn:AX; [exists y; reflexivity| |contradiction].
    exfalso. assert (VF : validate h2 m1 = false).
    { apply validate_false. exists x. split; [exact I|]. split; [exact T|]. left. split; [exact LX|]. split; [exact M|].
      exists n. split; [exact N|exact AX]. }
    rewrite V in VF. discriminate.
Qed.

(** ** check_inputs *)
Lemma check_spill_raise : forall c p, (exists e, check_spill c p = Raise e) <->
  (c_time_step c < 0 /\ p_release p <> p_end_release p) \/ (p_weatherable p = true /\ exists cold, p_sinks p = Some (cold, true)).
Proof.
  intros c p. unfold check_spill. destruct (time_msgs c p) as [tm ok].
  destruct (Z.eqb_spec (p_release p) (p_end_release p)) as [E|E]; simpl.
  - destruct (p_weatherable p); [destruct (p_sinks p) as [[cold [|]]|]|].
    + split; [intros _; right; split; [reflexivity|exists cold; reflexivity]|intros _; eexists; reflexivity].
    + split; [intros (e & Q); discriminate|]. intros [(_ & Q)|(_ & k & Q)]; [contradiction|discriminate].
    + split; [intros (e & Q); discriminate|]. intros [(_ & Q)|(_ & k & Q)]; [contradiction|discriminate].
    + split; [intros (e & Q); discriminate|]. intros [(_ & Q)|(Q & _)]; [contradiction|discriminate].
  - destruct (Z.ltb_spec (c_time_step c) 0).
    + split; [intros _; left; split; assumption|intros _; eexists; reflexivity].
    + destruct (p_weatherable p); [destruct (p_sinks p) as [[cold [|]]|]|].
      * split; [intros _; right; split; [reflexivity|exists cold; reflexivity]|intros _; eexists; reflexivity].
      * split; [intros (e & Q); discriminate|]. intros [(Q & _)|(_ & k & Q)]; [lia|discriminate].
      * split; [intros (e & Q); discriminate|]. intros [(Q & _)|(_ & k & Q)]; [lia|discriminate].
      * split; [intros (e & Q); discriminate|]. intros [(Q & _)|(Q & _)]; [lia|discriminate].
Qed.
Lemma check_spill_ok : forall c p ms ok, check_spill c p = Ok (ms, ok) -> (ok = false <-> released_before c p) /\
  (In OffMap ms <-> p_start_on_map p = false \/ exists l, p_end p = Some (false, l)) /\
  (In OnLand ms <-> p_start_on_land p = true \/ exists m, p_end p = Some (m, true)) /\
  (In Above ms <-> p_depth_ok p = false) /\
  ~ In NoSpills ms /\ ~ In NoneReleased ms /\ ~ In NoOverlap ms.
Proof.
  intros c p ms ok E.
  assert (P : exists tm x, time_msgs c p = (tm, ok) /\ ms = place_msgs p ++ tm ++ x /\ (x = [] \/ x = [TooCold])).
  { unfold check_spill in E. destruct (time_msgs c p) as [tm b].
    destruct (negb _ && _); [discriminate|]. destruct (p_weatherable p); [destruct (p_sinks p) as [[[|] [|]]|]|];
      try discriminate; inversion E; subst.
    - exists tm, [TooCold]. auto.
    - exists tm, []. simpl. auto.
    - exists tm, []. rewrite app_nil_r. auto.
    - exists tm, []. rewrite app_nil_r. auto. }
  destruct P as (tm & x & T & -> & X).
  assert (TM : (tm = [After] /\ ok = true \/ tm = [Before] /\ ok = false \/ tm = [] /\ ok = true) /\ (ok = false <-> released_before c p)).
  { unfold time_msgs in T. unfold released_before.
    destruct (Z.ltb_spec (c_start c) (p_release p)), (Z.ltb_spec (p_release p) (c_start c)),
             (Z.ltb_spec 0 (c_time_step c)), (Z.ltb_spec (c_time_step c) 0); simpl in T; inversion T; subst; split; auto;
      split; intros Q; try discriminate; try reflexivity; try lia. }
  destruct TM as (TM & RB). split; [exact RB|].
  assert (TX : forall k, In k (tm ++ x) -> k = After \/ k = Before \/ k = TooCold).
  { intros k I. apply in_app_or in I. destruct I as [I|I].
    - destruct TM as [(-> & _)|[(-> & _)|(-> & _)]]; simpl in I; intuition.
    - destruct X as [->| ->]; simpl in I; intuition. }
  assert (IFF : forall k, k <> After -> k <> Before -> k <> TooCold -> (In k (place_msgs p ++ tm ++ x) <-> In k (place_msgs p))).
  { intros k N1 N2 N3. rewrite in_app_iff. split; [|auto]. intros [I|I]; [exact I|]. exfalso. destruct (TX k I) as [?|[?|?]]; congruence. }
  split; [|split; [|split; [|split; [|split]]]].
  - rewrite IFF by discriminate. unfold place_msgs. rewrite !in_app_iff.
    destruct (p_depth_ok p), (p_start_on_map p), (p_start_on_land p), (p_end p) as [[[|] [|]]|]; simpl; split; intros Q;
      repeat match goal with H : _ \/ _ |- _ => destruct H | H : False |- _ => destruct H | H : exists _, _ |- _ => destruct H end;
      try discriminate; eauto 8.
  - rewrite IFF by discriminate. unfold place_msgs. rewrite !in_app_iff.
    destruct (p_depth_ok p), (p_start_on_map p), (p_start_on_land p), (p_end p) as [[[|] [|]]|]; simpl; split; intros Q;
      repeat match goal with H : _ \/ _ |- _ => destruct H | H : False |- _ => destruct H | H : exists _, _ |- _ => destruct H end;
      try discriminate; eauto 8.
  - rewrite IFF by discriminate. unfold place_msgs. rewrite !in_app_iff.
    destruct (p_depth_ok p), (p_start_on_map p), (p_start_on_land p), (p_end p) as [[[|] [|]]|]; simpl; split; intros Q;
      repeat match goal with H : _ \/ _ |- _ => destruct H | H : False |- _ => destruct H | H : exists _, _ |- _ => destruct H end;
      try discriminate; eauto 8.
  - rewrite IFF by discriminate. unfold place_msgs. rewrite !in_app_iff.
    destruct (p_depth_ok p), (p_start_on_map p), (p_start_on_land p), (p_end p) as [[[|] [|]]|]; simpl; intros Q; repeat match goal with H : _ \/ _ |- _ => destruct H | H : False |- _ => destruct H end; discriminate.
  - rewrite IFF by discriminate. unfold place_msgs. rewrite !in_app_iff.
    destruct (p_depth_ok p), (p_start_on_map p), (p_start_on_land p), (p_end p) as [[[|] [|]]|]; simpl; intros Q; repeat match goal with H : _ \/ _ |- _ => destruct H | H : False |- _ => destruct H end; discriminate.
  - rewrite IFF by discriminate. unfold place_msgs. rewrite !in_app_iff.
    destruct (p_depth_ok p), (p_start_on_map p), (p_start_on_land p), (p_end p) as [[[|] [|]]|]; simpl; intros Q; repeat match goal with H : _ \/ _ |- _ => destruct H | H : False |- _ => destruct H end; discriminate.
Qed.
Lemma check_spills_raise : forall c ps, (exists e, check_spills c ps = Raise e) <->
  exists p, In p ps /\ p_on p = true /\ exists e, check_spill c p = Raise e.
Proof.
  induction ps as [|p r IH]; simpl.
  - split; [intros (e & Q); discriminate|]. intros (p & [] & _).
  - destruct (p_on p) eqn:ON.
    + destruct (check_spill c p) as [a|e] eqn:E; simpl.
      * destruct (check_spills c r) as [b|e] eqn:E2; simpl.
        -- split; [intros (e & Q); discriminate|]. intros (q & [<-|I] & O1 & e & Q); [congruence|].
           destruct (proj2 IH) as (e' & Q'); [exists q; eauto|discriminate].
        -- split; [|intros _; eexists; reflexivity]. intros _. destruct (proj1 IH) as (q & I & O1 & Q); [eexists; reflexivity|].
           exists q. auto.
      * split; [|intros _; eexists; reflexivity]. intros _. exists p. split; [left; reflexivity|]. split; [exact ON|]. eexists; exact E.
    + rewrite IH. split.
      * intros (q & I & O1). exists q. split; [right; exact I|exact O1].
      * intros (q & [<-|I] & O1); [destruct O1; congruence|]. exists q. split; assumption.
Qed.
Lemma check_spills_ok : forall c ps ms ok, check_spills c ps = Ok (ms, ok) ->
  (ok = false <-> exists p, In p ps /\ p_on p = true /\ released_before c p) /\
  (In OffMap ms <-> exists p, In p ps /\ p_on p = true /\ (p_start_on_map p = false \/ exists l, p_end p = Some (false, l))) /\
  (In OnLand ms <-> exists p, In p ps /\ p_on p = true /\ (p_start_on_land p = true \/ exists m, p_end p = Some (m, true))) /\
  (In Above ms <-> exists p, In p ps /\ p_on p = true /\ p_depth_ok p = false) /\
  ~ In NoSpills ms /\ ~ In NoneReleased ms /\ ~ In NoOverlap ms.
Proof.
  induction ps as [|p r IH]; intros ms ok E; simpl in E.
  - inversion E; subst. simpl.
    split; [split; [discriminate|intros (p & [] & _)]|]. do 3 (split; [split; [intros []|intros (p & [] & _)]|]).
    split; [intros []|]. split; intros [].
  - destruct (p_on p) eqn:ON.
    + destruct (check_spill c p) as [[m1 k1]|] eqn:E1; [|discriminate]. simpl in E.
      destruct (check_spills c r) as [[m2 k2]|] eqn:E2; [|discriminate]. simpl in E. inversion E; subst.
      destruct (check_spill_ok c p m1 k1 E1) as (A1 & A2 & A3 & A4 & A5 & A6 & A7).
      destruct (IH m2 k2 eq_refl) as (B1 & B2 & B3 & B4 & B5 & B6 & B7).
      assert (LIFT : forall (P : spill -> Prop) (a b : Prop), (a <-> P p) -> (b <-> exists q, In q r /\ p_on q = true /\ P q) ->
                (a \/ b <-> exists q, (p = q \/ In q r) /\ p_on q = true /\ P q)).
      { intros P a b Ha Hb. rewrite Ha, Hb. split.
        - intros [Q|(q & I & O1 & Q)]; [exists p; auto|exists q; auto].
        - intros (q & [<-|I] & O1 & Q); [left; exact Q|right; exists q; auto]. }
      split; [|split; [|split; [|split; [|split; [|split]]]]].
      * rewrite andb_false_iff. exact (LIFT (released_before c) _ _ A1 B1).
      * rewrite in_app_iff. exact (LIFT (fun q => p_start_on_map q = false \/ exists l, p_end q = Some (false, l)) _ _ A2 B2).
      * rewrite in_app_iff. exact (LIFT (fun q => p_start_on_land q = true \/ exists l, p_end q = Some (l, true)) _ _ A3 B3).
      * rewrite in_app_iff. exact (LIFT (fun q => p_depth_ok q = false) _ _ A4 B4).
      * rewrite in_app_iff. tauto.
      * rewrite in_app_iff. tauto.
      * rewrite in_app_iff. tauto.
    + destruct (IH ms ok E) as (B1 & B2 & B3 & B4 & B5 & B6 & B7).
      assert (LIFT : forall (P : spill -> Prop) (b : Prop), (b <-> exists q, In q r /\ p_on q = true /\ P q) ->
                (b <-> exists q, (p = q \/ In q r) /\ p_on q = true /\ P q)).
      { intros P b Hb. rewrite Hb. split.
        - intros (q & I & O1 & Q). exists q; auto.
        - intros (q & [<-|I] & O1 & Q); [congruence|exists q; auto]. }
      split; [|split; [|split; [|split; [|split; [|split]]]]]; try assumption.
      * exact (LIFT (released_before c) _ B1).
      * exact (LIFT (fun q => p_start_on_map q = false \/ exists l, p_end q = Some (false, l)) _ B2).
      * exact (LIFT (fun q => p_start_on_land q = true \/ exists l, p_end q = Some (l, true)) _ B3).
      * exact (LIFT (fun q => p_depth_ok q = false) _ B4).
Qed.
Lemma weath_on_iff : forall ps, existsb p_weatherable (filter p_on ps) = true <-> exists p, In p ps /\ p_on p = true /\ p_weatherable p = true.
Proof.
  intros ps. rewrite existsb_exists. split.
  - intros (p & I & W). apply filter_In in I. exists p. tauto.
  - intros (p & I & O1 & W). exists p. split; [apply filter_In; tauto|exact W].
Qed.
Lemma check_raise : forall c v ps, (exists e, check_inputs c v ps = Raise e) <-> impossible c ps.
Proof.
  intros c v ps. unfold check_inputs, impossible.
  destruct (check_spills c ps) as [a|e] eqn:E; cbn [bind].
  - assert (NS : ~ exists p, In p ps /\ p_on p = true /\ exists e, check_spill c p = Raise e).
    { intros Q. apply check_spills_raise in Q. destruct Q as (e & Q). congruence. }
    assert (N1 : ~ exists p, In p ps /\ p_on p = true /\ c_time_step c < 0 /\ p_release p <> p_end_release p).
    { intros (p & I & O1 & T & N). apply NS. exists p. split; [exact I|]. split; [exact O1|]. apply check_spill_raise. left; auto. }
    assert (N2 : ~ exists p cold, In p ps /\ p_on p = true /\ p_weatherable p = true /\ p_sinks p = Some (cold, true)).
    { intros (p & k & I & O1 & W & N). apply NS. exists p. split; [exact I|]. split; [exact O1|]. apply check_spill_raise. right; eauto. }
    destruct (Z.ltb_spec (c_time_step c) 0).
    + destruct (Z.ltb_spec 0 (c_duration c)).
      * split; [intros _; right; right; left; split; assumption|intros _; eexists; reflexivity].
      * destruct (c_weathering c) eqn:W; simpl.
        -- destruct (existsb p_weatherable (filter p_on ps)) eqn:X.
           ++ apply weath_on_iff in X. split; [intros _; right; right; right; auto|intros _; eexists; reflexivity].
           ++ split; [intros (e & Q); discriminate|]. intros [Q|[Q|[Q|(_ & _ & Q)]]]; [contradiction|contradiction|lia|].
              apply weath_on_iff in Q. congruence.
        -- split; [intros (e & Q); discriminate|]. intros [Q|[Q|[Q|(_ & Q & _)]]]; [contradiction|contradiction|lia|discriminate].
    + split; [intros (e & Q); discriminate|]. intros [Q|[Q|[Q|(Q & _)]]]; [contradiction|contradiction|lia|lia].
  - split; [|intros _; eexists; reflexivity]. intros _.
    destruct (proj1 (check_spills_raise c ps)) as (p & I & O1 & Q); [eexists; exact E|].
    apply check_spill_raise in Q. destruct Q as [(T & N)|(W & k & N)].
    + left. exists p. auto.
    + right. left. exists p, k. auto.
Qed.
Lemma check_ok : forall c v ps ms ok, check_inputs c v ps = Ok (ms, ok) ->
  (ok = true <-> v = true /\ ~ exists p, In p ps /\ p_on p = true /\ released_before c p) /\
  (In NoSpills ms <-> ps = []) /\
  (In OffMap ms <-> exists p, In p ps /\ p_on p = true /\ (p_start_on_map p = false \/ exists l, p_end p = Some (false, l))) /\
  (In OnLand ms <-> exists p, In p ps /\ p_on p = true /\ (p_start_on_land p = true \/ exists m, p_end p = Some (m, true))) /\
  (In Above ms <-> exists p, In p ps /\ p_on p = true /\ p_depth_ok p = false) /\
  (In NoneReleased ms <-> (exists p, In p ps /\ p_on p = true) /\ forall p, In p ps -> p_on p = true -> meets_run c p = false) /\
  (In NoOverlap ms <-> In (true, false) (c_movers c)).
Proof.
  intros c v ps ms ok E. unfold check_inputs in E.
  destruct (check_spills c ps) as [[m1 k1]|] eqn:E1; [|discriminate]. cbn [bind fst snd] in E.
  destruct (check_spills_ok c ps m1 k1 E1) as (B1 & B2 & B3 & B4 & B5 & B6 & B7).
  set (m0 := match ps with [] => [NoSpills] | _ :: _ => [] end) in E.
  set (m2 := match filter p_on ps with [] => [] | _ :: _ => _ end) in E.
  set (m3 := flat_map _ (c_movers c)) in E.
  assert (X : ms = m0 ++ m1 ++ m2 ++ m3 /\ ok = v && k1).
  { destruct (c_time_step c <? 0); [|inversion E; auto]. destruct (0 <? c_duration c); [discriminate|].
    destruct (c_weathering c && _); [discriminate|]. inversion E; auto. }
  destruct X as (-> & ->). clear E.
  assert (M0 : forall k, In k m0 <-> k = NoSpills /\ ps = []).
  { intros k. unfold m0. destruct ps; simpl; split; intros Q.
    - destruct Q as [<-|[]]. auto.
    - destruct Q as (-> & _). auto.
    - destruct Q.
    - destruct Q; discriminate. }
  assert (M2 : forall k, In k m2 <-> k = NoneReleased /\ (exists p, In p ps /\ p_on p = true) /\ forall p, In p ps -> p_on p = true -> meets_run c p = false).
  { intros k. unfold m2. destruct (filter p_on ps) as [|q r] eqn:F.
    - split; [intros []|]. intros (_ & (p & I & O1) & _). assert (J : In p []) by (rewrite <- F; apply filter_In; auto). exact J.
    - rewrite <- F. destruct (existsb (meets_run c) (filter p_on ps)) eqn:X.
      + split; [intros []|]. intros (_ & _ & N). apply existsb_exists in X. destruct X as (p & I & Q). apply filter_In in I.
        destruct I as (I & O1). rewrite (N p I O1) in Q. discriminate.
      + split.
        * intros [<-|[]]. split; [reflexivity|]. split.
          -- exists q. apply filter_In. rewrite F. left. reflexivity.
          -- intros p I O1. destruct (meets_run c p) eqn:Q; [|reflexivity].
             assert (Y : existsb (meets_run c) (filter p_on ps) = true) by (apply existsb_exists; exists p; split; [apply filter_In; auto|exact Q]).
             congruence.
        * intros (-> & _). left. reflexivity. }
  assert (M3 : forall k, In k m3 <-> k = NoOverlap /\ In (true, false) (c_movers c)).
  { intros k. unfold m3. rewrite in_flat_map. split.
    - intros ((a & b) & I & Q). destruct a, b; simpl in Q; try destruct Q as [Q|[]]; try destruct Q. auto.
    - intros (-> & I). exists (true, false). split; [exact I|]. left. reflexivity. }
  split.
  { rewrite andb_true_iff. destruct k1.
    - assert (NB : ~ exists p, In p ps /\ p_on p = true /\ released_before c p) by (intros Q; apply B1 in Q; discriminate). tauto.
    - assert (NB := proj1 B1 eq_refl). split; [intros (_ & Q); discriminate|intros (_ & Q); contradiction]. }
  repeat rewrite in_app_iff. repeat rewrite M0. repeat rewrite M2. repeat rewrite M3.
  split; [|split; [|split; [|split; [|split]]]].
  - split; [intros [(_ & Q)|[Q|[(Q & _)|(Q & _)]]]; [exact Q|contradiction|discriminate|discriminate]|intros ->; left; auto].
  - rewrite <- B2. split; [intros [(Q & _)|[Q|[(Q & _)|(Q & _)]]]; try discriminate; exact Q|auto].
  - rewrite <- B3. split; [intros [(Q & _)|[Q|[(Q & _)|(Q & _)]]]; try discriminate; exact Q|auto].
  - rewrite <- B4. split; [intros [(Q & _)|[Q|[(Q & _)|(Q & _)]]]; try discriminate; exact Q|auto].
  - split; [intros [(Q & _)|[Q|[(_ & Q)|(Q & _)]]]; [discriminate|contradiction|exact Q|discriminate]|intros Q; right; right; left; auto].
  - split; [intros [(Q & _)|[Q|[(Q & _)|(_ & Q)]]]; [discriminate|contradiction|discriminate|exact Q]|intros Q; right; right; right; auto].
Qed.

(** Every message of the loop comes from the check of a spill that is on. *)
Lemma check_spills_in : forall c ps ms ok, check_spills c ps = Ok (ms, ok) -> forall k,
  In k ms <-> exists p mp kp, In p ps /\ p_on p = true /\ check_spill c p = Ok (mp, kp) /\ In k mp.
Proof.
  intros c; induction ps as [|p r IH]; intros ms ok E k; simpl in E.
  - inversion E; subst. split; [intros []|]. intros (p & _ & _ & [] & _).
  - destruct (p_on p) eqn:O1.
    + destruct (check_spill c p) as [[mp kp]|] eqn:E1; [|discriminate]. cbn [bind fst snd] in E.
      destruct (check_spills c r) as [[mr kr]|] eqn:E2; [|discriminate]. cbn [bind fst snd] in E. inversion E; subst.
      rewrite in_app_iff, (IH mr kr eq_refl k). split.
      * intros [I|(q & mq & kq & I & Q)]; [exists p, mp, kp|exists q, mq, kq]; (split; [simpl; auto|]); auto.
      * intros (q & mq & kq & [<-|I] & O2 & E3 & J); [left; congruence|].
        right. exists q, mq, kq. auto.
    + rewrite (IH ms ok E k). split; intros (q & mq & kq & I & Q & W).
      * exists q, mq, kq. simpl. auto.
      * destruct I as [<-|I]; [congruence|]. exists q, mq, kq. auto.
Qed.
Lemma place_only : forall p k, In k (place_msgs p) -> k = OffMap \/ k = OnLand \/ k = Above.
Proof.
  intros p k I. unfold place_msgs in I. rewrite !in_app_iff in I.
  destruct (p_depth_ok p), (p_start_on_map p), (p_start_on_land p), (p_end p) as [[[|] [|]]|]; simpl in I;
    decompose [or] I; subst; try contradiction; auto.
Qed.
Lemma check_spill_times : forall c p ms ok, check_spill c p = Ok (ms, ok) ->
  (In TooCold ms <-> p_weatherable p = true /\ exists b, p_sinks p = Some (true, b)) /\
  (In Before ms <-> released_before c p) /\ (In After ms <-> released_after c p).
Proof.
  intros c p ms ok E.
  assert (P : exists tm x, time_msgs c p = (tm, ok) /\ ms = place_msgs p ++ tm ++ x /\
     (x = [TooCold] /\ (p_weatherable p = true /\ exists b, p_sinks p = Some (true, b)) \/
      x = [] /\ ~ (p_weatherable p = true /\ exists b, p_sinks p = Some (true, b)))).
  { unfold check_spill in E. destruct (time_msgs c p) as [tm b].
    destruct (negb _ && _); [discriminate|]. destruct (p_weatherable p); [destruct (p_sinks p) as [[[|] [|]]|]|];
      try discriminate; inversion E; subst.
    - exists tm, [TooCold]. split; [reflexivity|]. split; [reflexivity|]. left. split; [reflexivity|]. split; [reflexivity|exists false; reflexivity].
    - exists tm, []. split; [reflexivity|]. split; [reflexivity|]. right. split; [reflexivity|]. intros (_ & b' & Q); discriminate.
    - exists tm, []. rewrite app_nil_r. split; [reflexivity|]. split; [reflexivity|]. right. split; [reflexivity|]. intros (_ & b' & Q); discriminate.
    - exists tm, []. rewrite app_nil_r. split; [reflexivity|]. split; [reflexivity|]. right. split; [reflexivity|]. intros (Q & _); discriminate. }
  destruct P as (tm & x & T & -> & X).
  assert (TM : ~ In TooCold tm /\ (In Before tm <-> released_before c p) /\ (In After tm <-> released_after c p)).
  { unfold time_msgs in T. unfold released_before, released_after.
    destruct (Z.ltb_spec (c_start c) (p_release p)), (Z.ltb_spec (p_release p) (c_start c)),
             (Z.ltb_spec 0 (c_time_step c)), (Z.ltb_spec (c_time_step c) 0); simpl in T; inversion T; subst; simpl;
      (split; [intros Q; decompose [or] Q; try discriminate; try contradiction|]);
      (split; split; intros Q; decompose [or] Q; try discriminate; try contradiction; try lia; auto). }
  destruct TM as (T1 & T2 & T3).
  assert (PL : forall k, k = TooCold \/ k = Before \/ k = After -> ~ In k (place_msgs p)).
  { intros k K I. apply place_only in I. decompose [or] K; decompose [or] I; congruence. }
  assert (PX : forall k, k <> TooCold -> ~ In k x).
  { intros k N I. destruct X as [(-> & _)|(-> & _)]; simpl in I; [destruct I as [?|[]]; congruence|exact I]. }
  split; [|split].
  - rewrite !in_app_iff. assert (N := PL TooCold (or_introl eq_refl)).
    destruct X as [(-> & Q)|(-> & Q)]; simpl; tauto.
  - rewrite !in_app_iff. assert (N := PL Before (or_intror (or_introl eq_refl))). assert (N2 := PX Before ltac:(discriminate)). tauto.
  - rewrite !in_app_iff. assert (N := PL After (or_intror (or_intror eq_refl))). assert (N2 := PX After ltac:(discriminate)). tauto.
Qed.
Lemma check_times : forall c v ps ms ok, check_inputs c v ps = Ok (ms, ok) ->
  (In TooCold ms <-> exists p, In p ps /\ p_on p = true /\ p_weatherable p = true /\ exists b, p_sinks p = Some (true, b)) /\
  (In Before ms <-> exists p, In p ps /\ p_on p = true /\ released_before c p) /\
  (In After ms <-> exists p, In p ps /\ p_on p = true /\ released_after c p).
Proof.
  intros c v ps ms ok E. unfold check_inputs in E.
  destruct (check_spills c ps) as [[m1 k1]|] eqn:E1; [|discriminate]. cbn [bind fst snd] in E.
  set (m0 := match ps with [] => [NoSpills] | _ :: _ => [] end) in E.
  set (m2 := match filter p_on ps with [] => [] | _ :: _ => _ end) in E.
  set (m3 := flat_map _ (c_movers c)) in E.
  assert (X : ms = m0 ++ m1 ++ m2 ++ m3).
  { destruct (c_time_step c <? 0); [|inversion E; auto]. destruct (0 <? c_duration c); [discriminate|].
    destruct (c_weathering c && _); [discriminate|]. inversion E; auto. }
  subst ms.
  assert (ALL : forall p, In p ps -> p_on p = true -> exists mp kp, check_spill c p = Ok (mp, kp)).
  { clear - E1. revert m1 k1 E1. induction ps as [|q r IH]; intros m1 k1 E1 p I O1; [destruct I|]. simpl in E1.
    destruct (p_on q) eqn:OQ.
    - destruct (check_spill c q) as [[mp kp]|] eqn:E2; [|discriminate]. cbn [bind fst snd] in E1.
      destruct (check_spills c r) as [[mr kr]|]; [|discriminate].
      destruct I as [<-|I]; [exists mp, kp; exact E2|exact (IH mr kr eq_refl p I O1)].
    - destruct I as [<-|I]; [congruence|exact (IH m1 k1 E1 p I O1)]. }
  assert (IFF : forall k, k = TooCold \/ k = Before \/ k = After -> (In k (m0 ++ m1 ++ m2 ++ m3) <-> In k m1)).
  { intros k K. rewrite !in_app_iff. split; [|auto]. intros [I|[I|[I|I]]]; [exfalso|exact I|exfalso|exfalso].
    - unfold m0 in I. destruct ps; simpl in I; [destruct I as [<-|[]]; decompose [or] K; discriminate|exact I].
    - unfold m2 in I. destruct (filter p_on ps); [exact I|]. destruct (existsb _ _); simpl in I; [exact I|].
      destruct I as [<-|[]]; decompose [or] K; discriminate.
    - unfold m3 in I. apply in_flat_map in I. destruct I as ((a & b) & _ & I). destruct a, b; simpl in I; try contradiction.
      destruct I as [<-|[]]; decompose [or] K; discriminate. }
  assert (ONE : forall k (F : spill -> Prop), (k = TooCold \/ k = Before \/ k = After) ->
     (forall p mp kp, check_spill c p = Ok (mp, kp) -> (In k mp <-> F p)) ->
     (In k (m0 ++ m1 ++ m2 ++ m3) <-> exists p, In p ps /\ p_on p = true /\ F p)).
  { intros k F K H. rewrite (IFF k K), (check_spills_in c ps m1 k1 E1 k). split.
    - intros (p & mp & kp & I & O1 & C & J). exists p. split; [exact I|]. split; [exact O1|]. exact (proj1 (H p mp kp C) J).
    - intros (p & I & O1 & J). destruct (ALL p I O1) as (mp & kp & C). exists p, mp, kp.
      split; [exact I|]. split; [exact O1|]. split; [exact C|]. exact (proj2 (H p mp kp C) J). }
  split; [|split].
  - apply (ONE TooCold (fun p => p_weatherable p = true /\ exists b, p_sinks p = Some (true, b))); [auto|].
    intros p mp kp C. apply (check_spill_times c p mp kp C).
  - apply (ONE Before (released_before c)); [auto|]. intros p mp kp C. apply (check_spill_times c p mp kp C).
  - apply (ONE After (released_after c)); [auto|]. intros p mp kp C. apply (check_spill_times c p mp kp C).
Qed.

(** ** A second start *)
Lemma turn_on_fields : forall sp new o h ws x, x <> new -> let h' := fst (turn_on sp new o h ws) in
  h' x = h x \/ h' x = set_on true (h x).
Proof.
  intros [y|] new o h ws x N; simpl.
  - destruct (Z.eq_dec x y) as [->|M]; [right; apply upd_same|left; apply upd_other; exact M].
  - left. apply upd_other. exact N.
Qed.
Lemma set_on_twice : forall a b o, set_on a (set_on b o) = set_on a o.
Proof. reflexivity. Qed.
Lemma switch_fields : forall f g h ws x, NoDup ws -> x <> f -> x <> g ->
  let h' := fst (switch f g h ws) in h' x = h x \/ exists b, h' x = set_on b (h x).
Proof.
  intros f g h ws x ND NF NG. unfold switch.
  destruct (look_fold ws (ST h false None None) ND) as (H1 & H2 & _).
  set (st := fold_left look ws (ST h false None None)) in *. cbn [s_heap] in *.
  assert (B : s_heap st x = h x \/ exists b, s_heap st x = set_on b (h x)).
  { destruct (in_dec Z.eq_dec x ws) as [I|N]; [|left; apply H1; exact N].
    rewrite H2 by exact I. destruct (special (h x)); [right; exists false; reflexivity|left; reflexivity]. }
  destruct (s_area st); [|exact B].
  assert (T1 := turn_on_fields (s_spread st) f fay (s_heap st) ws x NF).
  destruct (turn_on (s_spread st) f fay (s_heap st) ws) as [h1 ws1]. simpl in T1.
  assert (T2 := turn_on_fields (s_lang st) g lang h1 ws1 x NG). cbv zeta in *.
  destruct T2 as [->| ->], T1 as [->| ->], B as [->|(b & ->)]; auto; right; eexists; rewrite ?set_on_twice; reflexivity.
Qed.
