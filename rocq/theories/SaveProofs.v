(** * Proofs about saving and loading *)
From Coq Require Import String.
From Verif Require Import Py PyLemmas StrModel StrLemmas SaveModel SaveSpec BcProofs.
Open Scope Z_scope.

Section S.
  Context {D : Type}.
  Notation obj := (gobj D).

  Lemma gobj_ind2 : forall P : obj -> Prop,
    (forall i c n d f ks, Forall P ks -> P (Obj i c n d f ks)) -> forall t, P t.
  Proof.
    intros P H. fix IH 1. intros [i c n d f ks]. apply H. induction ks as [|k ks IHk]; constructor; [apply IH|exact IHk].
  Qed.

  Lemma within_trans : forall a b c : obj, within a b -> within b c -> within a c.
  Proof. intros a b c H1 H2. induction H2 as [|s k t I H IH]; [exact H1|]. apply (w_kid a k t I). apply IH. exact H1. Qed.

  Fixpoint size (t : obj) : nat := match t with Obj _ _ _ _ _ ks => S (list_sum (map size ks)) end.
  Lemma size_kid : forall k (t : obj), In k (o_kids t) -> (size k < size t)%nat.
  Proof.
    intros k [i c n d f ks] H. cbn in *. apply le_n_S. induction ks as [|x ks IH]; [contradiction|]. change (list_sum (map size (x :: ks))) with (size x + list_sum (map size ks))%nat. destruct H as [->|H]; [lia|]. specialize (IH H). lia.
  Qed.
  Lemma within_size : forall s t : obj, within s t -> s = t \/ (size s < size t)%nat.
  Proof. intros s t H. induction H as [|s k t I H IH]; [left; reflexivity|]. pose proof (size_kid k t I). destruct IH as [->|IH]; right; lia. Qed.

  Fixpoint depth (t : obj) : nat := match t with Obj _ _ _ _ _ ks => S (fold_right (fun k m => Nat.max (depth k) m) 0%nat ks) end.
  Lemma depth_kid : forall k (t : obj), In k (o_kids t) -> (depth k < depth t)%nat.
  Proof.
    intros k [i c n d f ks] H. cbn in *. apply le_n_S. induction ks as [|x ks IH]; [contradiction|]. cbn [fold_right]. destruct H as [->|H]; [lia|]. specialize (IH H). lia.
  Qed.

  (** ** File names *)
  Lemma in_zip_iff : forall n (z : zipf D), in_zip n z = false <-> sget n z = None.
  Proof. intros. unfold in_zip. destruct (sget n z); split; congruence. Qed.

  Lemma sget_app : forall n (a b : zipf D), sget n (a ++ b) = match sget n a with Some e => Some e | None => sget n b end.
  Proof. intros n a b. induction a as [|[k e] a IH]; cbn; [reflexivity|]. destruct (seqb n k); [reflexivity|exact IH]. Qed.

  Lemma sanitize_no_slash : forall s, ~ In slash (sanitize_string s).
  Proof.
    intros s I. unfold sanitize_string in I. apply in_map_iff in I. destruct I as [c [E _]].
    destruct (zmem c unsafe) eqn:Z; [discriminate|]. subst c. discriminate.
  Qed.
  Lemma sanitize_app : forall a b, sanitize_string (a ++ b) = sanitize_string a ++ sanitize_string b.
  Proof. intros. apply map_app. Qed.
  Lemma sanitize_json : sanitize_string (lit ".json") = lit ".json". Proof. reflexivity. Qed.
  Lemma sanitize_good : forall n, good_name n -> existsb (fun c => negb (c =? dot)) (sanitize_string n) = true /\ existsb brace (sanitize_string n) = false.
  Proof.
    intros n [[c [I N]] [B1 B2]]. split.
    - apply existsb_exists. exists (if zmem c unsafe then underscore else c). split; [apply in_map_iff; exists c; split; [reflexivity|exact I]|].
      destruct (zmem c unsafe); [reflexivity|]. apply negb_true_iff, Z.eqb_neq. exact N.
    - destruct (existsb brace (sanitize_string n)) eqn:E; [|reflexivity]. apply existsb_exists in E. destruct E as [x [Ix Bx]].
      apply in_map_iff in Ix. destruct Ix as [y [Ey Iy]]. destruct (zmem y unsafe); subst x; [discriminate|].
      unfold brace in Bx. apply orb_true_iff in Bx. destruct Bx as [Bx|Bx]; apply Z.eqb_eq in Bx; subst y; contradiction.
  Qed.

  Lemma split_name : forall n, good_name n -> splitext (basename (sanitize_string (n ++ lit ".json"))) = (sanitize_string n, lit ".json").
  Proof.
    intros n G. rewrite basename_none by apply sanitize_no_slash. rewrite sanitize_app, sanitize_json. unfold splitext.
    assert (Ns : ~ In slash (sanitize_string n ++ lit ".json")).
    { intros I. apply in_app_or in I. destruct I as [I|I]; [apply (sanitize_no_slash n I)|]. cbn in I. unfold slash in I. intuition discriminate. }
    rewrite basename_none by exact Ns.
    replace (rcut dot (sanitize_string n ++ lit ".json")) with (Some (sanitize_string n), lit "json").
    - rewrite (proj1 (sanitize_good n G)). f_equal. rewrite app_length. replace (length (sanitize_string n) + length (lit ".json") - S (length (lit "json")))%nat with (length (sanitize_string n)) by (cbn; lia).
      rewrite firstn_app, Nat.sub_diag, firstn_all. cbn. apply app_nil_r.
    - symmetry. change (lit ".json") with (dot :: lit "json"). apply rcut_app. cbn. unfold dot. intuition discriminate.
  Qed.

  Lemma fmt_ok : forall n x, good_name n -> fmt (sanitize_string n) (lit ".json") x = Ok (sanitize_string n ++ x ++ lit ".json").
  Proof. intros n x G. unfold fmt. rewrite existsb_app, (proj2 (sanitize_good n G)). reflexivity. Qed.

  Lemma pick_spec : forall n m i x (z : zipf D) fn, good_name n ->
    pick m i (sanitize_string n) (lit ".json") (sanitize_string n ++ x ++ lit ".json") z = Ok fn ->
    sget fn z = None /\ exists y, fn = sanitize_string n ++ y ++ lit ".json".
  Proof.
    intros n m. induction m as [|m IH]; intros i x z fn G H; cbn [pick] in H; [discriminate|].
    destruct (in_zip _ z) eqn:E; cbn [negb] in H.
    - rewrite (fmt_ok n _ G) in H. cbn [bind] in H. apply (IH _ _ _ _ G H).
    - injection H as <-. split; [apply in_zip_iff; exact E|]. exists x. reflexivity.
  Qed.
  Lemma gen_spec : forall n (z : zipf D) fn, good_name n -> gen_unique_filename (n ++ lit ".json") z = Ok fn ->
    sget fn z = None /\ exists y, fn = sanitize_string n ++ y ++ lit ".json".
  Proof.
    intros n z fn G H. unfold gen_unique_filename in H. rewrite (split_name n G) in H. cbn [fst snd] in H. rewrite (fmt_ok n _ G) in H. cbn [bind] in H.
    apply (pick_spec _ _ _ _ _ _ G H).
  Qed.

  Lemma json_end : forall a b, endswith (lit ".json") (a ++ b ++ lit ".json") = true.
  Proof. intros a b. apply endswith_iff. exists (a ++ b). apply app_assoc. Qed.

  (** ** Saving *)
  Variable ext : str -> option content.
  Variable t : obj.
  Hypothesis Coh : one_object_per_id t.
  Hypothesis Names : forall s, within s t -> good_name (o_nm s).
  Hypothesis Files : good_files ext t.

  Definition files_in (z : str -> option (entry D)) (ps : list str) : Prop :=
    Forall (fun p => exists c, ext p = Some c /\ z (basename p) = Some (Data c)) ps.
  Definition json_of (s : obj) (names : list str) : json D :=
    mkJ (o_id s) (o_cls s) (o_nm s) (o_dat s) (map basename (o_files s)) names.
  Definition stored (z : zipf D) (refs : dict str) (s : obj) (fn : str) : Prop :=
    (exists names, sget fn z = Some (Json (json_of s names)) /\
       Forall2 (fun k n => dget (o_id k) refs = Some n) (o_kids s) names) /\
    files_in (fun k => sget k z) (o_files s) /\ exists y, fn = sanitize_string (o_nm s) ++ y ++ lit ".json".

  Definition data_inv (z : zipf D) : Prop :=
    forall k c, sget k z = Some (Data c) -> exists s p, within s t /\ In p (o_files s) /\ basename p = k /\ ext p = Some c.
  Record sinv (z : zipf D) (refs : dict str) : Prop := {
    si_refs : forall i fn, dget i refs = Some fn -> exists s, within s t /\ o_id s = i /\ stored z refs s fn;
    si_data : data_inv z;
    si_json : forall k j, sget k z = Some (Json j) -> endswith (lit ".json") k = true /\ exists s, within s t /\ dget (o_id s) refs = Some k;
    si_nodup : NoDup (map fst z) }.

  Definition zext (z z' : zipf D) : Prop := forall k e, sget k z = Some e -> sget k z' = Some e.
  Definition rext (r r' : dict str) : Prop := forall k e, dget k r = Some e -> dget k r' = Some e.

  Lemma stored_mono : forall z z' r r' s fn, zext z z' -> rext r r' -> stored z r s fn -> stored z' r' s fn.
  Proof.
    intros z z' r r' s fn Z R [[names [J F]] [Fi Y]]. split; [exists names; split; [apply Z; exact J|]|split; [|exact Y]].
    - clear -F R. induction F; constructor; [apply R; assumption|assumption].
    - unfold files_in in *. eapply Forall_impl; [|exact Fi]. intros p [c [E G]]. exists c. split; [exact E|apply Z; exact G].
  Qed.

  Lemma nodup_snoc : forall (z : zipf D) k e, NoDup (map fst z) -> sget k z = None -> NoDup (map fst (z ++ [(k, e)])).
  Proof.
    intros z k e N G. rewrite map_app. cbn. apply nodup_app2; [exact N|constructor; [tauto|constructor]|].
    intros x I [<-|[]]. apply (proj1 (sget_none k z) G I).
  Qed.

  Lemma zext_snoc : forall (z : zipf D) l, zext z (z ++ l).
  Proof. intros z l k e H. rewrite sget_app, H. reflexivity. Qed.

  (** The data files of one object. *)
  Lemma process_spec : forall ps s z z' ds, within s t -> (forall p, In p ps -> In p (o_files s)) ->
    NoDup (map fst z) -> data_inv z -> (forall k j, sget k z = Some (Json j) -> endswith (lit ".json") k = true) ->
    process_files ext ps z = Ok (z', ds) ->
    zext z z' /\ NoDup (map fst z') /\ data_inv z' /\ ds = map basename ps /\ files_in (fun k => sget k z') ps /\
    (forall k j, sget k z' = Some (Json j) -> sget k z = Some (Json j)) /\
    (forall k, endswith (lit ".json") k = true -> sget k z = None -> sget k z' = None).
  Proof.
    induction ps as [|p ps IH]; intros s z z' ds Ws In_ N Di Jn H; cbn [process_files] in H.
    - injection H as <- <-. split; [intros k e X; exact X|]. split; [exact N|]. split; [exact Di|]. split; [reflexivity|].
      split; [constructor|]. split; [intros k j X; exact X|intros k _ X; exact X].
    - unfold process_file in H. destruct (Files s p Ws (In_ p (or_introl eq_refl))) as [[c0 Ec0] [Ne [_ [_ Same]]]].
      assert (Step : exists z1, zext z z1 /\ NoDup (map fst z1) /\ data_inv z1 /\ (exists c, ext p = Some c /\ sget (basename p) z1 = Some (Data c)) /\
                (forall k j, sget k z1 = Some (Json j) -> sget k z = Some (Json j)) /\
                (forall k, endswith (lit ".json") k = true -> sget k z = None -> sget k z1 = None) /\
                (do y <- process_files ext ps z1; Ok (fst y, basename p :: snd y)) = Ok (z', ds)).
      { destruct (in_zip (basename p) z) eqn:Iz; cbn [bind fst snd] in H.
        - exists z. split; [intros k e X; exact X|]. split; [exact N|]. split; [exact Di|]. split.
          + unfold in_zip in Iz. destruct (sget (basename p) z) as [[j|c]|] eqn:G; [|..|discriminate].
            * apply Jn in G. congruence.
            * destruct (Di _ _ G) as [s' [q [Ws' [Iq [Eb Eq]]]]]. exists c. split; [|reflexivity]. rewrite <- (Same s' q Ws' Iq Eb). exact Eq.
          + split; [intros k j X; exact X|]. split; [intros k _ X; exact X|exact H].
        - rewrite Ec0 in H. cbn [bind fst snd] in H. apply in_zip_iff in Iz. exists (z ++ [(basename p, Data c0)]).
          split; [apply zext_snoc|]. split; [apply nodup_snoc; assumption|]. split.
          + intros k c. rewrite sget_app. destruct (sget k z) as [e|] eqn:G.
            * intros X. injection X as ->. apply Di. exact G.
            * cbn. destruct (seqb k (basename p)) eqn:K; [|discriminate]. apply seqb_iff in K. subst k. intros X. injection X as <-.
              exists s, p. repeat split; [exact Ws|apply In_; left; reflexivity|exact Ec0].
          + split; [exists c0; split; [exact Ec0|rewrite sget_app, Iz; cbn; rewrite seqb_refl; reflexivity]|]. split; [|split; [|exact H]].
            * intros k j. rewrite sget_app. destruct (sget k z); [tauto|]. cbn. destruct (seqb k _); discriminate.
            * intros k Ek Gk. rewrite sget_app, Gk. cbn. rewrite seqb_neq; [reflexivity|]. intros ->. congruence. }
      destruct Step as [z1 [Z1 [N1 [D1 [Cp [J1 [F1 H1]]]]]]]. clear H.
      destruct (process_files ext ps z1) as [[z2 ds2]|e] eqn:P; cbn in H1; [|discriminate]. injection H1 as <- <-.
      destruct (IH s z1 z2 ds2 Ws (fun q I => In_ q (or_intror I)) N1 D1 (fun k j X => Jn k j (J1 k j X)) P) as [Z2 [N2 [D2 [E2 [Fi [J2 F2]]]]]].
      split; [intros k e X; apply Z2, Z1, X|]. split; [exact N2|]. split; [exact D2|]. split; [cbn; rewrite E2; reflexivity|]. split.
      + constructor; [|exact Fi]. destruct Cp as [c [Ec Gc]]. exists c. split; [exact Ec|apply Z2; exact Gc].
      + split; [intros k j X; apply J1, J2, X|]. intros k Ek Gk. apply F2; [exact Ek|]. apply F1; assumption.
  Qed.

  (** All the files of an object that is stored are in the archive: processing them again does
      nothing. *)
  Lemma process_again : forall ps (z : zipf D), files_in (fun k => sget k z) ps -> process_files ext ps z = Ok (z, map basename ps).
  Proof.
    induction ps as [|p ps IH]; intros z F; cbn; [reflexivity|]. inversion F as [|? ? [c [_ G]] F2]; subst. unfold process_file, in_zip. rewrite G. cbn. rewrite (IH z F2). reflexivity.
  Qed.

  Lemma names_ok : forall (ks : list obj) (refs refs' : dict str), rext refs refs' -> (forall k, In k ks -> exists n, dget (o_id k) refs = Some n) ->
    Forall2 (fun k n => dget (o_id k) refs' = Some n) ks (map (ref_name refs') ks).
  Proof.
    intros ks refs refs' R H. induction ks as [|k ks IH]; cbn; constructor; [|apply IH; intros x I; apply H; right; exact I].
    destruct (H k (or_introl eq_refl)) as [n G]. unfold ref_name. rewrite (R _ _ G). reflexivity.
  Qed.

  Lemma finish_ok : forall s z refs z' refs', sinv z refs -> within s t ->
    (forall k, In k (o_kids s) -> exists n, dget (o_id k) refs = Some n) ->
    finish ext s (z, refs) = Ok (z', refs') ->
    sinv z' refs' /\ zext z z' /\ rext refs refs' /\ exists fn, dget (o_id s) refs' = Some fn.
  Proof.
    intros s z refs z' refs' I Ws Hk H. unfold finish in H. cbn [fst snd] in H. destruct (dget (o_id s) refs) as [fn|] eqn:G.
    - cbn [bind fst snd] in H. destruct (si_refs _ _ I _ _ G) as [s' [Ws' [Ei St]]].
      rewrite (Coh s' s Ws' Ws Ei) in St. destruct St as [[names [J F]] [Fi _]]. rewrite (process_again _ z Fi) in H. cbn [bind fst snd] in H.
      unfold in_zip in H. rewrite J in H. injection H as <- <-. split; [exact I|]. split; [intros k e X; exact X|]. split; [intros k e X; exact X|]. exists fn. exact G.
    - destruct (gen_unique_filename _ z) as [fn|e] eqn:Gn; cbn [bind] in H; [|discriminate]. cbn [fst snd] in H.
      destruct (gen_spec _ z fn (Names s Ws) Gn) as [Nf [y Ey]]. assert (Ej : endswith (lit ".json") fn = true) by (rewrite Ey; apply json_end).
      destruct (process_files ext (o_files s) z) as [[z2 ds]|e] eqn:P; cbn [bind fst snd] in H; [|discriminate].
      destruct (process_spec (o_files s) s z z2 ds Ws (fun p X => X) (si_nodup _ _ I) (si_data _ _ I) (fun k j X => proj1 (si_json _ _ I k j X)) P) as [Z2 [N2 [D2 [E2 [Fi [J2 F2]]]]]].
      pose proof (F2 fn Ej Nf) as Nf2. apply in_zip_iff in Nf2. rewrite Nf2 in H. apply in_zip_iff in Nf2. injection H as <- <-.
      assert (R1 : rext refs (dset (o_id s) fn refs)).
      { intros k e X. rewrite dget_dset. destruct (k =? o_id s) eqn:E; [apply Z.eqb_eq in E; congruence|exact X]. }
      assert (Z1 : zext z (z2 ++ [(fn, Json (json_of s (map (ref_name (dset (o_id s) fn refs)) (o_kids s))))])) by (intros k e X; apply zext_snoc, Z2, X).
      assert (Gs : dget (o_id s) (dset (o_id s) fn refs) = Some fn) by (rewrite dget_dset, Z.eqb_refl; reflexivity).
      subst ds. fold (json_of s (map (ref_name (dset (o_id s) fn refs)) (o_kids s))).
      split; [|split; [exact Z1|split; [exact R1|exists fn; exact Gs]]]. constructor.
      + intros i f X. rewrite dget_dset in X. destruct (i =? o_id s) eqn:E.
        * apply Z.eqb_eq in E. injection X as <-. exists s. split; [exact Ws|]. split; [symmetry; exact E|]. split.
          -- eexists. split; [rewrite sget_app, Nf2; cbn [sget]; rewrite seqb_refl; reflexivity|]. apply (names_ok _ refs); assumption.
          -- split; [|exists y; exact Ey]. eapply Forall_impl; [|exact Fi]. intros p [c [Ec Gc]]. exists c. split; [exact Ec|]. cbv beta in *. rewrite sget_app, Gc. reflexivity.
        * destruct (si_refs _ _ I _ _ X) as [s' [Ws' [Ei St]]]. exists s'. split; [exact Ws'|]. split; [exact Ei|]. exact (stored_mono _ _ _ _ _ _ Z1 R1 St).
      + intros k c. rewrite sget_app. destruct (sget k z2) as [e|] eqn:Gk; [intros X; injection X as ->; apply D2; exact Gk|].
        cbn. destruct (seqb k fn); discriminate.
      + intros k j. rewrite sget_app. destruct (sget k z2) as [e|] eqn:Gk.
        * intros X. injection X as ->. apply J2 in Gk. destruct (si_json _ _ I k j Gk) as [A [s' [B C]]]. split; [exact A|]. exists s'. split; [exact B|apply R1; exact C].
        * cbn. destruct (seqb k fn) eqn:E; [|discriminate]. apply seqb_iff in E. subst k. intros _. split; [exact Ej|]. exists s. split; [exact Ws|exact Gs].
      + apply nodup_snoc; assumption.
  Qed.

  Lemma save_unfold : forall i c n (d : D) f ks st, save_obj ext (Obj i c n d f ks) st = do st1 <- save_all ext ks st; finish ext (Obj i c n d f ks) st1.
  Proof. reflexivity. Qed.
  Lemma save_all_cons : forall (k : obj) ks st, save_all ext (k :: ks) st = do s <- save_obj ext k st; save_all ext ks s.
  Proof. reflexivity. Qed.

  Lemma save_ok : forall s, within s t -> forall z refs z' refs', sinv z refs -> save_obj ext s (z, refs) = Ok (z', refs') ->
    sinv z' refs' /\ zext z z' /\ rext refs refs' /\ exists fn, dget (o_id s) refs' = Some fn.
  Proof.
    intros s. induction s as [i c n d f ks IH] using gobj_ind2. intros Ws z refs z' refs' I H. rewrite save_unfold in H.
    destruct (save_all ext ks (z, refs)) as [[z1 refs1]|e] eqn:A; cbn [bind] in H; [|discriminate].
    assert (All : sinv z1 refs1 /\ zext z z1 /\ rext refs refs1 /\ forall k, In k ks -> exists fn, dget (o_id k) refs1 = Some fn).
    { assert (Wk : forall k, In k ks -> within k t) by (intros k Ik; apply (within_trans k _ t) with (2 := Ws); apply (w_kid k k (Obj i c n d f ks)); [exact Ik|constructor]).
      clear H Ws. revert z refs I A. induction ks as [|k ks IHk]; intros z refs I A.
      - cbn in A. injection A as <- <-. split; [exact I|]. split; [intros x e X; exact X|]. split; [intros x e X; exact X|]. contradiction.
      - rewrite save_all_cons in A. inversion IH as [|? ? IH1 IH2]; subst.
        destruct (save_obj ext k (z, refs)) as [[z2 refs2]|e] eqn:Sk; cbn [bind] in A; [|discriminate].
        destruct (IH1 (Wk k (or_introl eq_refl)) z refs z2 refs2 I Sk) as [I2 [Z2 [R2 [fn G]]]].
        destruct (IHk IH2 (fun x X => Wk x (or_intror X)) z2 refs2 I2 A) as [I3 [Z3 [R3 H3]]].
        split; [exact I3|]. split; [intros x e X; apply Z3, Z2, X|]. split; [intros x e X; apply R3, R2, X|].
        intros x [<-|X]; [exists fn; apply R3; exact G|apply H3; exact X]. }
    destruct All as [I1 [Z1 [R1 H1]]]. destruct (finish_ok _ z1 refs1 z' refs' I1 Ws H1 H) as [I2 [Z2 [R2 G]]].
    split; [exact I2|]. split; [intros x e X; apply Z2, Z1, X|]. split; [intros x e X; apply R2, R1, X|exact G].
  Qed.

  Lemma sinv_nil : sinv [] [].
  Proof. constructor; try (intros; discriminate). constructor. Qed.

  (** After saving [t] every object of it has a file. *)
  Lemma all_refs : forall z refs, sinv z refs -> forall s, within s t -> forall r, within r s -> (exists fn, dget (o_id s) refs = Some fn) -> exists fn, dget (o_id r) refs = Some fn.
  Proof.
    intros z refs I s Ws r Wr. revert Ws. induction Wr as [|r k s Ik Wr IH]; intros Ws [fn G]; [exists fn; exact G|].
    apply IH.
    - eapply within_trans; [apply (w_kid k k s Ik); constructor|exact Ws].
    - destruct (si_refs _ _ I _ _ G) as [s' [Ws' [Ei St]]]. rewrite (Coh s' s Ws' Ws Ei) in St. destruct St as [[names [_ F]] _].
      clear -F Ik. induction F as [|x n l ls Hx F IH]; [contradiction|]. destruct Ik as [->|Ik]; [exists n; exact Hx|apply IH; exact Ik].
  Qed.

  (** ** Loading *)
  Variable fd : folder D.
  Variable refs : dict str.
  Hypothesis FD : forall s, within s t -> exists fn names, dget (o_id s) refs = Some fn /\ fd fn = Some (Json (json_of s names)) /\
    Forall2 (fun k n => dget (o_id k) refs = Some n) (o_kids s) names /\ files_in fd (o_files s).

  Definition keyed (k : key) (s : obj) : Prop :=
    match k with KId i => s = t /\ i = o_id t | KFile fn => dget (o_id s) refs = Some fn end.
  Definition img (heap : list (newobj D)) (lr : list (key * nat)) (s : obj) (i : nat) : Prop :=
    exists n, nth_error heap i = Some n /\ n_cls n = o_cls s /\ n_nm n = o_nm s /\ n_dat n = o_dat s /\
      Forall2 (fun k x => exists fn, dget (o_id k) refs = Some fn /\ kget (KFile fn) lr = Some x) (o_kids s) (n_kids n) /\
      Forall2 (fun p e => exists c, ext p = Some c /\ e = Some (Data c)) (o_files s) (n_files n).
  Definition linv (st : lstate D) : Prop :=
    (forall k i, kget k (snd st) = Some i -> exists s, within s t /\ keyed k s /\ img (fst st) (snd st) s i) /\
    (forall k k' i, kget k (snd st) = Some i -> kget k' (snd st) = Some i -> k = k').
  Definition lext (st st' : lstate D) : Prop :=
    (exists new, fst st' = fst st ++ new) /\ forall k i, kget k (snd st) = Some i -> kget k (snd st') = Some i.

  Lemma lext_refl : forall st, lext st st.
  Proof. intros st. split; [exists []; symmetry; apply app_nil_r|intros k i X; exact X]. Qed.
  Lemma lext_trans : forall a b c, lext a b -> lext b c -> lext a c.
  Proof. intros a b c [[n E] A] [[m F] B]. split; [exists (n ++ m); rewrite F, E; symmetry; apply app_assoc|intros k i X; apply B, A, X]. Qed.

  Lemma key_eqb_iff : forall a b, key_eqb a b = true <-> a = b.
  Proof.
    intros [i|n] [j|m]; cbn; try (split; discriminate).
    - rewrite Z.eqb_eq. split; congruence.
    - rewrite seqb_iff. split; congruence.
  Qed.
  Lemma kget_app : forall k a b, kget k (a ++ b) = match kget k a with Some i => Some i | None => kget k b end.
  Proof. intros k a b. induction a as [|[x i] a IH]; cbn; [reflexivity|]. destruct (key_eqb k x); [reflexivity|exact IH]. Qed.

  Lemma img_mono : forall st st' s i, lext st st' -> img (fst st) (snd st) s i -> img (fst st') (snd st') s i.
  Proof.
    intros st st' s i [[new E] K] [n [N [A [B [C [Fk Ff]]]]]]. exists n. split.
    - rewrite E, nth_error_app1; [exact N|]. apply nth_error_Some. congruence.
    - repeat split; try assumption. clear -Fk K. induction Fk as [|x y l l' [fn [P Q]] F IH]; constructor; [exists fn; split; [exact P|apply K; exact Q]|exact IH].
  Qed.

  Lemma files_load : forall ps, files_in fd ps -> Forall2 (fun p e => exists c, ext p = Some c /\ e = Some (Data c)) ps (map fd (map basename ps)).
  Proof. intros ps F. induction F as [|p ps [c [E G]] F IH]; constructor; [exists c; split; assumption|exact IH]. Qed.

  Lemma deser_ok : forall s k names idx st, linv st -> within s t -> keyed k s ->
    Forall2 (fun c x => exists fn, dget (o_id c) refs = Some fn /\ kget (KFile fn) (snd st) = Some x) (o_kids s) idx ->
    linv (fst (deser fd k (json_of s names) idx st)) /\ lext st (fst (deser fd k (json_of s names) idx st)) /\
    kget k (snd (fst (deser fd k (json_of s names) idx st))) = Some (snd (deser fd k (json_of s names) idx st)).
  Proof.
    intros s k names idx st [L1 L2] Ws Kd Fk. unfold deser. destruct (kget k (snd st)) as [i|] eqn:G.
    - cbn [fst snd]. split; [split; assumption|]. split; [apply lext_refl|exact G].
    - cbv zeta. cbn [fst snd].
      set (n := mkN _ _ _ _ _). set (st' := (fst st ++ [n], snd st ++ [(k, length (fst st))])).
      change (linv st' /\ lext st st' /\ kget k (snd st') = Some (length (fst st))).
      assert (X : lext st st').
      { split; [exists [n]; reflexivity|]. intros k' i H. unfold st'. cbn [snd]. rewrite kget_app, H. reflexivity. }
      assert (Kn : kget k (snd st') = Some (length (fst st))).
      { unfold st'. cbn [snd]. rewrite kget_app, G. cbn. rewrite (proj2 (key_eqb_iff k k) eq_refl). reflexivity. }
      assert (Lt : forall k' i, kget k' (snd st) = Some i -> (i < length (fst st))%nat).
      { intros k' i H. destruct (L1 k' i H) as [s' [_ [_ [n' [N _]]]]]. apply nth_error_Some. congruence. }
      split; [|split; [exact X|exact Kn]]. split.
      + intros k' i H. unfold st' in H. cbn [snd] in H. rewrite kget_app in H. destruct (kget k' (snd st)) as [i'|] eqn:G'.
        * injection H as <-. destruct (L1 k' i' G') as [s' [Ws' [Kd' Im]]]. exists s'. split; [exact Ws'|]. split; [exact Kd'|]. apply (img_mono st st' s' i' X Im).
        * cbn in H. destruct (key_eqb k' k) eqn:E; [|discriminate]. apply key_eqb_iff in E. subst k'. injection H as <-.
          exists s. split; [exact Ws|]. split; [exact Kd|]. exists n. split; [unfold st'; cbn [fst]; rewrite nth_error_app2, Nat.sub_diag by lia; reflexivity|].
          split; [reflexivity|]. split; [reflexivity|]. split; [reflexivity|]. split.
          -- eapply Forall2_impl; [|exact Fk]. intros a b [fn [P Q]]. exists fn. split; [exact P|apply (proj2 X); exact Q].
          -- cbn. apply files_load. destruct (FD s Ws) as [fn [nm [_ [_ [_ Ff]]]]]. exact Ff.
      + intros a b i Ha Hb. unfold st' in Ha, Hb. cbn [snd] in Ha, Hb. rewrite kget_app in Ha, Hb.
        destruct (kget a (snd st)) as [ia|] eqn:Ga; destruct (kget b (snd st)) as [ib|] eqn:Gb.
        * injection Ha as ->. injection Hb as ->. apply (L2 a b i Ga Gb).
        * injection Ha as ->. cbn in Hb. destruct (key_eqb b k); [|discriminate]. injection Hb as <-. apply Lt in Ga. lia.
        * injection Hb as ->. cbn in Ha. destruct (key_eqb a k); [|discriminate]. injection Ha as <-. apply Lt in Gb. lia.
        * cbn in Ha, Hb. destruct (key_eqb a k) eqn:Ea; [|discriminate]. destruct (key_eqb b k) eqn:Eb; [|discriminate].
          apply key_eqb_iff in Ea. apply key_eqb_iff in Eb. congruence.
  Qed.

  Definition load_all (fuel : nat) : list (str * json D) -> lstate D -> res (lstate D * list nat) :=
    fix go l st := match l with
                   | [] => Ok (st, [])
                   | (n, j') :: r => do a <- load_json fuel fd (KFile n) j' st; do b <- go r (fst a); Ok (fst b, snd a :: snd b)
                   end.
  Lemma load_unfold : forall fuel k j st, load_json (S fuel) fd k j st =
    do js <- mapM (read_json fd) (j_kids j); do x <- load_all fuel (combine (j_kids j) js) st; Ok (deser fd k j (snd x) (fst x)).
  Proof. reflexivity. Qed.

  Lemma load_ok : forall s, within s t -> forall fuel k names st, (depth s <= fuel)%nat -> linv st -> keyed k s ->
    Forall2 (fun c n => dget (o_id c) refs = Some n) (o_kids s) names ->
    exists st' i, load_json fuel fd k (json_of s names) st = Ok (st', i) /\ linv st' /\ lext st st' /\ kget k (snd st') = Some i.
  Proof.
    intros s. induction s as [i0 c0 n0 d0 f0 ks IH] using gobj_ind2. intros Ws fuel k names st Df I Kd Fn.
    destruct fuel as [|fuel]; [cbn in Df; lia|]. rewrite load_unfold. cbn [o_kids] in Fn. cbn [j_kids json_of].
    assert (Wk : forall x, In x ks -> within x t).
    { intros x Ix. apply (within_trans x _ t) with (2 := Ws). apply (w_kid x x (Obj i0 c0 n0 d0 f0 ks)); [exact Ix|constructor]. }
    assert (Dk : forall x, In x ks -> (depth x <= fuel)%nat).
    { intros x Ix. pose proof (depth_kid x (Obj i0 c0 n0 d0 f0 ks) Ix). lia. }
    assert (All : exists js st' idx, mapM (read_json fd) names = Ok js /\ load_all fuel (combine names js) st = Ok (st', idx) /\
              linv st' /\ lext st st' /\
              Forall2 (fun c x => exists fn, dget (o_id c) refs = Some fn /\ kget (KFile fn) (snd st') = Some x) ks idx).
    { clear Df Ws Kd. revert names Fn st I. induction ks as [|x ks IHk]; intros names Fn st I; inversion Fn as [|? nm ? names' Hx Fn']; subst.
      - exists [], st, []. split; [reflexivity|]. split; [reflexivity|]. split; [exact I|]. split; [apply lext_refl|constructor].
      - inversion IH as [|? ? IH1 IH2]; subst. destruct (FD x (Wk x (or_introl eq_refl))) as [fn [nx [Gx [Jx [Fx _]]]]].
        rewrite Hx in Gx. injection Gx as <-.
        destruct (IH1 (Wk x (or_introl eq_refl)) fuel (KFile nm) nx st (Dk x (or_introl eq_refl)) I Hx Fx) as [st1 [i1 [L1 [I1 [E1 K1]]]]].
        destruct (IHk IH2 (fun y Y => Wk y (or_intror Y)) (fun y Y => Dk y (or_intror Y)) names' Fn' st1 I1) as [js [st2 [idx [M2 [L2 [I2 [E2 F2]]]]]]].
        exists (json_of x nx :: js), st2, (i1 :: idx). split; [|split; [|split; [exact I2|split; [eapply lext_trans; eassumption|]]]].
        + cbn [mapM]. unfold read_json at 1. rewrite Jx. cbn [bind]. rewrite M2. reflexivity.
        + cbn [combine load_all]. rewrite L1. cbn [bind fst snd]. fold (load_all fuel). rewrite L2. reflexivity.
        + constructor; [|exact F2]. exists nm. split; [exact Hx|]. apply E2. exact K1. }
    destruct All as [js [st' [idx [M [L [I' [E F]]]]]]]. rewrite M. cbn [bind]. rewrite L. cbn [bind fst snd].
    fold (json_of (Obj i0 c0 n0 d0 f0 ks) names).
    destruct (deser_ok (Obj i0 c0 n0 d0 f0 ks) k names idx st' I' Ws Kd F) as [A [B C]].
    exists (fst (deser fd k (json_of (Obj i0 c0 n0 d0 f0 ks) names) idx st')), (snd (deser fd k (json_of (Obj i0 c0 n0 d0 f0 ks) names) idx st')).
    split; [rewrite <- surjective_pairing; reflexivity|]. split; [exact A|]. split; [eapply lext_trans; eassumption|exact C].
  Qed.

  Lemma linv_nil : linv ([], []).
  Proof. split; cbn; intros; discriminate. Qed.

  Hypothesis RefInj : forall i j fn, dget i refs = Some fn -> dget j refs = Some fn -> i = j.

  (** From the invariant to the copy. *)
  Lemma copy_ok : forall st root, linv st -> kget (KId (o_id t)) (snd st) = Some root -> copy_of ext t (fst st) root.
  Proof.
    intros st root [L1 L2] R.
    set (m := fun i => if i =? o_id t then root else match dget i refs with Some fn => match kget (KFile fn) (snd st) with Some n => n | None => 0%nat end | None => 0%nat end).
    assert (Mt : m (o_id t) = root) by (unfold m; rewrite Z.eqb_refl; reflexivity).
    assert (Im : forall s, within s t -> img (fst st) (snd st) s (m (o_id s)) /\
                (s = t \/ exists fn, dget (o_id s) refs = Some fn /\ kget (KFile fn) (snd st) = Some (m (o_id s)))).
    { assert (Proper : forall k s, In k (o_kids s) -> within s t -> (o_id k =? o_id t) = false /\ within k t).
      { intros k s Ik Ws. assert (Wk : within k t) by (apply (within_trans k s t); [apply (w_kid k k s Ik); constructor|exact Ws]). split; [|exact Wk].
        apply Z.eqb_neq. intros E. apply (Coh k t Wk (w_self t)) in E. subst k. pose proof (size_kid t s Ik). destruct (within_size s t Ws) as [->|]; lia. }
      assert (Root : img (fst st) (snd st) t root).
      { destruct (L1 _ _ R) as [s [_ [[-> _] H]]]. exact H. }
      assert (Down : forall s, within s t -> forall r, within r s -> (img (fst st) (snd st) s (m (o_id s)) /\ (s = t \/ exists fn, dget (o_id s) refs = Some fn /\ kget (KFile fn) (snd st) = Some (m (o_id s)))) ->
               img (fst st) (snd st) r (m (o_id r)) /\ (r = t \/ exists fn, dget (o_id r) refs = Some fn /\ kget (KFile fn) (snd st) = Some (m (o_id r)))).
      { intros s Ws r Wr. induction Wr as [|r k s Ik Wr IHw]; [tauto|]. intros [Is _].
        destruct (Proper k s Ik Ws) as [Ek Wk]. apply IHw; [exact Wk|].
        destruct Is as [n [_ [_ [_ [_ [Fk _]]]]]].
        assert (Kx : exists fn x, dget (o_id k) refs = Some fn /\ kget (KFile fn) (snd st) = Some x).
        { clear -Fk Ik. induction Fk as [|a b l l' [fn [P Q]] F IH]; [contradiction|]. destruct Ik as [->|Ik]; [exists fn, b; split; assumption|apply IH; exact Ik]. }
        destruct Kx as [fn [x [Gf Gx]]]. assert (Mx : m (o_id k) = x) by (unfold m; rewrite Ek, Gf, Gx; reflexivity).
        rewrite Mx. split; [|right; exists fn; split; assumption].
        destruct (L1 _ _ Gx) as [s' [Ws' [Kd Hs]]]. cbn in Kd. rewrite (Coh s' k Ws' Wk (RefInj _ _ _ Kd Gf)) in Hs. exact Hs. }
      intros s Ws. apply (Down t (w_self t) s Ws). rewrite Mt. split; [exact Root|left; reflexivity]. }
    exists m. split; [exact Mt|]. split.
    - intros a b Wa Wb E. destruct (Im a Wa) as [_ [->|[fa [Ga Ka]]]]; destruct (Im b Wb) as [_ [->|[fb [Gb Kb]]]].
      + reflexivity.
      + rewrite <- E, Mt in Kb. specialize (L2 _ _ _ R Kb). discriminate.
      + rewrite E, Mt in Ka. specialize (L2 _ _ _ R Ka). discriminate.
      + rewrite E in Ka. specialize (L2 _ _ _ Ka Kb). injection L2 as ->. apply Coh; [exact Wa|exact Wb|]. apply (RefInj _ _ _ Ga Gb).
    - intros s Ws. destruct (Im s Ws) as [[n [N [A [B [C [Fk Ff]]]]]] _]. exists n. split; [exact N|]. split; [exact A|]. split; [exact B|]. split; [exact C|]. split; [|exact Ff].
      assert (Sub : forall k, In k (o_kids s) -> (o_id k =? o_id t) = false).
      { intros k Ik. assert (Wk : within k t) by (apply (within_trans k s t); [apply (w_kid k k s Ik); constructor|exact Ws]).
        apply Z.eqb_neq. intros E. apply (Coh k t Wk (w_self t)) in E. subst k. pose proof (size_kid t s Ik). destruct (within_size s t Ws) as [->|]; lia. }
      clear -Fk Sub. induction Fk as [|x y l l' [fn [P Q]] F IH]; cbn; [reflexivity|]. f_equal; [|apply IH; intros z Iz; apply Sub; right; exact Iz].
      unfold m. rewrite (Sub x (or_introl eq_refl)), P, Q. reflexivity.
  Qed.
End S.
