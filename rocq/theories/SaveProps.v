(** * C95: what is saved comes back *)
From Coq Require Import String.
From Verif Require Import Py PyLemmas StrModel StrLemmas SaveModel SaveSpec SaveProofs.
Open Scope Z_scope.

Section P.
  Context {D : Type}.

  Lemma sget_rev : forall k (z : zipf D), NoDup (map fst z) -> sget k (rev z) = sget k z.
  Proof.
    intros k z N. destruct (sget k z) as [e|] eqn:G.
    - apply In_sget; [rewrite map_rev; apply NoDup_rev; exact N|]. apply -> in_rev. apply sget_In. exact G.
    - apply sget_none. rewrite map_rev, <- in_rev. apply sget_none. exact G.
  Qed.
  Lemma extracted_keep : forall k (z : zipf D) v pv e, NoDup (map fst z) -> sget k z = Some e ->
    k <> lit "version.txt" -> k <> lit "pygnome_version.txt" ->
    extracted (z ++ [(lit "version.txt", v); (lit "pygnome_version.txt", pv)]) k = Some e.
  Proof.
    intros k z v pv e N G N1 N2. unfold extracted. rewrite rev_app_distr. cbn [rev app sget]. rewrite (seqb_neq _ _ N2), (seqb_neq _ _ N1), (sget_rev k z N). exact G.
  Qed.
  Lemma json_not_version : forall k, endswith (lit ".json") k = true -> k <> lit "version.txt" /\ k <> lit "pygnome_version.txt".
  Proof. intros k H. split; intros ->; discriminate. Qed.

  Lemma find_root : forall (fd : folder D) j cls ls fn, In fn ls -> endswith (lit ".json") fn = true -> startswith [dot] fn = false ->
    fd fn = Some (Json j) -> j_cls j = cls ->
    (forall n, In n ls -> endswith (lit ".json") n = true -> exists j', fd n = Some (Json j') /\ (j_cls j' = cls -> j' = j)) ->
    find_cls fd cls ls = Ok j.
  Proof.
    intros fd j cls ls fn. induction ls as [|n ls IH]; intros I E S G C H; [contradiction|]. cbn [find_cls].
    assert (Skip : forall r, n <> fn -> find_cls fd cls ls = r -> In fn ls -> r = Ok j).
    { intros r _ <- I'. apply IH; try assumption. intros m Im. apply H. right. exact Im. }
    destruct (str_eq_dec n fn) as [->|Nf].
    - rewrite E, S. cbn [andb negb]. unfold read_json. rewrite G. cbn [bind]. rewrite (proj2 (Z.eqb_eq _ _) C). reflexivity.
    - destruct I as [->|I]; [contradiction|]. destruct (endswith (lit ".json") n) eqn:En; cbn [andb].
      + destruct (startswith [dot] n); cbn [negb]; [apply (Skip _ Nf eq_refl I)|].
        destruct (H n (or_introl eq_refl) En) as [j' [G' C']]. unfold read_json. rewrite G'. cbn [bind].
        destruct (j_cls j' =? cls) eqn:Q; [apply Z.eqb_eq in Q; rewrite (C' Q); reflexivity|apply (Skip _ Nf eq_refl I)].
      + apply (Skip _ Nf eq_refl I).
  Qed.

  (** Saving an object and loading the saved file gives a copy of the whole graph of objects: the
      same classes, names, attributes and data, and the same sharing, whatever the graph and
      whatever names the objects have (also equal ones), under the conditions of SaveSpec.v.
      [ls] is the listing of the folder, in any order. *)
  Theorem C95_roundtrip_partial : forall (ext : str -> option content) (t : gobj D) version pyver z ls,
    one_object_per_id t -> (forall s, within s t -> good_name (o_nm s)) -> good_files ext t ->
    (forall s, within s t -> o_cls s = o_cls t -> s = t) -> ~ (exists r, o_nm t = dot :: r) ->
    save ext t version pyver = Ok z -> (forall n, In n ls <-> In n (map fst z)) ->
    exists N, forall fuel, (N <= fuel)%nat ->
      exists heap refs root, load fuel (extracted z) (o_cls t) ls = Ok ((heap, refs), root) /\ copy_of ext t heap root.
  Proof.
    intros ext t v pv z ls Coh Nm Fi One Nd Sv Ls. unfold save in Sv.
    destruct (save_obj ext t ([], [])) as [[z0 refs]|e] eqn:So; cbn [bind] in Sv; [|discriminate]. injection Sv as <-.
    destruct (save_ok ext t Coh Nm Fi t (w_self t) [] [] z0 refs (sinv_nil ext t) So) as [I [_ [_ [ft Gt]]]].
    set (fd := extracted (z0 ++ [(lit "version.txt", Data v); (lit "pygnome_version.txt", Data pv)])).
    assert (Keep : forall k e, sget k z0 = Some e -> fd k = Some e).
    { intros k e G. assert (NN : k <> lit "version.txt" /\ k <> lit "pygnome_version.txt").
      { destruct e as [j|c]; [apply json_not_version, (proj1 (si_json _ _ _ _ I k j G))|].
        destruct (si_data _ _ _ _ I k c G) as [s [p [Ws [Ip [Eb _]]]]]. destruct (Fi s p Ws Ip) as [_ [_ [A [B _]]]]. rewrite <- Eb. split; assumption. }
      apply extracted_keep; [apply (si_nodup _ _ _ _ I)|exact G|apply NN|apply NN]. }
    assert (FD : forall s, within s t -> exists fn names, dget (o_id s) refs = Some fn /\ fd fn = Some (Json (json_of s names)) /\
              Forall2 (fun k n => dget (o_id k) refs = Some n) (o_kids s) names /\ files_in ext fd (o_files s)).
    { intros s Ws. destruct (all_refs ext t Coh z0 refs I t (w_self t) s Ws (ex_intro _ ft Gt)) as [fn G].
      destruct (si_refs _ _ _ _ I _ _ G) as [s' [Ws' [Ei St]]]. rewrite (Coh s' s Ws' Ws Ei) in St. destruct St as [[names [J F]] [Ff _]].
      exists fn, names. split; [exact G|]. split; [apply Keep; exact J|]. split; [exact F|].
      unfold files_in in *. eapply Forall_impl; [|exact Ff]. intros p [c [Ec Gc]]. exists c. split; [exact Ec|apply Keep; exact Gc]. }
    assert (Inj : forall i j fn, dget i refs = Some fn -> dget j refs = Some fn -> i = j).
    { intros i j fn Gi Gj. destruct (si_refs _ _ _ _ I _ _ Gi) as [s [_ [Ei [[n1 [J1 _]] _]]]].
      destruct (si_refs _ _ _ _ I _ _ Gj) as [s' [_ [Ej [[n2 [J2 _]] _]]]]. rewrite J1 in J2. injection J2 as E _. congruence. }
    destruct (si_refs _ _ _ _ I _ _ Gt) as [t' [Wt' [Et [[nt [Jt Ft]] [_ [y Ey]]]]]].
    pose proof (Coh t' t Wt' (w_self t) Et) as ->. clear Et Wt'.
    assert (Root : find_cls fd (o_cls t) ls = Ok (json_of t nt)).
    { apply (find_root fd (json_of t nt) (o_cls t) ls ft).
      - apply Ls. rewrite map_app. apply in_or_app. left. apply sget_In in Jt. apply in_map_iff. eexists. split; [|exact Jt]. reflexivity.
      - rewrite Ey. apply json_end.
      - destruct (startswith [dot] ft) eqn:S; [|reflexivity]. exfalso. apply startswith_iff in S. destruct S as [r Er].
        destruct (Nm t (w_self t)) as [[c [Ic _]] _]. destruct (o_nm t) as [|x n] eqn:On; [contradiction|]. rewrite Er in Ey. cbn in Ey. injection Ey as Ed _.
        apply Nd. exists n. f_equal. destruct (existsb (Z.eqb x) unsafe) eqn:U; unfold zmem in Ed; cbn in Ed, U; rewrite U in Ed; [discriminate|symmetry; exact Ed].
      - apply Keep. exact Jt.
      - reflexivity.
      - intros n In_ En. apply Ls in In_. rewrite map_app in In_. apply in_app_or in In_. destruct In_ as [In_|In_].
        + destruct (sget n z0) as [e|] eqn:G; [|exfalso; apply (proj1 (sget_none n z0) G In_)]. destruct e as [j|c].
          * exists j. split; [apply Keep; exact G|]. intros Cj. destruct (proj2 (si_json _ _ _ _ I n j G)) as [s [Ws Gs]].
            destruct (si_refs _ _ _ _ I _ _ Gs) as [s' [Ws' [Ei [[ns [Js _]] _]]]]. rewrite (Coh s' s Ws' Ws Ei) in Js. rewrite G in Js. injection Js as ->.
            cbn in Cj. rewrite (One s Ws Cj) in *. rewrite Gt in Gs. injection Gs as ->. rewrite Jt in G. injection G as ->. reflexivity.
          * destruct (si_data _ _ _ _ I n c G) as [s [p [Ws [Ip [Eb _]]]]]. destruct (Fi s p Ws Ip) as [_ [Ne _]]. congruence.
        + exfalso. cbn in In_. destruct In_ as [<-|[<-|[]]]; discriminate. }
    exists (depth t). intros fuel Df. unfold load. rewrite Root. cbn [bind].
    destruct (load_ok ext t Nm fd refs FD t (w_self t) fuel (KId (j_id (json_of t nt))) nt ([], []) Df (linv_nil ext t refs) (conj eq_refl eq_refl) Ft) as [[heap lr] [root [L [Li [_ K]]]]].
    exists heap, lr, root. split; [exact L|]. apply (copy_ok ext t Coh Nm fd refs FD Inj (heap, lr) root Li K).
  Qed.

  (** ** When saving succeeds *)
  Fixpoint count (t : gobj D) : nat := match t with Obj _ _ _ _ f ks => S (length f + list_sum (map count ks)) end.

  Definition cand (stem ext : str) (j : nat) : str := stem ++ (lit " (" ++ str_nat j ++ lit ")") ++ ext.
  Lemma cand_inj : forall stem ext i j, cand stem ext i = cand stem ext j -> i = j.
  Proof.
    intros stem ext i j H. unfold cand in H. apply app_inv_head in H. apply app_inv_tail in H. apply app_inv_head in H. apply app_inv_tail in H. apply str_nat_inj. exact H.
  Qed.
  Lemma pick_fail : forall n m i new (z : zipf D) e, good_name n -> pick m i (sanitize_string n) (lit ".json") new z = Raise e ->
    m = 0%nat \/ (In new (map fst z) /\ forall j, (i <= j < i + (m - 1))%nat -> In (cand (sanitize_string n) (lit ".json") j) (map fst z)).
  Proof.
    intros n m. induction m as [|m IH]; intros i new z e G H; [left; reflexivity|]. right. cbn [pick] in H.
    destruct (in_zip new z) eqn:Z; cbn [negb] in H; [|discriminate]. rewrite (fmt_ok n _ G) in H. cbn [bind] in H. split.
    - unfold in_zip in Z. destruct (sget new z) as [x|] eqn:S; [|discriminate]. apply sget_In in S. apply in_map_iff. exists (new, x). split; [reflexivity|exact S].
    - destruct (IH (S i) _ z e G H) as [->|[A B]]; [intros j Hj; lia|]. intros j Hj. destruct (Nat.eq_dec j i) as [->|Nj]; [exact A|]. apply B. lia.
  Qed.
  Lemma gen_total : forall n (z : zipf D), good_name n -> (length z < rounds)%nat -> exists fn, gen_unique_filename (n ++ lit ".json") z = Ok fn.
  Proof.
    intros n z G L. unfold gen_unique_filename. rewrite (split_name n G). cbn [fst snd]. rewrite (fmt_ok n _ G). cbn [bind].
    destruct (pick rounds 0 (sanitize_string n) (lit ".json") (sanitize_string n ++ [] ++ lit ".json") z) as [fn|e] eqn:P; [exists fn; reflexivity|]. exfalso.
    destruct (pick_fail n rounds 0 _ z e G P) as [H|[A B]]; [discriminate|].
    set (c := cand (sanitize_string n) (lit ".json")) in *.
    assert (Nd : NoDup ((sanitize_string n ++ [] ++ lit ".json") :: map c (seq 0 (rounds - 1)))).
    { constructor.
      - intros I. apply in_map_iff in I. destruct I as [j [E _]]. apply (f_equal (@length Z)) in E. unfold c, cand in E. rewrite !app_length in E.
        change (length (lit " (")) with 2%nat in E. cbn [length] in E. lia.
      - apply FinFun.Injective_map_NoDup; [intros i j E; apply (cand_inj _ _ _ _ E)|apply seq_NoDup]. }
    pose proof (NoDup_incl_length (l' := map fst z) Nd) as Le. rewrite map_length in Le. cbn [length] in Le. rewrite map_length, seq_length in Le.
    assert (S (rounds - 1) <= length z)%nat; [|unfold rounds in *; lia]. apply Le.
    intros x [<-|I]; [exact A|]. apply in_map_iff in I. destruct I as [j [<- Ij]]. apply in_seq in Ij. apply B. lia.
  Qed.

  Lemma process_total : forall ext ps (z : zipf D), (forall p, In p ps -> exists c, ext p = Some c) ->
    exists z' ds, process_files ext ps z = Ok (z', ds) /\ (length z' <= length z + length ps)%nat.
  Proof.
    intros ext ps. induction ps as [|p ps IH]; intros z H; [exists z, []; split; [reflexivity|cbn; lia]|]. cbn [process_files].
    assert (S : exists z1 d, process_file ext p z = Ok (z1, d) /\ (length z1 <= S (length z))%nat).
    { unfold process_file. destruct (in_zip (basename p) z); [exists z, (basename p); split; [reflexivity|lia]|].
      destruct (H p (or_introl eq_refl)) as [c ->]. eexists. eexists. split; [reflexivity|]. rewrite app_length. cbn. lia. }
    destruct S as [z1 [d [-> L1]]]. cbn [bind fst snd]. destruct (IH z1 (fun q I => H q (or_intror I))) as [z2 [ds [-> L2]]]. cbn.
    exists z2, (d :: ds). split; [reflexivity|]. lia.
  Qed.

  (** Saving succeeds when the names are good, the data files exist, and there are at most 255
      objects and data files (a shared object counted every time). *)
  Theorem C95_saves_partial : forall (ext : str -> option content) (t : gobj D) version pyver,
    (forall s, within s t -> good_name (o_nm s)) -> (forall s p, within s t -> In p (o_files s) -> exists c, ext p = Some c) ->
    (count t <= 255)%nat -> exists z, save ext t version pyver = Ok z.
  Proof.
    intros ext t v pv Nm Fi C.
    assert (G : forall s, within s t -> forall z refs, (length z + count s <= rounds)%nat ->
      exists z' refs', save_obj ext s (z, refs) = Ok (z', refs') /\ (length z' <= length z + count s)%nat).
    { intros s. induction s as [i c n d f ks IH] using gobj_ind2. intros Ws z refs L. rewrite save_unfold.
      assert (All : exists z1 refs1, save_all ext ks (z, refs) = Ok (z1, refs1) /\ (length z1 <= length z + list_sum (map count ks))%nat).
      { assert (Wk : forall x, In x ks -> within x t).
        { intros x Ix. apply (within_trans x _ t) with (2 := Ws). apply (w_kid x x (Obj i c n d f ks)); [exact Ix|constructor]. }
        assert (L' : (length z + list_sum (map count ks) <= rounds)%nat).
        { replace (count (Obj i c n d f ks)) with (S (length f + list_sum (map count ks))) in L by reflexivity. lia. }
        clear Ws L. revert z refs L'. induction ks as [|k ks IHk]; intros z refs L'; [exists z, refs; split; [reflexivity|lia]|].
        inversion IH as [|? ? IH1 IH2]; subst. rewrite save_all_cons.
        change (list_sum (map count (k :: ks))) with (count k + list_sum (map count ks))%nat in *.
        destruct (IH1 (Wk k (or_introl eq_refl)) z refs ltac:(lia)) as [z1 [r1 [-> L1]]]. cbn [bind].
        destruct (IHk IH2 (fun x I => Wk x (or_intror I)) z1 r1 ltac:(lia)) as [z2 [r2 [E2 L2]]]. exists z2, r2. split; [exact E2|lia]. }
      replace (count (Obj i c n d f ks)) with (S (length f + list_sum (map count ks))) in * by reflexivity.
      destruct All as [z1 [r1 [-> L1]]]. cbn [bind]. unfold finish. cbn [fst snd o_id o_nm o_files].
      destruct (process_total ext f z1 (fun p I => Fi _ p Ws I)) as [z2 [ds [P L2]]].
      assert (Fn : exists fn r2, match dget i r1 with
            | Some fn => Ok (fn, r1)
            | None => do fn <- gen_unique_filename (n ++ lit ".json") z1; Ok (fn, dset i fn r1)
            end = Ok (fn, r2)).
      { destruct (dget i r1) as [fn|]; [exists fn, r1; reflexivity|]. destruct (gen_total n z1 (Nm _ Ws) ltac:(lia)) as [fn ->]. exists fn, (dset i fn r1). reflexivity. }
      destruct Fn as [fn [r2 ->]]. cbn [bind fst snd]. rewrite P. cbn [bind fst snd]. destruct (in_zip fn z2).
      - exists z2, r2. split; [reflexivity|lia].
      - eexists. eexists. split; [reflexivity|]. rewrite app_length. cbn [length]. lia. }
    destruct (G t (w_self t) [] [] C) as [z' [r' [E _]]]. unfold save. change (save_obj ext t ([], []) = Ok (z', r')) in E. match goal with |- exists _, bind ?a _ = _ => replace a with (Ok (z', r')) by (symmetry; exact E) end. cbn. eexists. reflexivity.
  Qed.
  (** A save that succeeds has stored every data file of every object: a missing data file is an
      error, not a loss that is noticed when loading. *)
  Definition grows (z z' : zipf D) : Prop := forall k, in_zip k z = true -> in_zip k z' = true.
  Lemma in_zip_app : forall k z (x : zipf D), in_zip k z = true -> in_zip k (z ++ x) = true.
  Proof.
    intros k z x. unfold in_zip. induction z as [|[a e] z IH]; cbn [sget app]; [discriminate|]. destruct (seqb k a); [reflexivity|exact IH].
  Qed.
  Lemma in_zip_last : forall k z (e : entry D) x, in_zip k (z ++ (k, e) :: x) = true.
  Proof. intros k z e x. unfold in_zip. induction z as [|[a b] z IH]; cbn [sget app]; [rewrite seqb_refl; reflexivity|]. destruct (seqb k a); [reflexivity|exact IH]. Qed.
  Lemma process_stores : forall ext ps (z : zipf D) x, process_files ext ps z = Ok x -> grows z (fst x) /\ forall p, In p ps -> in_zip (basename p) (fst x) = true.
  Proof.
    intros ext ps. induction ps as [|p ps IH]; intros z x H; cbn [process_files] in H; [injection H as <-; split; [intros k K; exact K|intros p []]|].
    destruct (process_file ext p z) as [[z1 d]|e] eqn:P; cbn [bind fst snd] in H; [|discriminate].
    destruct (process_files ext ps z1) as [[z2 ds]|e] eqn:Q; cbn [bind fst snd] in H; [|discriminate]. injection H as <-. cbn [fst].
    destruct (IH z1 (z2, ds) Q) as [G A]. cbn [fst] in *.
    assert (B : grows z z1 /\ in_zip (basename p) z1 = true).
    { unfold process_file in P. destruct (in_zip (basename p) z) eqn:Z; [injection P as <- _; split; [intros k K; exact K|exact Z]|].
      destruct (ext p) as [c|]; [|discriminate]. injection P as <- _. split; [intros k K; apply in_zip_app; exact K|apply in_zip_last]. }
    destruct B as [B1 B2]. split; [intros k K; apply G, B1, K|]. intros q [<-|I]; [apply G, B2|apply A, I].
  Qed.
  Theorem C95_data_stored : forall (ext : str -> option content) (t : gobj D) version pyver z s p,
    save ext t version pyver = Ok z -> within s t -> In p (o_files s) -> In (basename p) (map fst z).
  Proof.
    intros ext t v pv z s p H W I.
    assert (G : forall s, forall st st', save_obj ext s st = Ok st' -> grows (fst st) (fst st') /\
       forall x p, within x s -> In p (o_files x) -> in_zip (basename p) (fst st') = true).
    { clear. intros s. induction s as [i c n d f ks IH] using gobj_ind2. intros st st' H. rewrite save_unfold in H.
      destruct (save_all ext ks st) as [st1|e] eqn:A; cbn [bind] in H; [|discriminate].
      assert (Ka : grows (fst st) (fst st1) /\ forall k x p, In k ks -> within x k -> In p (o_files x) -> in_zip (basename p) (fst st1) = true).
      { clear H. revert st A. induction ks as [|k ks IHk]; intros st A; [injection A as <-; split; [intros k K; exact K|intros k x p []]|].
        inversion IH as [|? ? IH1 IH2]; subst. rewrite save_all_cons in A. destruct (save_obj ext k st) as [s1|e] eqn:S1; cbn [bind] in A; [|discriminate].
        destruct (IH1 _ _ S1) as [G1 F1]. destruct (IHk IH2 _ A) as [G2 F2].
        split; [intros q K; apply G2, G1, K|]. intros q x p [<-|I] W F; [apply G2, (F1 x p W F)|apply (F2 q x p I W F)]. }
      destruct Ka as [Ga Fa]. unfold finish in H. cbn [o_id o_nm o_files] in H.
      match type of H with bind ?a _ = _ => destruct a as [[fn r]|e]; cbn [bind fst snd] in H; [|discriminate] end.
      destruct (process_files ext f (fst st1)) as [[z2 ds]|e] eqn:P; cbn [bind fst snd] in H; [|discriminate].
      destruct (process_stores ext f (fst st1) (z2, ds) P) as [Gp Fp]. cbn [fst] in *.
      assert (Fin : grows z2 (fst st')).
      { destruct (in_zip fn z2); injection H as <-; cbn [fst]; [intros k K; exact K|intros k K; apply in_zip_app; exact K]. }
      split; [intros k K; apply Fin, Gp, Ga, K|]. intros x p W Ip. inversion W as [|? k ? Ik Wk]; subst; [apply Fin, Fp, Ip|apply Fin, Gp, (Fa k x p Ik Wk Ip)]. }
    unfold save in H. destruct (save_obj ext t ([], [])) as [st|e] eqn:S; cbn [bind] in H; [|discriminate]. injection H as <-.
    destruct (G t _ _ S) as [_ F]. specialize (F s p W I). rewrite map_app. apply in_or_app. left.
    unfold in_zip in F. destruct (sget (basename p) (fst st)) as [e|] eqn:E; [|discriminate]. apply sget_In in E. apply in_map_iff. eexists. split; [|exact E]. reflexivity.
  Qed.
End P.
Print Assumptions C95_roundtrip_partial.
Print Assumptions C95_saves_partial.
Print Assumptions C95_data_stored.

(** ** A concrete case: two movers with the same name share a wind with a data file. *)
Definition wind1 : gobj Z := Obj 1 10 (lit "wind/1") 7 [lit "/data/w.nc"] [].
Definition ex_model : gobj Z := Obj 4 12 (lit "Model") 0 [] [Obj 2 11 (lit "mover") 5 [] [wind1]; Obj 3 11 (lit "mover") 6 [] [wind1]].
Definition disk (p : str) : option content :=
  if seqb p (lit "/data/w.nc") then Some (lit "speed") else if seqb p (lit "/other/w.nc") then Some (lit "other") else None.
Lemma within_ex : forall s, within s ex_model -> s = ex_model \/ s = Obj 2 11 (lit "mover") 5 [] [wind1] \/ s = Obj 3 11 (lit "mover") 6 [] [wind1] \/ s = wind1.
Proof.
  intros s H. inversion H as [|? k ? I W]; subst; [left; reflexivity|]. cbn in I.
  destruct I as [<-|[<-|[]]]; inversion W as [|? k2 ? I2 W2]; subst; try tauto; cbn in I2; destruct I2 as [<-|[]]; inversion W2 as [|? k3 ? I3 W3]; subst; try tauto; contradiction.
Qed.
Ltac good_nm := split; [eexists; split; [left; reflexivity|discriminate]|split; vm_compute; intuition discriminate].
Example C95_meets : exists z heap refs,
  one_object_per_id ex_model /\ (forall s, within s ex_model -> good_name (o_nm s)) /\ good_files disk ex_model /\
  (forall s, within s ex_model -> o_cls s = o_cls ex_model -> s = ex_model) /\ ~ (exists r, o_nm ex_model = dot :: r) /\
  save disk ex_model (lit "5") (lit "1.1") = Ok z /\ (count ex_model <= 255)%nat /\
  map fst z = [lit "w.nc"; lit "wind_1.json"; lit "mover.json"; lit "mover (0).json"; lit "Model.json"; lit "version.txt"; lit "pygnome_version.txt"] /\
  load 9 (extracted z) 12 (map fst z) = Ok ((heap, refs), 3%nat) /\
  map n_kids heap = [[]; [0%nat]; [0%nat]; [1%nat; 2%nat]] /\ map n_nm heap = [lit "wind/1"; lit "mover"; lit "mover"; lit "Model"].
Proof.
  let r := eval vm_compute in (save disk ex_model (lit "5") (lit "1.1")) in match r with Ok ?z =>
    let l := eval vm_compute in (load 9 (extracted z) 12 (map fst z)) in match l with Ok ((?h, ?k), _) => exists z, h, k end end.
  split. { intros a b Wa Wb E. apply within_ex in Wa. apply within_ex in Wb. destruct Wa as [->|[->|[->| ->]]]; destruct Wb as [->|[->|[->| ->]]]; try reflexivity; discriminate. }
  split. { intros s W. apply within_ex in W. destruct W as [->|[->|[->| ->]]]; good_nm. }
  split. { intros s p W I. apply within_ex in W. destruct W as [->|[->|[->| ->]]]; cbn in I; try contradiction. destruct I as [<-|[]].
    split; [exists (lit "speed"); vm_compute; reflexivity|]. split; [vm_compute; reflexivity|]. split; [vm_compute; discriminate|]. split; [vm_compute; discriminate|].
    intros s' q W' I' _. apply within_ex in W'. destruct W' as [->|[->|[->| ->]]]; cbn in I'; try contradiction. destruct I' as [<-|[]]. reflexivity. }
  split. { intros s W E. apply within_ex in W. destruct W as [->|[->|[->| ->]]]; try reflexivity; discriminate. }
  split. { intros [r E]. vm_compute in E. discriminate. }
  split; [vm_compute; reflexivity|]. split; [cbn; lia|]. split; [vm_compute; reflexivity|]. split; [vm_compute; reflexivity|]. split; vm_compute; reflexivity.
Qed.

(** ** The conditions are needed *)

(** Two data files with the same last part: the second object comes back with the first one's
    data, without an error. *)
Definition two_files : gobj Z := Obj 4 12 (lit "Model") 0 [] [Obj 1 10 (lit "a") 7 [lit "/data/w.nc"] []; Obj 2 10 (lit "b") 8 [lit "/other/w.nc"] []].
Theorem C95_data_file_refuted : exists (t : gobj Z) z heap refs root, one_object_per_id t /\ (forall s, within s t -> good_name (o_nm s)) /\
  save disk t (lit "5") (lit "1.1") = Ok z /\ load 9 (extracted z) (o_cls t) (map fst z) = Ok ((heap, refs), root) /\ ~ copy_of disk t heap root.
Proof.
  assert (Wi : forall s, within s two_files -> s = two_files \/ s = Obj 1 10 (lit "a") 7 [lit "/data/w.nc"] [] \/ s = Obj 2 10 (lit "b") 8 [lit "/other/w.nc"] []).
  { intros s H. inversion H as [|? k ? I W]; subst; [left; reflexivity|]. cbn in I.
    destruct I as [<-|[<-|[]]]; inversion W as [|? k2 ? I2 W2]; subst; try tauto; contradiction. }
  exists two_files.
  let r := eval vm_compute in (save disk two_files (lit "5") (lit "1.1")) in match r with Ok ?z =>
    let l := eval vm_compute in (load 9 (extracted z) 12 (map fst z)) in match l with Ok ((?h, ?k), ?r) => exists z, h, k, r end end.
  split. { intros a b Wa Wb E. apply Wi in Wa. apply Wi in Wb. destruct Wa as [->|[->| ->]]; destruct Wb as [->|[->| ->]]; try reflexivity; discriminate. }
  split. { intros s W. apply Wi in W. destruct W as [->|[->| ->]]; good_nm. }
  split; [vm_compute; reflexivity|]. split; [vm_compute; reflexivity|].
  intros [m [_ [_ H]]]. destruct (H (Obj 2 10 (lit "b") 8 [lit "/other/w.nc"] [])) as [n [N [_ [_ [_ [_ F]]]]]].
  { apply (w_kid _ (Obj 2 10 (lit "b") 8 [lit "/other/w.nc"] [])); [right; left; reflexivity|constructor]. }
  cbn [o_files o_id] in *. inversion F as [|? e ? l [c [Ec Ee]] F2 Ef El]; subst. vm_compute in Ec. injection Ec as <-.
  destruct (m 2) as [|[|[|k]]]; cbn in N; [..|destruct k; discriminate]; injection N as <-; vm_compute in El; discriminate.
Qed.
Print Assumptions C95_data_file_refuted.

(** A name with a brace cannot be saved. *)
Theorem C95_brace_refuted : exists t : gobj Z, one_object_per_id t /\ o_files t = [] /\ o_kids t = [] /\
  save disk t (lit "5") (lit "1.1") = Raise KeyErr.
Proof.
  exists (Obj 1 10 (lit "{a}") 0 [] []). split; [|repeat split].
  intros a b Wa Wb _. inversion Wa; subst; [|contradiction]. inversion Wb; subst; [reflexivity|contradiction].
Qed.
Print Assumptions C95_brace_refuted.

(** An object whose name begins with a dot is saved but not found. *)
Theorem C95_hidden_refuted : exists (t : gobj Z) z, one_object_per_id t /\ (forall s, within s t -> good_name (o_nm s)) /\ o_files t = [] /\ o_kids t = [] /\
  save disk t (lit "5") (lit "1.1") = Ok z /\ forall fuel, load fuel (extracted z) (o_cls t) (map fst z) = Raise ValueErr.
Proof.
  exists (Obj 1 10 (lit ".a") 0 [] []).
  let r := eval vm_compute in (save disk (Obj 1 10 (lit ".a") 0 [] []) (lit "5") (lit "1.1")) in match r with Ok ?z => exists z end.
  assert (Wi : forall s, within s (Obj 1 10 (lit ".a") 0 [] []) -> s = Obj 1 10 (lit ".a") 0 [] []).
  { intros s W. inversion W; subst; [reflexivity|contradiction]. }
  split; [intros a b Wa Wb _; rewrite (Wi a Wa), (Wi b Wb); reflexivity|].
  split; [intros s W; rewrite (Wi s W); split; [exists 97; split; [right; left; reflexivity|discriminate]|split; vm_compute; intuition discriminate]|].
  split; [reflexivity|]. split; [reflexivity|]. split; [vm_compute; reflexivity|]. intros fuel. vm_compute. reflexivity.
Qed.
Print Assumptions C95_hidden_refuted.

(** A data file called like the object's own json takes its place: the object is not in the
    saved file, and loading fails. *)
Theorem C95_json_lost_refuted : exists (t : gobj Z) z ext, one_object_per_id t /\ (forall s, within s t -> good_name (o_nm s)) /\
  save ext t (lit "5") (lit "1.1") = Ok z /\ (forall n j, sget n z <> Some (Json j)).
Proof.
  exists (Obj 1 10 (lit "a") 0 [lit "/data/a.json"] []).
  let r := eval vm_compute in (save (fun _ => Some (lit "x")) (Obj 1 10 (lit "a") 0 [lit "/data/a.json"] []) (lit "5") (lit "1.1")) in match r with Ok ?z => exists z end.
  exists (fun _ => Some (lit "x")).
  assert (Wi : forall s, within s (Obj 1 10 (lit "a") 0 [lit "/data/a.json"] []) -> s = Obj 1 10 (lit "a") 0 [lit "/data/a.json"] []).
  { intros s W. inversion W; subst; [reflexivity|contradiction]. }
  split; [intros a b Wa Wb _; rewrite (Wi a Wa), (Wi b Wb); reflexivity|].
  split; [intros s W; rewrite (Wi s W); good_nm|]. split; [vm_compute; reflexivity|].
  intros n j H. cbn [sget] in H. destruct (seqb n _); [discriminate|]. destruct (seqb n _); [discriminate|]. destruct (seqb n _); discriminate.
Qed.
Print Assumptions C95_json_lost_refuted.

(** More than 255 objects with the same name cannot be saved. *)
Definition crowd : gobj Z := Obj 0 12 (lit "Model") 0 [] (map (fun i => Obj (Z.of_nat (S i)) 10 (lit "w") 0 [] []) (seq 0 256)).
Theorem C95_crowd_refuted : (count crowd = 257)%nat /\ save disk crowd (lit "5") (lit "1.1") = Raise ValueErr.
Proof. split; vm_compute; reflexivity. Qed.
Print Assumptions C95_crowd_refuted.
