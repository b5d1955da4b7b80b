(** * C42, C43, C44: save archives and references *)
From Coq Require Import QArith String.
From Verif Require Import Py PyLemmas StrModel StrLemmas PersModel PersSpec PersProofs.
Open Scope Z_scope.

(** ** C42: extraction stays inside the folder *)

(** Whatever the archive's names, and also when extraction fails half way, the only files that
    change are direct children of the directory that the folder argument denotes; each is
    named by the last part of a wanted member.  No directory is made or removed. *)
Theorem C42_confined : forall z folder prefix f f' r, wf_fs f -> extract_zipfile z folder prefix f = (f', r) ->
  fs_dirs f' = fs_dirs f /\ fs_cwd f' = fs_cwd f /\
  forall p, lookup p (fs_files f') <> lookup p (fs_files f) ->
    exists base n b, denotes f folder base /\ direct_child base p /\ In n (namelist z) /\ wanted prefix n /\
                     last_part n b /\ p = base ++ [b].
Proof.
  intros z folder prefix f f' r W E. pose proof (extract_loop z folder prefix (namelist z) f W) as [S [B _]].
  unfold extract_zipfile in E. rewrite E in *. cbn [fst snd] in *. split; [apply S|]. split; [apply S|].
  intros p P. destruct (B p P) as [base [n [D [C [I [Wn Ep]]]]]]. exists base, n, (basename n).
  split; [exact D|]. split; [exact C|]. split; [exact I|]. split; [exact Wn|]. split; [apply last_part_iff; reflexivity|exact Ep].
Qed.
Print Assumptions C42_confined.

(** When extraction succeeds, every wanted member whose last part is not repeated by a later one
    is in the folder, with the contents the archive holds under its name. *)
Theorem C42_complete : forall z folder prefix f f', wf_fs f -> extract_zipfile z folder prefix f = (f', Ok tt) ->
  forall pre n post b, namelist z = pre ++ n :: post -> wanted prefix n -> last_part n b ->
    (forall m, In m post -> wanted prefix m -> ~ last_part m b) ->
    exists base c, denotes f folder base /\ holds z n c /\ lookup (base ++ [b]) (fs_files f') = Some c.
Proof.
  intros z folder prefix f f' W E pre n post b En Wn Lb U. pose proof (extract_loop z folder prefix (namelist z) f W) as [S [_ C]].
  unfold extract_zipfile in E. rewrite E in *. cbn [fst snd] in *. apply last_part_iff in Lb. subst b.
  destruct (C eq_refl pre n post En Wn) as [base [c [D [R L]]]].
  - intros m I Wm Eq. apply (U m I Wm). rewrite <- Eq. apply last_part_iff. reflexivity.
  - exists base, c. split; [exact D|]. split; [apply holds_zread; exact R|exact L].
Qed.
Print Assumptions C42_complete.

(** Two members with the same last part: only the later one is left, without an error. *)
Definition root_fs : fs := mkFs [lit "tmp"] [[]; [lit "tmp"]; [lit "tmp"; lit "d"]] [([lit "etc"], lit "old")] (fun _ => false).
Definition clash : archive := [mkMem (lit "a/x.nc") 1 1 (Ok (lit "one")); mkMem (lit "b/x.nc") 1 1 (Ok (lit "two"))].
Theorem C42_clash_refuted : exists z folder f f' n c, wf_fs f /\ extract_zipfile z folder [] f = (f', Ok tt) /\
  In n (namelist z) /\ wanted [] n /\ holds z n c /\ forall p, lookup p (fs_files f') <> Some c.
Proof.
  exists clash, (lit "d"), root_fs. eexists. exists (lit "a/x.nc"), (lit "one").
  split. { intros p. unfold is_dir. rewrite !existsb_exists. intros [q [Iq Eq]]. apply peqb_iff in Eq. subst q.
    cbn in Iq. destruct Iq as [<-|[<-|[<-|[]]]]; [exists []|exists []|exists [lit "tmp"]]; split; cbn; auto; apply peqb_refl. }
  split; [vm_compute; reflexivity|]. split; [left; reflexivity|].
  split. { split; [eexists; reflexivity|]. intros [t H]. apply (f_equal (@rev Z)) in H. rewrite rev_app_distr in H. vm_compute in H. discriminate. }
  split. { exists [], (mkMem (lit "a/x.nc") 1 1 (Ok (lit "one"))), [mkMem (lit "b/x.nc") 1 1 (Ok (lit "two"))].
    repeat split. vm_compute. intuition discriminate. }
  intros p. cbn [fs_files lookup]. destruct (peqb _ _); [vm_compute; discriminate|]. destruct (peqb _ _); vm_compute; discriminate.
Qed.
Print Assumptions C42_clash_refuted.

(** A meeting case: absolute names and names with [..] land in the folder. *)
Definition wild : archive :=
  [mkMem (lit "top/") 0 0 (Ok []); mkMem (lit "top/../../etc/passwd") 1 1 (Ok (lit "evil")); mkMem (lit "/etc/shadow") 1 1 (Ok (lit "no"))].
Lemma root_wf : wf_fs root_fs.
Proof.
  intros p. unfold is_dir. rewrite !existsb_exists. intros [q [Iq Eq]]. apply peqb_iff in Eq. subst q.
  cbn in Iq. destruct Iq as [<-|[<-|[<-|[]]]]; [exists []|exists []|exists [lit "tmp"]]; split; cbn; auto; apply peqb_refl.
Qed.
Example C42_meets : exists f', extract_zipfile wild (lit "/tmp/d") (lit "top/") root_fs = (f', Ok tt) /\
  lookup [lit "tmp"; lit "d"; lit "passwd"] (fs_files f') = Some (lit "evil") /\ lookup [lit "tmp"; lit "d"; lit "shadow"] (fs_files f') = None.
Proof. eexists. split; [vm_compute; reflexivity|]. split; vm_compute; reflexivity. Qed.

(** [load] of an archive: with more than one folder nothing is written; otherwise only files
    directly in the directory of the archive change. *)
Theorem C42_load : forall z saveloc f f' r, wf_fs f -> load_archive z saveloc f = (f', r) ->
  fs_dirs f' = fs_dirs f /\
  (forall p, lookup p (fs_files f') <> lookup p (fs_files f) -> exists base, denotes f (dirname saveloc) base /\ direct_child base p) /\
  ((2 <= length (zipfile_folders z))%nat -> f' = f /\ r = Ok None).
Proof.
  intros z saveloc f f' r W E. unfold load_archive in E.
  assert (G : forall prefix, fs_dirs (fst (extract_zipfile z (dirname saveloc) prefix f)) = fs_dirs f /\
    forall p, lookup p (fs_files (fst (extract_zipfile z (dirname saveloc) prefix f))) <> lookup p (fs_files f) ->
    exists base, denotes f (dirname saveloc) base /\ direct_child base p).
  { intros prefix. pose proof (C42_confined z (dirname saveloc) prefix f _ _ W (surjective_pairing _)) as [A [_ B]]. split; [exact A|].
    intros p P. destruct (B p P) as [base [n [b [D [C _]]]]]. exists base. split; assumption. }
  destruct (zipfile_folders z) as [|x [|y l]]; injection E as <- <-.
  - split; [apply (G [])|]. split; [apply (G [])|]. cbn. lia.
  - split; [apply (G x)|]. split; [apply (G x)|]. cbn. lia.
  - split; [reflexivity|]. split; [congruence|]. intros _. split; reflexivity.
Qed.
Print Assumptions C42_load.

(** An archive named without a directory is extracted into the working directory, and then
    [load] returns None all the same. *)
Theorem C42_load_bare : forall z saveloc f f' o, ~ In slash saveloc -> load_archive z saveloc f = (f', Ok o) -> o = None.
Proof.
  intros z saveloc f f' o N E. unfold load_archive in E. assert (D : dirname saveloc = []).
  { unfold dirname. rewrite rcut_none by exact N. reflexivity. }
  rewrite D in E. cbv zeta in E. destruct (zipfile_folders z) as [|x [|y l]]; injection E as _ E.
  - destruct (snd _); [|discriminate]. injection E as <-. reflexivity.
  - destruct (snd _); [|discriminate]. injection E as <-. reflexivity.
  - symmetry. exact E.
Qed.
Print Assumptions C42_load_bare.
Example C42_load_meets : exists f', load_archive [mkMem (lit "Model.json") 2 2 (Ok (lit "{}"))] (lit "m.zip") root_fs = (f', Ok None) /\
  lookup [lit "tmp"; lit "Model.json"] (fs_files f') = Some (lit "{}").
Proof. eexists. split; vm_compute; reflexivity. Qed.

(** The extraction used by [GnomeObject.load] (save_updater.py): also confined, including the
    rewriting of the json files afterwards. *)
Theorem C42_update_confined : forall decode z folder base f f' r, wf_fs f -> denotes f folder base ->
  (forall p b, In p (map fst (fs_files f)) -> In b p -> ~ In slash b) ->
  upd_extract decode z folder base f = (f', r) ->
  fs_dirs f' = fs_dirs f /\ forall p, lookup p (fs_files f') <> lookup p (fs_files f) -> direct_child base p.
Proof.
  intros decode z folder base f f' r W Db Hn E. unfold upd_extract in E. set (prefix := match zipfile_folders z with [p] => p | _ => [] end) in E.
  pose proof (upd_loop z folder prefix (namelist z) f [] W) as [S [B _]].
  assert (Part : forall p, lookup p (fs_files (fst (upd_names z folder prefix (namelist z) [] f))) <> lookup p (fs_files f) -> direct_child base p).
  { intros p P. destruct (B p P) as [b2 [n [D [C _]]]]. rewrite (denotes_inj f folder base b2 Db D). exact C. }
  destruct (upd_names z folder prefix (namelist z) [] f) as [f1 [ed|e]]; cbn [fst snd] in *.
  2: { injection E as <- <-. split; [apply S|exact Part]. }
  destruct ed as [|e0 ed]; [injection E as <- <-; split; [apply S|exact Part]|].
  pose proof (rewrite_spec decode (e0 :: ed) (json_files f1 base) f1) as [S2 Rw]. rewrite E in S2, Rw. cbn [fst] in S2, Rw.
  split; [destruct S2 as [_ [-> _]]; apply S|]. intros p P.
  destruct (loc_dec (lookup p (fs_files f')) (lookup p (fs_files f1))) as [Q|Q]; [apply Part; rewrite <- Q; exact P|].
  apply Rw in Q. unfold json_files in Q. apply filter_In in Q. destruct Q as [I Q].
  apply andb_true_iff in Q. destruct Q as [Q J]. apply andb_true_iff in Q. destruct Q as [Q Hd].
  apply peqb_iff in Q. apply negb_true_iff in Hd.
  destruct (loc_dec (lookup p (fs_files f1)) (lookup p (fs_files f))) as [L|L]; [|apply Part; exact L].
  assert (Pn : p <> []). { intros ->. cbn in J. discriminate. }
  exists (last p []). assert (Ep : p = base ++ [last p []]) by (rewrite <- Q; apply app_removelast_last; exact Pn).
  split; [exact Ep|]. split; [intros X; rewrite X in J; discriminate|].
  split; [intros X; rewrite X in Hd; discriminate|]. split; [intros X; rewrite X in Hd; discriminate|].
  apply (Hn p). { apply lookup_In. rewrite <- L. apply lookup_In. exact I. } rewrite Ep at 2. apply in_or_app. right. left. reflexivity.
Qed.
Print Assumptions C42_update_confined.

(** If no wanted name needs cleaning, this extraction is complete too. *)
Theorem C42_update_complete : forall decode z folder base f f' prefix, wf_fs f -> upd_extract decode z folder base f = (f', Ok tt) ->
  (prefix = match zipfile_folders z with [p] => p | _ => [] end) ->
  (forall n b c, In n (namelist z) -> wanted prefix n -> last_part n b -> In c b -> ~ In c (lit "\/*?:<>|""")) ->
  forall pre n post b, namelist z = pre ++ n :: post -> wanted prefix n -> last_part n b ->
    (forall m, In m post -> wanted prefix m -> ~ last_part m b) ->
    exists base' c, denotes f folder base' /\ holds z n c /\ lookup (base' ++ [b]) (fs_files f') = Some c.
Proof.
  intros decode z folder base f f' prefix W E Hp Hl pre n post b En Wn Lb U. unfold upd_extract in E. rewrite <- Hp in E.
  assert (Legal : forall m, In m (namelist z) -> wanted prefix m -> upd_name m = basename m).
  { intros m Im Wm. unfold upd_name, sanitize_filename. assert (L : last_part m (basename m)) by (apply last_part_iff; reflexivity).
    specialize (Hl m (basename m)). revert Hl. generalize (basename m) L. intros s Ls Hs.
    assert (G : forall c, In c s -> negb (zmem c illegal) = true).
    { intros c Ic. specialize (Hs c Im Wm Ls Ic). apply negb_true_iff. destruct (zmem c illegal) eqn:Z; [|reflexivity].
      exfalso. apply Hs. unfold zmem in Z. apply existsb_exists in Z. destruct Z as [y [Iy Ey]]. apply Z.eqb_eq in Ey. subst y.
      cbn in Iy. cbn. tauto. }
    clear -G. induction s as [|c s IH]; cbn [filter]; [reflexivity|]. rewrite (G c (or_introl eq_refl)). f_equal. apply IH. intros x I. apply G. right. exact I. }
  pose proof (upd_loop z folder prefix (namelist z) f [] W) as [S [_ C]].
  destruct (upd_names z folder prefix (namelist z) [] f) as [f1 [ed|e]] eqn:Up; [|discriminate]. cbn [fst snd] in *.
  pose proof (upd_no_edits z folder prefix (namelist z) f [] Legal f1 ed Up) as ->. injection E as <-.
  apply last_part_iff in Lb. subst b.
  assert (In n (namelist z)) as Inn by (rewrite En; apply in_or_app; right; left; reflexivity).
  destruct (C eq_refl pre n post En Wn) as [base' [c [D [R L]]]].
  - intros m I Wm Eq. apply (U m I Wm). apply last_part_iff. rewrite <- (Legal n Inn Wn), <- Eq. apply Legal; [|exact Wm].
    rewrite En. apply in_or_app. right. right. exact I.
  - exists base', c. split; [exact D|]. split; [apply holds_zread; exact R|]. rewrite <- (Legal n Inn Wn). exact L.
Qed.
Print Assumptions C42_update_complete.

(** A name that must be cleaned is replaced in the text of every json file, also where it is not
    a name: a file called [0:00] spoils the times of day. *)
Definition times : archive :=
  [mkMem (lit "0:00") 1 1 (Ok (lit "x")); mkMem (lit "m.json") 1 1 (Ok (lit "[10:00:00]"))].
Theorem C42_update_text_refuted : exists z folder base f f' n c, wf_fs f /\ denotes f folder base /\
  upd_extract (fun _ => true) z folder base f = (f', Ok tt) /\
  In n (namelist z) /\ wanted [] n /\ holds z n c /\ forall p, lookup p (fs_files f') <> Some c.
Proof.
  exists times, (lit "d"), [lit "tmp"; lit "d"], root_fs. eexists. exists (lit "m.json"), (lit "[10:00:00]").
  split; [apply root_wf|]. split. { split; [vm_compute; reflexivity|]. right. split; [discriminate|vm_compute; reflexivity]. }
  split; [vm_compute; reflexivity|]. split; [right; left; reflexivity|].
  split. { split; [eexists; reflexivity|]. intros [t H]. apply (f_equal (@rev Z)) in H. rewrite rev_app_distr in H. vm_compute in H. discriminate. }
  split. { exists [mkMem (lit "0:00") 1 1 (Ok (lit "x"))], (mkMem (lit "m.json") 1 1 (Ok (lit "[10:00:00]"))), []. repeat split. cbn. tauto. }
  intros p. cbn [fs_files lookup]. destruct (peqb _ _); [vm_compute; discriminate|]. destruct (peqb _ _); [vm_compute; discriminate|].
  destruct (peqb _ _); vm_compute; discriminate.
Qed.
Print Assumptions C42_update_text_refuted.
Example C42_update_meets : exists f', upd_extract (fun _ => true) wild (lit "d") [lit "tmp"; lit "d"] root_fs = (f', Ok tt) /\
  lookup [lit "tmp"; lit "d"; lit "passwd"] (fs_files f') = Some (lit "evil") /\
  wf_fs root_fs /\ denotes root_fs (lit "d") [lit "tmp"; lit "d"].
Proof.
  eexists. split; [vm_compute; reflexivity|]. split; [vm_compute; reflexivity|]. split; [apply root_wf|].
  split; [vm_compute; reflexivity|]. right. split; [discriminate|vm_compute; reflexivity].
Qed.

(** ** C43: what an accepted archive satisfies *)

(** An archive is accepted exactly when every member can be read, every *.json is within the
    size limit, no member is compressed beyond the ratio and no name contains two dots in a
    row. *)
Theorem C43_valid_iff : forall mj mr z, is_savezip_valid mj mr z = true <->
  exists a, z = Some a /\ Forall (member_ok mj mr) a.
Proof.
  intros mj mr z. split.
  - destruct z as [a|]; cbn; [|discriminate]. intros H. exists a. split; [reflexivity|].
    destruct (testzip a) as [[b|]|e] eqn:T; try discriminate. apply testzip_ok in T. apply check_ok; assumption.
  - intros [a [-> F]]. cbn. assert (T : testzip a = Ok None).
    { apply testzip_ok. eapply Forall_impl; [|exact F]. intros m M. apply M. }
    rewrite T. apply check_ok; [apply testzip_ok; exact T|exact F].
Qed.
Print Assumptions C43_valid_iff.
Definition good : archive :=
  [mkMem (lit "Model.json") 1048576 20000 (Ok (lit "{}")); mkMem (lit "big.nc") 10000000 9000000 (Ok (lit "data"))].
Example C43_meets : is_savezip_valid 1048576 54 (Some good) = true /\
  is_savezip_valid 1048576 54 (Some (mkMem (lit "m.json") 1048577 20000 (Ok [])  :: good)) = false /\
  is_savezip_valid 1048576 54 (Some (good ++ [mkMem (lit "m.nc") 541 10 (Ok [])])) = false /\
  is_savezip_valid 1048576 54 (Some (good ++ [mkMem (lit "a..b") 1 1 (Ok [])])) = false /\
  is_savezip_valid 1048576 54 (Some (good ++ [mkMem (lit "ab") 1 1 (Raise RuntimeErr)])) = false.
Proof. repeat split; vm_compute; reflexivity. Qed.

(** The size limit does not hold for every name that ends in .json: a file called just .json is
    not limited. *)
Theorem C43_hidden_json_refuted : exists a m t, is_savezip_valid 1048576 54 (Some a) = true /\ In m a /\
  zi_name m = t ++ lit ".json" /\ zi_size m > 1048576.
Proof.
  exists [mkMem (lit "d/.json") 10000000 9000000 (Ok [])], (mkMem (lit "d/.json") 10000000 9000000 (Ok [])), (lit "d/").
  split; [vm_compute; reflexivity|]. split; [left; reflexivity|]. split; [reflexivity|]. cbn. lia.
Qed.
Print Assumptions C43_hidden_json_refuted.

(** An accepted archive is extracted without a member that names a directory by dots: each
    wanted member's last part is not [..]. *)
Theorem C43_no_parent : forall mj mr a m b, is_savezip_valid mj mr (Some a) = true -> In m a -> last_part (zi_name m) b -> b <> lit "..".
Proof.
  intros mj mr a m b V I L ->. apply C43_valid_iff in V. destruct V as [a' [E F]]. injection E as <-.
  rewrite Forall_forall in F. destruct (F m I) as [_ [_ [_ N]]]. apply N. destruct L as [_ [E|[d E]]].
  - exists [], []. rewrite E. reflexivity.
  - exists (d ++ [slash]), []. rewrite E, <- app_assoc. reflexivity.
Qed.
Print Assumptions C43_no_parent.

(** ** C44: references *)

(** After any safe history, asking for a reference gives a name that retrieves the object, and
    asking again gives the same name and changes nothing. *)
Theorem C44_reference_partial : forall cls tr h o, safe_from cls tr [] h -> tr o = true ->
  exists r k, reference cls tr (run_refs cls tr [] h) o None = Ok (r, Some k) /\ retrieve r k = Some o /\
              reference cls tr r o None = Ok (r, Some k).
Proof.
  intros cls tr h o S To. destruct (safe_run cls tr h [] (inv_nil tr) S) as [I _]. set (r0 := run_refs cls tr [] h) in *.
  assert (Sc : safe_call tr r0 (o, None)) by (split; [exact To|constructor]).
  destruct (safe_step cls tr r0 (o, None) I Sc) as [I1 _].
  assert (G : exists r k, reference cls tr r0 o None = Ok (r, Some k) /\ In (k, o) r /\ run_refs cls tr r0 [(o, None)] = r).
  { cbn. destruct (get_reference r0 o) as [k|] eqn:G.
    - exists r0, k. split; [reflexivity|]. split; [apply get_ref_In; exact G|reflexivity].
    - set (k := auto_name (cls o) (length r0)). exists (sset k o r0), k. split; [reflexivity|]. split; [|reflexivity].
      apply sget_In. rewrite sget_sset, seqb_refl. reflexivity. }
  destruct G as [r [k [E [Ik Er]]]]. assert (I2 : refs_inv tr r) by (rewrite <- Er; exact I1). clear I1. rename I2 into I1. exists r, k. split; [exact E|].
  destruct I1 as [N1 [N2 _]]. split; [apply In_sget; assumption|]. cbn. rewrite (In_get_ref r o k N2 Ik). reflexivity.
Qed.
Print Assumptions C44_reference_partial.

(** Names are never lost, moved or shared: what a name retrieves and what name an object has
    stay as they are through any later safe history, and each determines the other. *)
Theorem C44_stable_partial : forall cls tr h1 h2 k o, safe_from cls tr [] h1 -> safe_from cls tr (run_refs cls tr [] h1) h2 ->
  retrieve (run_refs cls tr [] h1) k = Some o ->
  retrieve (run_refs cls tr (run_refs cls tr [] h1) h2) k = Some o /\
  (forall k', retrieve (run_refs cls tr (run_refs cls tr [] h1) h2) k' = Some o -> k' = k) /\
  reference cls tr (run_refs cls tr (run_refs cls tr [] h1) h2) o None = Ok (run_refs cls tr (run_refs cls tr [] h1) h2, Some k).
Proof.
  intros cls tr h1 h2 k o S1 S2 R. destruct (safe_run cls tr h1 [] (inv_nil tr) S1) as [I1 _].
  destruct (safe_run cls tr h2 _ I1 S2) as [[N1 [N2 _]] [new E]]. set (r2 := run_refs cls tr (run_refs cls tr [] h1) h2) in *.
  apply sget_In in R. assert (In2 : In (k, o) r2) by (rewrite E; apply in_or_app; left; exact R).
  split; [apply In_sget; assumption|]. split.
  - intros k' R'. apply sget_In in R'. pose proof (In_get_ref r2 o k N2 In2). pose proof (In_get_ref r2 o k' N2 R'). congruence.
  - cbn. rewrite (In_get_ref r2 o k N2 In2). reflexivity.
Qed.
Print Assumptions C44_stable_partial.

(** A named call either raises ValueError, exactly when the name belongs to another object or
    the object has another name, or leaves the name with the object. *)
Theorem C44_named_partial : forall cls tr h o n, safe_from cls tr [] h -> safe_call tr (run_refs cls tr [] h) (o, Some n) ->
  match reference cls tr (run_refs cls tr [] h) o (Some n) with
  | Ok (r, _) => retrieve r n = Some o
  | Raise e => e = ValueErr /\
      ((exists x, retrieve (run_refs cls tr [] h) n = Some x /\ x <> o) \/
       (exists k, retrieve (run_refs cls tr [] h) k = Some o /\ k <> n))
  end.
Proof.
  intros cls tr h o n S [To [Nn Ha]]. destruct (safe_run cls tr h [] (inv_nil tr) S) as [I _]. set (r0 := run_refs cls tr [] h) in *.
  cbn in To. unfold reference, add_with_name, retrieved. destruct (retrieve r0 n) as [x|] eqn:R.
  - assert (Tx : tr x = true).
    { pose proof (sget_In _ _ _ R) as Ix. destruct I as [_ [_ [_ [_ T]]]]. rewrite Forall_forall in T. apply T. apply in_map_iff. exists (n, x). split; [reflexivity|exact Ix]. }
    rewrite Tx. destruct (x =? o) eqn:E; cbn.
    + apply Z.eqb_eq in E. subst x. exact R.
    + split; [reflexivity|]. left. exists x. split; [reflexivity|]. apply Z.eqb_neq. exact E.
  - unfold contains. destruct (get_reference r0 o) as [k|] eqn:G.
    + pose proof (get_ref_In _ _ _ G) as Ik. assert (Rk : retrieve r0 k = Some o) by (apply In_sget; [apply I|exact Ik]).
      assert (Tk : truthy k = true).
      { destruct I as [_ [_ [Ne _]]]. specialize (Ne k). destruct k; [|reflexivity].
        exfalso. apply Ne; [apply in_map_iff; exists ([], o); split; [reflexivity|exact Ik]|reflexivity]. }
      rewrite Tk. cbn. split; [reflexivity|]. right. exists k. split; [exact Rk|congruence].
    + cbn. unfold retrieve. rewrite sget_sset, seqb_refl. reflexivity.
Qed.
Print Assumptions C44_named_partial.

(** A concrete history: an explicit name of the automatic form with a small number, automatic
    names, a refused name. *)
Definition kls (o : Z) : str := if o <? 10 then lit "Wind" else lit "Mover".
Definition hist : list call := [(1, Some (lit "Model.json")); (2, Some (lit "Wind_1.json")); (3, None); (11, None); (3, Some (lit "x"))].
Lemma auto_of : forall c n k j, c ++ underscore :: str_nat n ++ lit ".json" = auto_name k j -> j = n.
Proof. intros c n k j H. symmetry. apply (auto_inj c n k j). exact H. Qed.
Lemma not_auto : forall s, rcut underscore s = (None, s) -> forall k j, s <> auto_name k j.
Proof.
  intros s H k j E. unfold auto_name in E. rewrite E in H. rewrite rcut_app in H; [discriminate|].
  intros I. apply in_app_or in I. destruct I as [I|I]; [apply str_nat_range in I; unfold underscore in I; lia|].
  cbn in I. unfold underscore in I. intuition discriminate.
Qed.
Example C44_meets : safe_from kls (fun _ => true) [] hist /\
  run_refs kls (fun _ => true) [] hist = [(lit "Model.json", 1); (lit "Wind_1.json", 2); (lit "Wind_2.json", 3); (lit "Mover_3.json", 11)].
Proof.
  split; [|vm_compute; reflexivity]. cbn [safe_from hist]. repeat split; try discriminate.
  - intros k j E. exfalso. revert E. apply not_auto. vm_compute. reflexivity.
  - intros k j E. change (lit "Wind_1.json") with (lit "Wind" ++ underscore :: str_nat 1 ++ lit ".json") in E. apply auto_of in E. subst j. cbn. lia.
  - intros k j E. exfalso. revert E. apply not_auto. vm_compute. reflexivity.
Qed.

(** Without the condition on explicit names an automatic name takes one that is in use: the
    first object's name then retrieves the second. *)
Theorem C44_collision_refuted : exists cls tr h k o, (forall x, tr x = true) /\
  retrieve (run_refs cls tr [] h) k = Some o /\
  exists o2, o2 <> o /\ retrieve (run_refs cls tr [] (h ++ [(o2, None)])) k = Some o2.
Proof.
  exists kls, (fun _ => true), [(1, Some (lit "Wind_1.json"))], (lit "Wind_1.json"), 1. split; [reflexivity|].
  split; [vm_compute; reflexivity|]. exists 2. split; [lia|]. vm_compute. reflexivity.
Qed.
Print Assumptions C44_collision_refuted.

(** An object whose truth value is False (an empty time series or collection) loses its name to
    another object without an error. *)
Theorem C44_falsy_refuted : exists cls tr h k o o2, retrieve (run_refs cls tr [] h) k = Some o /\ o2 <> o /\
  exists r, reference cls tr (run_refs cls tr [] h) o2 (Some k) = Ok (r, None) /\ retrieve r k = Some o2 /\ get_reference r o = None.
Proof.
  exists kls, (fun o => negb (o =? 1)), [(1, Some (lit "a"))], (lit "a"), 1, 2. split; [vm_compute; reflexivity|]. split; [lia|].
  eexists. split; [vm_compute; reflexivity|]. split; vm_compute; reflexivity.
Qed.
Print Assumptions C44_falsy_refuted.
