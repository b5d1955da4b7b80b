(** * Proofs about extraction, validation and references *)
From Coq Require Import QArith String.
From Verif Require Import Py PyLemmas StrModel StrLemmas PersModel PersSpec.
Open Scope Z_scope.

Lemma peqb_iff : forall a b, peqb a b = true <-> a = b.
Proof. intros. unfold peqb. destruct (path_eq_dec a b); split; congruence. Qed.
Lemma peqb_refl : forall a, peqb a a = true.
Proof. intros. apply peqb_iff. reflexivity. Qed.

Lemma lookup_store : forall p c l q, lookup q (store p c l) = if peqb q p then Some c else lookup q l.
Proof.
  intros p c l q. induction l as [|[a x] l IH]; cbn; [reflexivity|]. destruct (peqb p a) eqn:E.
  - apply peqb_iff in E. subst a. cbn. destruct (peqb q p); reflexivity.
  - cbn. rewrite IH. destruct (peqb q a) eqn:F; [|reflexivity]. apply peqb_iff in F. subst a.
    destruct (peqb q p) eqn:G; [|reflexivity]. apply peqb_iff in G. subst. rewrite peqb_refl in E. discriminate.
Qed.

(** Two file systems that differ in their files only. *)
Definition same_tree (f g : fs) : Prop := fs_cwd g = fs_cwd f /\ fs_dirs g = fs_dirs f /\ fs_deny g = fs_deny f.
Lemma st_refl : forall f, same_tree f f. Proof. intros. repeat split. Qed.
Lemma st_trans : forall f g h, same_tree f g -> same_tree g h -> same_tree f h.
Proof. intros f g h [A [B C]] [D [E F]]. unfold same_tree. rewrite D, E, F. repeat split; assumption. Qed.
Lemma st_write : forall f q c, same_tree f (write f q c). Proof. intros. repeat split. Qed.
Lemma st_is_dir : forall f g p, same_tree f g -> is_dir g p = is_dir f p.
Proof. intros f g p [_ [H _]]. unfold is_dir. rewrite H. reflexivity. Qed.
Lemma st_walk : forall f g cs cur, same_tree f g -> walk g cur cs = walk f cur cs.
Proof. intros f g cs. induction cs as [|c cs IH]; intros cur H; cbn; [reflexivity|]. rewrite (st_is_dir f g cur H), !(IH _ H). reflexivity. Qed.
Lemma st_resolve : forall f g p, same_tree f g -> resolve g p = resolve f p.
Proof. intros f g p H. unfold resolve. rewrite (st_walk f g _ _ H). rewrite (proj1 H). reflexivity. Qed.
Lemma st_open : forall f g p, same_tree f g -> open_w g p = open_w f p.
Proof. intros f g p H. unfold open_w. rewrite (st_resolve f g p H). destruct (resolve f p); cbn; [|reflexivity]. rewrite (st_is_dir f g _ H). rewrite (proj2 (proj2 H)). reflexivity. Qed.
Lemma st_denotes : forall f g d b, same_tree f g -> denotes g d b <-> denotes f d b.
Proof. intros f g d b H. unfold denotes. rewrite (st_is_dir f g b H), (st_resolve f g d H), (proj1 H). reflexivity. Qed.
Lemma denotes_inj : forall f d a b, denotes f d a -> denotes f d b -> a = b.
Proof. intros f d a b [_ [[E A]|[E A]]] [_ [[F B]|[F B]]]; congruence. Qed.

Lemma walk_app : forall f a cur b, walk f cur (a ++ b) = do c <- walk f cur a; walk f c b.
Proof.
  intros f a. induction a as [|x a IH]; intros cur b; cbn; [reflexivity|].
  destruct (negb (is_dir f cur)); [reflexivity|]. destruct (seqb x [] || seqb x [dot]); [apply IH|].
  destruct (seqb x [dot; dot]); apply IH.
Qed.

(** The last step of a resolution, for a name without a slash. *)
Lemma walk_last : forall f cur b q, wf_fs f -> walk f cur [b] = Ok q -> is_dir f q = false ->
  is_dir f cur = true /\ q = cur ++ [b] /\ b <> [] /\ b <> lit "." /\ b <> lit "..".
Proof.
  intros f cur b q W H D. cbn in H. destruct (is_dir f cur) eqn:E; cbn in H; [|discriminate].
  destruct (seqb b []) eqn:E1; cbn in H; [injection H as <-; congruence|].
  destruct (seqb b [dot]) eqn:E2; cbn in H; [injection H as <-; congruence|].
  destruct (seqb b [dot; dot]) eqn:E3; cbn in H.
  - injection H as <-. rewrite (W cur E) in D. discriminate.
  - injection H as <-. split; [reflexivity|]. split; [reflexivity|].
    split; [intros ->; rewrite seqb_refl in E1; discriminate|]. split.
    + intros ->. change (lit ".") with [dot] in E2. rewrite seqb_refl in E2. discriminate.
    + intros ->. change (lit "..") with [dot; dot] in E3. rewrite seqb_refl in E3. discriminate.
Qed.

(** Opening a file of a folder for writing. *)
Lemma open_join : forall f folder b q, wf_fs f -> ~ In slash b -> open_w f (path_join folder b) = Ok q ->
  exists base, denotes f folder base /\ q = base ++ [b] /\ direct_child base q.
Proof.
  intros f folder b q W N H. unfold open_w in H.
  destruct (resolve f (path_join folder b)) as [q'|] eqn:R; cbn [bind] in H; [|discriminate].
  destruct (endswith [slash] (path_join folder b)) eqn:ES; cbn [orb] in H; [discriminate|].
  destruct (is_dir f q') eqn:D; cbn [orb] in H; [discriminate|]. destruct (fs_deny f q'); [discriminate|]. injection H as ->.
  assert (Fin : forall base, denotes f folder base -> walk f base [b] = Ok q ->
          exists base, denotes f folder base /\ q = base ++ [b] /\ direct_child base q).
  { intros base Db Wk. destruct (walk_last f base b q W Wk D) as [_ [-> [B1 [B2 B3]]]].
    exists base. split; [exact Db|]. split; [reflexivity|]. exists b. repeat split; assumption. }
  unfold path_join in R, ES. destruct (startswith [slash] b) eqn:SB.
  { apply startswith_iff in SB. destruct SB as [t ->]. exfalso. apply N. left. reflexivity. }
  unfold resolve in R. set (nul := existsb (Z.eqb 0)) in R.
  destruct folder as [|c0 fo].
  - change (negb (truthy []) || endswith [slash] []) with true in R. cbv iota in R. cbn [app] in R. destruct (nul b) eqn:Z0; [discriminate|]. destruct (seqb b []) eqn:B0; [discriminate|].
    rewrite SB, (split_none slash b N) in R. apply (Fin (fs_cwd f)); [|exact R].
    destruct (walk_last f _ b q W R D) as [Dc _]. split; [exact Dc|]. left. split; reflexivity.
  - set (folder := c0 :: fo) in *. replace (negb (truthy folder)) with false in * by reflexivity. cbn [orb] in *.
    assert (NN : folder <> []) by (unfold folder; discriminate).
    assert (St : forall x, startswith [slash] (folder ++ x) = startswith [slash] folder) by (intros x; reflexivity).
    assert (Nul : forall x, nul (folder ++ x) = false -> nul folder = false).
    { intros x. unfold nul. rewrite existsb_app, orb_false_iff. tauto. }
    assert (Ne : forall x, seqb (folder ++ x) [] = false) by (intros x; reflexivity).
    destruct (endswith [slash] folder) eqn:EF.
    + destruct (nul (folder ++ b)) eqn:Z0; [discriminate|]. rewrite Ne, St in R. apply endswith_iff in EF. destruct EF as [x Ex].
      rewrite Ex in R. replace ((x ++ [slash]) ++ b) with (x ++ slash :: b) in R by (rewrite <- app_assoc; reflexivity).
      rewrite split_app, (split_none slash b N), walk_app in R. cbn [bind] in R. rewrite <- Ex in R.
      destruct (walk f (if startswith [slash] folder then [] else fs_cwd f) (split_on slash x)) as [base|] eqn:Wx; cbn [bind] in R; [|discriminate].
      apply (Fin base); [|exact R]. destruct (walk_last f _ b q W R D) as [Dc _]. split; [exact Dc|]. right. split; [exact NN|].
      unfold resolve. fold nul. rewrite (Nul b Z0). replace (seqb folder []) with false by reflexivity.
      rewrite Ex at 2. rewrite split_app, walk_app, Wx. cbn. rewrite Dc. reflexivity.
    + destruct (nul (folder ++ slash :: b)) eqn:Z0; [discriminate|]. rewrite Ne, St in R.
      rewrite split_app, (split_none slash b N), walk_app in R.
      destruct (walk f (if startswith [slash] folder then [] else fs_cwd f) (split_on slash folder)) as [base|] eqn:Wx; cbn [bind] in R; [|discriminate].
      apply (Fin base); [|exact R]. destruct (walk_last f _ b q W R D) as [Dc _]. split; [exact Dc|]. right. split; [exact NN|].
      unfold resolve. fold nul. rewrite (Nul _ Z0). replace (seqb folder []) with false by reflexivity. exact Wx.
Qed.

Lemma skipped_iff : forall prefix n, skipped prefix n = false <-> wanted prefix n.
Proof.
  intros prefix n. unfold skipped, wanted. rewrite orb_false_iff. split.
  - intros [A B]. split.
    + destruct prefix as [|c p]; [exists n; reflexivity|]. cbn [truthy andb] in A. apply negb_false_iff, Z.eqb_eq in A. apply find0_iff. exact A.
    + intros H. apply (endswith_iff [slash] n) in H. change (lit "/") with [slash] in *. congruence.
  - intros [A B]. split.
    + destruct prefix as [|c p]; [reflexivity|]. cbn [truthy andb]. apply find0_iff in A. rewrite A. reflexivity.
    + destruct (endswith [slash] n) eqn:E; [|reflexivity]. exfalso. apply B. apply endswith_iff in E. exact E.
Qed.

Lemma last_part_iff : forall n b, last_part n b <-> b = basename n.
Proof.
  intros n b. split.
  - intros [N [->|[d ->]]]; symmetry; [apply basename_none|apply basename_app]; exact N.
  - intros ->. split; [apply basename_no_slash|]. unfold basename. pose proof (rcut_spec slash n) as H.
    destruct (rcut slash n) as [[a|] b]; destruct H as [-> _]; [right; exists a; reflexivity|left; reflexivity].
Qed.

Lemma holds_zread : forall z n c, zread z n = Ok c -> holds z n c.
Proof.
  intros z n c. unfold zread. destruct (find _ (rev z)) as [m|] eqn:F; [|discriminate]. intros E.
  assert (G : forall l, find (fun m => seqb n (zi_name m)) l = Some m ->
     exists a b, l = a ++ m :: b /\ zi_name m = n /\ ~ In n (map zi_name a)).
  { clear. induction l as [|x l IH]; cbn; [discriminate|]. destruct (seqb n (zi_name x)) eqn:E.
    - intros H. injection H as ->. apply seqb_iff in E. exists [], l. repeat split; [symmetry; exact E|tauto].
    - intros H. destruct (IH H) as [a [b [-> [Nm No]]]]. exists (x :: a), b. split; [reflexivity|]. split; [exact Nm|].
      cbn. intros [G|G]; [rewrite G, seqb_refl in E; discriminate|contradiction]. }
  destruct (G _ F) as [a [b [Er [Nm No]]]]. exists (rev b), m, (rev a). repeat split; try assumption.
  - rewrite <- (rev_involutive z), Er, rev_app_distr. cbn. rewrite <- app_assoc. reflexivity.
  - rewrite map_rev, <- in_rev. exact No.
Qed.

(** ** Extraction *)
Lemma st_wf : forall f g, same_tree f g -> wf_fs f -> wf_fs g.
Proof. intros f g S W p. rewrite !(st_is_dir f g _ S). apply W. Qed.

Lemma write_member_spec : forall z n folder b f f' r, wf_fs f -> ~ In slash b ->
  write_member z n (path_join folder b) f = (f', r) ->
  same_tree f f' /\
  ((f' = f /\ exists e, r = Raise e) \/
   exists base, denotes f folder base /\ direct_child base (base ++ [b]) /\
     (forall p, p <> base ++ [b] -> lookup p (fs_files f') = lookup p (fs_files f)) /\
     (r = Ok tt -> exists c, zread z n = Ok c /\ lookup (base ++ [b]) (fs_files f') = Some c)).
Proof.
  intros z n folder b f f' r W N H. unfold write_member in H.
  destruct (open_w f (path_join folder b)) as [q|e] eqn:O.
  - destruct (open_join f folder b q W N O) as [base [D [-> C]]].
    destruct (zread z n) as [c|e] eqn:R; injection H as <- <-.
    + split; [apply st_write|]. right. exists base. split; [exact D|]. split; [exact C|]. split.
      * intros p P. cbn. rewrite lookup_store. destruct (peqb p (base ++ [b])) eqn:E; [apply peqb_iff in E; contradiction|reflexivity].
      * intros _. exists c. split; [reflexivity|]. cbn. rewrite lookup_store, peqb_refl. reflexivity.
    + split; [apply st_write|]. right. exists base. split; [exact D|]. split; [exact C|]. split; [|discriminate].
      intros p P. cbn. rewrite lookup_store. destruct (peqb p (base ++ [b])) eqn:E; [apply peqb_iff in E; contradiction|reflexivity].
  - injection H as <- <-. split; [apply st_refl|]. left. split; [reflexivity|exists e; reflexivity].
Qed.

Definition loc_dec : forall a b : option content, {a = b} + {a <> b}.
Proof. decide equality. apply str_eq_dec. Defined.

(** What a loop over members does to the files; [g] gives the name in the folder. *)
Definition loop_ok (z : archive) (folder prefix : str) (g : str -> str) (ns : list str) (f f' : fs) (ok : Prop) : Prop :=
  same_tree f f' /\
  (forall p, lookup p (fs_files f') <> lookup p (fs_files f) ->
     exists base n, denotes f folder base /\ direct_child base p /\ In n ns /\ wanted prefix n /\ p = base ++ [g n]) /\
  (ok -> forall pre n post, ns = pre ++ n :: post -> wanted prefix n ->
     (forall m, In m post -> wanted prefix m -> g m <> g n) ->
     exists base c, denotes f folder base /\ zread z n = Ok c /\ lookup (base ++ [g n]) (fs_files f') = Some c).

Lemma loop_nil : forall z folder prefix g f ok, loop_ok z folder prefix g [] f f ok.
Proof. intros. split; [apply st_refl|]. split; [intros p H; congruence|]. intros _ pre n post H. destruct pre; discriminate. Qed.

Lemma loop_skip : forall z folder prefix g n ns f f' ok, skipped prefix n = true ->
  loop_ok z folder prefix g ns f f' ok -> loop_ok z folder prefix g (n :: ns) f f' ok.
Proof.
  intros z folder prefix g n ns f f' ok Sk [A [B C]]. split; [exact A|]. split.
  - intros p P. destruct (B p P) as [base [m [D [E [F [G H]]]]]]. exists base, m. split; [exact D|]. split; [exact E|]. split; [right; exact F|]. split; assumption.
  - intros K pre m post E Wm U. destruct pre as [|x pre]; cbn in E.
    + injection E as <- <-. apply skipped_iff in Wm. congruence.
    + injection E as <- ->. apply (C K pre m post eq_refl Wm U).
Qed.

Lemma loop_fail : forall z folder prefix (g : str -> str) n ns f f' e (ok : Prop), wf_fs f -> ~ In slash (g n) -> skipped prefix n = false ->
  write_member z n (path_join folder (g n)) f = (f', Raise e) -> ~ ok -> loop_ok z folder prefix g (n :: ns) f f' ok.
Proof.
  intros z folder prefix g n ns f f' e ok W N Sk H K.
  destruct (write_member_spec z n folder (g n) f f' _ W N H) as [S [[-> _]|[base [D [C [O _]]]]]].
  - split; [apply st_refl|]. split; [intros p P; congruence|contradiction].
  - split; [exact S|]. split; [|contradiction]. intros p P.
    destruct (path_eq_dec p (base ++ [g n])) as [->|X]; [|rewrite (O p X) in P; congruence].
    exists base, n. split; [exact D|]. split; [exact C|]. split; [left; reflexivity|]. split; [apply skipped_iff; exact Sk|reflexivity].
Qed.

Lemma loop_cons : forall z folder prefix (g : str -> str) n ns f f1 f' (ok : Prop), wf_fs f -> ~ In slash (g n) -> skipped prefix n = false ->
  write_member z n (path_join folder (g n)) f = (f1, Ok tt) -> loop_ok z folder prefix g ns f1 f' ok ->
  loop_ok z folder prefix g (n :: ns) f f' ok.
Proof.
  intros z folder prefix g n ns f f1 f' ok W N Sk H [A [B C]].
  destruct (write_member_spec z n folder (g n) f f1 _ W N H) as [S [[_ [e X]]|[base [D [Ch [O R]]]]]]; [discriminate|].
  split; [eapply st_trans; eassumption|]. split.
  - intros p P. destruct (loc_dec (lookup p (fs_files f')) (lookup p (fs_files f1))) as [E|E].
    + destruct (path_eq_dec p (base ++ [g n])) as [->|X]; [|rewrite E, (O p X) in P; congruence].
      exists base, n. split; [exact D|]. split; [exact Ch|]. split; [left; reflexivity|]. split; [apply skipped_iff; exact Sk|reflexivity].
    + destruct (B p E) as [b2 [m [D2 [C2 [I2 [W2 P2]]]]]]. exists b2, m. apply (st_denotes f f1) in D2; [|exact S].
      split; [exact D2|]. split; [exact C2|]. split; [right; exact I2|]. split; assumption.
  - intros K pre m post E Wm U. destruct pre as [|x pre]; cbn in E.
    + injection E as <- <-. destruct (R eq_refl) as [c [Rc Lc]]. exists base, c. split; [exact D|]. split; [exact Rc|].
      destruct (loc_dec (lookup (base ++ [g n]) (fs_files f')) (lookup (base ++ [g n]) (fs_files f1))) as [E|E]; [rewrite E; exact Lc|].
      exfalso. destruct (B _ E) as [b2 [m [D2 [_ [I2 [W2 P2]]]]]]. apply (st_denotes f f1) in D2; [|exact S].
      rewrite (denotes_inj f folder base b2 D D2) in P2. apply app_inj_tail in P2. apply (U m I2 W2). symmetry. apply P2.
    + injection E as <- ->. destruct (C K pre m post eq_refl Wm U) as [b2 [c [D2 X]]]. exists b2, c. split; [|exact X].
      apply (st_denotes f f1) in D2; assumption.
Qed.

Lemma extract_loop : forall z folder prefix ns f, wf_fs f ->
  loop_ok z folder prefix basename ns f (fst (extract_names z folder prefix ns f)) (snd (extract_names z folder prefix ns f) = Ok tt).
Proof.
  intros z folder prefix ns. induction ns as [|n ns IH]; intros f W; [apply loop_nil|]. cbn [extract_names].
  destruct (skipped prefix n) eqn:Sk; [apply loop_skip; [exact Sk|apply IH; exact W]|].
  destruct (write_member z n (path_join folder (basename n)) f) as [f1 [[]|e]] eqn:Wm.
  - eapply loop_cons; [exact W|apply basename_no_slash|exact Sk|exact Wm|]. apply IH.
    destruct (write_member_spec z n folder _ f f1 _ W (basename_no_slash n) Wm) as [S _]. eapply st_wf; eassumption.
  - eapply loop_fail; [exact W|apply basename_no_slash|exact Sk|exact Wm|]. cbn. discriminate.
Qed.

Lemma sanitize_no_slash : forall s, ~ In slash (sanitize_filename s).
Proof. intros s H. unfold sanitize_filename in H. apply filter_In in H. destruct H as [_ H]. discriminate. Qed.
Definition upd_name (n : str) : str := sanitize_filename (basename n).

Lemma upd_loop : forall z folder prefix ns f ed, wf_fs f ->
  loop_ok z folder prefix upd_name ns f (fst (upd_names z folder prefix ns ed f)) (is_ok (snd (upd_names z folder prefix ns ed f)) = true).
Proof.
  intros z folder prefix ns. induction ns as [|n ns IH]; intros f ed W; [apply loop_nil|]. cbn [upd_names].
  destruct (skipped prefix n) eqn:Sk; [apply loop_skip; [exact Sk|apply IH; exact W]|]. cbv zeta. fold (upd_name n).
  destruct (write_member z n (path_join folder (upd_name n)) f) as [f1 [[]|e]] eqn:Wm.
  - eapply loop_cons; [exact W|apply sanitize_no_slash|exact Sk|exact Wm|]. apply IH.
    destruct (write_member_spec z n folder _ f f1 _ W (sanitize_no_slash _) Wm) as [S _]. eapply st_wf; eassumption.
  - eapply loop_fail; [exact W|apply sanitize_no_slash|exact Sk|exact Wm|]. cbn. discriminate.
Qed.

(** The edits recorded while extracting: none when every wanted name is legal already. *)
Lemma upd_no_edits : forall z folder prefix ns f ed, (forall n, In n ns -> wanted prefix n -> upd_name n = basename n) ->
  forall f' ed', upd_names z folder prefix ns ed f = (f', Ok ed') -> ed' = ed.
Proof.
  intros z folder prefix ns. induction ns as [|n ns IH]; intros f ed Hl f' ed' H; cbn [upd_names] in H; [injection H as _ ->; reflexivity|].
  destruct (skipped prefix n) eqn:Sk; [apply (IH f ed (fun m I => Hl m (or_intror I)) f' ed' H)|]. cbv zeta in H.
  destruct (write_member z n _ f) as [f1 [u|e]]; [|discriminate].
  unfold upd_name in Hl. rewrite (Hl n (or_introl eq_refl)), seqb_refl in H by (apply skipped_iff; exact Sk).
  apply (IH f1 ed (fun m I => Hl m (or_intror I)) f' ed' H).
Qed.

Lemma rewrite_spec : forall decode ed ps f, same_tree f (fst (rewrite_files decode ed ps f)) /\
  forall p, lookup p (fs_files (fst (rewrite_files decode ed ps f))) <> lookup p (fs_files f) -> In p ps.
Proof.
  intros decode ed ps. induction ps as [|q ps IH]; intros f; cbn [rewrite_files]; [split; [apply st_refl|intros p P; exfalso; apply P; reflexivity]|].
  assert (Id : same_tree f f /\ forall p, lookup p (fs_files f) <> lookup p (fs_files f) -> In p (q :: ps)) by (split; [apply st_refl|intros p P; exfalso; apply P; reflexivity]).
  destruct (lookup q (fs_files f)) as [c|]; [|exact Id]. destruct (negb (decode c)); [exact Id|]. cbv zeta.
  destruct (snd (replace_all ed c)).
  - destruct (fs_deny f q); [exact Id|]. destruct (IH (write f q (fst (replace_all ed c)))) as [A B]. split; [eapply st_trans; [apply st_write|exact A]|].
    intros p P. destruct (path_eq_dec p q) as [->|N]; [left; reflexivity|]. right. apply B. cbn. rewrite lookup_store.
    destruct (peqb p q) eqn:E; [apply peqb_iff in E; contradiction|exact P].
  - destruct (IH f) as [A B]. split; [exact A|]. intros p P. right. apply B. exact P.
Qed.

Lemma lookup_In : forall p l, In p (map fst l) <-> lookup p l <> None.
Proof.
  intros p l. induction l as [|[q c] l IH]; cbn; [tauto|]. destruct (peqb p q) eqn:E.
  - apply peqb_iff in E. subst. split; [discriminate|intros _; left; reflexivity].
  - rewrite <- IH. split; [|tauto]. intros [H|H]; [subst; rewrite peqb_refl in E; discriminate|exact H].
Qed.

(** ** Validation *)
Lemma splitext_json : forall n, snd (splitext n) = lit ".json" <-> json_named n.
Proof.
  intros n. unfold splitext, json_named. split.
  - intros H. pose proof (rcut_spec dot (basename n)) as R. destruct (rcut dot (basename n)) as [[stem|] rest]; [|discriminate].
    destruct R as [R _]. destruct (existsb (fun c => negb (c =? dot)) stem) eqn:E; [|discriminate]. cbn [snd] in H.
    apply existsb_exists in E. destruct E as [c [Ic Nc]]. apply negb_true_iff, Z.eqb_neq in Nc. rewrite H in R.
    assert (Ns : ~ In slash stem). { intros I. apply (basename_no_slash n). rewrite R. apply in_or_app. left. exact I. }
    destruct (proj2 (last_part_iff n (basename n)) eq_refl) as [_ [L|[d L]]].
    + exists [], stem. split; [rewrite L at 1; exact R|]. split; [left; reflexivity|]. split; [exact Ns|]. exists c. split; assumption.
    + exists (d ++ [slash]), stem. split; [rewrite L at 1; rewrite R, <- app_assoc; reflexivity|].
      split; [right; exists d; reflexivity|]. split; [exact Ns|]. exists c. split; assumption.
  - intros [d [stem [En [D [Ns [c [Ic Nc]]]]]]].
    assert (B : basename n = stem ++ lit ".json").
    { assert (X : ~ In slash (stem ++ lit ".json")).
      { intros I. apply in_app_or in I. destruct I as [I|I]; [contradiction|]. cbn in I. unfold slash in I. intuition discriminate. }
      destruct D as [->|[d' ->]]; rewrite En.
      - cbn [app]. apply basename_none. exact X.
      - rewrite <- app_assoc. apply basename_app. exact X. }
    rewrite B. replace (rcut dot (stem ++ lit ".json")) with (Some stem, lit "json").
    + replace (existsb (fun c => negb (c =? dot)) stem) with true; [reflexivity|]. symmetry. apply existsb_exists. exists c. split; [exact Ic|].
      apply negb_true_iff, Z.eqb_neq. exact Nc.
    + symmetry. change (lit ".json") with (dot :: lit "json"). apply rcut_app. cbn. unfold dot. intuition discriminate.
Qed.

Lemma testzip_ok : forall z, testzip z = Ok None <-> Forall (fun m => exists c, zi_data m = Ok c) z.
Proof.
  induction z as [|m z IH]; cbn; [split; constructor|]. split.
  - intros H. destruct (zi_data m) as [c|e] eqn:E; [|destruct e; discriminate]. constructor; [exists c; exact E|apply IH; exact H].
  - intros H. inversion H as [|? ? [c E] F]; subst. rewrite E. apply IH. exact F.
Qed.

Lemma ratio_iff : forall a b r, 0 < b -> Qgtb (inject_Z a / inject_Z b) r = false <-> (inject_Z a <= r * inject_Z b)%Q.
Proof.
  intros a b r Hb. unfold Qgtb. rewrite negb_false_iff, Qle_bool_iff.
  assert (B : (0 < inject_Z b)%Q) by (unfold Qlt; cbn; lia). split; intros H.
  - apply (Qmult_le_r _ _ _ B) in H. setoid_replace (inject_Z a / inject_Z b * inject_Z b)%Q with (inject_Z a) in H; [exact H|].
    field. intros E. rewrite E in B. discriminate.
  - apply (Qmult_le_r _ _ _ B). setoid_replace (inject_Z a / inject_Z b * inject_Z b)%Q with (inject_Z a); [exact H|].
    field. intros E. rewrite E in B. discriminate.
Qed.

Lemma check_ok : forall mj mr z, Forall (fun m => exists c, zi_data m = Ok c) z ->
  (check_members mj mr z = true <-> Forall (member_ok mj mr) z).
Proof.
  intros mj mr z. induction z as [|m z IH]; intros D; cbn [check_members]; [split; constructor|].
  inversion D as [|? ? Dm Dz]; subst. specialize (IH Dz).
  assert (M : member_ok mj mr m <->
    seqb (snd (splitext (zi_name m))) (lit ".json") && (mj <? zi_size m) = false /\
    (0 <? zi_csize m) && Qgtb (inject_Z (zi_size m) / inject_Z (zi_csize m)) mr = false /\ str_in (lit "..") (zi_name m) = false).
  { unfold member_ok. split.
    - intros [_ [A [B C]]]. split; [|split].
      + destruct (seqb _ _) eqn:E; [|reflexivity]. apply seqb_iff, splitext_json in E. apply A in E. cbn. apply Z.ltb_ge. exact E.
      + destruct (0 <? zi_csize m) eqn:E; [|reflexivity]. apply Z.ltb_lt in E. cbn [andb]. apply ratio_iff; [exact E|]. apply B. exact E.
      + destruct (str_in _ _) eqn:E; [|reflexivity]. exfalso. apply C. apply str_in_iff. exact E.
    - intros [A [B C]]. split; [exact Dm|]. split; [|split].
      + intros J. apply splitext_json in J. rewrite J, seqb_refl in A. cbn in A. apply Z.ltb_ge. exact A.
      + intros P. apply Z.ltb_lt in P. rewrite P in B. cbn [andb] in B. apply Z.ltb_lt in P. apply ratio_iff; assumption.
      + intros E. apply str_in_iff in E. congruence. }
  split.
  - intros H. destruct (seqb _ _ && _) eqn:E1; [discriminate|]. destruct ((0 <? _) && _) eqn:E2; [discriminate|].
    destruct (str_in _ _) eqn:E3; [discriminate|]. constructor; [apply M; repeat split; assumption|apply IH; exact H].
  - intros H. inversion H as [|? ? Hm Hz]; subst. apply M in Hm. destruct Hm as [-> [-> ->]]. apply IH. exact Hz.
Qed.

(** ** References *)
Lemma auto_inj : forall c n d m, auto_name c n = auto_name d m -> c = d /\ n = m.
Proof.
  intros c n d m H. unfold auto_name in H.
  assert (U : forall k, ~ In underscore (str_nat k ++ lit ".json")).
  { intros k I. apply in_app_or in I. destruct I as [I|I]; [apply str_nat_range in I; unfold underscore in I; lia|].
    cbn in I. unfold underscore in I. intuition discriminate. }
  pose proof (f_equal (rcut underscore) H) as G. rewrite !rcut_app in G by apply U. injection G as -> G.
  split; [reflexivity|]. apply app_inv_tail in G. apply str_nat_inj. exact G.
Qed.

Section Refs.
  Variable cls : Z -> str.
  Variable tr : Z -> bool.

  Definition refs_inv (r : refs) : Prop :=
    NoDup (map fst r) /\ NoDup (map snd r) /\ (forall k, In k (map fst r) -> k <> []) /\
    (forall k j, In (auto_name k j) (map fst r) -> (j < length r)%nat) /\ Forall (fun o => tr o = true) (map snd r).

  Lemma get_ref_In : forall r o k, get_reference r o = Some k -> In (k, o) r.
  Proof.
    induction r as [|[a x] r IH]; intros o k; cbn; [discriminate|]. destruct (x =? o) eqn:E.
    - apply Z.eqb_eq in E. intros H. injection H as ->. left. congruence.
    - intros H. right. apply IH. exact H.
  Qed.
  Lemma get_ref_none : forall r o, get_reference r o = None <-> ~ In o (map snd r).
  Proof.
    induction r as [|[a x] r IH]; intros o; cbn; [tauto|]. destruct (x =? o) eqn:E.
    - apply Z.eqb_eq in E. split; [discriminate|]. intros H. exfalso. apply H. left. exact E.
    - apply Z.eqb_neq in E. rewrite IH. tauto.
  Qed.
  Lemma In_get_ref : forall r o k, NoDup (map snd r) -> In (k, o) r -> get_reference r o = Some k.
  Proof.
    induction r as [|[a x] r IH]; intros o k N H; cbn; [contradiction|]. inversion N as [|? ? N1 N2]; subst. destruct H as [H|H].
    - injection H as -> ->. rewrite Z.eqb_refl. reflexivity.
    - destruct (x =? o) eqn:E; [|apply IH; assumption]. apply Z.eqb_eq in E. subst. exfalso. apply N1.
      apply in_map_iff. exists (k, o). split; [reflexivity|exact H].
  Qed.

  Lemma inv_add : forall r k o, refs_inv r -> sget k r = None -> get_reference r o = None -> k <> [] -> tr o = true ->
    (forall c j, k = auto_name c j -> (j <= length r)%nat) -> refs_inv (r ++ [(k, o)]).
  Proof.
    intros r k o [N1 [N2 [Ne [A T]]]] G R K To Hk. unfold refs_inv. rewrite !map_app. cbn [map fst snd].
    assert (Snoc : forall (X : Type) (l : list X) x, NoDup l -> ~ In x l -> NoDup (l ++ [x])).
    { intros X l x Nl Nx. apply NoDup_rev in Nl. rewrite <- (rev_involutive (l ++ [x])). apply NoDup_rev.
      rewrite rev_app_distr. cbn. constructor; [rewrite <- in_rev; exact Nx|exact Nl]. }
    split; [apply Snoc; [exact N1|apply sget_none; exact G]|].
    split; [apply Snoc; [exact N2|apply get_ref_none; exact R]|].
    split; [|split].
    - intros x I. apply in_app_or in I. destruct I as [I|[<-|[]]]; [apply Ne; exact I|exact K].
    - intros c j I. rewrite app_length. cbn. apply in_app_or in I. destruct I as [I|[I|[]]].
      + specialize (A c j I). lia.
      + specialize (Hk c j I). lia.
    - apply Forall_app. split; [exact T|]. constructor; [exact To|constructor].
  Qed.

  (** One safe call: either nothing changes or a new pair is added at the end. *)
  Lemma safe_step : forall r c, refs_inv r -> safe_call tr r c ->
    refs_inv (run_refs cls tr r [c]) /\
    (run_refs cls tr r [c] = r \/ exists k, sget k r = None /\ run_refs cls tr r [c] = r ++ [(k, fst c)]).
  Proof.
    intros r [o n] I [To Sn]. cbn [fst snd] in To, Sn. cbn [run_refs fst]. unfold reference. destruct n as [n|].
    - destruct Sn as [Nn Ha]. unfold add_with_name, retrieved. destruct (retrieve r n) as [x|] eqn:R.
      + assert (Tx : tr x = true).
        { apply sget_In in R. destruct I as [_ [_ [_ [_ T]]]]. rewrite Forall_forall in T. apply T. apply in_map_iff. exists (n, x). split; [reflexivity|exact R]. }
        rewrite Tx. destruct (x =? o); cbn; split; try exact I; left; reflexivity.
      + unfold contains. destruct (get_reference r o) as [k|] eqn:G.
        * assert (Tk : truthy k = true).
          { apply get_ref_In in G. destruct I as [_ [_ [Ne _]]]. specialize (Ne k). destruct k; [|reflexivity].
            exfalso. apply Ne; [apply in_map_iff; exists ([], o); split; [reflexivity|exact G]|reflexivity]. }
          rewrite Tk. cbn. split; [exact I|left; reflexivity].
        * cbn. unfold retrieve in R. rewrite (sset_new n o r R). split; [apply inv_add; assumption|].
          right. exists n. split; [exact R|reflexivity].
    - destruct (get_reference r o) as [k|] eqn:G; cbn; [split; [exact I|left; reflexivity]|].
      assert (R : sget (auto_name (cls o) (length r)) r = None).
      { apply sget_none. intros X. destruct I as [_ [_ [_ [A _]]]]. apply A in X. lia. }
      rewrite (sset_new _ o r R). split.
      + apply inv_add; try assumption.
        * unfold auto_name. destruct (cls o); discriminate.
        * intros c j E. apply auto_inj in E. lia.
      + right. eexists. split; [exact R|reflexivity].
  Qed.

  Lemma run_cons : forall r c h, run_refs cls tr r (c :: h) = run_refs cls tr (run_refs cls tr r [c]) h.
  Proof. intros r [o n] h. cbn. destruct (reference cls tr r o n); reflexivity. Qed.

  Lemma safe_run : forall h r, refs_inv r -> safe_from cls tr r h ->
    refs_inv (run_refs cls tr r h) /\ exists new, run_refs cls tr r h = r ++ new.
  Proof.
    induction h as [|c h IH]; intros r I S; [split; [exact I|exists []; cbn; symmetry; apply app_nil_r]|].
    destruct S as [Sc Sh]. rewrite run_cons. destruct (safe_step r c I Sc) as [I1 D].
    destruct (IH _ I1 Sh) as [I2 [new E]]. split; [exact I2|]. destruct D as [D|[k [_ D]]].
    - rewrite D in E. rewrite D. exists new. exact E.
    - rewrite E, D. rewrite <- app_assoc. eexists. reflexivity.
  Qed.

  Lemma inv_nil : refs_inv [].
  Proof. unfold refs_inv. cbn. repeat split; try constructor; intros; contradiction. Qed.
End Refs.
