(** * Proofs about the element cache *)
From Verif Require Import Py PyLemmas CacheModel CacheSpec.
Open Scope Z_scope.

Section P.
Context {V S0 T : Type}.
Notation item := (item S0 T).
Notation shot := (shot V S0 T).

(** The form of every dictionary the cache builds. *)
Definition mb_part {A} (mb : list (Z * S0)) : dict (item A) :=
  match mb with [] => [] | _ => (mb_key, Names (map fst mb)) :: map (fun ns => (fst ns, Scal (snd ns))) mb end.
Definition ts_part {A} (st : option T) : dict (item A) := match st with Some t => [(ts_key, Stamp t)] | None => [] end.
Definition form {A} (arrs : list (Z * A)) (mb : list (Z * S0)) (st : option T) : dict (item A) :=
  map (fun na => (fst na, Arr (snd na))) arrs ++ mb_part mb ++ ts_part st.
Definition distinct {A} (arrs : list (Z * A)) (mb : list (Z * S0)) : Prop := NoDup (map fst arrs ++ map fst mb ++ [mb_key; ts_key]).
Definition at_ (h : list V) (arrs : list (Z * nat)) (vals : list V) : Prop := Forall2 (fun na v => nth_error h (snd na) = Some v) arrs vals.
Definition fresh (h : list V) (names : list Z) (n : nat) : list (Z * nat) := combine names (seq (length h) n).

Lemma at_app : forall h h' arrs vals, at_ h arrs vals -> at_ (h ++ h') arrs vals.
Proof.
  intros h h' arrs vals H. unfold at_ in *. eapply Forall2_impl; [|exact H]. cbn. intros a b E.
  rewrite nth_error_app1; [exact E|]. apply nth_error_Some. congruence.
Qed.

Lemma copy_rest : forall (h : list V) mb st, copy h (@mb_part nat mb ++ ts_part st) = Ok (h, mb_part mb ++ ts_part st).
Proof.
  intros h mb st. assert (G : copy h (@ts_part nat st) = Ok (h, ts_part st)) by (destruct st; reflexivity).
  destruct mb as [|x mb]; [exact G|]. unfold mb_part. cbn [app copy].
  assert (E : forall l : list (Z * S0), copy h (map (fun ns => (fst ns, Scal (snd ns))) l ++ @ts_part nat st) = Ok (h, map (fun ns => (fst ns, Scal (snd ns))) l ++ ts_part st)).
  { induction l as [|y l IH]; cbn; [exact G|]. rewrite IH. reflexivity. }
  rewrite E. reflexivity.
Qed.

Lemma copy_form : forall arrs h vals mb st, at_ h arrs vals ->
  copy h (form arrs mb st) = Ok (h ++ vals, form (fresh h (map fst arrs) (length vals)) mb st).
Proof.
  intros arrs h vals mb st H. revert h H. revert vals. induction arrs as [|[n a] arrs IH]; intros vals h H.
  - inversion H; subst. unfold form, fresh. cbn [map app fst length seq combine]. rewrite copy_rest, app_nil_r. reflexivity.
  - inversion H as [|? v ? vals' E H']; subst. cbn in E. unfold form. cbn [map app fst snd copy]. rewrite E.
    fold (form arrs mb st). rewrite (IH vals' (h ++ [v])) by (apply at_app; exact H'). cbn [bind fst snd].
    rewrite <- app_assoc. cbn [app]. f_equal. f_equal. unfold fresh, form. rewrite app_length. cbn [length seq combine map fst snd app].
    rewrite Nat.add_1_r. reflexivity.
Qed.

Lemma freeze_rest : forall (h : list V) mb st, freeze h (@mb_part nat mb ++ ts_part st) = Ok (mb_part mb ++ ts_part st).
Proof.
  intros h mb st. assert (G : freeze h (@ts_part nat st) = Ok (ts_part st)) by (destruct st; reflexivity).
  destruct mb as [|x mb]; [exact G|]. unfold mb_part. cbn [app freeze bind].
  assert (E : forall l : list (Z * S0), freeze h (map (fun ns => (fst ns, Scal (snd ns))) l ++ @ts_part nat st) = Ok (map (fun ns => (fst ns, Scal (snd ns))) l ++ ts_part st)).
  { induction l as [|y l IH]; cbn; [exact G|]. rewrite IH. reflexivity. }
  rewrite E. reflexivity.
Qed.

Lemma freeze_form : forall arrs h vals mb st, at_ h arrs vals -> freeze h (form arrs mb st) = Ok (form (combine (map fst arrs) vals) mb st).
Proof.
  intros arrs h vals mb st H. induction H as [|[n a] v arrs vals E H IH].
  - apply freeze_rest.
  - unfold form. cbn [map app fst snd freeze]. cbn in E. rewrite E. cbn [bind]. fold (form arrs mb st). rewrite IH. reflexivity.
Qed.

Lemma thaw_rest : forall (h : list V) mb st, thaw h (@mb_part V mb ++ ts_part st) = (h, mb_part mb ++ ts_part st).
Proof.
  intros h mb st. assert (G : thaw h (@ts_part V st) = (h, ts_part st)) by (destruct st; reflexivity).
  destruct mb as [|x mb]; [exact G|]. unfold mb_part. cbn [app thaw].
  assert (E : forall l : list (Z * S0), thaw h (map (fun ns => (fst ns, Scal (snd ns))) l ++ @ts_part V st) = (h, map (fun ns => (fst ns, Scal (snd ns))) l ++ ts_part st)).
  { induction l as [|y l IH]; cbn; [exact G|]. rewrite IH. reflexivity. }
  rewrite E. reflexivity.
Qed.

Lemma thaw_form : forall (varrs : list (Z * V)) h mb st,
  thaw h (form varrs mb st) = (h ++ map snd varrs, form (fresh h (map fst varrs) (length varrs)) mb st).
Proof.
  induction varrs as [|[n v] varrs IH]; intros h mb st.
  - unfold form, fresh. cbn [map app length seq combine]. rewrite thaw_rest, app_nil_r. reflexivity.
  - unfold form. cbn [map app fst snd thaw]. fold (form varrs mb st). rewrite IH. cbn [fst snd]. rewrite <- app_assoc. cbn [app].
    f_equal. unfold fresh, form. rewrite app_length. cbn [length seq combine map fst snd app]. rewrite Nat.add_1_r. reflexivity.
Qed.

(** The fresh addresses hold the values. *)
Lemma fresh_at : forall vals names h, length names = length vals -> at_ (h ++ vals) (fresh h names (length vals)) vals.
Proof.
  induction vals as [|v vals IH]; intros [|n names] h L; try discriminate; [constructor|].
  unfold fresh. cbn [length seq combine]. constructor.
  - cbn. rewrite nth_error_app2 by lia. rewrite Nat.sub_diag. reflexivity.
  - specialize (IH names (h ++ [v])). unfold fresh in IH. rewrite app_length in IH. cbn [length] in IH. rewrite Nat.add_1_r in IH.
    rewrite <- app_assoc in IH. cbn [app] in IH. apply IH. cbn in L. congruence.
Qed.

Lemma fresh_names : forall (h : list V) names n, length names = n -> map fst (fresh h names n) = names.
Proof.
  intros h names n L. unfold fresh. revert n L. generalize (length h). induction names as [|x names IH]; intros k [|n] L; try discriminate; [reflexivity|].
  cbn. rewrite IH; [reflexivity|]. cbn in L. congruence.
Qed.

Lemma fresh_new : forall (h : list V) names n a, In a (map snd (fresh h names n)) -> (length h <= a)%nat.
Proof.
  intros h names n a I. apply in_map_iff in I. destruct I as [[x y] [<- I]]. apply in_combine_r in I. apply in_seq in I. cbn. lia.
Qed.

Lemma fresh_bound : forall (h : list V) names n a, In a (map snd (fresh h names n)) -> (a < length h + n)%nat.
Proof.
  intros h names n a I. apply in_map_iff in I. destruct I as [[x y] [<- I]]. apply in_combine_r in I. apply in_seq in I. cbn. lia.
Qed.

(** ** Building and unpacking *)

Lemma dset_new : forall (A : Type) k (v : A) d, ~ In k (map fst d) -> dset k v d = d ++ [(k, v)].
Proof.
  induction d as [|[k' v'] d IH]; intros H; cbn; [reflexivity|]. destruct (Z.eqb_spec k k') as [->|]; [exfalso; apply H; left; reflexivity|].
  rewrite IH; [reflexivity|]. intros I. apply H. right. exact I.
Qed.

Lemma names_arr : forall (A : Type) (arrs : list (Z * A)), map fst (map (fun na => (fst na, @Arr S0 T A (snd na))) arrs) = map fst arrs.
Proof. intros. rewrite map_map. apply map_ext. reflexivity. Qed.

Lemma names_scal : forall (A : Type) (mb : list (Z * S0)), map fst (map (fun ns => (fst ns, @Scal S0 T A (snd ns))) mb) = map fst mb.
Proof. intros. rewrite map_map. apply map_ext. reflexivity. Qed.

Lemma fold_scal : forall mb (d : dict (item nat)), NoDup (map fst d ++ map fst mb) ->
  fold_left (fun d kv => dset (fst kv) (Scal (snd kv)) d) mb d = d ++ map (fun ns => (fst ns, Scal (snd ns))) mb.
Proof.
  induction mb as [|[k s] mb IH]; intros d H; cbn [fold_left map]; [rewrite app_nil_r; reflexivity|]. cbn [fst snd map] in *.
  rewrite dset_new. 2: { apply NoDup_remove_2 in H. intros I. apply H. apply in_or_app. auto. }
  rewrite IH; [rewrite <- app_assoc; reflexivity|]. rewrite map_app. cbn [map fst]. rewrite <- app_assoc. exact H.
Qed.

Lemma nodup_app : forall (A : Type) (l l' : list A), NoDup (l ++ l') -> NoDup l /\ NoDup l' /\ forall x, In x l -> ~ In x l'.
Proof.
  induction l as [|a l IH]; intros l' H; cbn in *; [repeat split; [constructor|exact H|intros x []]|].
  inversion H as [|? ? N H']; subst. destruct (IH _ H') as [A1 [A2 A3]]. repeat split; [constructor; [|exact A1]|exact A2|].
  - intros I. apply N, in_or_app. auto.
  - intros x [->|I] J; [apply N, in_or_app; auto|exact (A3 x I J)].
Qed.

Lemma build_form : forall (h : list V) (c : container S0 T) vals, proper c -> at_ h (c_arrays c) vals ->
  build h c = Ok (h ++ vals, form (fresh h (map fst (c_arrays c)) (length vals)) (c_mb c) (c_stamp c)).
Proof.
  intros h c vals P H. unfold build.
  replace (map (fun na => (fst na, Arr (snd na))) (c_arrays c)) with (form (c_arrays c) [] None) by (unfold form; cbn; rewrite app_nil_r; reflexivity).
  rewrite (copy_form _ _ vals) by exact H. cbn [bind fst snd]. f_equal. f_equal.
  assert (Ln : length (map fst (c_arrays c)) = length vals) by (rewrite map_length; apply Forall2_length in H; exact H).
  set (arrs := fresh h (map fst (c_arrays c)) (length vals)). assert (N : map fst arrs = map fst (c_arrays c)) by (apply fresh_names; exact Ln).
  assert (D : NoDup (map fst arrs ++ map fst (c_mb c) ++ [mb_key; ts_key])) by (rewrite N; exact P). clearbody arrs.
  assert (Q : set_weathering (c_mb c) (form arrs [] None) = map (fun na => (fst na, Arr (snd na))) arrs ++ mb_part (c_mb c)).
  { unfold form. cbn. rewrite !app_nil_r. unfold set_weathering, mb_part. destruct (c_mb c) as [|x mb] eqn:E; [rewrite app_nil_r; reflexivity|].
    rewrite <- E in *. apply nodup_app in D. destruct D as [D1 [D2 D3]]. apply nodup_app in D2. destruct D2 as [D2 [D4 D5]].
    rewrite dset_new. 2: { rewrite names_arr. intros I. apply (D3 _ I), in_or_app. right. left. reflexivity. }
    rewrite fold_scal; [rewrite <- app_assoc; reflexivity|]. rewrite map_app, names_arr. cbn [map fst]. rewrite <- app_assoc. cbn [app].
    apply NoDup_Add with (a := mb_key) (l := map fst arrs ++ map fst (c_mb c)); [apply Add_app|]. split.
    - clear -D1 D2 D3. revert D3. induction D1 as [|a l N D1 IH]; intros D3; cbn; [exact D2|]. constructor.
      + intros I. apply in_app_or in I. destruct I as [I|I]; [exact (N I)|]. apply (D3 a (or_introl eq_refl)), in_or_app. auto.
      + apply IH. intros x I. apply D3. right. exact I.
    - intros I. apply in_app_or in I. destruct I as [I|I]; [apply (D3 _ I), in_or_app; right; left; reflexivity|apply (D5 _ I); left; reflexivity]. }
  rewrite Q. unfold form. destruct (c_stamp c) as [t|]; cbn [ts_part]; [|rewrite app_nil_r; reflexivity].
  rewrite dset_new; [rewrite <- app_assoc; reflexivity|]. rewrite map_app, names_arr. intros I. apply in_app_or in I.
  apply nodup_app in D. destruct D as [D1 [D2 D3]]. destruct I as [I|I]; [apply (D3 _ I), in_or_app; right; right; left; reflexivity|].
  unfold mb_part in I. apply nodup_app in D2. destruct D2 as [D2 [D4 D5]]. destruct (c_mb c) as [|x mb] eqn:E; [destruct I|]. rewrite <- E in *.
  cbn in I. destruct I as [I|I]; [discriminate|]. rewrite names_scal in I. apply (D5 _ I). right. left. reflexivity.
Qed.

Lemma dget_app : forall (A : Type) k (d d' : dict A), ~ In k (map fst d) -> dget k (d ++ d') = dget k d'.
Proof.
  induction d as [|[k' v] d IH]; intros d' H; cbn; [reflexivity|]. destruct (Z.eqb_spec k k') as [->|]; [exfalso; apply H; left; reflexivity|].
  apply IH. intros I. apply H. right. exact I.
Qed.

Lemma ddel_not : forall (A : Type) k (d : dict A), ~ In k (map fst d) -> ddel k d = d.
Proof.
  induction d as [|[k' v] d IH]; intros H; cbn; [reflexivity|]. destruct (Z.eqb_spec k k') as [->|]; [exfalso; apply H; left; reflexivity|].
  cbn. f_equal. apply IH. intros I. apply H. right. exact I.
Qed.

Lemma ddel_app : forall (A : Type) k (d d' : dict A), ddel k (d ++ d') = ddel k d ++ ddel k d'.
Proof. intros. apply filter_app. Qed.

Lemma pop_names_form : forall mb (d : dict (item nat)), NoDup (map fst mb) -> (forall k, In k (map fst mb) -> ~ In k (map fst d)) ->
  pop_names (map fst mb) (d ++ map (fun ns => (fst ns, Scal (snd ns))) mb) = Ok (mb, d).
Proof.
  induction mb as [|[k s] mb IH]; intros d N H; cbn [map pop_names fst snd]; [rewrite app_nil_r; reflexivity|].
  cbn [map fst] in *. inversion N as [|? ? N1 N2]; subst. unfold pop. rewrite dget_app by (apply H; left; reflexivity). cbn [dget].
  rewrite Z.eqb_refl. cbn [bind fst snd]. rewrite ddel_app. rewrite (ddel_not _ k d) by (apply H; left; reflexivity).
  unfold ddel at 1. cbn [filter fst]. rewrite Z.eqb_refl. cbn [negb]. fold (ddel k (map (fun ns => (fst ns, @Scal S0 T nat (snd ns))) mb)).
  rewrite ddel_not by (rewrite names_scal; exact N1). rewrite IH; [reflexivity|exact N2|]. intros j J. apply H. right. exact J.
Qed.

Lemma arrays_of_form : forall arrs : list (Z * nat), arrays_of (map (fun na => (fst na, @Arr S0 T nat (snd na))) arrs) = Ok arrs.
Proof. intros arrs. unfold arrays_of. induction arrs as [|[n a] arrs IH]; cbn in *; [reflexivity|]. rewrite IH. reflexivity. Qed.

Lemma unpack_form : forall (arrs : list (Z * nat)) mb st unc, distinct arrs mb -> unpack unc (form arrs mb st) = Ok (mkC arrs mb st unc).
Proof.
  intros arrs mb st unc D. unfold distinct in D. apply nodup_app in D. destruct D as [D1 [D2 D3]]. apply nodup_app in D2. destruct D2 as [D2 [D4 D5]].
  assert (Ta : ~ In ts_key (map fst arrs)) by (intros I; apply (D3 _ I), in_or_app; right; right; left; reflexivity).
  assert (Ma : ~ In mb_key (map fst arrs)) by (intros I; apply (D3 _ I), in_or_app; right; left; reflexivity).
  assert (Tm : ~ In ts_key (map fst (@mb_part nat mb))).
  { unfold mb_part. destruct mb as [|x mb0] eqn:E; [intros []|]. rewrite <- E in *. cbn [map fst]. intros [I|I]; [discriminate|].
    rewrite names_scal in I. apply (D5 _ I). right. left. reflexivity. }
  assert (Mm : ~ In mb_key (map fst mb)) by (intros I; apply (D5 _ I); left; reflexivity).
  unfold unpack, form.
  assert (G : dget ts_key (map (fun na => (fst na, Arr (snd na))) arrs ++ mb_part mb ++ ts_part st) = match st with Some t => Some (@Stamp S0 T nat t) | None => None end).
  { rewrite dget_app by (rewrite names_arr; exact Ta). rewrite dget_app by exact Tm. destruct st; reflexivity. }
  rewrite G. assert (Gd : ddel ts_key (map (fun na => (fst na, Arr (snd na))) arrs ++ mb_part mb ++ @ts_part nat st) = map (fun na => (fst na, Arr (snd na))) arrs ++ mb_part mb).
  { rewrite !ddel_app. rewrite (ddel_not _ _ (map _ arrs)) by (rewrite names_arr; exact Ta). rewrite (ddel_not _ _ (mb_part mb)) by exact Tm.
    destruct st; cbn; rewrite app_nil_r; reflexivity. }
  rewrite Gd.
  assert (W : get_weathering (map (fun na => (fst na, Arr (snd na))) arrs ++ mb_part mb) = Ok (mb, map (fun na => (fst na, Arr (snd na))) arrs)).
  { unfold get_weathering. rewrite dget_app by (rewrite names_arr; exact Ma). destruct mb as [|x mb0] eqn:E; [cbn; rewrite app_nil_r; reflexivity|].
    rewrite <- E in *. unfold mb_part. rewrite E. rewrite <- E. cbn [dget]. rewrite Z.eqb_refl. rewrite ddel_app.
    rewrite (ddel_not _ _ (map _ arrs)) by (rewrite names_arr; exact Ma). unfold ddel. cbn [filter fst]. rewrite Z.eqb_refl. cbn [negb].
    fold (ddel mb_key (map (fun ns => (fst ns, @Scal S0 T nat (snd ns))) mb)). rewrite ddel_not by (rewrite names_scal; exact Mm).
    apply pop_names_form; [exact D2|]. intros k I J. rewrite names_arr in J. apply (D3 k J), in_or_app. left. exact I. }
  destruct st as [t|]; cbn [bind]; rewrite W; cbn [bind fst snd]; rewrite arrays_of_form; reflexivity.
Qed.

(** ** Files *)
Lemma key_eqb_iff : forall a b, key_eqb a b = true <-> a = b.
Proof.
  intros [a x] [b y]. unfold key_eqb. cbn. rewrite andb_true_iff, Z.eqb_eq, Bool.eqb_true_iff. split; [intros [-> ->]; reflexivity|intros E; injection E; auto].
Qed.

Lemma read_write : forall k k' (f : dict (item V)) dir, read k (write k' f dir) = if key_eqb k k' then Some f else read k dir.
Proof.
  intros k k' f dir. unfold read, write. cbn. destruct (key_eqb k k') eqn:E; [reflexivity|].
  assert (G : find (fun e : Z * bool * dict (item V) => key_eqb k (fst e)) (filter (fun e => negb (key_eqb k' (fst e))) dir) = find (fun e => key_eqb k (fst e)) dir).
  { induction dir as [|x dir IH]; cbn; [reflexivity|]. destruct (key_eqb k' (fst x)) eqn:E'; cbn.
    - destruct (key_eqb k (fst x)) eqn:E2; [|exact IH]. apply key_eqb_iff in E', E2. subst. rewrite (proj2 (key_eqb_iff _ _) eq_refl) in E. discriminate.
    - destruct (key_eqb k (fst x)); [reflexivity|exact IH]. }
  rewrite G. reflexivity.
Qed.

(** ** The invariant *)

(** The dictionary [f] of a file holds the shot. *)
Definition stored (x : shot) (f : dict (item V)) : Prop :=
  exists varrs, f = form varrs (sh_mb x) (sh_stamp x) /\ sh_arrays x = map (fun nv => (fst nv, Some (snd nv))) varrs /\ distinct varrs (sh_mb x).
(** The dictionary [d] in memory holds the shot in arrays that are not the user's. *)
Definition held (h : list V) (us : list nat) (x : shot) (d : dict (item nat)) : Prop :=
  exists arrs vals, d = form arrs (sh_mb x) (sh_stamp x) /\ at_ h arrs vals /\
    sh_arrays x = map (fun nv => (fst nv, Some (snd nv))) (combine (map fst arrs) vals) /\ distinct arrs (sh_mb x) /\
    forall a, In a (map snd arrs) -> ~ In a us.

Definition opt_rel {A B} (R : A -> B -> Prop) (a : option A) (b : option B) : Prop :=
  match a, b with None, None => True | Some x, Some y => R x y | _, _ => False end.

Definition inv (w : world V S0 T) (m : memory V S0 T) : Prop :=
  (forall a, In a (w_user w) -> (a < length (w_heap w))%nat) /\ c_enabled (w_cache w) = true /\
  (exists dir, c_dir (w_cache w) = Some dir /\
     forall k, match m k with
               | None => read (k, false) dir = None /\ read (k, true) dir = None
               | Some (x, y) => sh_unc x = false /\ (forall z, y = Some z -> sh_unc z = true) /\
                    opt_rel stored (Some x) (read (k, false) dir) /\ opt_rel stored y (read (k, true) dir)
               end) /\
  match c_recent (w_cache w) with
  | None => True
  | Some (k, (d, u)) => exists x y, m k = Some (x, y) /\ held (w_heap w) (w_user w) x d /\ opt_rel (held (w_heap w) (w_user w)) y u
  end.

Lemma held_mono : forall h us h' us' x d, held h us x d -> (forall a v, ~ In a us -> nth_error h a = Some v -> nth_error h' a = Some v) ->
  (forall a, In a us' -> In a us \/ (length h <= a)%nat) -> held h' us' x d.
Proof.
  intros h us h' us' x d [arrs [vals [E [A [B [D N]]]]]] H1 H2. exists arrs, vals. split; [exact E|].
  split. { unfold at_ in *. clear E B D. induction A as [|na v arrs vals A1 A IH]; [constructor|]. constructor.
    - apply H1; [apply N; left; reflexivity|exact A1].
    - apply IH. intros a I. apply N. right. exact I. }
  split; [exact B|]. split; [exact D|]. intros a I J. destruct (H2 a J) as [K|K]; [exact (N a I K)|].
  apply in_map_iff in I. destruct I as [na [<- I]]. clear -A I K. unfold at_ in A. induction A as [|na' v arrs vals A1 A IH]; [destruct I|].
  destruct I as [->|I]; [|auto]. assert (snd na < length h)%nat by (apply nth_error_Some; congruence). lia.
Qed.

Lemma shot_at : forall h (c : container S0 T) vals, at_ h (c_arrays c) vals ->
  sh_arrays (shot_of h c) = map (fun nv => (fst nv, Some (snd nv))) (combine (map fst (c_arrays c)) vals).
Proof.
  intros h c vals H. unfold shot_of. cbn [sh_arrays]. unfold at_ in H. induction H as [|na v arrs vals E H IH]; cbn; [reflexivity|].
  rewrite E. f_equal. exact IH.
Qed.

Lemma at_exists : forall (h : list V) (arrs : list (Z * nat)), (forall a, In a (map snd arrs) -> (a < length h)%nat) -> exists vals, at_ h arrs vals.
Proof.
  intros h. induction arrs as [|na arrs IH]; intros H; [exists []; constructor|]. destruct IH as [vals A]; [intros a I; apply H; right; exact I|].
  destruct (nth_error h (snd na)) as [v|] eqn:E; [exists (v :: vals); constructor; assumption|].
  apply nth_error_None in E. specialize (H (snd na) (or_introl eq_refl)). lia.
Qed.

(** Saving one container. *)
Lemma save_one_ok : forall k c h ca dir, proper c -> (forall a, In a (refs c) -> (a < length h)%nat) -> c_enabled ca = true -> c_dir ca = Some dir ->
  (c_unc c = true -> exists d u, c_recent ca = Some (k, (d, u))) ->
  exists new d f, save_one k c (h, ca) = Ok (h ++ new, mkCache
      (if c_unc c then match c_recent ca with Some (_, (d0, _)) => Some (k, (d0, Some d)) | None => None end else Some (k, (d, None)))
      (Some (write (k, c_unc c) f dir)) true) /\
    stored (shot_of h c) f /\ forall us, (forall a, In a us -> (a < length h)%nat) -> held (h ++ new) us (shot_of h c) d.
Proof.
  intros k c h ca dir P R E D U. destruct (at_exists h (c_arrays c)) as [vals A]; [exact R|].
  unfold save_one. cbn [fst snd]. rewrite (build_form h c vals P A). cbn [bind fst snd]. rewrite E, D.
  assert (Ln : length (map fst (c_arrays c)) = length vals) by (rewrite map_length; apply Forall2_length in A; exact A).
  assert (F : at_ (h ++ vals) (fresh h (map fst (c_arrays c)) (length vals)) vals) by (apply fresh_at; exact Ln).
  assert (N : map fst (fresh h (map fst (c_arrays c)) (length vals)) = map fst (c_arrays c)) by (apply fresh_names; exact Ln).
  rewrite (freeze_form _ _ _ _ _ F), N. exists vals, (form (fresh h (map fst (c_arrays c)) (length vals)) (c_mb c) (c_stamp c)), (form (combine (map fst (c_arrays c)) vals) (c_mb c) (c_stamp c)).
  split. { destruct (c_unc c) eqn:Q; cbn [bind]; [|reflexivity]. destruct (U eq_refl) as [d [u ->]]. rewrite Z.eqb_refl. reflexivity. }
  split. { exists (combine (map fst (c_arrays c)) vals). split; [reflexivity|]. split; [apply shot_at; exact A|].
    unfold distinct. replace (map fst (combine (map fst (c_arrays c)) vals)) with (map fst (c_arrays c)); [exact P|].
    clear -Ln. revert vals Ln. generalize (map fst (c_arrays c)). induction l as [|a l IH]; intros [|v vals] L; try discriminate; [reflexivity|]. cbn. f_equal. apply IH. cbn in L. congruence. }
  intros us Hus. eexists _, vals. split; [reflexivity|]. split; [exact F|]. split; [rewrite N; apply shot_at; exact A|].
  split; [unfold distinct; rewrite N; exact P|]. intros a I J. apply fresh_new in I. specialize (Hus a J). lia.
Qed.

Lemma shot_mono : forall (h h' : list V) (c : container S0 T), (forall a, In a (refs c) -> nth_error h' a = nth_error h a) -> shot_of h' c = shot_of h c.
Proof.
  intros h h' c H. unfold shot_of. f_equal. apply map_ext_in. intros na I. f_equal. apply H. apply in_map. exact I.
Qed.

Lemma save_ok : forall w m k p, inv w m -> savable w m k p -> exists h c, save k p (w_heap w, w_cache w) = Ok (h, c) /\
  inv (mkWorld h (w_user w) c) (remember k (shots_of (w_heap w) p) m).
Proof.
  intros w m k [c u] [I1 [I2 [[dir [I3 I4]] I5]]] [R [P [Q [Hu Hd]]]]. cbn [fst snd] in *. unfold pair_refs in R. cbn [fst snd] in R.
  set (h := w_heap w) in *. set (ca := w_cache w) in *.
  assert (R1 : forall a, In a (refs c) -> (a < length h)%nat) by (intros a I; apply I1, R, in_or_app; auto).
  destruct (save_one_ok k c h ca dir P R1 I2 I3) as [new [d [f [E [St Hl]]]]]; [congruence|]. rewrite Q in E.
  unfold save. cbn [fst snd]. rewrite E. cbn [bind]. clear E.
  destruct u as [u|].
  - destruct (Hu u eq_refl) as [Pu Qu].
    assert (R2 : forall a, In a (refs u) -> (a < length (h ++ new))%nat) by (intros a I; rewrite app_length; specialize (I1 a (R a (in_or_app _ _ _ (or_intror I)))); lia).
    destruct (save_one_ok k u (h ++ new) (mkCache (Some (k, (d, None))) (Some (write (k, false) f dir)) true) (write (k, false) f dir) Pu R2 eq_refl eq_refl) as [new' [d' [f' [E' [St' Hl']]]]]; [intros _; eexists _, _; reflexivity|].
    rewrite Qu in E'. cbn [c_recent] in E'. rewrite E'. eexists _, _. split; [reflexivity|].
    assert (Su : shot_of (h ++ new) u = shot_of h u).
    { apply shot_mono. intros a I. apply nth_error_app1. apply I1, R, in_or_app. auto. }
    rewrite Su in St', Hl'.
    split; [|split; [reflexivity|split]]; cbn [w_user w_heap w_cache c_dir c_recent c_enabled].
    + intros a I. rewrite !app_length. specialize (I1 a I). lia.
    + eexists. split; [reflexivity|]. intros j. unfold remember, shots_of. cbn [fst snd]. rewrite !read_write. unfold key_eqb. cbn [fst snd Bool.eqb].
      rewrite !andb_true_r, !andb_false_r. destruct (j =? k) eqn:J.
      * split; [exact Q|]. split; [intros z Ez; injection Ez as <-; exact Qu|]. split; assumption.
      * apply I4.
    + eexists _, _. split; [unfold remember; rewrite Z.eqb_refl; reflexivity|]. split.
      * apply (held_mono (h ++ new) (w_user w)); [apply Hl; exact I1| |auto]. intros a v _ H. rewrite nth_error_app1; [exact H|]. apply nth_error_Some. congruence.
      * cbn. apply Hl'. intros a I. rewrite app_length. specialize (I1 a I). lia.
  - eexists _, _. split; [reflexivity|]. split; [|split; [reflexivity|split]]; cbn [w_user w_heap w_cache c_dir c_recent c_enabled].
    + intros a I. rewrite !app_length. specialize (I1 a I). lia.
    + eexists. split; [reflexivity|]. intros j. unfold remember, shots_of. cbn [fst snd]. rewrite !read_write. unfold key_eqb. cbn [fst snd Bool.eqb].
      rewrite !andb_true_r, !andb_false_r. destruct (j =? k) eqn:J; [|apply I4]. apply Z.eqb_eq in J. subst j.
      split; [exact Q|]. split; [discriminate|]. split; [exact St|]. specialize (I4 k). destruct (m k) as [[x [y|]]|] eqn:M.
      * exfalso. apply (Hd x y eq_refl). reflexivity.
      * apply I4.
      * cbn. rewrite (proj2 I4). exact I.
    + eexists _, _. split; [unfold remember; rewrite Z.eqb_refl; reflexivity|]. split; [apply Hl; exact I1|exact I].
Qed.

(** Loading. *)
Lemma shot_fresh : forall h (x : shot) vals names unc, length names = length vals -> sh_unc x = unc ->
  sh_arrays x = map (fun nv => (fst nv, Some (snd nv))) (combine names vals) ->
  shot_of (h ++ vals) (mkC (fresh h names (length vals)) (sh_mb x) (sh_stamp x) unc) = x.
Proof.
  intros h [sa sm ss su] vals names unc L <- E. unfold shot_of. cbn in *. f_equal. rewrite E. clear E sa.
  pose proof (fresh_at vals names h L) as F. pose proof (fresh_names h names _ L) as N. unfold at_ in F.
  transitivity (map (fun nv : Z * V => (fst nv, Some (snd nv))) (combine (map fst (fresh h names (length vals))) vals)); [|rewrite N; reflexivity].
  clear N L. revert F. generalize (h ++ vals) as H. generalize (fresh h names (length vals)) as arrs. intros arrs H F.
  induction F as [|na v arrs vs E F IH]; cbn; [reflexivity|]. rewrite E. f_equal. exact IH.
Qed.

Lemma unpack_held : forall h us x d, held h us x d -> exists vals arrs', copy h d = Ok (h ++ vals, form arrs' (sh_mb x) (sh_stamp x)) /\
  unpack (sh_unc x) (form arrs' (sh_mb x) (sh_stamp x)) = Ok (mkC arrs' (sh_mb x) (sh_stamp x) (sh_unc x)) /\
  shot_of (h ++ vals) (mkC arrs' (sh_mb x) (sh_stamp x) (sh_unc x)) = x /\ (forall a, In a (map snd arrs') -> (length h <= a < length (h ++ vals))%nat).
Proof.
  intros h us x d [arrs [vals [-> [A [B [D _]]]]]]. assert (L : length (map fst arrs) = length vals) by (rewrite map_length; eapply Forall2_length; exact A).
  exists vals, (fresh h (map fst arrs) (length vals)). split; [apply copy_form; exact A|].
  split; [apply unpack_form; unfold distinct; rewrite fresh_names by exact L; exact D|].
  split; [apply shot_fresh; auto|]. intros a I. split; [eapply fresh_new; exact I|]. rewrite app_length. eapply fresh_bound. exact I.
Qed.

Lemma unpack_stored : forall h x f, stored x f -> exists vals arrs', thaw h f = (h ++ vals, form arrs' (sh_mb x) (sh_stamp x)) /\
  unpack (sh_unc x) (form arrs' (sh_mb x) (sh_stamp x)) = Ok (mkC arrs' (sh_mb x) (sh_stamp x) (sh_unc x)) /\
  shot_of (h ++ vals) (mkC arrs' (sh_mb x) (sh_stamp x) (sh_unc x)) = x /\ (forall a, In a (map snd arrs') -> (length h <= a < length (h ++ vals))%nat).
Proof.
  intros h x f [varrs [-> [B D]]]. exists (map snd varrs), (fresh h (map fst varrs) (length varrs)). split; [apply thaw_form|].
  assert (L : length (map fst varrs) = length varrs) by apply map_length.
  split; [apply unpack_form; unfold distinct; rewrite fresh_names by exact L; exact D|].
  assert (C : combine (map fst varrs) (map snd varrs) = varrs) by (clear; induction varrs as [|[a b] l IH]; cbn; congruence).
  split. { pose proof (shot_fresh h x (map snd varrs) (map fst varrs) (sh_unc x)) as G. rewrite !map_length, C in G. apply G; auto. }
  intros a I. split; [eapply fresh_new; exact I|]. rewrite app_length, map_length. eapply fresh_bound. exact I.
Qed.

Lemma load_ok : forall w m k, inv w m -> match m k with
  | None => load k (w_heap w, w_cache w) = Raise CacheErr
  | Some x => exists new p, load k (w_heap w, w_cache w) = Ok (w_heap w ++ new, p) /\ shots_of (w_heap w ++ new) p = x /\
      forall a, In a (pair_refs p) -> (length (w_heap w) <= a < length (w_heap w ++ new))%nat
  end.
Proof.
  intros w m k [I1 [I2 [[dir [I3 I4]] I5]]]. set (h := w_heap w) in *. set (ca := w_cache w) in *.
  assert (Join : forall (x : shot) (y : option shot) h1 d u, sh_unc x = false -> (forall z, y = Some z -> sh_unc z = true) ->
    (exists new arrs, h1 = h ++ new /\ d = form arrs (sh_mb x) (sh_stamp x) /\
       unpack (sh_unc x) d = Ok (mkC arrs (sh_mb x) (sh_stamp x) (sh_unc x)) /\
       shot_of h1 (mkC arrs (sh_mb x) (sh_stamp x) (sh_unc x)) = x /\ (forall a, In a (map snd arrs) -> (length h <= a < length h1)%nat)) ->
    forall h2, match y, u with
      | None, None => h2 = h1
      | Some z, Some d' => exists new arrs, h2 = h1 ++ new /\ d' = form arrs (sh_mb z) (sh_stamp z) /\
          unpack (sh_unc z) d' = Ok (mkC arrs (sh_mb z) (sh_stamp z) (sh_unc z)) /\
          shot_of h2 (mkC arrs (sh_mb z) (sh_stamp z) (sh_unc z)) = z /\ (forall a, In a (map snd arrs) -> (length h1 <= a < length h2)%nat)
      | _, _ => False end ->
    fetch k (h, ca) = Ok (h2, (d, u)) ->
    exists new p, load k (h, ca) = Ok (h ++ new, p) /\ shots_of (h ++ new) p = (x, y) /\
      forall a, In a (pair_refs p) -> (length h <= a < length (h ++ new))%nat).
  { intros x y h1 d u Ux Uy [new [arrs [-> [Ed [Up [Sx Bx]]]]]] h2 Y E. unfold load. rewrite E. cbn [bind fst snd]. rewrite Ux in *. rewrite Up. cbn [bind].
    destruct y as [z|], u as [d'|]; try contradiction.
    - destruct Y as [new' [arrs' [-> [Ed' [Up' [Sy By]]]]]]. rewrite (Uy z eq_refl) in *. rewrite Up'. cbn [bind].
      exists (new ++ new'), (mkC arrs (sh_mb x) (sh_stamp x) false, Some (mkC arrs' (sh_mb z) (sh_stamp z) true)).
      rewrite app_assoc. split; [reflexivity|]. split.
      + unfold shots_of. cbn [fst snd]. rewrite Sy. f_equal. etransitivity; [|exact Sx]. apply shot_mono. intros a I. apply nth_error_app1. apply Bx. exact I.
      + unfold pair_refs, refs. cbn [fst snd c_arrays]. intros a I. apply in_app_or in I. destruct I as [I|I]; [apply Bx in I|apply By in I]; rewrite !app_length in *; lia.
    - subst h2. exists new, (mkC arrs (sh_mb x) (sh_stamp x) false, None). split; [reflexivity|]. split.
      + unfold shots_of. cbn [fst snd]. rewrite Sx. reflexivity.
      + unfold pair_refs, refs. cbn [fst snd c_arrays]. intros a I. rewrite app_nil_r in I. apply Bx. exact I. }
  set (disk := match read (k, false) dir with
        | None => Raise CacheErr
        | Some d => let x := thaw h d in
            match read (k, true) dir with None => Ok (fst x, (snd x, None)) | Some u => let y := thaw (fst x) u in Ok (fst y, (snd x, Some (snd y))) end end).
  assert (Disk : fetch k (h, ca) = disk -> match m k with
    | None => load k (h, ca) = Raise CacheErr
    | Some x => exists new p, load k (h, ca) = Ok (h ++ new, p) /\ shots_of (h ++ new) p = x /\ forall a, In a (pair_refs p) -> (length h <= a < length (h ++ new))%nat end).
  { intros E. specialize (I4 k). destruct (m k) as [[x y]|].
    - destruct I4 as [Ux [Uy [Sx Sy]]]. unfold disk in E. destruct (read (k, false) dir) as [f|] eqn:Rf; [|contradiction]. cbn in Sx.
      destruct (unpack_stored h x f Sx) as [vals [arrs [Th [Up [Sh Bd]]]]]. rewrite Th in E. cbn [fst snd] in E.
      destruct (read (k, true) dir) as [g|] eqn:Rg.
      + destruct y as [z|]; [|contradiction]. cbn in Sy. destruct (unpack_stored (h ++ vals) z g Sy) as [vals' [arrs' [Th' [Up' [Sh' Bd']]]]]. rewrite Th' in E. cbn [fst snd] in E.
        apply (Join x (Some z) (h ++ vals) (form arrs (sh_mb x) (sh_stamp x)) (Some (form arrs' (sh_mb z) (sh_stamp z))) Ux Uy) with (h2 := (h ++ vals) ++ vals'); [eauto 10|eauto 10|exact E].
      + destruct y as [z|]; [contradiction|]. eapply (Join x None (h ++ vals) _ None Ux Uy); [|reflexivity|exact E]. eauto 10.
    - unfold disk in E. rewrite (proj1 I4) in E. unfold load. rewrite E. reflexivity. }
  destruct (c_recent ca) as [[k' [d u]]|] eqn:Rc.
  - destruct (k =? k') eqn:K.
    + apply Z.eqb_eq in K. subst k'. destruct I5 as [x [y [M [Hx Hy]]]]. specialize (I4 k). rewrite M in *. destruct I4 as [Ux [Uy _]].
      destruct (unpack_held h _ x d Hx) as [vals [arrs [Cp [Up [Sh Bd]]]]].
      assert (E : fetch k (h, ca) = (do x <- copy h d; match u with None => Ok (fst x, (snd x, None)) | Some u => do y <- copy (fst x) u; Ok (fst y, (snd x, Some (snd y))) end)).
      { unfold fetch. cbn [fst snd]. rewrite Rc, Z.eqb_refl. reflexivity. }
      rewrite Cp in E. cbn [bind fst snd] in E. destruct u as [u|].
      * destruct y as [z|]; [|contradiction]. cbn in Hy.
        assert (Hy' : held (h ++ vals) (w_user w) z u).
        { apply (held_mono h (w_user w)); [exact Hy| |auto]. intros a v _ H. rewrite nth_error_app1; [exact H|]. apply nth_error_Some. congruence. }
        destruct (unpack_held (h ++ vals) _ z u Hy') as [vals' [arrs' [Cp' [Up' [Sh' Bd']]]]]. rewrite Cp' in E. cbn [bind fst snd] in E.
        apply (Join x (Some z) (h ++ vals) (form arrs (sh_mb x) (sh_stamp x)) (Some (form arrs' (sh_mb z) (sh_stamp z))) Ux Uy) with (h2 := (h ++ vals) ++ vals'); [eauto 10|eauto 10|exact E].
      * destruct y as [z|]; [contradiction|]. eapply (Join x None (h ++ vals) _ None Ux Uy); [|reflexivity|exact E]. eauto 10.
    + apply Disk. unfold fetch. cbn [fst snd]. rewrite Rc, K, I3. reflexivity.
  - apply Disk. unfold fetch. cbn [fst snd]. rewrite Rc, I3. reflexivity.
Qed.

Lemma opt_rel_impl : forall (A B : Type) (R R' : A -> B -> Prop) a b, (forall x y, R x y -> R' x y) -> opt_rel R a b -> opt_rel R' a b.
Proof. intros A B R R' [a|] [b|] H; cbn; auto. Qed.

Lemma recent_mono : forall (w w' : world V S0 T) (m : memory V S0 T), w_cache w' = w_cache w ->
  (forall a v, ~ In a (w_user w) -> nth_error (w_heap w) a = Some v -> nth_error (w_heap w') a = Some v) ->
  (forall a, In a (w_user w') -> In a (w_user w) \/ (length (w_heap w) <= a)%nat) ->
  (forall a, In a (w_user w') -> (a < length (w_heap w'))%nat) -> inv w m -> inv w' m.
Proof.
  intros w w' m E H1 H2 H3 [I1 [I2 [I3 I4]]]. split; [exact H3|]. rewrite E. split; [exact I2|]. split; [exact I3|].
  destruct (c_recent (w_cache w)) as [[k [d u]]|]; [|exact I]. destruct I4 as [x [y [M [Hx Hy]]]]. exists x, y. split; [exact M|]. split.
  - eapply held_mono; eauto.
  - eapply opt_rel_impl; [|exact Hy]. intros a b Hab. eapply held_mono; eauto.
Qed.

Lemma reach_inv : forall w m, reach w m -> inv w m.
Proof.
  intros w m R. induction R as [|w m v R IH|w m a v R IH U|w m k p h c R IH S E|w m k h p R IH E|w m R IH].
  - split; [intros a []|]. split; [reflexivity|]. split; [|exact I]. exists []. split; [reflexivity|]. intros k. split; reflexivity.
  - apply (recent_mono w); cbn; auto.
    + intros a x _ H. rewrite nth_error_app1; [exact H|]. apply nth_error_Some. congruence.
    + intros a [<-|J]; auto.
    + intros a [<-|J]; rewrite app_length; cbn; [lia|]. apply (proj1 IH) in J. lia.
  - apply (recent_mono w); cbn; auto.
    + intros b x N H. rewrite nth_error_set_nth_ne; [exact H|]. intros ->. exact (N U).
    + intros b J. rewrite set_nth_length. apply (proj1 IH). exact J.
  - destruct (save_ok w m k p IH S) as [h' [c' [E' I']]]. rewrite E in E'. injection E' as <- <-. exact I'.
  - pose proof (load_ok w m k IH) as L. destruct (m k) as [x|]; [|congruence]. destruct L as [new [p' [E' [_ B]]]]. rewrite E in E'. injection E' as -> ->.
    apply (recent_mono w); cbn; auto.
    + intros b x' _ H. rewrite nth_error_app1; [exact H|]. apply nth_error_Some. congruence.
    + intros b J. apply in_app_or in J. destruct J as [J|J]; [right; apply B; exact J|left; exact J].
    + intros b J. apply in_app_or in J. destruct J as [J|J]; [apply B; exact J|]. apply (proj1 IH) in J. rewrite app_length. lia.
  - destruct IH as [I1 [I2 _]]. split; [exact I1|]. split; [exact I2|]. split; [|exact I]. exists []. split; [reflexivity|]. intros k. split; reflexivity.
Qed.
End P.
