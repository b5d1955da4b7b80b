(** * C39: the cache returns what was saved *)
From Verif Require Import Py PyLemmas CacheModel CacheSpec CacheProofs.
Open Scope Z_scope.

(** After any history of making, changing, saving and loading arrays and of rewinding, loading
    step [k] gives exactly what the containers held when step [k] was last saved, in new arrays;
    a step that was not saved since the last rewind raises CacheError. *)
Theorem C39_load_partial : forall (V S T : Type) (w : world V S T) m k, reach w m ->
  match m k with
  | None => load k (w_heap w, w_cache w) = Raise CacheErr
  | Some x => exists h p, load k (w_heap w, w_cache w) = Ok (h, p) /\ shots_of h p = x /\
      (forall a, (a < length (w_heap w))%nat -> nth_error h a = nth_error (w_heap w) a) /\
      forall a, In a (pair_refs p) -> ~ In a (w_user w) /\ nth_error (w_heap w) a = None
  end.
Proof.
  intros V S T w m k R. pose proof (reach_inv w m R) as I. pose proof (load_ok w m k I) as L. destruct (m k) as [x|]; [|exact L].
  destruct L as [new [p [E [Sh B]]]]. exists (w_heap w ++ new), p. split; [exact E|]. split; [exact Sh|].
  split; [intros a H; apply nth_error_app1; exact H|]. intros a H. specialize (B a H). split.
  - intros U. apply (proj1 I) in U. lia.
  - apply nth_error_None. lia.
Qed.
Print Assumptions C39_load_partial.

(** Saving a pair succeeds. *)
Theorem C39_save_partial : forall (V S T : Type) (w : world V S T) m k p, reach w m -> savable w m k p ->
  exists h c, save k p (w_heap w, w_cache w) = Ok (h, c).
Proof. intros V S T w m k p R H. destruct (save_ok w m k p (reach_inv w m R) H) as [h [c [E _]]]. exists h, c. exact E. Qed.
Print Assumptions C39_save_partial.

(** ** A concrete history: two arrays; step 3 saved with both containers; one array is changed;
    step 4 saved; the array is changed again. *)
Definition ca : container Z Z := mkC [(1, 0%nat)] [(7, 70); (8, 80)] (Some 1000) false.
Definition cu : container Z Z := mkC [(1, 1%nat); (2, 0%nat)] [] None true.
Lemma ca_proper : proper ca. Proof. unfold proper. cbn. repeat constructor; cbn; unfold mb_key, ts_key; lia. Qed.
Lemma cu_proper : proper cu. Proof. unfold proper. cbn. repeat constructor; cbn; unfold mb_key, ts_key; lia. Qed.
Lemma pair_savable : forall (w : world Z Z Z) m k, w_user w = [1%nat; 0%nat] -> savable w m k (ca, Some cu).
Proof.
  intros w m k U. split; [rewrite U; cbn; intuition|]. split; [apply ca_proper|]. split; [reflexivity|].
  split; [intros u E; injection E as <-; split; [apply cu_proper|reflexivity]|]. intros. discriminate.
Qed.
Definition w2 : world Z Z Z := mkWorld [50; 60] [1%nat; 0%nat] (new_cache (Some []) true).
Definition w0 : world Z Z Z := mkWorld [] [] (new_cache (Some []) true).
Definition w1 : world Z Z Z := mkWorld [50] [0%nat] (new_cache (Some []) true).
Lemma w2_reach : reach w2 (fun _ => None).
Proof. exact (r_new w1 _ 60 (r_new w0 _ 50 r_start)). Qed.
Definition after (k : Z) (w : world Z Z Z) : world Z Z Z :=
  match save k (ca, Some cu) (w_heap w, w_cache w) with Ok x => mkWorld (fst x) (w_user w) (snd x) | Raise _ => w end.
Definition change (a : nat) (v : Z) (w : world Z Z Z) : world Z Z Z := mkWorld (set_nth a v (w_heap w)) (w_user w) (w_cache w).
Definition w3 : world Z Z Z := Eval vm_compute in after 3 w2.
Definition w4 : world Z Z Z := Eval vm_compute in change 0 52 w3.
Definition w5 : world Z Z Z := Eval vm_compute in after 4 w4.
Definition w9 : world Z Z Z := Eval vm_compute in change 0 53 w5.
Lemma w3_reach : reach w3 (remember 3 (shots_of (w_heap w2) (ca, Some cu)) (fun _ => None)).
Proof. apply (r_save w2 _ 3 (ca, Some cu) (w_heap w3) (w_cache w3)); [apply w2_reach|apply pair_savable; reflexivity|vm_compute; reflexivity]. Qed.
Lemma w4_reach : reach w4 (remember 3 (shots_of (w_heap w2) (ca, Some cu)) (fun _ => None)).
Proof. apply (r_change w3 _ 0 52); [apply w3_reach|right; left; reflexivity]. Qed.
Lemma w5_reach : reach w5 (remember 4 (shots_of (w_heap w4) (ca, Some cu)) (remember 3 (shots_of (w_heap w2) (ca, Some cu)) (fun _ => None))).
Proof. apply (r_save w4 _ 4 (ca, Some cu) (w_heap w5) (w_cache w5)); [apply w4_reach|apply pair_savable; reflexivity|vm_compute; reflexivity]. Qed.
Lemma w9_reach : reach w9 (remember 4 (shots_of (w_heap w4) (ca, Some cu)) (remember 3 (shots_of (w_heap w2) (ca, Some cu)) (fun _ => None))).
Proof. apply (r_change w5 _ 0 53); [apply w5_reach|right; left; reflexivity]. Qed.
Example C39_load_meets : exists m, reach w9 m /\
  m 3 = Some (mkShot [(1, Some 50)] [(7, 70); (8, 80)] (Some 1000) false, Some (mkShot [(1, Some 60); (2, Some 50)] [] None true)) /\
  m 4 = Some (mkShot [(1, Some 52)] [(7, 70); (8, 80)] (Some 1000) false, Some (mkShot [(1, Some 60); (2, Some 52)] [] None true)) /\
  m 5 = None /\
  load 5 (w_heap w9, w_cache w9) = Raise CacheErr.
Proof.
  eexists. split; [apply w9_reach|]. repeat split.
Qed.
Example C39_save_meets : exists m, reach w2 m /\ savable w2 m 3 (ca, Some cu).
Proof.
  eexists. split; [apply w2_reach|apply pair_savable; reflexivity].
Qed.

(** ** The conditions are needed *)

(** A step saved again without the uncertain container: the old uncertain data come back (once
    another step has been saved). *)
Theorem C39_stale_refuted : exists (h : list Z) (c : container Z Z) u h' c' h2 p, c_unc c = false /\
  (do x <- save 3 (c, Some u) (h, new_cache (Some []) true); do x <- save 3 (c, None) x; save 4 (c, None) x) = Ok (h', c') /\
  load 3 (h', c') = Ok (h2, p) /\ snd p <> None.
Proof.
  exists [50; 60], ca, cu.
  let r := eval vm_compute in (do x <- save 3 (ca, Some cu) ([50; 60], new_cache (Some []) true); do x <- save 3 (ca, None) x; save 4 (ca, None) x) in
  match r with Ok (?h, ?c) => exists h, c;
    let l := eval vm_compute in (load 3 (h, c)) in match l with Ok (?h2, ?p) => exists h2, p end end.
  split; [reflexivity|]. split; [vm_compute; reflexivity|]. split; [vm_compute; reflexivity|]. discriminate.
Qed.
Print Assumptions C39_stale_refuted.

(** A step saved while the cache is disabled is forgotten when the next is saved. *)
Theorem C39_disabled_refuted : exists (h : list Z) (c : container Z Z) h' c',
  (do x <- save 3 (c, None) (h, new_cache (Some []) false); save 4 (c, None) x) = Ok (h', c') /\ load 3 (h', c') = Raise CacheErr.
Proof.
  exists [50; 60], ca.
  let r := eval vm_compute in (do x <- save 3 (ca, None) ([50; 60], new_cache (Some []) false); save 4 (ca, None) x) in
  match r with Ok (?h, ?c) => exists h, c end.
  split; vm_compute; reflexivity.
Qed.
Print Assumptions C39_disabled_refuted.

(** A mass-balance entry with the name of an array replaces the array, which is lost. *)
Theorem C39_names_refuted : exists (h : list Z) (c : container Z Z) h' c' h2 p,
  save 3 (c, None) (h, new_cache (Some []) true) = Ok (h', c') /\ load 3 (h', c') = Ok (h2, p) /\
  map fst (c_arrays c) = [1; 2] /\ map fst (c_arrays (fst p)) = [1].
Proof.
  exists [50; 60], (mkC [(1, 0%nat); (2, 1%nat)] [(2, 5)] None false).
  let r := eval vm_compute in (@save Z Z Z 3 (mkC [(1, 0%nat); (2, 1%nat)] [(2, 5)] None false, None) ([50; 60], new_cache (Some []) true)) in
  match r with Ok (?h, ?c) => exists h, c;
    let l := eval vm_compute in (load 3 (h, c)) in match l with Ok (?h2, ?p) => exists h2, p end end.
  split; [vm_compute; reflexivity|]. split; [vm_compute; reflexivity|]. split; reflexivity.
Qed.
Print Assumptions C39_names_refuted.

(** A directory named by the user that does not exist is not made: saving fails until a rewind. *)
Theorem C39_directory_refuted : exists (h : list Z) (c : container Z Z),
  save 3 (c, None) (h, new_cache None true) = Raise OSErr /\
  exists x, save 3 (c, None) (h, rewind (new_cache None true)) = Ok x.
Proof. exists [50; 60], ca. split; [reflexivity|].
  let r := eval vm_compute in (save 3 (ca, None) ([50; 60], rewind (new_cache None true))) in match r with Ok ?x => exists x end. vm_compute. reflexivity.
Qed.
Print Assumptions C39_directory_refuted.
