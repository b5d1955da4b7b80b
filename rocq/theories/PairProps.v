(** * C21: the forecast and the uncertain container stay in step *)
From Verif Require Import Py OrdCollModel PairModel PairSpec PairProofs.
Open Scope Z_scope.

(** As many uncertain spills as forecast spills, whatever allowed calls were made,
    changes of spills included; and each like its original if there were none.
    Missing from the full statement: assignment to a position, additions of a
    spill twice, and calls after a refused addition, see the theorems below. *)
Theorem C21_lockstep_partial : forall u os, allowed_run true (new_pair u) os ->
  exists lf, spills (p_fc (run (new_pair u) os)) lf /\
  (p_flag (run (new_pair u) os) = true -> exists c lu,
     p_unc (run (new_pair u) os) = Some c /\ spills c lu /\ length lu = length lf).
Proof.
  intros u os H. destruct (run_lockstep true u os H) as [lf [H1 H2]]. exists lf. split; auto.
  intros Hf. destruct (H2 Hf) as [c [lu [E [Hs HF]]]]. exists c, lu. repeat split; auto.
  symmetry. eapply PyLemmas.Forall2_length; eauto.
Qed.
Print Assumptions C21_lockstep_partial.

Theorem C21_copies_partial : forall u os, allowed_run false (new_pair u) os ->
  lockstep alike (run (new_pair u) os).
Proof.
  intros u os H. destruct (run_lockstep false u os H) as [lf [H1 H2]]. exists lf. split; auto.
  intros Hf. destruct (H2 Hf) as [c [lu [E [Hs HF]]]]. exists c, lu. repeat split; auto.
  eapply PyLemmas.Forall2_impl; [|exact HF]. intros a b [Hx|Hx]; [discriminate|exact Hx].
Qed.
Print Assumptions C21_copies_partial.

(** After a rewind that reports no error the copies are like the originals again,
    from any state whatever. *)
Theorem C21_rewind_restores : forall p p', do_op p PRewind = (p', None) -> lockstep alike p'.
Proof. exact rewind_ok. Qed.
Print Assumptions C21_rewind_restores.

Definition sp1 := mkSpill 1 true 10 100.
Definition sp2 := mkSpill 2 true 10 200.
Definition sp3 := mkSpill 3 false 20 300.
Definition sp4 := mkSpill 4 true 20 400.
Definition sp5 := mkSpill 5 true 10 100.

(** A history with all kinds of allowed calls. *)
Definition hist : list op :=
  [PAdd [ItOne sp1; ItTuple [sp2]]; PUncertain true; PAdd [ItTuple [sp3; mkSpill 7 false 20 300]];
   PRemove (ByPos 0); PRewind; PAdd [ItOne sp5]; PRemove (ById 9); PRemove (ById 3)].

Example C21_meets : allowed_run false (new_pair false) hist.
Proof. apply allowed_runb_ok. vm_compute. reflexivity. Qed.
Example C21_meets_edits :
  allowed_run true (new_pair false) (hist ++ [PEdit 5 (fun _ => mkSpill 0 true 10 555); PAdd [ItOne sp1]; PUpdate [sp1; sp3]; PClear]).
Proof. apply allowed_runb_ok. vm_compute. reflexivity. Qed.
Example C21_meets_result :
  exists lf c lu, spills (p_fc (run (new_pair false) hist)) lf /\ p_unc (run (new_pair false) hist) = Some c /\
  spills c lu /\ map s_rest lf = [200; 100] /\ map s_rest lu = [200; 100].
Proof.
  exists [sp2; sp5]. eexists. exists [copy_of (-2) sp2; copy_of (-3) sp5].
  split; [vm_compute; reflexivity|]. split; [vm_compute; reflexivity|].
  split; [vm_compute; reflexivity|]. split; reflexivity.
Qed.

(** A rewind that has to make new copies. *)
Example C21_rewind_meets : exists p', do_op (run (new_pair true)
    [PAdd [ItOne sp1; ItOne sp2]; PEdit 1 (fun s => mkSpill 0 true 10 999)]) PRewind = (p', None) /\
  exists c lu, p_unc p' = Some c /\ spills c lu /\ map s_rest lu = [999; 200].
Proof.
  eexists. split; [vm_compute; reflexivity|].
  eexists. exists [mkSpill (-3) true 10 999; mkSpill (-4) true 10 200].
  split; [vm_compute; reflexivity|]. split; vm_compute; reflexivity.
Qed.

(** A refused addition (a second substance) leaves the spill in the forecast
    container alone. *)
Theorem C21_lockstep_refuted :
  exists lf c lu, snd (do_op (run (new_pair true) [PAdd [ItOne sp1]]) (PAdd [ItOne sp4])) = Some ValueErr /\
  spills (p_fc (run (new_pair true) [PAdd [ItOne sp1]; PAdd [ItOne sp4]])) lf /\
  p_unc (run (new_pair true) [PAdd [ItOne sp1]; PAdd [ItOne sp4]]) = Some c /\ spills c lu /\
  length lf = 2%nat /\ length lu = 1%nat.
Proof.
  exists [sp1; sp4]. eexists. exists [copy_of (-1) sp1].
  split; [vm_compute; reflexivity|]. split; [vm_compute; reflexivity|].
  split; [vm_compute; reflexivity|]. split; [vm_compute; reflexivity|]. split; reflexivity.
Qed.
Print Assumptions C21_lockstep_refuted.

(** Adding a spill a second time, no error: another uncertain copy. *)
Theorem C21_twice_refuted :
  exists lf c lu, snd (do_op (run (new_pair true) [PAdd [ItOne sp1]]) (PAdd [ItOne sp1])) = None /\
  spills (p_fc (run (new_pair true) [PAdd [ItOne sp1]; PAdd [ItOne sp1]])) lf /\
  p_unc (run (new_pair true) [PAdd [ItOne sp1]; PAdd [ItOne sp1]]) = Some c /\ spills c lu /\
  length lf = 1%nat /\ length lu = 2%nat.
Proof.
  exists [sp1]. eexists. exists [copy_of (-1) sp1; copy_of (-2) sp1].
  split; [vm_compute; reflexivity|]. split; [vm_compute; reflexivity|].
  split; [vm_compute; reflexivity|]. split; [vm_compute; reflexivity|]. split; reflexivity.
Qed.
Print Assumptions C21_twice_refuted.

(** Assigning to a spill after a removal: the copy of another spill is replaced. *)
Definition hist_set : list op :=
  [PAdd [ItOne sp1; ItOne sp2; ItOne sp5; ItOne (mkSpill 6 true 10 600)]; PRemove (ByPos 0);
   PSet (ById 5) (mkSpill 8 true 10 800)].
Theorem C21_setitem_refuted :
  exists lf c lu, snd (do_op (run (new_pair true) (firstn 2 hist_set)) (PSet (ById 5) (mkSpill 8 true 10 800))) = None /\
  spills (p_fc (run (new_pair true) hist_set)) lf /\
  p_unc (run (new_pair true) hist_set) = Some c /\ spills c lu /\
  map s_rest lf = [200; 800; 600] /\ map s_rest lu = [800; 100; 600].
Proof.
  exists [sp2; mkSpill 8 true 10 800; mkSpill 6 true 10 600]. eexists.
  exists [mkSpill (-5) true 10 800; copy_of (-3) sp5; mkSpill (-4) true 10 600].
  split; [vm_compute; reflexivity|]. split; [vm_compute; reflexivity|].
  split; [vm_compute; reflexivity|]. split; [vm_compute; reflexivity|]. split; reflexivity.
Qed.
Print Assumptions C21_setitem_refuted.

(** Turning uncertainty on can fail after it has been turned on: there is no
    uncertain container then, and removing a spill does not work. *)
Theorem C21_switch_refuted :
  let p := run (new_pair false) [PAdd [ItOne sp1; ItOne sp2]; PEdit 2 (fun _ => sp4); PUncertain true] in
  snd (do_op (run (new_pair false) [PAdd [ItOne sp1; ItOne sp2]; PEdit 2 (fun _ => sp4)]) (PUncertain true)) = Some ValueErr /\
  p_flag p = true /\ p_unc p = None /\ snd (do_op p (PRemove (ByPos 1))) = Some AttrErr.
Proof. repeat split; vm_compute; reflexivity. Qed.
Print Assumptions C21_switch_refuted.
