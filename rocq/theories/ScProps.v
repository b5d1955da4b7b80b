(** * Properties C16 - C20: the data arrays of a spill container *)
From Verif Require Import Py PyLemmas QLemmas ScModel ScSpec ScProofs ScProofs2.
From Coq Require Import Sorted.
Open Scope Z_scope.

(** An example: two components of mass, two spills, two releases. *)
Definition n_comp : Z := 5.
Definition ex_types : types :=
  [(n_spill, (Plain, VZ 0)); (n_id, (IdKind, VZ 0)); (n_status, (Plain, VZ 2)); (n_mass, (Divide, VQ [0%Q]));
   (n_fate, (Plain, VZ 1))].
Definition ex_more : types := [(n_comp, (Divide, VQ [0%Q; 0%Q]))].
Definition ex_rel (n idx : Z) (m : Q) : rel :=
  mkRelIn n idx [(n_mass, repeat (VQ [m]) (Z.to_nat n)); (n_comp, repeat (VQ [m * (1 # 4); m * (3 # 4)]%Q) (Z.to_nat n));
                 (n_fate, repeat (VZ 2) (Z.to_nat n))] None.
Definition ex_start : list (bool * op) :=
  [(false, ORewind); (true, ORewind); (false, OPrepare ex_types ex_more); (true, OPrepare ex_types ex_more);
   (false, ORelease [ex_rel 2 0 10; ex_rel 0 1 1; ex_rel 3 1 5]); (true, ORelease [ex_rel 2 0 10; ex_rel 3 1 5])].
Definition ex_c : sc := w_fc (run_world new_world ex_start).

(** Checking the conditions of a concrete history, step by step. *)
Ltac tidy_goal := cbn [tidy container fst snd w_fc w_unc new_world]; repeat match goal with
  | |- True => exact I
  | |- _ /\ _ => split
  end.
Ltac tidy_walk := repeat match goal with
  | |- tidy_run _ [] => exact I
  | |- tidy_run ?w (?o :: ?r) => split; [tidy_goal|
      let w' := eval vm_compute in (do_world w o) in
      replace (do_world w o) with w' by (vm_compute; reflexivity)]
  end.

Lemma ex_c_wf : well_formed ex_c.
Proof.
  apply (wf_run ex_start new_world (fun u => ltac:(destruct u; exact wf_empty))) with (u := false).
  unfold ex_start. tidy_walk; intros ? ? Q; discriminate Q.
Qed.

(** ** C16 *)

(** Whatever happens to the containers - rewinds, runs prepared, releases of
    any number of spills, even failing ones, removals, splits, views taken,
    changed and written back, arrays replaced - every data array has one row
    per element. *)
Theorem C16_arrays_aligned : forall os, tidy_run new_world os ->
  forall u, exists n, (forall name l, column (container (run_world new_world os) u) name = Some l -> length l = n) /\
    forall name, (exists l, column (container (run_world new_world os) u) name = Some l) <->
      In name (map fst (c_types (container (run_world new_world os) u))).
Proof.
  intros os H u. destruct (wf_run os new_world (fun u => ltac:(destruct u; exact wf_empty)) H u) as [[n Ha] [Hc _]].
  exists n. split; [exact Ha|exact Hc].
Qed.
Print Assumptions C16_arrays_aligned.

(** In particular a history of rewinds, preparations with the same arrays,
    releases and removals needs nothing else. *)
Theorem C16_plain_runs_aligned : forall df ats os, Forall (plain_op df ats) os ->
  forall u, exists n, forall name l, column (container (run_world new_world os) u) name = Some l -> length l = n.
Proof.
  intros df ats os H u.
  assert (Ht : tidy_run new_world os).
  { assert (G : forall os w, (forall u, well_formed (container w u)) ->
      (forall u, c_types (container w u) = [] \/ c_types (container w u) = update_types df ats) ->
      Forall (plain_op df ats) os -> tidy_run w os).
    { clear. induction os as [|[b o] r IH]; intros w Hw Ht H; [exact I|]. inversion H as [|? ? H1 H2]; subst.
      assert (Q : tidy (container w b) o).
      { destruct o; cbn in H1; try contradiction; cbn [tidy]; auto. destruct H1 as [-> ->].
        intros name l E. destruct (Hw b) as [_ [Hc _]].
        assert (Hi : In name (map fst (c_types (container w b)))) by (apply Hc; eauto).
        destruct (Ht b) as [Q|Q]; rewrite Q in Hi; [destruct Hi|].
        apply update_types_keys in Hi. exact Hi. }
      split; [exact Q|]. apply IH; [apply wf_do_world; assumption| |exact H2].
      intros u. unfold do_world.
      assert (K : forall iv c iv' c' e, well_formed c -> (c_types c = [] \/ c_types c = update_types df ats) ->
                  do_op iv c o = (iv', c', e) -> c_types c' = [] \/ c_types c' = update_types df ats).
      { clear - H1. intros iv c iv' c' e Hw Hc E. destruct o; cbn in H1; try contradiction; cbn [do_op] in E.
        - injection E as <- <- <-. left. reflexivity.
        - destruct H1 as [-> ->]. injection E as <- <- <-. right. reflexivity.
        - pose proof Hw as [[m Ha] _]. destruct (wf_release _ _ _ _ _ _ _ Hw Ha E) as [_ [_ Q]]. rewrite Q. exact Hc.
        - injection E as <- <- <-. destruct (column c n_status) as [st|] eqn:Es.
          + destruct (step_done_spec c st Hw Es) as [c1 [-> [Q _]]]. cbn. rewrite Q. exact Hc.
          + unfold column in Es. unfold step_done. destruct (c_data c) eqn:Ed; [exact Hc|]. rewrite <- Ed, Es in *. exact Hc. }
      destruct b.
      - destruct (do_op (w_iv w) (w_unc w) o) as [[iv c] e] eqn:E. pose proof (K _ _ _ _ _ (Hw true) (Ht true) E).
        destruct u; cbn; [assumption|apply (Ht false)].
      - destruct (do_op (w_iv w) (w_fc w) o) as [[iv c] e] eqn:E. pose proof (K _ _ _ _ _ (Hw false) (Ht false) E).
        destruct u; cbn; [apply (Ht true)|assumption]. }
    apply G; [intros [|]; exact wf_empty|intros [|]; left; reflexivity|exact H]. }
  destruct (C16_arrays_aligned os Ht u) as [n [Q _]]. eauto.
Qed.
Print Assumptions C16_plain_runs_aligned.

Example C16_meets : Forall (plain_op ex_types ex_more) (ex_start ++ [(false, OStepDone); (false, ORelease [ex_rel 4 0 10])]) /\
  column (w_fc (run_world new_world (ex_start ++ [(false, OStepDone); (false, ORelease [ex_rel 4 0 10])]))) n_spill =
    Some [VZ 0; VZ 0; VZ 1; VZ 1; VZ 1; VZ 0; VZ 0; VZ 0; VZ 0].
Proof. split; [repeat constructor|vm_compute; reflexivity]. Qed.

(** A history with views, a split and a failing release. *)
Example C16_tidy_meets : let os := ex_start ++
    [(false, OWrite n_fate [VZ 2; VZ 1; VZ 2; VZ 4; VZ 2]); (false, OGet [n_id; n_mass] 2);
     (false, OModify 2 n_mass [VQ [1]; VQ [2]; VQ [3]]%Q); (false, OUpdate 2);
     (false, OSplit 0 3 (Some [1 # 2; 1 # 4; 1 # 4]%Q));
     (false, OSetItem n_status [VZ 2; VZ 12; VZ 2; VZ 2; VZ 2; VZ 2; VZ 2]); (false, OStepDone);
     (false, ORelease [mkRelIn 2 0 [] (Some ValueErr)])] in
  tidy_run new_world os /\
  column (w_fc (run_world new_world os)) n_mass =
    Some [VQ [1 * (1 # 2)]; VQ [1 * (1 # 4)]; VQ [10]; VQ [2]; VQ [5]; VQ [3]; VQ [0]; VQ [0]]%Q.
Proof.
  split.
  - unfold ex_start; cbn [app]. tidy_walk; try (intros ? ? Q; discriminate Q); try (intros Q; discriminate Q);
      try (intros f Q; unfold get_view in Q; cbn in Q; repeat (destruct (f =? _) in Q; try discriminate Q); discriminate Q);
      try (split; [reflexivity|vm_compute; discriminate]); try (eexists; reflexivity).
  - vm_compute. reflexivity.
Qed.

(** A release adds the rows of the new elements below the old ones: what each
    spill writes there, its number in the list of spills, or the initial value
    of the array; and ids that follow the last ones. *)
Theorem C16_release_appends : forall rs iv c iv' c', well_formed c -> release_loop iv c rs = (iv', c', None) ->
  forall name k v l, dget name (c_types c) = Some (k, v) -> k <> IdKind -> column c name = Some l ->
  column c' name = Some (l ++ fresh_rows name v rs).
Proof. exact release_rows. Qed.
Print Assumptions C16_release_appends.

Theorem C16_release_count : forall rs iv c iv' c' n, well_formed c -> aligned c n ->
  release_loop iv c rs = (iv', c', None) -> aligned c' (n + rel_total rs).
Proof. intros rs iv c iv' c' n Hw Ha H. apply (wf_release rs iv c iv' c' None n Hw Ha H). reflexivity. Qed.
Print Assumptions C16_release_count.

Example C16_release_meets : exists iv' c', well_formed ex_c /\ aligned ex_c 5 /\
  release_loop 5 ex_c [ex_rel 1 1 3; ex_rel (-2) 0 1; ex_rel 2 0 4] = (iv', c', None) /\
  column c' n_spill = Some ([VZ 0; VZ 0; VZ 1; VZ 1; VZ 1] ++ [VZ 1; VZ 0; VZ 0]) /\ iv' = 8.
Proof.
  eexists _, _. split; [|split; [|split; [vm_compute; reflexivity|split; reflexivity]]].
  - exact ex_c_wf.
  - intros name l E. unfold column in E.
    let d := eval vm_compute in (c_data ex_c) in
    replace (c_data ex_c) with d in E by (vm_compute; reflexivity).
    cbn [dget] in E. repeat (destruct (name =? _) in E; [injection E as <-; reflexivity|]). discriminate E.
Qed.

(** Without the conditions: an array added under a new name is not one of the
    array types, so the next release leaves it behind; *)
Theorem C16_new_array_refuted : exists os a b,
  column (w_fc (run_world new_world os)) n_id = Some a /\ column (w_fc (run_world new_world os)) 99 = Some b /\
  length a <> length b.
Proof.
  exists (ex_start ++ [(false, OSetItem 99 [VZ 1; VZ 2; VZ 3; VZ 4; VZ 5]); (false, ORelease [ex_rel 2 0 10])]).
  eexists _, _. split; [vm_compute; reflexivity|]. split; [vm_compute; reflexivity|]. discriminate.
Qed.
Print Assumptions C16_new_array_refuted.

(** fractions that do not add up are found only when the first mass array is
    reached, after other arrays have been lengthened; *)
Theorem C16_bad_split_refuted : exists os a b,
  column (w_fc (run_world new_world os)) n_id = Some a /\ column (w_fc (run_world new_world os)) n_mass = Some b /\
  length a <> length b.
Proof.
  exists (ex_start ++ [(false, OSplit 0 2 (Some [1 # 2; 1 # 4]%Q))]).
  eexists _, _. split; [vm_compute; reflexivity|]. split; [vm_compute; reflexivity|]. discriminate.
Qed.
Print Assumptions C16_bad_split_refuted.

(** and a view that was taken when it held all elements is the container's own
    dictionary: taken again after some have left, it cuts the arrays that are
    asked for. *)
Theorem C16_view_again_refuted : exists os a b,
  Forall (fun o => match snd o with OSetItem _ _ | OSplit _ _ _ => False | _ => True end) os /\
  column (w_fc (run_world new_world os)) n_id = Some a /\ column (w_fc (run_world new_world os)) n_mass = Some b /\
  length a <> length b.
Proof.
  exists (ex_start ++ [(false, OGet [n_mass] 2); (false, OWrite n_fate [VZ 2; VZ 1; VZ 2; VZ 2; VZ 2]);
                       (false, OGet [n_mass] 2)]).
  eexists _, _. split; [repeat constructor|]. split; [vm_compute; reflexivity|]. split; [vm_compute; reflexivity|]. discriminate.
Qed.
Print Assumptions C16_view_again_refuted.

(** ** C17 *)

(** In every history in which nobody splits elements or writes ids and no
    release fails, the ids of a container increase along the array, no element
    of one container has the id of an element of the other, and an id that has
    gone never comes back, not even after a rewind. *)
Theorem C17_ids_increasing_partial : forall os, keeps_ids_run new_world os ->
  let w := run_world new_world os in
  (forall u, StronglySorted Z.lt (ids (container w u))) /\
  forall i, In i (ids (container w false)) -> ~ In i (ids (container w true)).
Proof. exact ids_increasing. Qed.
Print Assumptions C17_ids_increasing_partial.

Theorem C17_never_reused_partial : forall h1 h2 h3 u i,
  keeps_ids_run new_world (h1 ++ h2 ++ h3) ->
  In i (ids (container (run_world new_world h1) u)) ->
  ~ In i (ids (container (run_world new_world (h1 ++ h2)) u)) ->
  forall u', ~ In i (ids (container (run_world new_world (h1 ++ h2 ++ h3)) u')).
Proof. exact ids_never_reused. Qed.
Print Assumptions C17_never_reused_partial.

Definition ex_removal : list (bool * op) :=
  [(false, OWrite n_status [VZ 2; VZ 2; VZ 2; VZ 12; VZ 12]); (false, OStepDone)].
Example C17_meets : keeps_ids_run new_world (ex_start ++ ex_removal ++ [(false, ORelease [ex_rel 2 0 10])]) /\
  ids (w_fc (run_world new_world ex_start)) = [0; 1; 2; 3; 4] /\
  ids (w_fc (run_world new_world (ex_start ++ ex_removal))) = [0; 1; 2] /\
  ids (w_fc (run_world new_world (ex_start ++ ex_removal ++ [(false, ORelease [ex_rel 2 0 10])]))) = [0; 1; 2; 10; 11].
Proof.
  split; [|vm_compute; auto]. vm_compute.
  repeat match goal with |- _ /\ _ => split | |- True => exact I end; try discriminate; try (eexists; reflexivity); auto;
  repeat constructor; intros H; repeat (destruct H as [H|H]; try discriminate H); contradiction.
Qed.

(** A release that fails after the arrays were lengthened (a substance or a
    distribution that raises) leaves its elements there without moving the
    counter: the next release hands out the same ids again. *)
Theorem C17_failing_release_refuted : exists os,
  Forall (fun o => match snd o with OSplit _ _ _ | OSetItem _ _ | OWrite _ _ | OModify _ _ _ => False | _ => True end) os /\
  ~ NoDup (ids (w_fc (run_world new_world os))).
Proof.
  exists [(false, OPrepare ex_types []); (false, ORelease [mkRelIn 2 0 [] (Some ValueErr)]); (false, ORelease [mkRelIn 2 0 [] None])].
  split; [repeat constructor|]. vm_compute. intros H. inversion H as [|? ? Q _]; subst. apply Q. right. left. reflexivity.
Qed.
Print Assumptions C17_failing_release_refuted.

(** The parts of a split element all keep its id. *)
Theorem C17_split_refuted : exists c ix num c', split_element c ix num None = (c', None) /\
  NoDup (ids c) /\ ~ NoDup (ids c').
Proof.
  exists ex_c, 0, 2. eexists. split; [vm_compute; reflexivity|]. split.
  - vm_compute. repeat constructor; intros H; repeat (destruct H as [H|H]; try discriminate H); contradiction.
  - vm_compute. intros H. inversion H as [|? ? Q _]; subst. apply Q. left. reflexivity.
Qed.
Print Assumptions C17_split_refuted.

(** ** C18 *)

(** model_step_is_done keeps, in every array, exactly the rows of the elements
    that are not marked to_be_removed, in their order. *)
Theorem C18_removes_the_marked : forall c st, well_formed c -> column c n_status = Some st ->
  exists c', step_done c = (c', None) /\ c_types c' = c_types c /\ well_formed c' /\
    forall name, column c' name = option_map (stay st) (column c name).
Proof. exact step_done_spec. Qed.
Print Assumptions C18_removes_the_marked.

Example C18_meets : exists st, well_formed (fst (write ex_c n_status [VZ 12; VZ 2; VZ 12; VZ 2; VZ 7])) /\
  column (fst (write ex_c n_status [VZ 12; VZ 2; VZ 12; VZ 2; VZ 7])) n_status = Some st /\
  stay st [VZ 0; VZ 1; VZ 2; VZ 3; VZ 4] = [VZ 1; VZ 3; VZ 4].
Proof.
  eexists. split; [|split; [vm_compute; reflexivity|reflexivity]].
  apply (wf_do_op 0 ex_c (OWrite n_status [VZ 12; VZ 2; VZ 12; VZ 2; VZ 7]) 0 _ None ex_c_wf I). reflexivity.
Qed.

(** ** C19 *)

(** The data a weatherer gets for a fate are the rows of the elements with that
    fate and positive mass, in order; taking them changes no array. *)
Theorem C19_view_rows_partial : forall c f names sel,
  well_formed c -> in_view c f sel -> clean_view c f names sel ->
  (forall name, In name names -> exists l, column c name = Some l) ->
  exists c1, get_data c names f = (c1, None) /\
    (forall name, column c1 name = column c name) /\
    forall name l, In name names -> column c name = Some l -> seen c1 f name = Some (rows sel l).
Proof.
  intros c f names sel H1 H2 H3 H4. destruct (get_exact c f names sel H1 H2 H3 H4) as [c1 [E [D [_ [_ [S _]]]]]].
  exists c1. split; [exact E|]. split; [|exact S]. intros name. unfold column. rewrite D. reflexivity.
Qed.
Print Assumptions C19_view_rows_partial.

(** Writing changes back stores them in exactly those rows, of exactly those
    arrays, and nothing else changes. *)
Theorem C19_write_back_partial : forall c f names sel edits,
  well_formed c -> in_view c f sel -> clean_view c f names sel ->
  (forall name, In name names -> exists l, column c name = Some l) ->
  good_edits names sel edits ->
  exists c1 c2 c3, get_data c names f = (c1, None) /\ modify_all c1 f edits = (c2, None) /\
    update_sc c2 f = (c3, None) /\
    (forall name old, In name names -> column c name = Some old ->
       exists new, column c3 name = Some new /\ length new = length old /\
         rows sel new = last_edit name edits (rows sel old) /\
         rows (map negb sel) new = rows (map negb sel) old) /\
    (forall name, ~ In name names -> column c3 name = column c name) /\
    well_formed c3 /\ c_types c3 = c_types c /\ forall sel', clean_view c3 f names sel'.
Proof. exact write_back_exact. Qed.
Print Assumptions C19_write_back_partial.

(** If the elements of the view stay the same, the next reading gives what was
    written. *)
Theorem C19_read_back_partial : forall c f names sel edits c1 c2 c3,
  well_formed c -> in_view c f sel -> clean_view c f names sel ->
  (forall name, In name names -> exists l, column c name = Some l) ->
  good_edits names sel edits ->
  get_data c names f = (c1, None) -> modify_all c1 f edits = (c2, None) -> update_sc c2 f = (c3, None) ->
  in_view c3 f sel ->
  exists c4, get_data c3 names f = (c4, None) /\
    forall name old, In name names -> column c name = Some old ->
      seen c4 f name = Some (last_edit name edits (rows sel old)).
Proof. exact read_back. Qed.
Print Assumptions C19_read_back_partial.

Definition ex_mixed : sc := fst (write ex_c n_fate [VZ 2; VZ 1; VZ 6; VZ 4; VZ 2]).
Lemma ex_mixed_wf : well_formed ex_mixed.
Proof. apply (wf_do_op 0 ex_c (OWrite n_fate [VZ 2; VZ 1; VZ 6; VZ 4; VZ 2]) 0 _ None ex_c_wf I). reflexivity. Qed.
Example C19_meets : let sel := [true; false; true; false; true] in
  well_formed ex_mixed /\ in_view ex_mixed 2 sel /\ clean_view ex_mixed 2 [n_mass; n_status] sel /\
  (forall name, In name [n_mass; n_status] -> exists l, column ex_mixed name = Some l) /\
  good_edits [n_mass; n_status] sel [(n_mass, [VQ [1]; VQ [2]; VQ [3]]%Q)] /\
  exists c1 c2 c3, get_data ex_mixed [n_mass; n_status] 2 = (c1, None) /\
    modify_all c1 2 [(n_mass, [VQ [1]; VQ [2]; VQ [3]]%Q)] = (c2, None) /\ update_sc c2 2 = (c3, None) /\
    in_view c3 2 sel /\ column c3 n_mass = Some [VQ [1]; VQ [10]; VQ [2]; VQ [5]; VQ [3]]%Q.
Proof.
  split; [exact ex_mixed_wf|].
  split. { eexists. split; [vm_compute; reflexivity|]. cbn [Z.eqb]. eexists. split; vm_compute; reflexivity. }
  split. { vm_compute. exact I. }
  split. { intros name [<-|[<-|[]]]; eexists; vm_compute; reflexivity. }
  split. { repeat constructor. }
  eexists _, _, _. split; [vm_compute; reflexivity|]. split; [vm_compute; reflexivity|]. split; [vm_compute; reflexivity|].
  split; [|vm_compute; reflexivity].
  eexists. split; [vm_compute; reflexivity|]. cbn [Z.eqb]. eexists. split; vm_compute; reflexivity.
Qed.

(** Without [clean_view]: arrays that someone asked for earlier stay in the view,
    and writing it back returns them to their old values, whatever has happened
    to them since. *)
Theorem C19_stale_view_refuted : exists c c1 c2 c3 c4,
  well_formed c /\ get_data c [n_mass; n_status] 2 = (c1, None) /\ write c1 n_status [VZ 7; VZ 7; VZ 7; VZ 7; VZ 7] = (c2, None) /\
  get_data c2 [n_mass] 2 = (c3, None) /\ update_sc c3 2 = (c4, None) /\
  column c4 n_status <> column c2 n_status.
Proof.
  exists ex_mixed. eexists _, _, _, _. split; [exact ex_mixed_wf|]. split; [vm_compute; reflexivity|].
  split; [vm_compute; reflexivity|]. split; [vm_compute; reflexivity|]. split; [vm_compute; reflexivity|]. vm_compute. discriminate.
Qed.
Print Assumptions C19_stale_view_refuted.

(** ** C20 *)

(** split_element replaces the first element with the id, where it stands, by
    num elements; masses are divided, everything else is copied, and all other
    rows stay. *)
Theorem C20_split_partial : forall c ix num frac il idx,
  well_formed c -> (forall f, get_view c f <> VAlias) -> 2 <= num -> fractions_ok num frac ->
  column c n_id = Some il -> first_with ix il idx ->
  exists c' e, split_element c ix num frac = (c', e) /\
    ((forall f, get_view c f = VEmpty) -> e = None) /\
    c_types c' = c_types c /\ well_formed c' /\
    forall name k v0, dget name (c_types c) = Some (k, v0) ->
      exists l v parts, column c name = Some l /\ nth_error l idx = Some v /\
        column c' name = Some (firstn idx l ++ parts ++ skipn (S idx) l) /\
        length parts = Z.to_nat num /\
        (k <> Divide -> parts = repeat v (Z.to_nat num)) /\
        (k = Divide -> match frac with
           | None => (forall p j, In p parts -> comp j p == comp j v / inject_Z num)%Q /\
                     forall j, (total j parts == comp j v)%Q
           | Some fr => (forall i q p j, nth_error fr i = Some q -> nth_error parts i = Some p -> comp j p == comp j v * q)%Q /\
                     forall j, (total j parts == comp j v * qsum fr)%Q
           end).
Proof. exact split_exact. Qed.
Print Assumptions C20_split_partial.

(** An id that is not there, or less than two parts: an error and no change. *)
Theorem C20_split_errors : forall c ix num frac il, well_formed c -> column c n_id = Some il ->
  (~ In (VZ ix) il -> split_element c ix num frac = (c, Some IndexErr)) /\
  (In (VZ ix) il -> num < 2 -> split_element c ix num frac = (c, Some ValueErr)).
Proof.
  intros c ix num frac il Hw Ei. split.
  - apply split_missing. exact Ei.
  - apply (split_too_few c ix num frac il Hw Ei).
Qed.
Print Assumptions C20_split_errors.

Example C20_meets : well_formed ex_c /\ (forall f, get_view ex_c f <> VAlias) /\
  fractions_ok 3 (Some [1 # 2; 1 # 3; 1 # 6]%Q) /\ exists il, column ex_c n_id = Some il /\ first_with 2 il 2 /\
  ~ In (VZ 9) il /\
  exists c', split_element ex_c 2 3 (Some [1 # 2; 1 # 3; 1 # 6]%Q) = (c', None) /\
    column c' n_spill = Some [VZ 0; VZ 0; VZ 1; VZ 1; VZ 1; VZ 1; VZ 1].
Proof.
  split; [exact ex_c_wf|]. split; [vm_compute; discriminate|].
  split; [split; [reflexivity|vm_compute; discriminate]|].
  eexists. split; [vm_compute; reflexivity|]. split.
  { split; [reflexivity|]. intros [|[|j]] Hj; cbn; try discriminate. lia. }
  split. { intros H. repeat (destruct H as [H|H]; [discriminate|]). contradiction. }
  eexists. split; vm_compute; reflexivity.
Qed.

(** Fractions only have to add up to one within 1e-5, so mass can be made or
    lost; and they may be negative. *)
Theorem C20_exact_mass_refuted : exists frac v parts,
  split_value Divide 2 v (Some frac) = Ok parts /\ ~ (total 0 parts == comp 0 v)%Q.
Proof.
  exists [1 # 2; 500005 # 1000000]%Q, (VQ [100%Q]). eexists. split; [vm_compute; reflexivity|]. vm_compute. discriminate.
Qed.
Print Assumptions C20_exact_mass_refuted.

Theorem C20_negative_mass_refuted : exists frac v parts p,
  split_value Divide 2 v (Some frac) = Ok parts /\ (total 0 parts == comp 0 v)%Q /\ (0 < comp 0 v)%Q /\
  In p parts /\ (comp 0 p < 0)%Q.
Proof.
  exists [2; - (1)]%Q, (VQ [100%Q]). eexists _, _. split; [vm_compute; reflexivity|]. split; [vm_compute; reflexivity|].
  split; [vm_compute; reflexivity|]. split; [right; left; reflexivity|]. vm_compute. reflexivity.
Qed.
Print Assumptions C20_negative_mass_refuted.
