(** * Properties C01-C05: OrderedCollection *)
From Verif Require Import Py OrdCollModel OrdCollSpec OrdCollProofs.

(** C01. After any history of calls (other than assignment by position) on a
    collection built from objects with distinct ids, iterating yields exactly
    the list that the same calls make of a plain list, and each call has the
    same outcome (normal or exception). *)
Theorem C01_iteration_is_insertion_order :
  forall (Obj : Type) (sid : Obj -> Z) (l0 : list Obj) (h : list (op Obj)),
    NoDup (map sid l0) -> forallb not_by_pos h = true ->
    iter (fst (run sid (ctor sid l0) h)) = Ok (map Some (fst (s_run sid l0 h))) /\
    snd (run sid (ctor sid l0) h) = snd (s_run sid l0 h).
Proof. exact @history_iter. Qed.
Print Assumptions C01_iteration_is_insertion_order.

(** A history with every kind of call, failing ones included. *)
Definition h_ex : list (op Z) :=
  [OAdd (AIter [Some 4; Some 5; None; Some 6]); ORemove (ById 2); ORemove (ById 2);
   OReplace (ById 4) 9; ORemove (ByPos (-1)); OAdd (AObj 1); OAdd (AObj 7);
   ORegister 1 [EvAdd; EvRemove]; OAdd (AObj 8); OReplace (ById 1) 7; ORemove (ByPos 1)].
Example C01_meets : NoDup (map (fun x : Z => x) [1; 2; 3]) /\ forallb not_by_pos h_ex = true /\
  fst (s_run (fun x => x) [1; 2; 3] h_ex) = [7; 9; 8].
Proof. split; [|split; reflexivity]. repeat constructor; cbn; intuition lia. Qed.

(** C02. len, "in" and iteration agree, and ids are distinct. *)
Theorem C02_len_contains_iter_agree :
  forall (Obj : Type) (sid : Obj -> Z) (l0 : list Obj) (h : list (op Obj)),
    NoDup (map sid l0) -> forallb not_by_pos h = true ->
    let s := fst (run sid (ctor sid l0) h) in
    exists l, iter s = Ok (map Some l) /\ len s = Z.of_nat (length l) /\ NoDup (map sid l) /\
              forall o, contains sid s o = true <-> In (sid o) (map sid l).
Proof. exact @history_len. Qed.
Print Assumptions C02_len_contains_iter_agree.

(** C02, finding. [values()] does not agree with iteration once an object that
    is already present has been put in the place of another. *)
Theorem C02_values_refuted :
  exists (l0 : list Z) (h : list (op Z)),
    NoDup l0 /\ forallb not_by_pos h = true /\
    iter (fst (run (fun x => x) (ctor (fun x => x) l0) h)) <>
    Ok (map Some (values (fst (run (fun x => x) (ctor (fun x => x) l0) h)))).
Proof.
  exists [1; 2], [OReplace (ById 1) 2]. split; [|split].
  - repeat constructor; cbn; intuition lia.
  - reflexivity.
  - vm_compute. discriminate.
Qed.
Print Assumptions C02_values_refuted.

(** What holds: [values()] is the list of the objects in order as long as no
    object is put in the place of another while it is already present. *)
Theorem C02_values_partial :
  forall (Obj : Type) (sid : Obj -> Z) (l0 : list Obj) (h : list (op Obj)),
    NoDup (map sid l0) -> fresh_history sid l0 h ->
    values (fst (run sid (ctor sid l0) h)) = fst (s_run sid l0 h).
Proof. exact @history_values. Qed.
Print Assumptions C02_values_partial.

Example C02_values_meets :
  fresh_history (fun x : Z => x) [1; 2; 3] [ORemove (ById 2); OReplace (ById 1) 8; OAdd (AObj 2); OReplace (ById 2) 2; ORemove (ByPos 0)].
Proof. cbn. repeat split; try discriminate; auto. Qed.

(** C03. Lookup by position (negative positions from the end) and by id, and
    [index], agree with the iteration order; the error cases are IndexError,
    KeyError and ValueError. *)
Theorem C03_lookup_agrees_with_iteration :
  forall (Obj : Type) (sid : Obj -> Z) (l0 : list Obj) (h : list (op Obj)),
    NoDup (map sid l0) -> forallb not_by_pos h = true ->
    let s := fst (run sid (ctor sid l0) h) in
    exists l, iter s = Ok (map Some l) /\
      (forall i, get s (ByPos i) = match s_nth l i with Some o => Ok (Some o) | None => Raise IndexErr end) /\
      (forall k, get s (ById k) = match find (has_id sid k) l with Some o => Ok (Some o) | None => Raise KeyErr end) /\
      (forall p o, nth_error l p = Some o -> index s (sid o) = Ok (Z.of_nat p)) /\
      (forall k, ~ In k (map sid l) -> index s k = Raise ValueErr).
Proof. exact @history_get. Qed.
Print Assumptions C03_lookup_agrees_with_iteration.

(** C04. Full statement: for every reachable collection and every position k of
    the iteration, oc[k] = x replaces the k-th object.  It is false: after a
    removal the position is taken as a raw slot number. *)
Theorem C04_setitem_refuted :
  exists (h : list (op Z)) (k x : Z),
    let s := fst (run (fun o => o) (ctor (fun o => o) []) h) in
    let l := fst (s_run (fun o => o) [] h) in
    iter s = Ok (map Some l) /\ 0 <= k < len s /\ in_list (fun o => o) x l = false /\
    snd (replace (fun o => o) s (ByPos k) x) = None /\
    iter (fst (replace (fun o => o) s (ByPos k) x)) <>
      Ok (map Some (fst (s_apply (fun o => o) l (OReplace (ByPos k) x)))).
Proof.
  exists [OAdd (AIter [Some 1; Some 2; Some 3]); ORemove (ById 1)], 1, 9.
  vm_compute. repeat split; discriminate.
Qed.
Print Assumptions C04_setitem_refuted.

(** The same fault seen as a spurious KeyError on a valid position. *)
Theorem C04_setitem_keyerror_refuted :
  exists (h : list (op Z)) (k x : Z),
    let s := fst (run (fun o => o) (ctor (fun o => o) []) h) in
    0 <= k < len s /\ snd (replace (fun o => o) s (ByPos k) x) = Some KeyErr.
Proof.
  exists [OAdd (AIter [Some 1; Some 2; Some 3]); ORemove (ById 1)], 0, 9.
  vm_compute. repeat split; discriminate.
Qed.
Print Assumptions C04_setitem_keyerror_refuted.

(** Even without a removal, oc[-1] = x moves the last object to the front. *)
Theorem C04_setitem_negative_refuted :
  exists (h : list (op Z)) (x : Z),
    let s := fst (run (fun o => o) (ctor (fun o => o) []) h) in
    iter s = Ok [Some 1; Some 2; Some 3] /\
    iter (fst (replace (fun o => o) s (ByPos (-1)) x)) = Ok [Some x; Some 1; Some 2].
Proof. exists [OAdd (AIter [Some 1; Some 2; Some 3])], 9. vm_compute. split; reflexivity. Qed.
Print Assumptions C04_setitem_negative_refuted.

(** What holds: in histories without removals, where assignments use
    non-negative positions and objects that are new (or take their own place),
    assignment by position does what it does to a plain list.  Missing: histories
    with removals and negative positions, where it is false (above). *)
Theorem C04_setitem_partial :
  forall (Obj : Type) (sid : Obj -> Z) (l0 : list Obj) (h : list (op Obj)),
    NoDup (map sid l0) -> no_hole_history sid l0 h ->
    iter (fst (run sid (ctor sid l0) h)) = Ok (map Some (fst (s_run sid l0 h))) /\
    snd (run sid (ctor sid l0) h) = snd (s_run sid l0 h).
Proof. exact @history_setitem. Qed.
Print Assumptions C04_setitem_partial.

Example C04_meets :
  no_hole_history (fun x : Z => x) [1; 2; 3]
    [OReplace (ByPos 1) 8; OAdd (AObj 5); OReplace (ByPos 7) 11; OReplace (ByPos 3) 5; OReplace (ById 1) 6] /\
  fst (s_run (fun x : Z => x) [1; 2; 3]
    [OReplace (ByPos 1) 8; OAdd (AObj 5); OReplace (ByPos 7) 11; OReplace (ByPos 3) 5; OReplace (ById 1) 6])
  = [6; 8; 3; 5].
Proof.
  split; [|reflexivity]. cbn. repeat split; try lia; try discriminate.
  intros _. exists 5. split; reflexivity.
Qed.

(** C05. The callbacks invoked during a history are exactly those the
    specification lists: for each object actually added, removed or put in
    place, every callback registered for that event, once, in registration
    order; nothing for calls that change nothing or fail. *)
Theorem C05_callbacks_fire_exactly_once :
  forall (Obj : Type) (sid : Obj -> Z) (l0 : list Obj) (h : list (op Obj)),
    NoDup (map sid l0) -> forallb not_by_pos h = true ->
    log (fst (run sid (ctor sid l0) h)) = s_log sid l0 [] h.
Proof. exact @history_log. Qed.
Print Assumptions C05_callbacks_fire_exactly_once.

Example C05_meets : s_log (fun x : Z => x) [1; 2; 3] [] h_ex = [(1, EvAdd, 8); (1, EvRemove, 3)].
Proof. reflexivity. Qed.
