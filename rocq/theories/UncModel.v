(** * Uncertainty records of the wind and current movers

    Models the bookkeeping of gnome/movers/py_wind_movers.py (WindMover) and
    py_current_movers.py (CurrentMover), as the model drives it in a step
    (model.py:1159-1226), together with the elements of the uncertain spill
    container.  Times are whole seconds ([datetime_to_seconds]).  What a record
    contains is a parameter; random numbers are arguments. *)
From Verif Require Import Py PyLemmas.
Open Scope Z_scope.

Section records.
Variable Rec : Type.

Inductive kind := WindMover | CurrentMover.

(** py_wind_movers.py:89-107, py_current_movers.py:60-100. *)
Record params := mkParams { p_kind : kind; p_delay : Z; p_duration : Z }.

(** The part of the mover that changes during a run; [m_start] is unset
    (no attribute) until the first active step. *)
Record mover := mkMover { m_first : bool; m_start : option Z; m_tset : Z; m_recs : list Rec }.

(** py_wind_movers.py:160-168, py_current_movers.py:341-349
    (prepare_for_model_run); the start time is kept. *)
Definition begin_run (m : mover) : mover := mkMover true (m_start m) 0 [].

(** Random numbers drawn in one call: for the records appended and for the
    records drawn anew. *)
Record draws := mkDraws { d_append : nat -> Rec; d_renew : nat -> Rec }.

(** py_wind_movers.py:226-355, py_current_movers.py:225-306.  [np.r_] appends;
    [allocate] makes [n] rows, which update_uncertainty_values fills. *)
Definition fill (f : nat -> Rec) (n : nat) : list Rec := map f (seq 0 n).
Definition renew (d : draws) (elapsed : Z) (n : nat) (m : mover) : mover :=
  mkMover (m_first m) (m_start m) elapsed (fill (d_renew d) n).
Definition update_uncertainty (p : params) (d : draws) (n : nat) (elapsed : Z) (m : mover) : mover :=
  if negb (p_delay p <=? elapsed) then m else
  let size := length (m_recs m) in
  let reinit := (size =? 0)%nat || (elapsed <? m_tset m) || (n <? size)%nat in
  let recs := if (size <? n)%nat && negb (size =? 0)%nat
              then m_recs m ++ fill (d_append d) (n - size) else m_recs m in
  let m' := mkMover (m_first m) (m_start m) (m_tset m) recs in
  if reinit then renew d elapsed n m'
  else if m_tset m + p_duration p <=? elapsed then renew d elapsed (length recs) m'
  else m'.

(** py_wind_movers.py:170-203, py_current_movers.py:351-372
    (prepare_for_model_step) for the uncertain container of [n] elements;
    [active] is decided by the base class.  An active step that is not the first
    has a start time. *)
Definition prepare (p : params) (d : draws) (active : bool) (t : Z) (n : nat) (m : mover) : res mover :=
  if active then
    let m := if m_first m then mkMover (m_first m) (Some t) (m_tset m) (m_recs m) else m in
    if match p_kind p with WindMover => (n =? 0)%nat | CurrentMover => false end then Ok m
    else match m_start m with
         | None => Raise AttrErr
         | Some t0 => Ok (update_uncertainty p d n (Z.abs (t - t0)) m)
         end
  else Ok m.

(** [np.delete(list, indices)]: an index that is too large raises IndexError. *)
Fixpoint delete (l : list Rec) (marks : list bool) : res (list Rec) :=
  match marks, l with
  | [], _ => Ok l
  | true :: ms, [] => Raise IndexErr
  | false :: ms, [] => delete [] ms
  | b :: ms, x :: l' => do r <- delete l' ms; Ok (if b then r else x :: r)
  end.

(** py_wind_movers.py:205-224, py_current_movers.py:374-394
    (model_step_is_done); [marks]: status_codes == to_be_removed. *)
Definition step_is_done (active on : bool) (marks : list bool) (m : mover) : res mover :=
  if negb active || negb on then Ok m else
  let m := mkMover false (m_start m) (m_tset m) (m_recs m) in
  if existsb (fun b => b) marks then
    do r <- delete (m_recs m) marks; Ok (mkMover (m_first m) (m_start m) (m_tset m) r)
  else Ok m.

(** ** A run *)

(** The uncertain container: the elements (their ids) in order, and the mover. *)
Record state := mkState { s_ids : list Z; s_mover : mover }.

(** What happens in one step: elements released before and after the move, the
    time, whether the mover is active and on, which elements are to be removed
    at the end of the step, the random numbers. *)
Record event := mkEvent { ev_before : list Z; ev_time : Z; ev_active : bool; ev_on : bool;
                          ev_gone : Z -> bool; ev_after : list Z; ev_draws : draws }.

(** model.py:1159-1226, spill_container.py (release appends, removal keeps the
    order).  [moving] is the state the movers see when elements move. *)
Definition moving (p : params) (e : event) (s : state) : res state :=
  let ids := s_ids s ++ ev_before e in
  do m <- prepare p (ev_draws e) (ev_active e) (ev_time e) (length ids) (s_mover s);
  Ok (mkState ids m).
Definition finish (e : event) (s : state) : res state :=
  do m <- step_is_done (ev_active e) (ev_on e) (map (ev_gone e) (s_ids s)) (s_mover s);
  Ok (mkState (filter (fun i => negb (ev_gone e i)) (s_ids s) ++ ev_after e) m).
Definition step (p : params) (e : event) (s : state) : res state :=
  do s <- moving p e s; finish e s.
Fixpoint run (p : params) (es : list event) (s : state) : res state :=
  match es with [] => Ok s | e :: es' => do s' <- step p e s; run p es' s' end.

(** The start of a run with the mover [m] of an earlier run (or a new one). *)
Definition initial (m : mover) : state := mkState [] (begin_run m).
End records.
Arguments mkDraws {Rec}. Arguments mkMover {Rec}. Arguments mkState {Rec}. Arguments mkEvent {Rec}.
Arguments d_append {Rec}. Arguments d_renew {Rec}.
Arguments m_first {Rec}. Arguments m_start {Rec}. Arguments m_tset {Rec}. Arguments m_recs {Rec}.
Arguments s_ids {Rec}. Arguments s_mover {Rec}.
Arguments ev_before {Rec}. Arguments ev_time {Rec}. Arguments ev_active {Rec}. Arguments ev_on {Rec}.
Arguments ev_gone {Rec}. Arguments ev_after {Rec}. Arguments ev_draws {Rec}.
Arguments begin_run {Rec}. Arguments renew {Rec}. Arguments fill {Rec}. Arguments update_uncertainty {Rec}.
Arguments prepare {Rec}. Arguments delete {Rec}. Arguments step_is_done {Rec}. Arguments moving {Rec}.
Arguments finish {Rec}. Arguments step {Rec}. Arguments run {Rec}. Arguments initial {Rec}.
