(** * What the uncertainty records should be *)
From Verif Require Import Py UncModel.
From Coq Require Import Sorting.Sorted.
Open Scope Z_scope.

Section S.
  Context {Rec : Type}.
  (** In the state [s] the element [i] has the record [r]: both stand at the same place. *)
  Definition record_of (s : state Rec) (i : Z) (r : Rec) : Prop :=
    exists k, nth_error (s_ids s) k = Some i /\ nth_error (m_recs (s_mover s)) k = Some r.
  (** The time of the first step in which the mover is active, and the time since then. *)
  Definition first_active (es : list (event Rec)) : option Z :=
    match find ev_active es with Some e => Some (ev_time e) | None => None end.
  Definition elapsed (t0 : Z) (e : event Rec) : Z := Z.abs (ev_time e - t0).
  (** Nothing is removed at the end of the step. *)
  Definition no_loss (e : event Rec) : Prop := forall i, ev_gone e i = false.
  (** A run marches in one direction; elements are removed only in steps in which the mover is
      active and its delay is over. *)
  Definition orderly (delay t0 : Z) (es : list (event Rec)) : Prop :=
    StronglySorted (fun a b => elapsed t0 a <= elapsed t0 b) (filter ev_active es) /\
    Forall (fun e => (ev_active e = true -> ev_on e = true) /\
                     (no_loss e \/ ev_active e = true /\ delay <= elapsed t0 e)) es.
End S.
