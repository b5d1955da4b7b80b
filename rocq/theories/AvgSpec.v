(** * What an average is of, and what should be kept in memory *)

From Coq Require Import ZArith List Bool Lia String.
From Verif Require Import Py StrModel AvgModel.
Import ListNotations.
Open Scope list_scope.
Open Scope Z_scope.

(** The time of a call, if it is one of a run. *)
Definition at_time {W} (o : op W) (t : Z) : Prop := o = Run t \/ o = Step t.
(** Nothing is changed by the user. *)
Definition calls {W} (l : list (op W)) : Prop := Forall (fun o => exists t, at_time o t) l.

(** What should be kept of a container: its time, and these four arrays. *)
Definition named (n : str) : Prop := n = lit "mass"%string \/ n = lit "positions"%string \/ n = lit "age"%string \/ n = lit "status_codes"%string.
Definition keeps (b : box) (e : entry) : Prop :=
  e_time e = b_time b /\ (forall n, named n -> sget n (e_data e) = sget n (b_arrays b)) /\ (forall n, ~ named n -> sget n (e_data e) = None).
Definition full (b : box) : Prop := forall n, named n -> sget n (b_arrays b) <> None.

(** The containers of the steps that are written. *)
Fixpoint written (l : list (bool * bool * list box)) : list box :=
  match l with [] => [] | (true, true, bs) :: t => bs ++ written t | _ :: t => written t end.
