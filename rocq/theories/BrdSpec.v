(** * Specification for broadcasting commands to copies of a model *)

From Coq Require Import ZArith List Bool.
From Verif Require Import Py BrdModel.
Import ListNotations.
Open Scope Z_scope.

(** Every child answers with a value; every answer comes in time; no answer is awaited. *)
Definition well (ans : answers) : Prop := forall k l c, exists v, ans k l c = Out v.
Definition in_time (late : times) : Prop := forall k, late k = false.
Definition free (b : bc) : Prop := forall t, In t (b_tasks b) -> t_wait t = false.
Definition running (b : bc) : Prop := b_tasks b <> [].
Definition stopped (b : bc) : Prop := b_tasks b = [].

(** What the children have run. *)
Definition logs (b : bc) : list (list cmd) := map t_log (b_tasks b).

(** What a child runs for a pair of uncertainties. *)
Definition setup (k : Z * Z) : list cmd := [SetContainer; SetWind (fst k); SetAmount (snd k); NewCache; NoCache; OnlyWeathering].

(** The answers of the children to a command, in order. *)
Definition answered (ans : answers) (c : cmd) (b : bc) (vs : list Z) : Prop :=
  length vs = length (b_tasks b) /\
  forall k t, nth_error (b_tasks b) k = Some t -> exists v, nth_error vs k = Some v /\ ans k (t_log t) c = Out v.

(** A child that has run one command more. *)
Definition ran (c : cmd) (t : task) : task := Task (t_log t ++ [c]) false (t_timeout t).

(** The commands of a script that are for child [k] of [n]. *)
Definition for_child (look : list ((Z * Z) * Z)) (n k : nat) (w : target) : bool :=
  match w with
  | All _ _ => true
  | Index i => (i =? Z.of_nat k) || (i =? Z.of_nat k - Z.of_nat n)
  | Values p => match kget p look with Some i => (i =? Z.of_nat k) || (i =? Z.of_nat k - Z.of_nat n) | None => false end
  end.
Definition addressed (look : list ((Z * Z) * Z)) (n k : nat) (l : list (target * cmd)) : list cmd :=
  map snd (filter (fun wc => for_child look n k (fst wc)) l).

(** A child as it was, or with the command sent to it. *)
Definition same_or_sent (c : cmd) (t t' : task) : Prop := t_log t' = t_log t \/ t_log t' = t_log t ++ [c].

(** Commands of any outcome, one after the other. *)
Definition after (ans : answers) (l : list (times * target * cmd)) (b : bc) : bc :=
  fold_left (fun b x => let '(late, w, c) := x in snd (command ans late w c b)) l b.
