(** * Vocabulary for manual beaching *)
From Verif Require Import Py QLemmas PipModel PolyModel CleanModel CleanSpec BeachModel.
Open Scope Q_scope.

(** The table: from [start], amount [v] up to the next time, evenly.  What it says
    for the time from [s] to [e]. *)
Fixpoint beached (start : Z) (table : list (Z * Q)) (s e : Z) : Q :=
  match table with
  | [] => 0
  | (t1, v) :: r => v * inject_Z (overlap start t1 s e) / inject_Z (t1 - start) + beached t1 r s e
  end.
Fixpoint amounts (table : list (Z * Q)) : Q := match table with [] => 0 | (_, v) :: r => v + amounts r end.

Fixpoint ascending (start : Z) (table : list (Z * Q)) : Prop :=
  match table with [] => True | (t1, _) :: r => (start < t1)%Z /\ ascending t1 r end.
Fixpoint whole_secs (table : list (Z * Q)) : Prop :=
  match table with [] => True | (t1, _) :: r => (t1 mod 1000000 = 0)%Z /\ whole_secs r end.
Definition ends (start : Z) (table : list (Z * Q)) : Z := last (map fst table) start.

(** What is asked for in a run of [n] steps from [t]. *)
Fixpoint beach_run (b : beach) (dt t : Z) (n : nat) : res Q :=
  match n with
  | O => Ok 0
  | S n' =>
      do x <- (if beach_active b dt t then remove_mass b (beach_time b dt t) t else Ok (Some 0));
      do y <- beach_run b dt (t + dt) n';
      match x with Some x => Ok (x + y) | None => Raise ValueErr end
  end.
