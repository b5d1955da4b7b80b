(** * Vocabulary for the output schedule *)
From Verif Require Import Py TimeModel OutModel.
Open Scope Z_scope.

(** A multiple of [T] lies after [a] and not after [b]. *)
Definition crosses (T a b : Z) : Prop := exists m, a < m * T <= b.

(** The step from which the output interval is counted: the start of the model, or
    the first step that is not before output_start_time. *)
Definition anchored (c : cfg) (mstart ts b : Z) : Prop :=
  match c_start c with
  | None => b = 0
  | Some st =>
      if st =? mstart then b = 0
      else 1 <= b /\ st <= mstart + b * ts * sec_us /\
           forall j, 1 <= j < b -> mstart + j * ts * sec_us < st
  end.

(** Step [k >= 1] is to be written, by the interval. *)
Definition due (c : cfg) (ts b k : Z) : Prop :=
  k = b \/
  (b < k /\ c_single c = false /\
   match c_ts c with None => True | Some T => crosses T ((k - 1 - b) * ts) ((k - b) * ts) end).

(** The documented schedule of a run of [n] steps (outputter.py:80-117). *)
Definition scheduled (c : cfg) (ts n b k : Z) : Prop :=
  0 <= k < n /\ c_on c = true /\
  ((k = 0 /\ (c_zero c = true \/ (c_single c = true /\ b = 0))) \/
   (k = n - 1 /\ c_last c = true) \/
   (1 <= k /\ due c ts b k)).
