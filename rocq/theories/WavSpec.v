(** * What units, waves and white caps should be

    The vocabulary of the properties C150 to C154. *)
From Coq Require Import Reals.
From Verif Require Import Py.
Local Open Scope R_scope.

(** A number [x] in a unit and a number [y] in another mean the same: each unit
    is a shift and a scale to a common reference. *)
Definition same_quantity (shift scale : Z -> R) (u : Z) (x : R) (v : Z) (y : R) : Prop :=
  (x + shift u) * scale u = (y + shift v) * scale v.

(** What was last stored for an attribute: a value and its unit. *)
Fixpoint last_set (a : Z) (l : list (Z * option R * Z)) : option (option R * Z) :=
  match l with
  | [] => None
  | (b, v, u) :: r => match last_set a r with
                      | Some x => Some x
                      | None => if (a =? b)%Z then Some (v, u) else None
                      end
  end.

Definition grows (f : R -> R) : Prop := forall x y, 0 <= x -> x <= y -> f x <= f y.
