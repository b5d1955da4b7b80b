(** * Specification for the collections of a model *)

From Coq Require Import ZArith List Bool String.
From Verif Require Import Py StrModel MrgModel.
Import ListNotations.
Open Scope list_scope.
Open Scope Z_scope.

(** [y] is reached from [x] through references. *)
Inductive reach (refs : Z -> list Z) : Z -> Z -> Prop :=
| reach_one : forall x y, In y (refs x) -> reach refs x y
| reach_more : forall x y z, In y (refs x) -> reach refs y z -> reach refs x z.

(** The objects of a model, and that there are no others than those of the world. *)
Definition users (m : model) : list Z := m_movers m ++ m_weath m ++ m_env m.
Definition sound (w : world) : Prop := forall x, In x (w_objs w) -> incl (w_refs w x) (w_objs w).
Definition within (w : world) (m : model) : Prop :=
  incl (users m) (w_objs w) /\
  NoDup (m_movers m) /\ NoDup (m_weath m) /\ NoDup (m_env m) /\ NoDup (m_outs m) /\ NoDup (m_spills m).
Definition op_within (w : world) (o : op) : Prop :=
  match o with
  | Add c x => In x (w_objs w)
  | Replace c x y => In y (w_objs w)
  | Merge other => within w other
  | Remove _ _ | Refer _ _ => True
  end.

(** Whatever a mover, weatherer or environment object of the model refers to is in the environment of the model. *)
Definition brought (w : world) (m : model) : Prop := forall x, In x (users m) -> incl (w_refs w x) (m_env m).

(** Operations that take nothing from the environment and change no references. *)
Definition steady (o : op) : Prop :=
  match o with
  | Add _ _ | Merge _ => True
  | Remove c _ | Replace c _ _ => c <> Environment
  | Refer _ _ => False
  end.

(** An operation that takes [x] from the collection [c]. *)
Definition takes (c : coll) (x : Z) (o : op) : Prop :=
  match o with
  | Remove d y => d = c /\ y = x
  | Replace d y z => d = c /\ y = x /\ z <> x
  | _ => False
  end.

(** The members of [b] that are not in [a], in order. *)
Definition new_in (a b : list Z) : list Z := filter (fun x => negb (zmem x a)) b.

(** The collections whose objects bring what they refer to. *)
Definition hooks (c : coll) : Prop := c = Movers \/ c = Weatherers \/ c = Environment.

(** The names of the weatherers. *)
Definition named (s : str) (c : wclass) : Prop :=
  s = lit "evaporation"%string /\ c = Evaporation \/
  s = lit "dispersion"%string /\ c = NaturalDispersion \/
  s = lit "emulsification"%string /\ c = Emulsification \/
  s = lit "dissolution"%string /\ c = Dissolution \/
  s = lit "half_life_weatherer"%string /\ c = HalfLife.

(** The number of steps of a run of [d] seconds by steps of [s] seconds. *)
Definition steps_of (d s : Z) : Z := 1 + d / s.
