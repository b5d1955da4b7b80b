(** * What the order of weatherers should be *)
From Coq Require Import Sorted.
From Verif Require Import Py OrderModel.

(** The stages of the documented order: removal options, decay, evaporation, ... *)
Definition rank (c : wclass) : option Z :=
  match c with
  | ChemicalDispersion => Some 1 | Skimmer => Some 2 | Burn => Some 3
  | ROC_Burn => Some 4 | ROC_Skim => Some 5 | ROC_Disperse => Some 6
  | Beaching => Some 7
  | HalfLifeWeatherer => Some 8
  | Evaporation => Some 9
  | NaturalDispersion => Some 10
  | Dissolution => Some 11
  | Biodegradation => Some 12
  | Emulsification => Some 13
  | FayGravityViscous => Some 14
  | ConstantArea => Some 15
  | Langmuir => Some 16
  | Other _ => None
  end.
Definition listed (c : wclass) : Prop := rank c <> None.
(** [a] may come before [b]. *)
Definition may_precede (a b : wclass) : Prop := forall i j, rank a = Some i -> rank b = Some j -> i <= j.
(** The list is in the documented order. *)
Definition in_order {A} (cls : A -> wclass) (l : list A) : Prop := StronglySorted (fun x y => may_precede (cls x) (cls y)) l.
(** Weatherers of one class keep their order, and none comes or goes. *)
Definition of_class {A} (cls : A -> wclass) (c : wclass) (l : list A) : list A := filter (fun x => if wclass_eq_dec (cls x) c then true else false) l.
Definition same_but_order {A} (cls : A -> wclass) (l l' : list A) : Prop := forall c, of_class cls c l' = of_class cls c l.
