(** * The order of the weatherers

    Models gnome/weatherers/__init__.py and Model._order_weatherers (gnome/model.py). *)
From Verif Require Import Py OrdCollModel.

(** The classes named in weatherers/__init__.py:42-60; [Other n] is any other class,
    subclasses of the named ones included. *)
Inductive wclass :=
| ChemicalDispersion | Skimmer | Burn | ROC_Burn | ROC_Skim | ROC_Disperse | Beaching
| HalfLifeWeatherer | Evaporation | NaturalDispersion | Dissolution | Biodegradation
| Emulsification | FayGravityViscous | ConstantArea | Langmuir | Other (n : Z).
Definition wclass_eq_dec (a b : wclass) : {a = b} + {a <> b}.
Proof. decide equality. apply Z.eq_dec. Defined.

(** weatherers/__init__.py:42-60. *)
Definition sort_order : list wclass :=
  [ChemicalDispersion; Skimmer; Burn; ROC_Burn; ROC_Skim; ROC_Disperse; Beaching; HalfLifeWeatherer; Evaporation;
   NaturalDispersion; Dissolution; Biodegradation; Emulsification; FayGravityViscous; ConstantArea; Langmuir].
(** weatherers/__init__.py:70: the dictionary from class to place; a later place replaces an earlier one. *)
Fixpoint idx_from (i : Z) (l : list wclass) (c : wclass) (found : option Z) : option Z :=
  match l with
  | [] => found
  | x :: r => idx_from (i + 1) r c (if wclass_eq_dec x c then Some i else found)
  end.
(** weatherers/__init__.py:85-92 (weatherer_sort), by the exact class. *)
Definition weatherer_sort (c : wclass) : option Z := idx_from 0 sort_order c None.

Section Order.
  Context {Obj : Type}.
  Variable sid : Obj -> Z.
  Variable cls : Obj -> wclass.
  (** == of weatherers (gnomeobject.py:601-720). *)
  Variable weq : Obj -> Obj -> bool.

  (** sorted(l, key=...): stable; a key None raises TypeError as soon as there is
      something to compare it with. *)
  Fixpoint insert (k : Z) (o : Obj) (l : list (Z * Obj)) : list (Z * Obj) :=
    match l with
    | [] => [(k, o)]
    | (k', o') :: r => if k' <=? k then (k', o') :: insert k o r else (k, o) :: l
    end.
  Definition sort_keyed (l : list (Z * Obj)) : list (Z * Obj) := fold_left (fun acc x => insert (fst x) (snd x) acc) l [].
  Definition key_of (o : option Obj) : option Z := match o with Some x => weatherer_sort (cls x) | None => None end.
  Definition keyed (o : option Obj) : res (Z * Obj) :=
    match o, key_of o with Some x, Some k => Ok (k, x) | _, _ => Raise TypeErr end.
  Definition sorted_weatherers (l : list (option Obj)) : res (list (option Obj)) :=
    match l with
    | [] | [_] => Ok l
    | _ => do kl <- mapM keyed l; Ok (map (fun x => Some (snd x)) (sort_keyed kl))
    end.

  (** == of lists. *)
  Fixpoint list_eq (a : list Obj) (b : list (option Obj)) : bool :=
    match a, b with
    | [], [] => true
    | x :: r, Some y :: r' => weq x y && list_eq r r'
    | _, _ => false
    end.
  (** model.py:756-762. *)
  Definition order_weatherers (s : oc Obj) : oc Obj * option exc :=
    match iter s with
    | Raise e => (s, Some e)
    | Ok l =>
        match sorted_weatherers l with
        | Raise e => (s, Some e)
        | Ok l' => if list_eq (values s) l' then (s, None) else add_iter sid (clear s) l'
        end
    end.
End Order.
