(** * What an appearance should tell *)

From Coq Require Import ZArith List Bool Lia String.
From Verif Require Import Py StrModel AppModel.
Import ListNotations.
Open Scope list_scope.
Open Scope Z_scope.

(** A setting of the client, not one of the three names all objects have. *)
Definition setting (k : str) : Prop := k <> lit "name"%string /\ k <> lit "obj_type"%string /\ k <> lit "id"%string.

(** The value that was given last, in dictionaries given one after the other. *)
Inductive latest (k : str) : list (list (str * Z)) -> option Z -> Prop :=
| latest_none : latest k [] None
| latest_here l d v : sget k d = Some v -> latest k (l ++ [d]) (Some v)
| latest_before l d r : sget k d = None -> latest k l r -> latest k (l ++ [d]) r.

Definition dict (d : list (str * Z)) : Prop := NoDup (map fst d).
(** It names the three. *)
Definition whole (d : list (str * Z)) : Prop :=
  sget (lit "name"%string) d <> None /\ sget (lit "obj_type"%string) d <> None /\ sget (lit "id"%string) d <> None.
