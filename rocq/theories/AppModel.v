(** * Appearances

    Models gnome/utilities/appearance.py: Appearance.__init__ (98-107), update_from_dict (109-118), to_dict (120-124) and
    __getattr__ (126-133), with what they use of gnome/gnomeobject.py: to_dict (473-490) and update_from_dict (492-547),
    for the schema of an appearance: obj_type and id, which are read only, and name (persist/base_schema.py:584-594).

    A value is a number, a dictionary a list of pairs with different names, the object what was set on it.  A name that
    was never set is given by the object: an argument.  The settings are names that the class does not use itself.
    Not modelled: the names taken from the dictionary of the caller, colormaps, the value update_from_dict returns. *)

From Coq Require Import ZArith List Bool Lia String.
From Verif Require Import Py StrModel.
Import ListNotations.
Open Scope list_scope.
Open Scope Z_scope.

Record appr := App { a_attrs : list (str * Z); a_keys : list str }.

(** appearance.py:105-106 *)
Fixpoint set_all (d : list (str * Z)) (attrs : list (str * Z)) : list (str * Z) :=
  match d with [] => attrs | (k, v) :: t => set_all t (sset k v attrs) end.

(** appearance.py:98-107: obj_type and id cannot be set. *)
Definition new_app (kw : list (str * Z)) : res appr :=
  if smem (lit "obj_type"%string) (map fst kw) || smem (lit "id"%string) (map fst kw) then Raise AttrErr
  else Ok (App (set_all kw []) (map fst kw)).

(** appearance.py:113-114: a name that is not there is a KeyError. *)
Fixpoint pop_all (names : list str) (d : list (str * Z)) : res (list (str * Z)) :=
  match names with
  | [] => Ok d
  | n :: t => match sget n d with None => Raise KeyErr | Some _ => pop_all t (filter (fun p => negb (seqb n (fst p))) d) end
  end.

(** appearance.py:115-118 *)
Fixpoint add_keys (names keys : list str) : list str :=
  match names with [] => keys | n :: t => add_keys t (if smem n keys then keys else keys ++ [n]) end.

(** appearance.py:109-118; gnomeobject.py:492-547 sets the name. *)
Definition update_app (d : list (str * Z)) (o : appr) : appr * res unit :=
  let o1 := match sget (lit "name"%string) d with Some v => App (sset (lit "name"%string) v (a_attrs o)) (a_keys o) | None => o end in
  match pop_all [lit "name"%string; lit "obj_type"%string; lit "id"%string] d with
  | Raise e => (o1, Raise e)
  | Ok d1 => (App (set_all d1 (a_attrs o1)) (add_keys (map fst d1) (a_keys o1)), Ok tt)
  end.

(** appearance.py:120-124, 126-133; gnomeobject.py:473-490 *)
Fixpoint add_data (keys : list str) (attrs : list (str * Z)) (data : list (str * option Z)) : list (str * option Z) :=
  match keys with [] => data | k :: t => add_data t attrs (sset k (sget k attrs) data) end.
Definition to_dict (typ id default_name : Z) (o : appr) : list (str * option Z) :=
  add_data (a_keys o) (a_attrs o)
    [(lit "obj_type"%string, Some typ); (lit "id"%string, Some id);
     (lit "name"%string, Some (match sget (lit "name"%string) (a_attrs o) with Some v => v | None => default_name end))].

(** Updates one after the other, as long as they succeed. *)
Fixpoint updates (l : list (list (str * Z))) (o : appr) : res appr :=
  match l with [] => Ok o | d :: t => match update_app d o with (o1, Ok _) => updates t o1 | (_, Raise e) => Raise e end end.
