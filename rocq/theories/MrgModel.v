(** * Models as collections of objects: what adding an object brings along, merging, finding, standard weathering

    Models Model._add_to_environ_collec (gnome/model.py:1337-1372) and the callbacks that call it (340-355, 1374-1398)
    when a mover, weatherer or environment object is added or replaced, the collections filled by Model.__init__
    before the callbacks are registered (259-273, 335), Model.merge (1614-1638), Model.contains_object (673-690),
    Model.find_by_class (692-711), Model.add_weathering (357-389) with the names of
    gnome/weatherers/__init__.py:73-82, Model.get_spill_property (1912-1929).

    An object is a number (its id).  The references of an object are its attributes wind, tide, waves, water and
    current that are there and not None, in this order.  A collection is the list of its objects in order: the
    component on ordered collections shows that this is what an OrderedCollection is.  An environment object that is
    added has its own callback called, so that adding goes on through the references.  Python recurses; here the
    recursion is bounded by the number of objects there are, and it is proved that this is never too little.

    Not modelled: the rewinding by the callbacks (component Step), the cache given to an outputter, references that
    are not environment objects (which environment.add refuses). *)

From Coq Require Import ZArith List Bool String Lia.
From Verif Require Import Py StrModel.
Import ListNotations.
Open Scope list_scope.
Open Scope Z_scope.

(** The references of the objects. *)
Definition heap := Z -> list Z.

(** model.py:1337-1372 (_add_to_environ_collec) with the callback of the environment (350-351, 1384-1392): every
    reference that is not there is added at the end, and then its own references. *)
Fixpoint hook (refs : heap) (fuel : nat) (env : list Z) (x : Z) : list Z :=
  match fuel with
  | O => env
  | S f => fold_left (fun e r => if zmem r e then e else hook refs f (e ++ [r]) r) (refs x) env
  end.

(** A world: the objects there are, their references. *)
Record world := World { w_objs : list Z; w_refs : heap }.
Definition bring (w : world) (env : list Z) (x : Z) : list Z := hook (w_refs w) (S (List.length (w_objs w))) env x.

Record model := Model {
  m_movers : list Z;
  m_weath : list Z;
  m_env : list Z;
  m_outs : list Z;
  m_spills : list Z;
  m_map : Z;
  m_dur : option Z;            (* _duration, seconds *)
  m_step : option Z;           (* _time_step, seconds *)
  m_nts : option Z }.          (* _num_time_steps *)

(** orderedcollection.py:77-101, 106-125, 127-155 on the list of the objects: adding one that is there does nothing;
    a new one takes the place of the one it replaces. *)
Definition oc_add (x : Z) (l : list Z) : list Z := if zmem x l then l else l ++ [x].
Definition oc_remove (x : Z) (l : list Z) : list Z := filter (fun z => negb (z =? x)) l.
Definition oc_replace (x y : Z) (l : list Z) : list Z :=
  map (fun z => if z =? x then y else z) (filter (fun z => (z =? x) || negb (z =? y)) l).

Inductive coll := Movers | Weatherers | Environment | Outputters | Spills.

Definition get_coll (c : coll) (m : model) : list Z :=
  match c with Movers => m_movers m | Weatherers => m_weath m | Environment => m_env m | Outputters => m_outs m | Spills => m_spills m end.
Definition set_coll (c : coll) (l : list Z) (m : model) : model :=
  match c with
  | Movers => Model l (m_weath m) (m_env m) (m_outs m) (m_spills m) (m_map m) (m_dur m) (m_step m) (m_nts m)
  | Weatherers => Model (m_movers m) l (m_env m) (m_outs m) (m_spills m) (m_map m) (m_dur m) (m_step m) (m_nts m)
  | Environment => Model (m_movers m) (m_weath m) l (m_outs m) (m_spills m) (m_map m) (m_dur m) (m_step m) (m_nts m)
  | Outputters => Model (m_movers m) (m_weath m) (m_env m) l (m_spills m) (m_map m) (m_dur m) (m_step m) (m_nts m)
  | Spills => Model (m_movers m) (m_weath m) (m_env m) (m_outs m) l (m_map m) (m_dur m) (m_step m) (m_nts m)
  end.

(** model.py:340-355: what the callbacks of a collection do with an object added. *)
Definition hooked (w : world) (c : coll) (x : Z) (m : model) : model :=
  match c with
  | Movers | Weatherers | Environment => set_coll Environment (bring w (m_env m) x) m
  | Outputters | Spills => m
  end.

(** Adding (the callback is called only if it is new), removing, replacing (the callback is always called). *)
Definition add (w : world) (c : coll) (x : Z) (m : model) : model :=
  if zmem x (get_coll c m) then m else hooked w c x (set_coll c (oc_add x (get_coll c m)) m).
Definition remove (c : coll) (x : Z) (m : model) : model * option exc :=
  if zmem x (get_coll c m) then (set_coll c (oc_remove x (get_coll c m)) m, None) else (m, Some KeyErr).
Definition replace (w : world) (c : coll) (x y : Z) (m : model) : model * option exc :=
  if zmem x (get_coll c m) then (hooked w c y (set_coll c (oc_replace x y (get_coll c m)) m), None) else (m, Some KeyErr).

(** model.py:660-671 (_reset_num_time_steps). *)
Definition num_steps (dur step : option Z) : res (option Z) :=
  match dur, step with
  | Some d, Some s => if s =? 0 then Raise ZeroDivErr else Ok (Some (1 + d / s))
  | _, _ => Ok None
  end.

(** model.py:259-273 (Model.__init__): objects given to the constructor are in their collections before the
    callbacks are registered (335). *)
Definition construct (movers weath env outs spills : list Z) (map : Z) (dur step : option Z) : res model :=
  do n <- num_steps dur step;
  let fill l := fold_left (fun acc x => oc_add x acc) l [] in
  Ok (Model (fill movers) (fill weath) (fill env) (fill outs) (fill spills) map dur step n).

(** model.py:1614-1638 (merge): attributes that are None are taken from the other model; then the objects of the other
    model that are not there are added, movers first, then weatherers, environment, outputters, spills. *)
Definition or_else (a b : option Z) : option Z := match a with None => b | Some _ => a end.
Definition merge_coll (w : world) (c : coll) (l : list Z) (m : model) : model := fold_left (fun m x => add w c x m) l m.
Definition merge (w : world) (m other : model) : model :=
  let m := Model (m_movers m) (m_weath m) (m_env m) (m_outs m) (m_spills m) (m_map m)
                 (or_else (m_dur m) (m_dur other)) (or_else (m_step m) (m_step other)) (or_else (m_nts m) (m_nts other)) in
  let m := merge_coll w Movers (m_movers other) m in
  let m := merge_coll w Weatherers (m_weath other) m in
  let m := merge_coll w Environment (m_env other) m in
  let m := merge_coll w Outputters (m_outs other) m in
  merge_coll w Spills (m_spills other) m.

(** A script: what is done to a model, and to the references of the objects. *)
Inductive op :=
| Add (c : coll) (x : Z)
| Remove (c : coll) (x : Z)
| Replace (c : coll) (x y : Z)
| Merge (other : model)
| Refer (x : Z) (l : list Z).       (* x.wind = ... *)

Definition step (s : world * model) (o : op) : world * model :=
  let (w, m) := s in
  match o with
  | Add c x => (w, add w c x m)
  | Remove c x => (w, fst (remove c x m))
  | Replace c x y => (w, fst (replace w c x y m))
  | Merge other => (w, merge w m other)
  | Refer x l => (World (w_objs w) (fun y => if y =? x then l else w_refs w y), m)
  end.
Definition run (s : world * model) (ops : list op) : world * model := fold_left step ops s.

(** ** Finding *)

(** model.py:673-690 (contains_object).  No class of gnome but Model has a method contains_object. *)
Definition contains_object (m : model) (x : Z) : bool :=
  (m_map m =? x) ||
  existsb (fun c => zmem x (get_coll c m)) [Environment; Spills; Movers; Weatherers; Outputters].

(** model.py:692-711 (find_by_class), [is] the test isinstance. *)
Inductive found := Nothing | One (x : Z) | All (l : list Z).
Fixpoint first_of (is : Z -> bool) (l : list Z) : option Z :=
  match l with [] => None | x :: t => if is x then Some x else first_of is t end.
Definition find_by_class (is : Z -> bool) (l : list Z) (ret_all : bool) : found :=
  if ret_all then match filter is l with [] => Nothing | r => All r end
  else match first_of is l with Some x => One x | None => Nothing end.

(** model.py:1912-1929 (get_spill_property): containers are dictionaries from names to arrays, one or two of them; a
    missing name is a ValueError, a missing container an IndexError. *)
Definition get_spill_property {A} (containers : list (dict A)) (name : Z) (ucert : bool) : res A :=
  match nth_error containers (if ucert then 1%nat else 0%nat) with
  | None => Raise IndexErr
  | Some d => match dget name d with Some a => Ok a | None => Raise ValueErr end
  end.

(** ** Standard weathering *)

(** The classes of weatherers/__init__.py:73-79. *)
Inductive wclass := Evaporation | NaturalDispersion | Emulsification | Dissolution | HalfLife.

(** str.lower, of ASCII. *)
Definition lower (s : str) : str := map (fun c => if (65 <=? c) && (c <=? 90) then c + 32 else c) s.

(** The two tables (weatherers/__init__.py:73-82). *)
Definition by_name (s : str) : option wclass :=
  if seqb s (lit "evaporation"%string) then Some Evaporation
  else if seqb s (lit "dispersion"%string) then Some NaturalDispersion
  else if seqb s (lit "emulsification"%string) then Some Emulsification
  else if seqb s (lit "dissolution"%string) then Some Dissolution
  else if seqb s (lit "half_life_weatherer"%string) then Some HalfLife
  else None.

(** What is given: a text, or a list of texts. *)
Inductive which := Text (s : str) | Names (l : list str).

(** model.py:377-381: the name of a set is replaced by its list (a list is not hashable: TypeError); a text that is
    no name of a set is iterated by its characters. *)
Definition names (k : which) : list str :=
  match k with
  | Text s => if seqb s (lit "standard"%string) then [lit "evaporation"%string; lit "dispersion"%string; lit "emulsification"%string]
              else map (fun c => [c]) s
  | Names l => l
  end.

(** model.py:382-389: one new weatherer after the other; an unknown name is a ValueError.  Gives the classes of the
    weatherers of the model. *)
Fixpoint add_names (l : list str) (ws : list wclass) : list wclass * option exc :=
  match l with
  | [] => (ws, None)
  | s :: t => match by_name (lower s) with
              | Some c => add_names t (ws ++ [c])
              | None => (ws, Some ValueErr)
              end
  end.
Definition add_weathering (k : which) (ws : list wclass) : list wclass * option exc := add_names (names k) ws.
