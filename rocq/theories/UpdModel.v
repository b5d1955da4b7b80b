(** * Changing an object from a dictionary

    Modelled: [GnomeObject.update_from_dict]
    (/repo/py_gnome/gnome/gnomeobject.py, lines 492-547), [_attr_changed]
    (lines 552-595), [new_from_dict] (lines 453-470), and, in
    /repo/py_gnome/gnome/persist/base_schema.py, [ObjTypeSchema.register_refs]
    (lines 683-700), [process_subnode] (lines 702-768) and [ObjType._deser],
    [ObjType.deserialize] (lines 141-214).

    An object has a class and attributes; the class has a schema: a list of
    nodes, each with a name, a kind, and the marks 'update' and 'read_only'.
    An attribute is a plain value, a reference to an object or None, or a
    list (or ordered collection) of references.  Every operation gives the
    state it leaves as well as its result, so that what a failed update
    leaves behind can be described.

    Not modelled: what the setters of single attributes do (each attribute
    is set to the value given and no setter raises), what plain values are
    and how text is turned into them (a plain value is a number, and a text
    that colander refuses is [JBad]), the checks of constructors (a new
    object has the attributes that its class gives it by default and those
    given), the classes that a node accepts, lists nested in tuples, the
    events that a collection fires, [drop] values, logging, and the classes
    with an [update_from_dict] of their own (Model, Wind, Appearance). *)
From Verif Require Import Py.

(** The kinds of node: ObjTypeSchema, SequenceSchema of objects,
    OrderedCollectionSchema of objects, and everything else
    (/repo/py_gnome/gnome/persist/base_schema.py, lines 710-768). *)
Inductive kind := Plain | One | Many | Coll.

(** One node of a schema (base_schema.py, lines 551-612): [n_upd] is the
    mark 'update', [n_ro] the mark 'read_only'. *)
Record node := ND { n_name : Z; n_kind : kind; n_upd : bool; n_ro : bool }.

(** The value of an attribute; objects are referred to by their id. *)
Inductive val := VP (v : Z) | VO (y : option Z) | VL (l : list (option Z)).

Record obj := OB { o_cls : Z; o_at : dict val }.

(** The text that is received: null, a plain value, one that is refused, an
    object with its id, its obj_type and its fields, and a list. *)
Inductive json :=
  JNull | JP (v : Z) | JBad | JO (id : option Z) (c : option Z) (fs : list (Z * json))
| JL (l : list json).

(** The objects that exist, the table [Refs] (gnomeobject.py, lines
    107-116), and the id that the next new object gets. *)
Record st := ST { heap : Z -> option obj; refs : Z -> option Z; next : Z }.

Definition M A := st -> st * res A.
Definition ret {A} (a : A) : M A := fun s => (s, Ok a).
Definition fail {A} (e : exc) : M A := fun s => (s, Raise e).
Definition bindM {A B} (m : M A) (f : A -> M B) : M B := fun s =>
  match m s with (s1, Ok a) => f a s1 | (s1, Raise e) => (s1, Raise e) end.
Definition lift {A} (r : res A) : M A := fun s => (s, r).
Notation "'step' x <- e ; f" := (bindM e (fun x => f))
  (at level 200, x pattern, e at level 100, f at level 200, right associativity).

Definition upd {A} (f : Z -> A) (x : Z) (a : A) : Z -> A :=
  fun y => if y =? x then a else f y.

(** [getattr(x, k)]. *)
Definition get_attr (x k : Z) : M val := fun s =>
  match heap s x with
  | None => (s, Raise AttrErr)
  | Some o => match dget k (o_at o) with None => (s, Raise AttrErr) | Some v => (s, Ok v) end
  end.

(** [setattr(x, k, v)], and, when [v] is a list, giving the list that [x]
    holds under [k] the contents [v]. *)
Definition set_attr (x k : Z) (v : val) : M unit := fun s =>
  match heap s x with
  | None => (s, Raise AttrErr)
  | Some o => (ST (upd (heap s) x (Some (OB (o_cls o) (dset k v (o_at o))))) (refs s) (next s), Ok tt)
  end.

Definition oeqb (a b : option Z) : bool :=
  match a, b with Some x, Some y => x =? y | None, None => true | _, _ => false end.

(** [_attr_changed] (gnomeobject.py, lines 552-595) for a plain value and
    for a reference: for a reference the test is identity; None is not a
    GnomeId, and [None != y] holds for every object [y]. *)
Definition attr_changed (cur new : val) : bool :=
  match cur, new with
  | VP a, VP b => negb (a =? b)
  | VO a, VO b => negb (oeqb a b)
  | _, _ => true
  end.

Section Upd.
  (** The schema of each class, and the attributes that its constructor
      gives to an object for which nothing is sent. *)
  Variable schema : Z -> list node.
  Variable init : Z -> dict val.

  (** The objects that an attribute refers to. *)
  Definition targets (v : val) : list Z :=
    match v with
    | VP _ => []
    | VO (Some y) => [y]
    | VO None => []
    | VL l => flat_map (fun a => match a with Some y => [y] | None => [] end) l
    end.

  (** The objects that [register_refs] goes on to from an object: those of
      the attributes in its schema. *)
  Definition nexts (o : obj) : list Z :=
    flat_map (fun nd => match dget (n_name nd) (o_at o) with Some v => targets v | None => [] end)
             (schema (o_cls o)).

  (** [register_refs] (base_schema.py, lines 683-700).  The recursion of the
      code ends because objects do not contain each other in a circle; here
      it is given as many levels as there are objects. *)
  Fixpoint reg (n : nat) (h : Z -> option obj) (r : Z -> option Z) (x : Z) : Z -> option Z :=
    match n with
    | O => r
    | S n' =>
        let r1 := match r x with None => upd r x (Some x) | Some _ => r end in
        match h x with
        | None => r1
        | Some o => fold_left (fun r y => reg n' h r y) (nexts o) r1
        end
    end.
  Definition register (s : st) (r : Z -> option Z) (x : Z) : Z -> option Z :=
    reg (Z.to_nat (next s)) (heap s) r x.

  (** What can be done with a piece of text: read it as a plain value, as
      an object (inside the creation of another object, or not), or as a
      list of objects; and whether it is null. *)
  Record work := WK {
    w_plain : res Z; w_one : bool -> M (option Z);
    w_items : res (list (bool -> M (option Z))); w_null : bool }.

  (** [subappstruct.append(item)] for a list, [subappstruct.add(item)] for an
      ordered collection (orderedcollection.py, lines 79-103), which leaves
      out an object that it holds. *)
  Definition put_item (coll : bool) (l : list (option Z)) (y : option Z) : res (list (option Z)) :=
    if coll then
      match y with
      | None => Raise TypeErr
      | Some _ => Ok (if existsb (oeqb y) l then l else l ++ [y])
      end
    else Ok (l ++ [y]).

  (** The loops of process_subnode over the items received
      (base_schema.py, lines 739-751 and 759-767): the list that [x] holds
      grows as they are read. *)
  Fixpoint fill (coll : bool) (x k : Z) (items : list (bool -> M (option Z))) : M unit :=
    match items with
    | [] => ret tt
    | it :: r =>
        step y <- it false;
        step cur <- get_attr x k;
        match cur with
        | VL l => step l' <- lift (put_item coll l y);
                  step _ <- set_attr x k (VL l');
                  fill coll x k r
        | _ => fail AttrErr
        end
    end.

  Definition is_coll (k : kind) : bool := match k with Coll => true | _ => false end.

  (** [process_subnode] (base_schema.py, lines 702-768) for the attribute
      [n_name nd] of [x].  A list of objects is emptied first and filled
      again; what the function returns is that same list, so nothing is
      given back here. *)
  Definition process (nd : node) (x : Z) (w : work) : M (option val) :=
    match n_kind nd with
    | Plain => step v <- lift (w_plain w); ret (Some (VP v))
    | One => step y <- w_one w false; ret (Some (VO y))
    | _ => step _ <- set_attr x (n_name nd) (VL []);
           step items <- lift (w_items w);
           step _ <- fill (is_coll (n_kind nd)) x (n_name nd) items;
           ret None
    end.

  (** The first loop of [update_from_dict] (gnomeobject.py, lines 505-518):
      keys that are not updatable were dropped, and the others are read in
      the order of the schema. *)
  Fixpoint read_all (nds : list node) (x : Z) (ws : list (Z * work)) : M (list (Z * option val)) :=
    match nds with
    | [] => ret []
    | nd :: r =>
        if n_upd nd then
          match dget (n_name nd) ws with
          | None => read_all r x ws
          | Some w =>
              step _ <- get_attr x (n_name nd);
              step v <- process nd x w;
              step vs <- read_all r x ws;
              ret ((n_name nd, v) :: vs)
          end
        else read_all r x ws
    end.

  (** The second loop (lines 522-533): a list of objects is compared with
      itself, so it never counts as changed and need not be set. *)
  Fixpoint write_all (x : Z) (vs : list (Z * option val)) (updated : bool) : M bool :=
    match vs with
    | [] => ret updated
    | (k, None) :: r => write_all x r updated
    | (k, Some v) :: r =>
        step cur <- get_attr x k;
        step _ <- set_attr x k v;
        write_all x r (updated || attr_changed cur v)
    end.

  (** [update_from_dict] (lines 492-547) with the table of references in
      the state. *)
  Definition update (x : Z) (ws : list (Z * work)) : M bool := fun s =>
    match heap s x with
    | None => (s, Raise AttrErr)
    | Some o => (step vs <- read_all (schema (o_cls o)) x ws; write_all x vs false) s
    end.

  (** The items of a list that is part of a new object. *)
  Fixpoint build (coll : bool) (items : list (bool -> M (option Z))) (l : list (option Z)) : M (list (option Z)) :=
    match items with
    | [] => ret l
    | it :: r =>
        step y <- it true;
        step l' <- lift (put_item coll l y);
        build coll r l'
    end.

  (** [ObjType.deserialize] for an object that is not known yet: [_impl]
      (base_schema.py, lines 69-107) reads its attributes in the order of
      the schema, leaving out those that are absent or null. *)
  Fixpoint new_attrs (nds : list node) (ws : list (Z * work)) : M (dict val) :=
    match nds with
    | [] => ret []
    | nd :: r =>
        match dget (n_name nd) ws with
        | None => new_attrs r ws
        | Some w =>
            if w_null w then new_attrs r ws
            else
              step v <- match n_kind nd with
                        | Plain => step v <- lift (w_plain w); ret (VP v)
                        | One => step y <- w_one w true; ret (VO y)
                        | k => step items <- lift (w_items w);
                               step l <- build (is_coll k) items [];
                               ret (VL l)
                        end;
              step vs <- new_attrs r ws;
              ret (if n_ro nd then vs else (n_name nd, v) :: vs)
        end
    end.

  (** [new_from_dict] (gnomeobject.py, lines 453-470) and the rest of
      [_deser] (base_schema.py, lines 141-158): the object gets a new id, it
      and all that it refers to are registered, and it is also entered under
      the id that was received, if there was one.  When that id has come to
      be known while the attributes were read, the object known by it is
      taken instead. *)
  Definition create (id : option Z) (c : Z) (ws : list (Z * work)) : M (option Z) :=
    step vs <- new_attrs (schema c) ws;
    fun s =>
      match (match id with Some i => refs s i | None => None end) with
      | Some y => (s, Ok (Some y))
      | None =>
          let x := next s in
          let o := OB c (fold_left (fun d kv => dset (fst kv) (snd kv) d) vs (init c)) in
          let s1 := ST (upd (heap s) x (Some o)) (refs s) (x + 1) in
          let r := register s1 (refs s1) x in
          let r' := match id with Some i => upd r i (Some x) | None => r end in
          (ST (heap s1) r' (next s1), Ok (Some x))
      end.

  (** [process_subnode] for an ObjType node (base_schema.py, lines 710-727)
      when [creating] is false, [ObjType.deserialize] (lines 163-214) when it
      is true.  A known object is updated; inside a new object this is done
      with a table of its own, made from that object. *)
  Definition one (id c : option Z) (ws : list (Z * work)) (creating : bool) : M (option Z) := fun s =>
    match (match id with Some i => refs s i | None => None end) with
    | Some y =>
        if creating then
          let s1 := ST (heap s) (register s (fun _ => None) y) (next s) in
          match update y ws s1 with
          | (s2, Ok _) => (ST (heap s2) (refs s) (next s2), Ok (Some y))
          | (s2, Raise e) => (ST (heap s2) (refs s) (next s2), Raise e)
          end
        else (step _ <- update y ws; ret (Some y)) s
    | None =>
        match c with
        | None => (s, Raise AttrErr)
        | Some c => create id c ws s
        end
    end.

  (** What a piece of text can be read as; the exceptions are those of
      Python for the wrong shape, and colander's Invalid is [ValueErr]. *)
  Fixpoint work_of (j : json) : work :=
    match j with
    | JNull => WK (Raise ValueErr) (fun _ => ret None) (Raise TypeErr) true
    | JP v => WK (Ok v) (fun cr => fail (if cr then TypeErr else AttrErr)) (Raise TypeErr) false
    | JBad => WK (Raise ValueErr) (fun cr => fail (if cr then TypeErr else AttrErr)) (Raise TypeErr) false
    | JL l => WK (Raise ValueErr) (fun _ => fail AttrErr) (Ok (map (fun j' => w_one (work_of j')) l)) false
    | JO id c fs =>
        WK (Raise ValueErr)
           (one id c (map (fun kj => (fst kj, work_of (snd kj))) fs))
           (Raise AttrErr) false
    end.

  Definition works (fs : list (Z * json)) : list (Z * work) :=
    map (fun kj => (fst kj, work_of (snd kj))) fs.

  (** [x.update_from_dict(fields)]: the table is made from [x]
      (gnomeobject.py, lines 493-495). *)
  Definition put (x : Z) (fs : list (Z * json)) : M bool := fun s =>
    update x (works fs) (ST (heap s) (register s (fun _ => None) x) (next s)).
End Upd.
