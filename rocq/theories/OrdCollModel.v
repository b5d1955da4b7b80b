(** * Model of gnome.utilities.orderedcollection.OrderedCollection

    Source: /repo/py_gnome/gnome/utilities/orderedcollection.py.
    Objects are an arbitrary type [Obj]; [sid] is [_s_id] (the stringified id
    of an object), with strings numbered by integers.  Callbacks are opaque:
    an invocation is recorded in a log; callbacks that call back into the same
    collection are not modelled. *)
From Verif Require Import Py.

(** Event names, orderedcollection.py:355-359. *)
Inductive event := EvAdd | EvRemove | EvReplace.
Definition event_eqb (a b : event) : bool :=
  match a, b with
  | EvAdd, EvAdd | EvRemove, EvRemove | EvReplace, EvReplace => true
  | _, _ => false
  end.

Section OC.
  Context {Obj : Type}.
  Variable sid : Obj -> Z.   (* orderedcollection.py:47-52, _s_id *)

  (** The attributes set in __init__, orderedcollection.py:41-45, plus the
      log of callback invocations. *)
  Record oc := mkOC {
    elems : list (option Obj);          (* _elems; None is a removed slot *)
    dindex : dict Z;                    (* _d_index : id -> slot *)
    callbacks : list (Z * list event);  (* callbacks : (callback, events) *)
    log : list (Z * event * Obj)        (* invocations so far, oldest first *)
  }.

  (** orderedcollection.py:41-45; the dict comprehension over enumerate.
      The dtype checks of lines 17-33 are outside the model: [l] is a list of
      objects of the right type. *)
  Definition ctor (l : list Obj) : oc :=
    mkOC (map Some l)
         (fold_left (fun d ix => dset (sid (snd ix)) (fst ix) d)
                    (combine (zseq 0 (length l)) l) [])
         [] [].

  (** orderedcollection.py:363-366, fire_event. *)
  Definition fire_event (s : oc) (ev : event) (o : Obj) : oc :=
    mkOC (elems s) (dindex s) (callbacks s)
         (log s ++ map (fun cb => (fst cb, ev, o))
                       (filter (fun cb => existsb (event_eqb ev) (snd cb)) (callbacks s))).

  (** orderedcollection.py:344-361, register_callback (valid events only). *)
  Definition register (s : oc) (cb : Z) (evs : list event) : oc :=
    mkOC (elems s) (dindex s) (callbacks s ++ [(cb, evs)]) (log s).

  (** An [ident] argument: an int or an id string. *)
  Inductive ident := ByPos (i : Z) | ById (k : Z).

  (** orderedcollection.py:64-75, get; [Ok None] is Python's None read from a
      removed slot. *)
  Definition get (s : oc) (id : ident) : res (option Obj) :=
    match id with
    | ByPos i => do idx <- py_get (zsort (dvals (dindex s))) i; py_get (elems s) idx
    | ById k => match dget k (dindex s) with
                | Some idx => py_get (elems s) idx
                | None => Raise KeyErr
                end
    end.

  (** orderedcollection.py:77-87, add of one object of the right type. *)
  Definition add1 (s : oc) (o : Obj) : oc :=
    let k := sid o in
    if dmem k (dindex s) then s
    else fire_event
           (mkOC (elems s ++ [Some o]) (dset k (Z.of_nat (length (elems s))) (dindex s))
                 (callbacks s) (log s)) EvAdd o.

  (** What can be passed to add: an object of the right type, an iterable
      (whose [None] members have the wrong type), or something that is
      neither. *)
  Inductive addarg := AObj (o : Obj) | AIter (l : list (option Obj)) | ABad.

  (** orderedcollection.py:91-101: the loop stops at the first bad member with
      TypeError; earlier members have been added. *)
  Fixpoint add_iter (s : oc) (l : list (option Obj)) : oc * option exc :=
    match l with
    | [] => (s, None)
    | None :: _ => (s, Some TypeErr)
    | Some o :: r => add_iter (add1 s o) r
    end.

  (** orderedcollection.py:77-101, add. *)
  Definition add (s : oc) (a : addarg) : oc * option exc :=
    match a with
    | AObj o => (add1 s o, None)
    | AIter l => add_iter s l
    | ABad => (s, Some TypeErr)
    end.

  (** The key of an object read from a slot: [_s_id(None)] is the id of None,
      a key that never is in the dictionary; the model uses [None]. *)
  Definition okey (o : option Obj) : option Z := option_map sid o.

  (** orderedcollection.py:106-125, remove. *)
  Definition remove (s : oc) (id : ident) : oc * option exc :=
    let key :=                                             (* lines 112-117 *)
      match id with
      | ById k => if dmem k (dindex s) then Ok (Some k)
                  else do o <- get s (ById k); Ok (okey o)
      | ByPos i => do o <- get s (ByPos i); Ok (okey o)
      end in
    match key with
    | Raise e => (s, Some e)
    | Ok None => (s, Some KeyErr)                          (* self[str(id(None))] *)
    | Ok (Some k) =>
        match get s (ById k) with                          (* line 119 *)
        | Raise e => (s, Some e)
        | Ok item =>
            match dget k (dindex s) with
            | None => (s, Some KeyErr)
            | Some idx =>
                match py_set (elems s) idx None with       (* line 120 *)
                | Raise e => (s, Some e)
                | Ok el =>
                    let s' := mkOC el (ddel k (dindex s)) (callbacks s) (log s) in
                    match item with
                    | Some o => (fire_event s' EvRemove o, None)
                    | None => (s', None)
                    end
                end
            end
        end
    end.

  (** orderedcollection.py:127-155, replace (new object of the right type;
      lines 135-137 reject others without effect). *)
  Definition replace (s : oc) (id : ident) (new : Obj) : oc * option exc :=
    let loc :=
      match id with
      | ByPos i =>                                         (* lines 139-141 *)
          do o <- py_get (elems s) i;
          match okey o with
          | Some k => if dmem k (dindex s) then Ok (k, i) else Raise KeyErr
          | None => Raise KeyErr                           (* del of a missing key *)
          end
      | ById k =>                                          (* lines 143-149 *)
          match dget k (dindex s) with Some idx => Ok (k, idx) | None => Raise KeyErr end
      end in
    match loc with
    | Raise e => (s, Some e)
    | Ok (k, idx) =>                                       (* lines 152-155 *)
        match py_set (elems s) idx (Some new) with
        | Raise e => (s, Some e)
        | Ok el => (fire_event (mkOC el (dset (sid new) idx (ddel k (dindex s)))
                                     (callbacks s) (log s)) EvReplace new, None)
        end
    end.

  (** orderedcollection.py:184-185, __len__. *)
  Definition len (s : oc) : Z := Z.of_nat (length (dkeys (dindex s))).

  (** orderedcollection.py:187-189, __iter__ run to the end. *)
  Definition iter (s : oc) : res (list (option Obj)) :=
    mapM (py_get (elems s)) (zsort (dvals (dindex s))).

  (** orderedcollection.py:191-201, __contains__. *)
  Definition contains (s : oc) (o : Obj) : bool := dmem (sid o) (dindex s).

  (** orderedcollection.py:157-182, index, given the object or its id (both
      reduce to the lookup of the id). *)
  Definition index (s : oc) (k : Z) : res Z :=
    match dget k (dindex s) with
    | None => Raise ValueErr
    | Some idx => match zfind idx (zsort (dvals (dindex s))) with
                  | Some p => Ok (Z.of_nat p)
                  | None => Raise ValueErr
                  end
    end.

  (** orderedcollection.py:368-373, clear. *)
  Definition clear (s : oc) : oc := mkOC [] [] (callbacks s) (log s).

  (** orderedcollection.py:375-377, values. *)
  Definition values (s : oc) : list Obj :=
    flat_map (fun o => match o with Some x => [x] | None => [] end) (elems s).

  (** orderedcollection.py:289-321, update, with a list of objects of the right
      type (the dict branch first merges into the member with that id and then
      appends that member, lines 299-311: it is the same list afterwards). *)
  Definition update (s : oc) (l : list Obj) : oc :=
    fst (add_iter (clear s) (map Some l)).

  (** A call made by a user. *)
  Inductive op :=
  | OAdd (a : addarg)
  | ORemove (id : ident)
  | OReplace (id : ident) (new : Obj)
  | OClear
  | OUpdate (l : list Obj)
  | ORegister (cb : Z) (evs : list event).

  Definition apply (s : oc) (o : op) : oc * option exc :=
    match o with
    | OAdd a => add s a
    | ORemove id => remove s id
    | OReplace id new => replace s id new
    | OClear => (clear s, None)
    | OUpdate l => (update s l, None)
    | ORegister cb evs => (register s cb evs, None)
    end.

  (** A history: the final state and the outcome of each call. *)
  Fixpoint run (s : oc) (h : list op) : oc * list (option exc) :=
    match h with
    | [] => (s, [])
    | o :: r => let '(s1, e) := apply s o in
                let '(s2, es) := run s1 r in (s2, e :: es)
    end.
End OC.
Arguments oc : clear implicits.
Arguments addarg : clear implicits.
Arguments op : clear implicits.
