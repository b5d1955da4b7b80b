(** * Comparing objects

    Modelled: [GnomeId._check_type], [GnomeId.__eq__], [GnomeId._diff] and
    [GnomeId.__ne__] (/repo/py_gnome/gnome/gnomeobject.py, lines 597-759),
    with what they use: [OrderedCollection.__eq__]
    (/repo/py_gnome/gnome/utilities/orderedcollection.py, lines 271-287),
    the comparison of Python lists, and [numpy.allclose] with its
    broadcasting for tables with one or two dimensions.

    Not modelled: the rounding of floating-point operations (numbers are
    rational, infinite or not a number), tables with more dimensions or with
    compound entries, what the messages say beyond the attribute they are
    about, properties that raise when they are read, dictionaries, items of
    lists that are the same Python number (they are compared as numbers),
    and the classes that add to this comparison (Model, Timeseries, Wind,
    SpillContainer, LEData). *)
From Coq Require Import QArith Qabs.
From Verif Require Import Py.
Local Open Scope Z_scope.

(** A floating-point number. *)
Inductive fl := Fin (q : Q) | PInf | MInf | NaN.

(** A value: a float, an int or bool, any other value that is compared by
    Python alone (text, time, None: [VX]), an array with [r] rows and [c]
    columns ([r] is 1 for one dimension), a list, an ordered collection, and
    an object with its identity and its attributes. *)
Inductive val :=
  VF (f : fl) | VI (z : Z) | VX (z : Z) | VA (r c : nat) (l : list fl)
| VL (l : list val) | VC (l : list val) | VO (i : Z) (fs : list (Z * val)).

Section Eq.
  (** The tolerances (gnomeobject.py, lines 233-236), the class of each
      object, the schema of each class: names with the mark 'test_equal', and
      the name 'id'. *)
  Variables (rtol atol : Q) (cls : Z -> Z) (schema : Z -> list (Z * bool)) (id_name : Z).

  (** [numpy.isclose] for two numbers: infinite ones only to themselves, not
      a number to nothing. *)
  Definition close (a b : fl) : bool :=
    match a, b with
    | Fin x, Fin y => Qle_bool (Qabs (x - y)) (atol + rtol * Qabs y)
    | PInf, PInf => true
    | MInf, MInf => true
    | _, _ => false
    end.

  (** [==] of two numbers. *)
  Definition feq (a b : fl) : bool :=
    match a, b with
    | Fin x, Fin y => Qeq_bool x y
    | PInf, PInf => true
    | MInf, MInf => true
    | _, _ => false
    end.

  Definition num (v : val) : option fl :=
    match v with VF f => Some f | VI z => Some (Fin (inject_Z z)) | _ => None end.
  Definition is_float (v : val) : bool := match v with VF _ => true | _ => false end.
  Definition is_array (v : val) : bool := match v with VA _ _ _ => true | _ => false end.

  Fixpoint nums (l : list val) : option (list fl) :=
    match l with
    | [] => Some []
    | v :: r => match num v, nums r with Some a, Some s => Some (a :: s) | _, _ => None end
    end.

  (** [numpy.asarray(v).size]. *)
  Definition size (v : val) : nat :=
    match v with VA r c _ => r * c | VL l => length l | VC l => length l | _ => 1 end%nat.

  (** [numpy.asanyarray(v)] when its entries are numbers. *)
  Definition table (v : val) : option (nat * nat * list fl) :=
    match v with
    | VA r c l => Some (r, c, l)
    | VF f => Some (1%nat, 1%nat, [f])
    | VI z => Some (1%nat, 1%nat, [Fin (inject_Z z)])
    | VL l => match nums l with Some s => Some (1%nat, length s, s) | None => None end
    | VC l => match nums l with Some s => Some (1%nat, length s, s) | None => None end
    | _ => None
    end.

  (** Broadcasting: the common length along one dimension, and the entry
      that stands at a place. *)
  Definition common (n m : nat) : option nat :=
    (if n =? m then Some n else if n =? 1 then Some m else if m =? 1 then Some n else None)%nat.
  Definition entry (t : nat * nat * list fl) (i j : nat) : fl :=
    let '(r, c, l) := t in
    nth ((if r =? 1 then 0 else i) * c + (if c =? 1 then 0 else j))%nat l NaN.

  (** [numpy.allclose(a, b, rtol, atol)] of two tables. *)
  Definition tables_close (a b : nat * nat * list fl) : res bool :=
    let '(r, c, _) := a in
    let '(r', c', _) := b in
    match common r r', common c c' with
    | Some n, Some m =>
        Ok (forallb (fun i => forallb (fun j => close (entry a i j) (entry b i j)) (seq 0 m)) (seq 0 n))
    | _, _ => Raise ValueErr
    end.
  Definition allclose (v w : val) : res bool :=
    match table v, table w with
    | Some a, Some b => tables_close a b
    | _, _ => Raise TypeErr
    end.

  (** What [_diff] does with one attribute (lines 707-751); [py] is the
      comparison [==] with the value on the left.  When an array is compared
      with something whose entries are not numbers, [allclose] raises and
      [np.all(self_attr == other_attr)] is False. *)
  Definition attr_same (v : val) (py : val -> res bool) (w : val) : res bool :=
    if is_array v || is_array w then
      if (size v =? size w)%nat then
        match allclose v w with Raise TypeErr => Ok false | r => r end
      else Ok false
    else if is_float v || is_float w then allclose v w
    else py w.

  (** The attributes that are compared (lines 697-705). *)
  Definition compared (c : Z) : list Z :=
    map fst (filter (fun nt => snd nt && negb (fst nt =? id_name)) (schema c)).

  (** The loop of [_diff] (lines 697-754): the attributes that differ, or
      only the first of them. *)
  Fixpoint diffs (early : bool) (names : list Z) (self : list (Z * (val * (val -> res bool)))) (other : list (Z * val)) : res (list Z) :=
    match names with
    | [] => Ok []
    | k :: r =>
        match dget k self, dget k other with
        | Some (v, py), Some w =>
            do b <- attr_same v py w;
            if b : bool then diffs early r self other
            else if early then Ok [k]
            else do d <- diffs early r self other; Ok (k :: d)
        | _, _ => Raise AttrErr
        end
    end.

  (** [_diff] (lines 670-756) with the object [i] on the left;
      [None] stands for the message about the type.  What is not an object
      has another type and no attributes. *)
  Definition diff (early : bool) (i : Z) (self : list (Z * (val * (val -> res bool)))) (w : val) : res (list (option Z)) :=
    let '(ok, fs) :=
      match w with VO i' fs' => ((i =? i') || (cls i =? cls i'), fs') | _ => (false, []) end in
    if negb ok && early then Ok [None]
    else
      do d <- diffs early (compared (cls i)) self fs;
      Ok ((if ok then [] else [None]) ++ map Some d).

  (** The loops of list comparison and of OrderedCollection.__eq__ over two
      sequences of the same length; for a list ([short]) an object is equal
      to itself without looking at it. *)
  Fixpoint all_same (short : bool) (items : list (val * (val -> res bool))) (l : list val) : res bool :=
    match items, l with
    | (v, py) :: r, w :: s =>
        do b <- (match v, w with
                 | VO i _, VO i' _ => if short && (i =? i') then Ok true else py w
                 | _, _ => py w
                 end);
        if b : bool then all_same short r s else Ok false
    | _, _ => Ok true
    end.

  (** [v == w].  Comparing with an array gives an array, which has no truth
      value. *)
  Fixpoint py_eq (v : val) : val -> res bool :=
    match v with
    | VF f => fun w => match w with
                       | VA _ _ _ => Raise ValueErr
                       | _ => Ok (match num w with Some g => feq f g | None => false end)
                       end
    | VI z => fun w => match w with
                       | VA _ _ _ => Raise ValueErr
                       | _ => Ok (match num w with Some g => feq (Fin (inject_Z z)) g | None => false end)
                       end
    | VX z => fun w => match w with
                       | VA _ _ _ => Raise ValueErr
                       | VX z' => Ok (z =? z')
                       | _ => Ok false
                       end
    | VA _ _ _ => fun w => Raise ValueErr
    | VL l =>
        let items := map (fun a => (a, py_eq a)) l in
        fun w => match w with
                 | VA _ _ _ => Raise ValueErr
                 | VL l' => if (length l =? length l')%nat then all_same true items l' else Ok false
                 | _ => Ok false
                 end
    | VC l =>
        let items := map (fun a => (a, py_eq a)) l in
        fun w => match w with
                 | VC l' => if (length l =? length l')%nat then all_same false items l' else Ok false
                 | _ => Ok false
                 end
    | VO i fs =>
        let self := map (fun kv => (fst kv, (snd kv, py_eq (snd kv)))) fs in
        fun w => do d <- diff true i self w; Ok (match d with [] => true | _ => false end)
    end.

  (** [a._diff(b)] for an object on the left. *)
  Definition obj_diff (early : bool) (a b : val) : res (list (option Z)) :=
    match a with
    | VO i fs => diff early i (map (fun kv => (fst kv, (snd kv, py_eq (snd kv)))) fs) b
    | _ => Raise AttrErr
    end.
End Eq.
