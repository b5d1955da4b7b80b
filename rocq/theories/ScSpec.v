(** * Vocabulary for the statements about spill containers *)
From Verif Require Import Py QLemmas ScModel.
Open Scope Z_scope.

(** [sc[name]] *)
Definition column (c : sc) (name : Z) : option (list val) := dget name (c_data c).

(** Every array has one row per element, and there is an array for exactly the
    names of the array types. *)
Definition aligned (c : sc) (n : nat) : Prop :=
  forall name l, column c name = Some l -> length l = n.
Definition complete (c : sc) : Prop :=
  forall name, (exists l, column c name = Some l) <-> In name (map fst (c_types c)).

(** Dictionaries have no key twice. *)
Definition proper (c : sc) : Prop :=
  NoDup (map fst (c_types c)) /\
  forall f v, get_view c f = VCopy v -> NoDup (map fst v).

Definition well_formed (c : sc) : Prop := (exists n, aligned c n) /\ complete c /\ proper c.

(** ** Rows *)

(** Rows whose flag is set. *)
Fixpoint rows {A} (sel : list bool) (l : list A) : list A :=
  match sel, l with
  | b :: s, x :: r => if b then x :: rows s r else rows s r
  | _, _ => []
  end.

(** The elements of a view: the flag of the fate is set (or the view is of
    all), and the mass is positive. *)
Definition mass_positive (m : val) : bool :=
  match m with VQ [q] => negb (Qle_bool q 0) | VZ z => 0 <? z | VQ _ => false end.
Definition fate_is (f : Z) (s : val) : bool :=
  match s with VZ x => Z.land x f =? f | VQ _ => false end.

Definition in_view (c : sc) (f : Z) (sel : list bool) : Prop :=
  exists ms, column c n_mass = Some ms /\
  if f =? 0 then sel = map mass_positive ms
  else exists fs, column c n_fate = Some fs /\
       sel = map (fun p => fate_is f (fst p) && mass_positive (snd p)) (combine fs ms).

(** What a weatherer sees under a name in the data it got. *)
Definition seen (c : sc) (f name : Z) : option (list val) :=
  match get_view c f with
  | VEmpty => None
  | VAlias => column c name
  | VCopy v => dget name v
  end.

(** The view has nothing in it from an earlier use with other arrays, and it is
    not the container's own dictionary unless all elements belong to it. *)
Definition clean_view (c : sc) (f : Z) (names : list Z) (sel : list bool) : Prop :=
  match get_view c f with
  | VEmpty => True
  | VAlias => forall b, In b sel -> b = true
  | VCopy v => forall name, In name (map fst v) -> In name names
  end.

(** What a weatherer wrote last into an array, or what was there before. *)
Definition last_edit (name : Z) (edits : list (Z * list val)) (before : list val) : list val :=
  fold_left (fun acc e => if fst e =? name then snd e else acc) edits before.

(** Changes of arrays that the weatherer got, one row for every element of the
    view. *)
Definition good_edits (names : list Z) (sel : list bool) (edits : list (Z * list val)) : Prop :=
  Forall (fun e => In (fst e) names /\ length (snd e) = length (rows sel sel)) edits.

(** ** Histories *)

Definition fractions_ok (num : Z) (frac : option (list Q)) : Prop :=
  match frac with
  | None => True
  | Some l => Z.of_nat (length l) = num /\ (Qabs (qsum l - 1) <= 1001 # 100000000)%Q
  end.

(** What a caller must not do: add an array that is not an array type, prepare
    a run with fewer arrays than a run before without rewinding, split with
    fractions that do not add up, or take (or split) a view again that was the
    container's own dictionary when some elements have left it. *)
Definition tidy (c : sc) (o : op) : Prop :=
  match o with
  | OPrepare df ats => forall name l, column c name = Some l -> In name (map fst df) \/ In name (map fst ats)
  | OSplit _ num frac => fractions_ok num frac /\ forall f, get_view c f <> VAlias
  | OSetItem name _ => exists l, column c name = Some l
  | OGet _ f => get_view c f = VAlias -> exists sel, in_view c f sel /\ forall b, In b sel -> b = true
  | _ => True
  end.

Definition container (w : world) (u : bool) : sc := if u then w_unc w else w_fc w.

Fixpoint tidy_run (w : world) (os : list (bool * op)) : Prop :=
  match os with
  | [] => True
  | o :: r => tidy (container w (fst o)) (snd o) /\ tidy_run (do_world w o) r
  end.

(** ** Identities *)

Definition ids (c : sc) : list Z :=
  match column c n_id with
  | Some l => map (fun v => match v with VZ z => z | VQ _ => -1 end) l
  | None => []
  end.

(** No split, nobody writes ids, the ids have their own array type, and no
    release fails. *)
Definition error (w : world) (o : bool * op) : option exc :=
  snd (do_op (w_iv w) (container w (fst o)) (snd o)).

Definition keeps_ids (w : world) (o : bool * op) : Prop :=
  match snd o with
  | OPrepare df ats => exists v, dget n_id (update_types df ats) = Some (IdKind, v)
  | ORelease rs => Forall (fun r => ~ In n_id (map fst (ri_writes r))) rs /\ error w o = None
  | OSplit _ _ _ => False
  | OSetItem name _ | OWrite name _ | OModify _ name _ => name <> n_id
  | OGet names _ => ~ In n_id names
  | _ => True
  end.

Fixpoint keeps_ids_run (w : world) (os : list (bool * op)) : Prop :=
  match os with
  | [] => True
  | o :: r => keeps_ids w o /\ keeps_ids_run (do_world w o) r
  end.

(** ** Removal *)

Definition removed (s : val) : bool := match s with VZ z => z =? 12 | VQ _ => false end.
(** The rows of the elements that stay. *)
Definition stay (st l : list val) : list val :=
  map snd (filter (fun p => negb (removed (fst p))) (combine st l)).

(** ** Splitting *)

Definition qrow (v : val) : list Q := match v with VQ l => l | VZ z => [inject_Z z] end.
(** Component k of a row; 0 beyond its end. *)
Definition comp (k : nat) (v : val) : Q := nth k (qrow v) 0%Q.
Definition total (k : nat) (l : list val) : Q := qsum (map (comp k) l).

(** The first row with an id. *)
Definition first_with (ix : Z) (l : list val) (idx : nat) : Prop :=
  nth_error l idx = Some (VZ ix) /\ forall j, (j < idx)%nat -> nth_error l j <> Some (VZ ix).

(** ** Releasing *)

(** The number of elements in a list of releases. *)
Definition rel_total (rs : list rel) : nat := list_sum (map (fun r => Z.to_nat (ri_n r)) rs).

(** The rows that releases add to an array: what the spill wrote there, or the
    initial value. *)
Definition fresh_rows (name : Z) (initial : val) (rs : list rel) : list val :=
  flat_map (fun r => if 0 <? ri_n r
                     then last_edit name ((n_spill, repeat (VZ (ri_idx r)) (Z.to_nat (ri_n r))) :: ri_writes r)
                            (repeat initial (Z.to_nat (ri_n r)))
                     else []) rs.

(** Rewinds, preparations with the same arrays, releases and removals. *)
Definition plain_op (df ats : types) (o : bool * op) : Prop :=
  match snd o with
  | ORewind | ORelease _ | OStepDone => True
  | OPrepare a b => a = df /\ b = ats
  | _ => False
  end.
