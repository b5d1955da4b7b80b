(** * What it means that objects are equal

    The vocabulary of the properties C142 to C145: relations between values,
    without the functions that compare them. *)
From Coq Require Import QArith Qabs.
From Verif Require Import Py EqModel.
Local Open Scope Z_scope.

Inductive number : val -> fl -> Prop :=
| number_float : forall f, number (VF f) f
| number_int : forall z, number (VI z) (Fin (inject_Z z)).

Definition infinite (a : fl) : Prop := a = PInf \/ a = MInf.
Definition same_number (a b : fl) : Prop :=
  (exists x y, a = Fin x /\ b = Fin y /\ x == y)%Q \/ (a = b /\ infinite a).

Definition an_array (v : val) : Prop := exists r c l, v = VA r c l.
Definition a_float (v : val) : Prop := exists f, v = VF f.

(** The table of numbers that a value is: rows, columns, entries. *)
Inductive entries : val -> nat -> nat -> list fl -> Prop :=
| entries_array : forall r c l, entries (VA r c l) r c l
| entries_number : forall v f, number v f -> entries v 1 1 [f]
| entries_list : forall l s, Forall2 number l s -> entries (VL l) 1 (length s) s
| entries_coll : forall l s, Forall2 number l s -> entries (VC l) 1 (length s) s.

(** How many numbers or items a value has. *)
Inductive has_size : val -> nat -> Prop :=
| size_array : forall r c l, has_size (VA r c l) (r * c)
| size_list : forall l, has_size (VL l) (length l)
| size_coll : forall l, has_size (VC l) (length l)
| size_one : forall v, ~ an_array v -> (forall l, v <> VL l /\ v <> VC l) -> has_size v 1.

(** Along one dimension lengths [n] and [m] go together, giving [k]. *)
Definition stretch (n m k : nat) : Prop :=
  (n = m /\ k = n) \/ (n = 1%nat /\ k = m) \/ (m = 1%nat /\ k = n).
(** The entry in row [i] and column [j]; a single row or column is repeated. *)
Definition at_place (r c : nat) (l : list fl) (i j : nat) : option fl :=
  nth_error l ((if Nat.eq_dec r 1 then 0 else i) * c + (if Nat.eq_dec c 1 then 0 else j)).

Section Spec.
  Variables (rtol atol : Q) (cls : Z -> Z) (schema : Z -> list (Z * bool)) (id_name : Z).

  Definition close_to (a b : fl) : Prop :=
    (exists x y, a = Fin x /\ b = Fin y /\ Qabs (x - y) <= atol + rtol * Qabs y)%Q \/ (a = b /\ infinite a).

  Definition all_close (v w : val) : Prop :=
    exists r c l r' c' l' n m, entries v r c l /\ entries w r' c' l' /\ stretch r r' n /\ stretch c c' m /\
      forall i j, (i < n)%nat -> (j < m)%nat ->
        exists a b, at_place r c l i j = Some a /\ at_place r' c' l' i j = Some b /\ close_to a b.

  (** The attribute [k] of the class [c] is part of the comparison. *)
  Definition counts (c k : Z) : Prop := In (k, true) (schema c) /\ k <> id_name.

  (** [equal v w]: what [==] should say; [matches v w]: two attributes are
      taken to be the same. *)
  Inductive equal : val -> val -> Prop :=
  | equal_num : forall v w a b, number v a -> number w b -> same_number a b -> equal v w
  | equal_other : forall z, equal (VX z) (VX z)
  | equal_list : forall l l', items true l l' -> equal (VL l) (VL l')
  | equal_coll : forall l l', items false l l' -> equal (VC l) (VC l')
  | equal_obj : forall i fs i' fs', cls i = cls i' ->
      (forall k, counts (cls i) k -> exists v w, dget k fs = Some v /\ dget k fs' = Some w /\ matches v w) ->
      equal (VO i fs) (VO i' fs')
  with matches : val -> val -> Prop :=
  | matches_array : forall v w n, an_array v \/ an_array w -> has_size v n -> has_size w n -> all_close v w -> matches v w
  | matches_float : forall v w, ~ an_array v -> ~ an_array w -> a_float v \/ a_float w -> all_close v w -> matches v w
  | matches_other : forall v w, ~ an_array v -> ~ an_array w -> ~ a_float v -> ~ a_float w -> equal v w -> matches v w
  with items : bool -> list val -> list val -> Prop :=
  | items_nil : forall short, items short [] []
  | items_cons : forall short v w l l', equal v w -> items short l l' -> items short (v :: l) (w :: l')
  | items_self : forall i fs fs' l l', items true l l' -> items true (VO i fs :: l) (VO i fs' :: l').

  (** [copy v w]: [w] is made of the same numbers, texts, arrays and lists of
      them as [v], none of them not a number; objects may have another
      identity and differ in what is not compared. *)
  Inductive copy : val -> val -> Prop :=
  | copy_float : forall f, f <> NaN -> copy (VF f) (VF f)
  | copy_int : forall z, copy (VI z) (VI z)
  | copy_other : forall z, copy (VX z) (VX z)
  | copy_array : forall r c l, length l = (r * c)%nat -> ~ In NaN l -> copy (VA r c l) (VA r c l)
  | copy_list : forall l l', copies l l' -> copy (VL l) (VL l')
  | copy_coll : forall l l', copies l l' -> copy (VC l) (VC l')
  | copy_obj : forall i fs i' fs', cls i = cls i' ->
      (forall k, counts (cls i) k -> exists v w, dget k fs = Some v /\ dget k fs' = Some w /\ copy v w) ->
      copy (VO i fs) (VO i' fs')
  with copies : list val -> list val -> Prop :=
  | copies_nil : copies [] []
  | copies_cons : forall v w l l', ~ an_array v -> copy v w -> copies l l' -> copies (v :: l) (w :: l').

  (** [exact v]: no attribute that is compared is a float or an array. *)
  Inductive exact : val -> Prop :=
  | exact_float : forall f, exact (VF f)
  | exact_int : forall z, exact (VI z)
  | exact_other : forall z, exact (VX z)
  | exact_list : forall l, Forall exact l -> exact (VL l)
  | exact_coll : forall l, Forall exact l -> exact (VC l)
  | exact_obj : forall i fs,
      (forall k v, counts (cls i) k -> dget k fs = Some v -> ~ a_float v /\ ~ an_array v /\ exact v) -> exact (VO i fs).

  Variable mixed : bool.
  (** [comparable v w]: they have the same make: numbers with numbers, arrays
      with arrays of the same shape, lists without arrays in them; or one of
      them is None or the like and the other not a float or array; and one
      identity is one object.  Unless [mixed], no float stands against an
      int. *)
  Inductive comparable : val -> val -> Prop :=
  | comp_num : forall v w a b, number v a -> number w b -> mixed = true \/ (a_float v <-> a_float w) -> comparable v w
  | comp_array : forall r c l l', comparable (VA r c l) (VA r c l')
  | comp_other : forall v w, (exists z, v = VX z) \/ (exists z, w = VX z) -> ~ an_array v -> ~ an_array w ->
      ~ a_float v -> ~ a_float w -> comparable v w
  | comp_list : forall l l', comparables l l' -> comparable (VL l) (VL l')
  | comp_coll : forall l l', comparables l l' -> comparable (VC l) (VC l')
  | comp_class : forall i fs i' fs', cls i <> cls i' -> comparable (VO i fs) (VO i' fs')
  | comp_obj : forall i fs i' fs', cls i = cls i' -> (i = i' -> fs = fs') ->
      (forall k, counts (cls i) k -> exists v w, dget k fs = Some v /\ dget k fs' = Some w /\ comparable v w) ->
      comparable (VO i fs) (VO i' fs')
  with comparables : list val -> list val -> Prop :=
  | comps_nil : comparables [] []
  | comps_short : forall v l, comparables [] (v :: l)
  | comps_long : forall v l, comparables (v :: l) []
  | comps_cons : forall v w l l', ~ an_array v -> ~ an_array w -> comparable v w -> comparables l l' ->
      comparables (v :: l) (w :: l').
End Spec.
