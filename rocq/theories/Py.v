(** * Python built-ins used by the models

    Exceptions are values, dictionaries are association lists in insertion
    order, [sorted] on numbers is insertion sort, and list indexing follows
    Python's rule for negative positions.  None of this comes from /repo: it
    models the language, as described in the Python language and library
    references. *)
From Coq Require Export List ZArith Lia Bool.
Export ListNotations.
Open Scope Z_scope.

(** The exceptions that the modelled code raises. *)
Inductive exc := TypeErr | KeyErr | IndexErr | ValueErr | AttrErr | RuntimeErr
               | StopIter | ZeroDivErr | CacheErr | OSErr | AssertErr
               | OverflowErr.

Inductive res (A : Type) := Ok (a : A) | Raise (e : exc).
Arguments Ok {A} a.
Arguments Raise {A} e.

Definition bind {A B} (x : res A) (f : A -> res B) : res B :=
  match x with Ok a => f a | Raise e => Raise e end.
Notation "'do' x <- e ; f" := (bind e (fun x => f))
  (at level 200, x pattern, e at level 100, f at level 200, right associativity).

Definition is_ok {A} (x : res A) : bool := match x with Ok _ => true | _ => false end.

(** Sequential [for x in l: ys.append(f(x))]: stops at the first exception. *)
Fixpoint mapM {A B} (f : A -> res B) (l : list A) : res (list B) :=
  match l with
  | [] => Ok []
  | x :: r => do y <- f x; do ys <- mapM f r; Ok (y :: ys)
  end.

(** ** Lists *)

(** The position that [l[i]] denotes in a list of length [n]. *)
Definition py_pos (n : nat) (i : Z) : option nat :=
  if 0 <=? i then (if i <? Z.of_nat n then Some (Z.to_nat i) else None)
  else if - Z.of_nat n <=? i then Some (Z.to_nat (i + Z.of_nat n)) else None.

Definition py_get {A} (l : list A) (i : Z) : res A :=
  match py_pos (length l) i with
  | Some k => match nth_error l k with Some x => Ok x | None => Raise IndexErr end
  | None => Raise IndexErr
  end.

Fixpoint set_nth {A} (k : nat) (x : A) (l : list A) : list A :=
  match l, k with
  | [], _ => []
  | _ :: r, O => x :: r
  | y :: r, S k' => y :: set_nth k' x r
  end.

Definition py_set {A} (l : list A) (i : Z) (x : A) : res (list A) :=
  match py_pos (length l) i with
  | Some k => Ok (set_nth k x l)
  | None => Raise IndexErr
  end.

(** [sorted] on a list of integers. *)
Fixpoint zinsert (x : Z) (l : list Z) : list Z :=
  match l with
  | [] => [x]
  | y :: r => if x <=? y then x :: l else y :: zinsert x r
  end.
Fixpoint zsort (l : list Z) : list Z :=
  match l with [] => [] | x :: r => zinsert x (zsort r) end.

(** [list.index]: position of the first occurrence. *)
Fixpoint zfind (x : Z) (l : list Z) : option nat :=
  match l with
  | [] => None
  | y :: r => if x =? y then Some O else option_map S (zfind x r)
  end.

(** [list(range(a, a + n))]. *)
Fixpoint zseq (a : Z) (n : nat) : list Z :=
  match n with O => [] | S n' => a :: zseq (a + 1) n' end.

Definition zmem (x : Z) (l : list Z) : bool := existsb (Z.eqb x) l.

(** ** Dictionaries with integer keys (strings are numbered) *)
Section Dict.
  Context {V : Type}.
  Definition dict := list (Z * V).
  Fixpoint dget (k : Z) (d : dict) : option V :=
    match d with
    | [] => None
    | (k', v) :: r => if k =? k' then Some v else dget k r
    end.
  Fixpoint dset (k : Z) (v : V) (d : dict) : dict :=
    match d with
    | [] => [(k, v)]
    | (k', v') :: r => if k =? k' then (k, v) :: r else (k', v') :: dset k v r
    end.
  Definition ddel (k : Z) (d : dict) : dict :=
    filter (fun kv => negb (k =? fst kv)) d.
  Definition dmem (k : Z) (d : dict) : bool :=
    match dget k d with Some _ => true | None => false end.
  Definition dkeys (d : dict) : list Z := map fst d.
  Definition dvals (d : dict) : list V := map snd d.
End Dict.
Arguments dict V : clear implicits.
