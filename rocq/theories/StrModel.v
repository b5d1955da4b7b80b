(** * Python strings and the parts of [str], [os.path] and [re.sub] that persistence uses

    A string is the list of its code points.  [os.path] is [posixpath].  None of this comes from
    /repo: it models the language and its library, as their references describe them. *)
From Coq Require Import String Ascii.
From Coq Require Decimal Nat.
From Verif Require Import Py.
Open Scope Z_scope.

Definition str := list Z.

(** String literals, for readable constants. *)
Definition lit (s : string) : str := map (fun a => Z.of_nat (nat_of_ascii a)) (list_ascii_of_string s).

Definition slash : Z := 47.
Definition dot : Z := 46.
Definition underscore : Z := 95.

Definition str_eq_dec : forall a b : str, {a = b} + {a <> b} := list_eq_dec Z.eq_dec.
Definition seqb (a b : str) : bool := if str_eq_dec a b then true else false.
Definition smem (x : str) (l : list str) : bool := existsb (seqb x) l.

(** [bool(s)]. *)
Definition truthy (s : str) : bool := match s with [] => false | _ => true end.

(** [s.startswith(p)]. *)
Fixpoint startswith (p s : str) : bool :=
  match p, s with
  | [], _ => true
  | c :: p', d :: s' => (c =? d) && startswith p' s'
  | _ :: _, [] => false
  end.

(** [s.endswith(p)]. *)
Definition endswith (p s : str) : bool := startswith (rev p) (rev s).

(** [s.find(p)]: the first position, or -1. *)
Fixpoint find_from (i : Z) (p s : str) : Z :=
  if startswith p s then i
  else match s with [] => -1 | _ :: s' => find_from (i + 1) p s' end.
Definition py_find (p s : str) : Z := find_from 0 p s.

(** [p in s]. *)
Definition str_in (p s : str) : bool := negb (py_find p s =? -1).

(** [s.rsplit(c, 1)] for a single character: what precedes the last [c], if there is one, and
    what follows it (the whole string if there is none). *)
Fixpoint rcut (c : Z) (s : str) : option str * str :=
  match s with
  | [] => (None, [])
  | x :: r => match rcut c r with
              | (Some a, b) => (Some (x :: a), b)
              | (None, b) => if x =? c then (Some [], b) else (None, x :: b)
              end
  end.

(** [os.path.basename]: what follows the last slash ([os.path.split(p)[1]] as well). *)
Definition basename (p : str) : str := snd (rcut slash p).

(** [os.path.dirname]: what precedes the last slash, without trailing slashes unless it is all
    slashes. *)
Fixpoint strip_l (c : Z) (s : str) : str :=
  match s with x :: r => if x =? c then strip_l c r else s | [] => [] end.
Definition dirname (p : str) : str :=
  match fst (rcut slash p) with
  | None => []
  | Some a => match rev (strip_l slash (rev a)) with [] => a ++ [slash] | h => h end
  end.

(** [os.path.join(a, b)]. *)
Definition path_join (a b : str) : str :=
  if startswith [slash] b then b
  else if negb (truthy a) || endswith [slash] a then a ++ b
  else a ++ slash :: b.

(** [os.path.splitext(p)]: cut at the last dot of the last component, unless only dots precede
    it there. *)
Definition splitext (p : str) : str * str :=
  match rcut dot (basename p) with
  | (Some stem, rest) =>
      if existsb (fun c => negb (c =? dot)) stem
      then (firstn (length p - S (length rest)) p, dot :: rest)
      else (p, [])
  | (None, _) => (p, [])
  end.

(** [s.split(c)] for a single character. *)
Fixpoint split_on (c : Z) (s : str) : list str :=
  match s with
  | [] => [[]]
  | x :: r => if x =? c then [] :: split_on c r
              else match split_on c r with w :: ws => (x :: w) :: ws | [] => [[x]] end
  end.

(** [s.replace(k, v)] for a non-empty [k]; every step consumes a character, so a number of
    steps equal to the length is enough. *)
Fixpoint replace_n (n : nat) (k v s : str) : str :=
  match n with
  | O => s
  | S n' => match s with
            | [] => []
            | x :: r => if startswith k s then v ++ replace_n n' k v (skipn (length k) s)
                        else x :: replace_n n' k v r
            end
  end.
Definition py_replace (k v s : str) : str := replace_n (length s) k v s.

(** [str(n)] for a natural number. *)
Fixpoint digits (d : Decimal.uint) : str :=
  match d with
  | Decimal.Nil => []
  | Decimal.D0 r => 48 :: digits r | Decimal.D1 r => 49 :: digits r | Decimal.D2 r => 50 :: digits r
  | Decimal.D3 r => 51 :: digits r | Decimal.D4 r => 52 :: digits r | Decimal.D5 r => 53 :: digits r
  | Decimal.D6 r => 54 :: digits r | Decimal.D7 r => 55 :: digits r | Decimal.D8 r => 56 :: digits r
  | Decimal.D9 r => 57 :: digits r
  end.
Definition str_nat (n : nat) : str := digits (Nat.to_uint n).

(** Dictionaries with string keys, in insertion order. *)
Fixpoint sget {V} (k : str) (d : list (str * V)) : option V :=
  match d with
  | [] => None
  | (k', v) :: r => if seqb k k' then Some v else sget k r
  end.
Fixpoint sset {V} (k : str) (v : V) (d : list (str * V)) : list (str * V) :=
  match d with
  | [] => [(k, v)]
  | (k', v') :: r => if seqb k k' then (k', v) :: r else (k', v') :: sset k v r
  end.
