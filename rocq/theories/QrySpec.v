(** * What a query on spill data should return *)
From Coq Require Import String.
From Verif Require Import Py QLemmas StrModel QryModel.
Open Scope Z_scope.

(** Comparisons of a property with a number, written out. *)
Inductive op := Lt | Le | Gt | Ge | Eq.
Definition op_text (o : op) : str :=
  match o with Lt => lit "<" | Le => lit "<=" | Gt => lit ">" | Ge => lit ">=" | Eq => lit "==" end.
Definition holds (o : op) (x q : Q) : Prop :=
  match o with Lt => x < q | Le => x <= q | Gt => q < x | Ge => q <= x | Eq => x == q end%Q.

(** A number as it is written: sign, digits before the point, digits after it (none: no point). *)
Record numb := mkNumb { minus : bool; whole : list Z; fract : list Z }.
Definition digit (d : Z) : Prop := 0 <= d <= 9.
Definition proper (n : numb) : Prop :=
  Forall digit (whole n) /\ Forall digit (fract n) /\ whole n <> [] /\ (forall r, whole n = 0 :: r -> r = []).
Definition text_of (ds : list Z) : str := map (fun d => 48 + d) ds.
Definition numb_text (n : numb) : str :=
  (if minus n then [45] else []) ++ text_of (whole n) ++ (match fract n with [] => [] | f => 46 :: text_of f end).
Fixpoint int_value (acc : Z) (ds : list Z) : Z := match ds with [] => acc | d :: r => int_value (10 * acc + d) r end.
Fixpoint frac_value (ds : list Z) : Q := match ds with [] => 0 | d :: r => (inject_Z d + frac_value r) / 10 end%Q.
Definition numb_value (n : numb) : Q :=
  ((if minus n then -1 else 1) * (inject_Z (int_value 0 (whole n)) + frac_value (fract n)))%Q.

Record atom := mkAtom { prop : str; aop : op; const : numb }.
Definition name (s : str) : Prop := s <> [] /\ Forall (fun c => is_space c = false /\ c <> 38 /\ c <> 124) s.

(** The text of a condition: comparisons joined with || , groups of them joined with && . *)
Fixpoint join (sep : str) (l : list str) : str :=
  match l with [] => [] | [a] => a | a :: r => a ++ sep ++ join sep r end.
Definition atom_text (a : atom) : str := [32] ++ prop a ++ [32] ++ op_text (aop a) ++ [32] ++ numb_text (const a) ++ [32].
Definition clause_text (cl : list atom) : str := join [124; 124] (map atom_text cl).
Definition cond_text (cnf : list (list atom)) : str := join [38; 38] (map clause_text cnf).

(** The element [i] meets the condition. *)
Definition number_at (cols : columns) (p : str) (i : nat) (q : Q) : Prop :=
  exists c, sget p cols = Some c /\ nth_error c i = Some (Num q).
Definition atom_holds (cols : columns) (i : nat) (a : atom) : Prop :=
  exists q, number_at cols (prop a) i q /\ holds (aop a) q (numb_value (const a)).
Definition cond_holds (cols : columns) (i : nat) (cnf : list (list atom)) : Prop :=
  Forall (fun cl => Exists (atom_holds cols i) cl) cnf.

(** [l] are the values of column [t] for the elements chosen by [f], in order. *)
Definition chosen (f : nat -> bool) (n : nat) : list nat := filter f (seq 0 n).
Definition values_at (cols : columns) (t : str) (is : list nat) (l : list val) : Prop :=
  Forall2 (fun i v => exists c, sget t cols = Some c /\ nth_error c i = Some v) is l.

(** A container: every column has [n] entries. *)
Definition rectangular (n : nat) (cols : columns) : Prop := Forall (fun kc => length (snd kc) = n) cols.
Definition whole_numbers (cols : columns) (p : str) : Prop :=
  exists c, sget p cols = Some c /\ Forall (fun v => exists z, v = Num (inject_Z z)) c.
