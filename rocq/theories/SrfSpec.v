(** * What is asked of surface concentrations, hulls and contours: C169 to C171 *)
From Coq Require Import QArith.
From Verif Require Import Py SrfModel.
Open Scope Z_scope.

(** [n] different numbers or more in a list *)
Definition at_least (n : nat) (l : list Q) : Prop :=
  exists d, length d = n /\ (forall i j x y, nth_error d i = Some x -> nth_error d j = Some y -> (x == y)%Q -> i = j) /\
            Forall (fun x => exists y, In y l /\ (x == y)%Q) d.

(** The youngest age of a list of elements *)
Definition youngest (l : list elem) (m : Z) : Prop :=
  (exists e, In e l /\ e_age e = m) /\ Forall (fun e => m <= e_age e) l.

(** What an element is given: of the elements of its spill those are used that are
    younger than the end of the hour in which its own age is, hours counted from the
    youngest; [density] of them, if they have more than two longitudes and latitudes,
    times their mass, or their number if they have no mass. *)
Definition same_spill (l : list elem) (e : elem) : list elem := filter (fun x => e_spill x =? e_spill e) l.
Definition hour_end (m age : Z) : Z := m + 3600 * ((age - m) / 3600 + 1).
Definition used (l : list elem) (m : Z) (e : elem) : list elem :=
  filter (fun x => e_age x <? hour_end m (e_age e)) (same_spill l e).
Definition given (density : list elem -> option (elem -> Q)) (l : list elem) (e : elem) (v : Q) : Prop :=
  exists m, youngest (same_spill l e) m /\
    let k := used l m e in
    match density k with
    | Some f =>
        (at_least 3 (map e_lat k) /\ at_least 3 (map e_lon k) /\
         v = (f e * (if Qle_bool (qsum (map e_mass k)) 0 then inject_Z (Z.of_nat (length k)) else qsum (map e_mass k)))%Q) \/
        ((~ at_least 3 (map e_lat k) \/ ~ at_least 3 (map e_lon k)) /\ v = 0%Q)
    | None => v = 0%Q
    end.

(** The bounds of the cutoff number [i] of [cs]: the first has no lower one, the last of
    several no upper one. *)
Definition lower (cs : list Q) (i : nat) : option Q :=
  match i with O => None | S j => nth_error cs j end.
Definition upper (cs : list Q) (i : nat) : option Q :=
  match i with O => nth_error cs 0 | S _ => if Nat.eqb (S i) (length cs) then None else nth_error cs i end.
Definition within (cs : list Q) (i : nat) (v : Q) : Prop :=
  (forall a, lower cs i = Some a -> (a <= v)%Q) /\ (forall b, upper cs i = Some b -> (v <= b)%Q).
Definition insideb (cs : list Q) (i : nat) (v : Q) : bool :=
  (match lower cs i with Some a => Qle_bool a v | None => true end) &&
  (match upper cs i with Some b => Qle_bool v b | None => true end).
Definition ascending (cs : list Q) : Prop :=
  forall i j a b, (i < j)%nat -> nth_error cs i = Some a -> nth_error cs j = Some b -> (a < b)%Q.

(** The positions of a spill whose value is within the bounds *)
Fixpoint positions_in {P : Type} (rows : list (P * Z)) (col : list Q) (s : Z) (cs : list Q) (i : nat) : list P :=
  match rows, col with
  | (p, s') :: r, v :: c =>
      if (s' =? s) && insideb cs i v then p :: positions_in r c s cs i else positions_in r c s cs i
  | _, _ => []
  end.

(** The numbers [0], ..., [n - 1] with what a function gives for them, one after another *)
Definition for_each {A : Type} (n : nat) (f : nat -> list A) : list A := concat (map f (seq 0 n)).

(** A cutoff with all the keys that are read *)
Definition complete (c : cutoff) : Prop := exists a b l, c = Cutoff (c_cut c) (Some a) (Some b) (Some l).

(** The shape around some points: their hull if it has an area, a buffer around it if it
    is a point or a line, else none *)
Definition shape_of {P H : Type} (concave_hull : list P -> geom H) (buffer : H -> H) (ps : list P) : option H :=
  match concave_hull ps with Poly _ h => Some h | Thin _ h => Some (buffer h) | Other _ => None end.
