(** * What environment objects made from a file should be *)

From Coq Require Import ZArith List Bool Lia.
From Verif Require Import Py NceModel.
Import ListNotations.
Open Scope Z_scope.

(** A class is one of itself, and a class of a class is one. *)
Definition ordered (cs : classes) : Prop :=
  (forall c, k_is cs c c = true) /\
  (forall a b c, k_is cs a b = true -> k_is cs b c = true -> k_is cs a c = true).

(** The list has an object of a class. *)
Definition has (cs : classes) (c : Z) (l : list obj) : Prop := exists o, In o l /\ k_is cs (o_cls o) c = true.

(** No object is of a class that had one already. *)
Definition no_repeats (cs : classes) (l : list obj) : Prop :=
  forall a x b, l = a ++ x :: b -> ~ has cs (o_cls x) a.

(** A keyword is an object of a class, the last one of the list. *)
Definition last_of (cs : classes) (c : Z) (l : list obj) (k : nat) : Prop :=
  (exists o, nth_error l k = Some o /\ k_is cs (o_cls o) c = true) /\
  forall j o, nth_error l j = Some o -> k_is cs (o_cls o) c = true -> (j <= k)%nat.

(** Keywords that name no object of the list. *)
Definition outside (kw : list (Z * rv)) : Prop := forall n k, dget n kw <> Some (Made k).

(** Two classes, 2 needing a reference named 7 to one of class 1, all can be made. *)
Definition two_classes : classes := Classes (fun _ => true) Z.eqb (fun c => if c =? 2 then [(7, 1)] else []).
Definition easy : file := File (Some 5) (fun _ _ _ => true).
