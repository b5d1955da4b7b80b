(** * What tide files are, and what a file from the server should hold *)

From Coq Require Import ZArith List Bool Lia String.
From Verif Require Import Py StrModel TidModel.
Import ListNotations.
Open Scope list_scope.
Open Scope Z_scope.

(** The lines of a text file are not empty: they have their ends. *)
Definition text (f : list str) : Prop := Forall (fun l => l <> []) f.

Definition starts (k l : str) : Prop := exists t, l = k ++ t.
(** The first four lines start with these words. *)
Definition shio (f : list str) : Prop :=
  exists a b c d r, f = a :: b :: c :: d :: r /\ starts (lit "[StationInfo]"%string) a /\ starts (lit "Type="%string) b /\
    starts (lit "Name="%string) c /\ starts (lit "Latitude="%string) d.
(** The fourth line has seven fields: six commas. *)
Definition ossm (f : list str) : Prop := exists a b c d r, f = a :: b :: c :: d :: r /\ count_occ Z.eq_dec d 44 = 6%nat.

(** What a server sends: parts, none of them empty, then nothing more. *)
Definition sends (reads : list (list Z)) (content : list Z) : Prop :=
  exists cs r, reads = cs ++ [] :: r /\ Forall (fun c => c <> []) cs /\ content = concat cs.

(** The same files but for one. *)
Definition same_but (file : str) (a b : disk) : Prop := forall k, k <> file -> sget k (d_files a) = sget k (d_files b).
