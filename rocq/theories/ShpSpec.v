(** * What shapefile output should hold *)

From Coq Require Import ZArith QArith List Bool Lia Permutation Sorted.
From Verif Require Import Py StrModel ShpModel.
Import ListNotations.
Open Scope list_scope.
Open Scope Z_scope.

(** The universal time of a local time, for an offset in hours that is a number of minutes. *)
Definition universal (off : option Q) (t : Z) (u : option Z) : Prop :=
  match off with
  | None => u = None
  | Some q => forall m, Qeq (q * 60) (inject_Z m) -> exists x, u = Some x /\ x + 60 * m = t
  end.

(** The frame of a container: every element once, lowest concentration first if there is one and it is not uncertain. *)
Definition sorts (f : list el -> list el) : Prop := forall l, Permutation l (f l) /\ Sorted (fun a b => e_conc a <= e_conc b) (f l).
Definition shows (off : option Q) (b : box) (f : frame) : Prop :=
  exists u rows, f = Rows (b_time b) u rows /\ universal off (b_time b) u /\ Permutation (b_els b) rows /\
    (b_conc b = true -> b_unc b = false -> Sorted (fun a c => e_conc a <= e_conc c) rows) /\
    (b_conc b = false \/ b_unc b = true -> rows = b_els b).

(** The containers of the steps that are written. *)
Definition written (steps : list (bool * list box)) : list (list box) := map snd (filter fst steps).
Definition boxes (unc : bool) (steps : list (bool * list box)) : list box :=
  filter (fun b => Bool.eqb (b_unc b) unc) (concat (written steps)).

(** A boundary: the hull around containers at the time of the first, if there is one. *)
Definition outlines (w : world) (off : option Q) (sep : bool) (bs : list box) (fs : list frame) : Prop :=
  match w_hull w bs sep with
  | None => fs = []
  | Some h => exists b r u, bs = b :: r /\ fs = [Bound (b_time b) u sep h] /\ universal off (b_time b) u
  end.
(** What the boundary of the uncertain elements is around, for each uncertain container. *)
Definition around (all : bool) (steps : list (bool * list box)) : list (list box) :=
  flat_map (fun sp => map (fun b => if all then sp else [b]) (filter b_unc sp)) (written steps).

(** A name that has no dot. *)
Definition plain (s : str) : Prop := ~ In 46 s.
(** A dot and a text without dots. *)
Definition ext (p : str) : Prop := exists c t, p = 46 :: c :: t /\ ~ In 46 (c :: t).

(** The frames of the boundaries, if they are asked for. *)
Definition bounds (w : world) (off : option Q) (yes sep : bool) (bss : list (list box)) (fs : list frame) : Prop :=
  exists l, fs = concat l /\ if yes then Forall2 (outlines w off sep) bss l else l = [].

(** The steps of a run. *)
Definition as_ops (steps : list (bool * list box)) : list op := map (fun x => Step (fst x) (snd x)) steps.

(** What is announced for a run that is zipped: the members of the file. *)
Definition zipped (g : cfg) (tag : str) (fs : list frame) : str * file := (stem (g_name g) ++ tag ++ zip_ext, Whole fs).

