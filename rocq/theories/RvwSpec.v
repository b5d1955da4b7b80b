(** * Vocabulary for the statements about operations on views *)
From Verif Require Import Py QLemmas ScModel ScSpec RvwModel.
Open Scope Z_scope.

(** The masses of the elements, and what they are made of. *)
Definition as_number (v : val) : Q := match v with VQ [q] => q | VQ _ => 0%Q | VZ z => inject_Z z end.
Definition mass_column (c : sc) : list Q := match column c n_mass with Some l => map as_number l | None => [] end.
Definition all_mass (c : sc) : Q := fold_right Qplus 0%Q (mass_column c).
Definition comps_of (v : val) : list Q := match v with VQ l => l | VZ _ => [] end.

(** Every element floats and has mass / some element does not. *)
Definition all_floating (c : sc) : Prop :=
  exists sel, in_view c 2 sel /\ forall b, In b sel -> b = true.
Definition some_not_floating (c : sc) : Prop :=
  exists sel, in_view c 2 sel /\ In false sel.

(** The mass of every element is the sum of its components. *)
Definition consistent (c : sc) : Prop :=
  exists ms cs, column c n_mass = Some ms /\ column c n_comps = Some cs /\
    Forall2 (fun m x => exists q l, m = VQ [q] /\ x = VQ l /\ (q == fold_right Qplus 0 l)%Q) ms cs.

(** The density of an emulsion of oil and water. *)
Definition mix (water oil fw : Q) : Q := (fw * water + (1 - fw) * oil)%Q.
