(** * What is said about spills, in terms of what a script can read *)

From Coq Require Import ZArith List Bool Lia QArith.
From Verif Require Import Py SplModel.
Import ListNotations.
Open Scope Z_scope.

(** The kilograms of an amount of a substance of this density. *)
Definition kilograms (u : unit) (density a kg : Q) : Prop :=
  match u with
  | Mass k => (kg == a * k)%Q
  | Volume v => (kg == a * v * density)%Q
  | OtherUnit => False
  end.

(** Units of mass and volume have a size; substances have a density. *)
Definition sized (u : unit) : Prop :=
  match u with
  | Mass k => (0 < k)%Q
  | Volume v => (0 < v)%Q
  | OtherUnit => True
  end.
Definition sensible (o : op) : Prop :=
  match o with
  | NewSub d _ _ => (0 < d)%Q
  | NewSpill _ _ _ _ u _ | Helper _ _ _ u _ _ | SetUnits _ u => sized u
  | _ => True
  end.

(** A world a script of such operations leaves, whatever raised on the way. *)
Definition scripted (w : world) : Prop := exists ops, Forall sensible ops /\ w = run start ops.

(** The spill reports this amount; its release has this mass; its units; the density and the windages of its
    substance. *)
Definition reads (w : world) (i : nat) (a : Q) : Prop := exists x, amount w i = Ok x /\ (x == a)%Q.
Definition weighs (w : world) (i : nat) (kg : Q) : Prop :=
  exists p r, nth_error (w_spills w) i = Some p /\ nth_error (w_rels w) (p_release p) = Some r /\ (l_mass r == kg)%Q.
Definition in_units (w : world) (i : nat) (u : unit) : Prop :=
  exists p, nth_error (w_spills w) i = Some p /\ p_units p = u.
Definition has_density (w : world) (i : nat) (d : Q) : Prop :=
  exists p s, nth_error (w_spills w) i = Some p /\ nth_error (w_subs w) (p_sub p) = Some s /\ s_density s = d.
Definition has_windage (w : world) (i : nat) (rg : list Q) (persist : Z) : Prop :=
  exists p s, nth_error (w_spills w) i = Some p /\ nth_error (w_subs w) (p_sub p) = Some s /\
    s_range s = rg /\ s_persist s = persist.
Definition counts (w : world) (i : nat) (num per : option Z) : Prop :=
  exists p r, nth_error (w_spills w) i = Some p /\ nth_error (w_rels w) (p_release p) = Some r /\
    l_num r = num /\ l_per r = per.

(** No other spill has its release; none has its substance. *)
Definition own_release (w : world) (i : nat) : Prop :=
  forall p, nth_error (w_spills w) i = Some p ->
  forall i' p', i' <> i -> nth_error (w_spills w) i' = Some p' -> p_release p' <> p_release p.
Definition release_of (w : world) (i j : nat) : Prop := exists p, nth_error (w_spills w) i = Some p /\ p_release p = j.
Definition substance_of (w : world) (i k : nat) : Prop := exists p, nth_error (w_spills w) i = Some p /\ p_sub p = k.

(** Operations that concern the amount of the spill [i], whose release is [j]: its own amount, units, substance or
    uncertainty, the mass of the release, another spill made of the release. *)
Definition concerns_amount (i j : nat) (o : op) : Prop :=
  match o with
  | SetAmount i' _ | SetUnits i' _ | SetSub i' _ | Shift i' _ => i' = i
  | SetMass j' _ => j' = j
  | NewSpill _ (Some j') _ _ _ _ => j' = j
  | _ => False
  end.

(** Operations that concern the windages of the spill [i], whose substance is [k]: a windage set on the substance,
    another substance given, a helper that is given the substance and a windage. *)
Definition concerns_windage (i k : nat) (o : op) : Prop :=
  match o with
  | SetSub i' _ => i' = i
  | SetRange k' _ | SetPersist k' _ => k' = k
  | Helper (Some k') _ _ _ rg p => k' = k /\ (rg <> None \/ p <> None)
  | _ => False
  end.

(** Windages that are refused. *)
Definition bad_range (l : list Q) : Prop := length l <> 2%nat \/ exists x, In x l /\ (x < 0)%Q.

(** Exactly one of the number of elements and the rate is set. *)
Definition one_of (num per : option Z) : Prop :=
  (exists n, num = Some n /\ per = None) \/ (exists n, num = None /\ per = Some n).

(** The number of times an amount is shifted. *)
Fixpoint shifts (n : nat) (i : nat) (dir : option bool) : list op :=
  match n with O => [] | S k => Shift i dir :: shifts k i dir end.
