(** * What the start of a run should do

    Read beside SetModel; nothing here is used by the model. *)
From Verif Require Import Py OrderModel SetModel.
Open Scope Z_scope.

(** Object [x] can be used where a [n] is wanted. *)
Definition offers (h : heap) (n : name) (x : Z) : Prop :=
  o_ref (h x) = One n \/ exists ns, o_ref (h x) = Many ns /\ In n ns.
(** [y] is the first object of [l] that can. *)
Definition first_offer (h : heap) (n : name) (l : list Z) (y : Z) : Prop :=
  exists before after, l = before ++ y :: after /\ offers h n y /\ forall z, In z before -> ~ offers h n z.
(** [x] asks the model for a [n] and has none. *)
Definition asks (h : heap) (n : name) (x : Z) : Prop :=
  o_mdr (h x) = true /\ (exists ns, o_req (h x) = Some ns /\ In n ns) /\ o_attr (h x) n = Some None.
(** Objects have the attributes they declare. *)
Definition declared (h : heap) (l : list Z) : Prop :=
  forall x ns n, In x l -> o_req (h x) = Some ns -> In n ns -> o_attr (h x) n <> None.
(** The same but for references. *)
Definition same_but_refs (a b : obj) : Prop :=
  o_ref a = o_ref b /\ o_req a = o_req b /\ o_mdr a = o_mdr b /\ o_on a = o_on b /\ o_lax a = o_lax b /\
  o_area a = o_area b /\ o_cls a = o_cls b.

(** Some weatherer that is on uses the area of the slick. *)
Definition area_used (h : heap) (ws : list Z) : Prop := exists x, In x ws /\ o_on (h x) = Some true /\ o_area (h x) = true.
Definition role (n : name) (o : obj) : Prop := o_ref o = One n.
(** Exactly one weatherer of the role is on. *)
Definition one_on (n : name) (h : heap) (ws : list Z) (x : Z) : Prop :=
  In x ws /\ role n (h x) /\ (forall y, In y ws -> role n (h y) -> (o_on (h y) = Some true <-> y = x)).
(** The last of its role. *)
Definition last_of (n : name) (h : heap) (ws : list Z) (x : Z) : Prop :=
  exists before after, ws = before ++ x :: after /\ role n (h x) /\ forall z, In z after -> ~ role n (h z).

(** The object takes part in the run. *)
Definition takes_part (o : obj) : Prop := o_on o <> Some false.

(** A spill released before the run starts, in the direction of the run. *)
Definition released_before (c : cin) (p : spill) : Prop :=
  (0 < c_time_step c /\ p_release p < c_start c) \/ (c_time_step c < 0 /\ c_start c < p_release p).
(** A spill released after the run starts, in the direction of the run. *)
Definition released_after (c : cin) (p : spill) : Prop :=
  (0 < c_time_step c /\ c_start c < p_release p) \/ (c_time_step c < 0 /\ p_release p < c_start c).
(** What makes a run impossible. *)
Definition impossible (c : cin) (ps : list spill) : Prop :=
  (exists p, In p ps /\ p_on p = true /\ c_time_step c < 0 /\ p_release p <> p_end_release p) \/
  (exists p cold, In p ps /\ p_on p = true /\ p_weatherable p = true /\ p_sinks p = Some (cold, true)) \/
  (c_time_step c < 0 /\ 0 < c_duration c) \/
  (c_time_step c < 0 /\ c_weathering c = true /\ exists p, In p ps /\ p_on p = true /\ p_weatherable p = true).
(** Released at or after the end of the run, in its direction. *)
Definition too_late (c : cin) (p : spill) : Prop :=
  if c_backwards c then p_release p <= c_start c + c_duration c else c_start c + c_duration c <= p_release p.
(** A list without two objects of the role. *)
Definition at_most_one (n : name) (h : heap) (ws : list Z) : Prop :=
  forall x y, In x ws -> In y ws -> role n (h x) -> role n (h y) -> x = y.
(** Objects that spread have an area, and all weatherers have the switch. *)
Definition proper_weatherers (h : heap) (ws : list Z) : Prop :=
  forall x, In x ws -> o_on (h x) <> None /\ (role spreading (h x) \/ role langmuir (h x) -> o_area (h x) = true).
