(** * Vocabulary for the statements about pairs of containers *)
From Verif Require Import Py OrdCollModel PairModel.
Open Scope Z_scope.

(** The spills of a container, in order. *)
Definition spills (c : oc spill) (l : list spill) : Prop := iter c = Ok (map Some l).

(** Equal but for the id. *)
Definition alike (a b : spill) : Prop := s_on a = s_on b /\ s_sub a = s_sub b /\ s_rest a = s_rest b.

(** While uncertainty is on there is an uncertain spill for every forecast
    spill, in the same order; [alike] if nobody has changed a spill. *)
Definition lockstep (rel : spill -> spill -> Prop) (p : pair) : Prop :=
  exists lf, spills (p_fc p) lf /\
  (p_flag p = true -> exists u lu, p_unc p = Some u /\ spills u lu /\ Forall2 rel lf lu).

(** ** Histories *)

Definition first_of (it : item) : option spill :=
  match it with ItOne s => Some s | ItTuple l => nth_error l 0 end.
Definition second_of (it : item) : option spill :=
  match it with ItOne _ => None | ItTuple l => nth_error l 1 end.
Definition ids (l : list (option spill)) : list Z := map s_id (live l).

Definition has (c : oc spill) (k : Z) : Prop := exists l s, spills c l /\ In s l /\ s_id s = k.

(** Spills that are not yet there (nor twice in the list); given in pairs, the
    second is like the first. *)
Definition new_items (p : pair) (items : list item) : Prop :=
  NoDup (ids (map first_of items)) /\ NoDup (ids (map second_of items)) /\
  Forall (fun k => 0 <= k) (ids (map second_of items)) /\
  Forall (fun k => ~ has (p_fc p) k) (ids (map first_of items)) /\
  (forall u, p_unc p = Some u -> Forall (fun k => ~ has u k) (ids (map second_of items))) /\
  Forall (fun it => match first_of it, second_of it with Some a, Some b => alike a b | _, _ => True end) items.

(** What a user may do: anything but assigning to a position, adding a spill that
    is there already, and going on after an addition was refused.  Changes of
    spills are allowed if [edits]. *)
Definition allowed (edits : bool) (p : pair) (o : op) : Prop :=
  match o with
  | PAdd items => new_items p items /\ snd (do_op p o) = None
  | PSet _ _ => False
  | PUncertain _ => snd (do_op p o) = None
  | PUpdate l => NoDup (map s_id l) /\ snd (do_op p o) = None
  | PEdit _ _ => edits = true
  | _ => True
  end.
Fixpoint allowed_run (edits : bool) (p : pair) (os : list op) : Prop :=
  match os with
  | [] => True
  | o :: r => allowed edits p o /\ allowed_run edits (fst (do_op p o)) r
  end.
