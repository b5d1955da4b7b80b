(** * What an ordered collection should be: a list of objects with distinct ids

    Independent of the model's slots and index: operations on plain lists. *)
From Verif Require Import Py OrdCollModel.

Section Spec.
  Context {Obj : Type}.
  Variable sid : Obj -> Z.

  Definition has_id (k : Z) (o : Obj) : bool := sid o =? k.
  Definition in_list (k : Z) (l : list Obj) : bool := existsb (has_id k) l.

  Definition s_add (l : list Obj) (o : Obj) : list Obj :=
    if in_list (sid o) l then l else l ++ [o].

  (** Remove the object with id [k]. *)
  Definition s_del (l : list Obj) (k : Z) : list Obj :=
    filter (fun o => negb (has_id k o)) l.

  (** Put [x] where the object with id [k] stands; if [x]'s id was elsewhere in
      the list that other occurrence disappears (ids stay distinct). *)
  Definition s_put (l : list Obj) (k : Z) (x : Obj) : list Obj :=
    map (fun o => if has_id k o then x else o)
        (filter (fun o => has_id k o || negb (has_id (sid x) o)) l).

  Fixpoint s_add_iter (l : list Obj) (xs : list (option Obj)) : list Obj * option exc :=
    match xs with
    | [] => (l, None)
    | None :: _ => (l, Some TypeErr)
    | Some o :: r => s_add_iter (s_add l o) r
    end.

  (** The [i]-th object, counting from the end for negative [i]. *)
  Definition s_nth (l : list Obj) (i : Z) : option Obj :=
    if 0 <=? i then nth_error l (Z.to_nat i)
    else if i + Z.of_nat (length l) <? 0 then None
    else nth_error l (Z.to_nat (i + Z.of_nat (length l))).

  (** The list a call leaves and its outcome.  [OReplace (ByPos _)] is the one
      call that is not covered here (see C04). *)
  Definition s_apply (l : list Obj) (o : op Obj) : list Obj * option exc :=
    match o with
    | OAdd (AObj x) => (s_add l x, None)
    | OAdd (AIter xs) => s_add_iter l xs
    | OAdd ABad => (l, Some TypeErr)
    | ORemove (ById k) => if in_list k l then (s_del l k, None) else (l, Some KeyErr)
    | ORemove (ByPos i) => match s_nth l i with
                           | Some x => (s_del l (sid x), None)
                           | None => (l, Some IndexErr)
                           end
    | OReplace (ById k) x => if in_list k l then (s_put l k x, None) else (l, Some KeyErr)
    | OReplace (ByPos i) x =>
        match s_nth l i with
        | Some y => (s_put l (sid y) x, None)
        | None => (l, Some IndexErr)
        end
    | OClear => ([], None)
    | OUpdate xs => (fold_left s_add xs [], None)
    | ORegister _ _ => (l, None)
    end.

  Fixpoint s_run (l : list Obj) (h : list (op Obj)) : list Obj * list (option exc) :=
    match h with
    | [] => (l, [])
    | o :: r => let '(l1, e) := s_apply l o in
                let '(l2, es) := s_run l1 r in (l2, e :: es)
    end.

  (** Calls other than assignment by position. *)
  Definition not_by_pos (o : op Obj) : bool :=
    match o with OReplace (ByPos _) _ => false | _ => true end.

  (** Calls that leave no holes: everything except remove; the replacing object
      must be new or take its own place. *)
  Definition no_hole_call (l : list Obj) (o : op Obj) : Prop :=
    match o with
    | ORemove _ => False
    | OReplace (ByPos i) x =>
        0 <= i /\ (in_list (sid x) l = true -> exists y, s_nth l i = Some y /\ sid y = sid x)
    | OReplace (ById k) x => in_list (sid x) l = true -> k = sid x
    | _ => True
    end.

  Fixpoint no_hole_history (l : list Obj) (h : list (op Obj)) : Prop :=
    match h with
    | [] => True
    | o :: r => no_hole_call l o /\ no_hole_history (fst (s_apply l o)) r
    end.

  (** Calls that put no object in while it is already there (in another place). *)
  Definition fresh_call (l : list Obj) (o : op Obj) : Prop :=
    match o with
    | OReplace (ByPos _) _ => False
    | OReplace (ById k) x => in_list (sid x) l = true -> k = sid x
    | _ => True
    end.
  Fixpoint fresh_history (l : list Obj) (h : list (op Obj)) : Prop :=
    match h with
    | [] => True
    | o :: r => fresh_call l o /\ fresh_history (fst (s_apply l o)) r
    end.

  (** The notifications a call should cause, given the contents before it:
      (event, object) pairs in order. *)
  Fixpoint s_added (l : list Obj) (xs : list (option Obj)) : list (event * Obj) :=
    match xs with
    | [] | None :: _ => []
    | Some o :: r =>
        if in_list (sid o) l then s_added l r
        else (EvAdd, o) :: s_added (l ++ [o]) r
    end.

  Definition s_events (l : list Obj) (o : op Obj) : list (event * Obj) :=
    match o with
    | OAdd (AObj x) => if in_list (sid x) l then [] else [(EvAdd, x)]
    | OAdd (AIter xs) => s_added l xs
    | OAdd ABad => []
    | ORemove (ById k) => match find (has_id k) l with Some x => [(EvRemove, x)] | None => [] end
    | ORemove (ByPos i) => match s_nth l i with Some x => [(EvRemove, x)] | None => [] end
    | OReplace (ById k) x => if in_list k l then [(EvReplace, x)] else []
    | OReplace (ByPos i) x => match s_nth l i with Some _ => [(EvReplace, x)] | None => [] end
    | OClear => []
    | OUpdate xs => s_added [] (map Some xs)
    | ORegister _ _ => []
    end.

  (** Each callback registered for the event, in registration order. *)
  Definition deliver (cbs : list (Z * list event)) (eo : event * Obj) : list (Z * event * Obj) :=
    map (fun cb => (fst cb, fst eo, snd eo))
        (filter (fun cb => existsb (event_eqb (fst eo)) (snd cb)) cbs).

  (** The whole log of a history. *)
  Fixpoint s_log (l : list Obj) (cbs : list (Z * list event)) (h : list (op Obj))
    : list (Z * event * Obj) :=
    match h with
    | [] => []
    | o :: r =>
        let cbs' := match o with ORegister cb evs => cbs ++ [(cb, evs)] | _ => cbs end in
        flat_map (deliver cbs) (s_events l o) ++ s_log (fst (s_apply l o)) cbs' r
    end.
End Spec.
