(** * The pair of spill containers

    Models gnome/spill_container.py:1099-1336 (SpillContainerPair) with the
    collections of spills of the two containers (OrdCollModel) and the check
    that runs as their callback (421-461, 514-520).  Data arrays are in ScModel.

    A spill is its id and what == compares: whether it is on, its substance, and
    the rest, each numbered.  Users can change a spill of the forecast container
    at any time; changes of the spills of the uncertain container are not
    modelled.  == between spills is exact here. *)
From Verif Require Import Py OrdCollModel.
Open Scope Z_scope.

Record spill := mkSpill { s_id : Z; s_on : bool; s_sub : Z; s_rest : Z }.

(** ** One container *)

(** spill_container.py:421-461 (_set_substancespills): only one substance among
    the spills that are on.  [seen] is the substance of the first one. *)
Fixpoint check_list (seen : option Z) (l : list (option spill)) : option exc :=
  match l with
  | [] => None
  | None :: _ => Some AttrErr                      (* None.on *)
  | Some s :: r =>
      if negb (s_on s) then check_list seen r
      else match seen with
           | None => check_list (Some (s_sub s)) r
           | Some x => if s_sub s =? x then check_list seen r else Some ValueErr
           end
  end.
Definition check (c : oc spill) : option exc :=
  match iter c with Raise e => Some e | Ok l => check_list None l end.

(** The collection's operations (orderedcollection.py:77-155), each followed by
    the callback, which is registered for add, replace and remove
    (spill_container.py:374). *)
Definition c_add (c : oc spill) (s : spill) : oc spill * option exc :=
  if dmem (s_id s) (dindex c) then (c, None)
  else let c' := add1 s_id c s in (c', check c').
Definition c_del (c : oc spill) (i : ident) : oc spill * option exc :=
  match remove s_id c i with
  | (c', None) => (c', check c')
  | (c', Some e) => (c', Some e)
  end.
Definition c_replace (c : oc spill) (i : ident) (s : spill) : oc spill * option exc :=
  match replace s_id c i s with
  | (c', None) => (c', check c')
  | (c', Some e) => (c', Some e)
  end.

(** spills/spill.py:363-387 (uncertain_copy): a deepcopy, equal, with a new id
    (gnomeobject.py:290). *)
Definition copy_of (id : Z) (s : spill) : spill := mkSpill id (s_on s) (s_sub s) (s_rest s).

Definition empty_oc : oc spill := ctor s_id [].

(** spill_container.py:769-780 (uncertain_copy). *)
Fixpoint copy_all (next : Z) (l : list (option spill)) (c : oc spill) : Z * oc spill * option exc :=
  match l with
  | [] => (next, c, None)
  | None :: _ => (next, c, Some AttrErr)
  | Some s :: r =>
      match c_add c (copy_of next s) with
      | (c', None) => copy_all (next - 1) r c'
      | (c', Some e) => (next - 1, c', Some e)
      end
  end.
Definition uncertain_copy (next : Z) (fc : oc spill) : Z * oc spill * option exc :=
  match iter fc with
  | Raise e => (next, empty_oc, Some e)
  | Ok l => copy_all next l empty_oc
  end.

(** ** The pair *)

Record pair := mkPair {
  p_fc : oc spill;                (* _spill_container.spills *)
  p_flag : bool;                  (* _uncertain *)
  p_unc : option (oc spill);      (* _u_spill_container.spills, if there is one *)
  p_next : Z }.                   (* the next new id, counting down *)

Definition put_fc (p : pair) (c : oc spill) := mkPair c (p_flag p) (p_unc p) (p_next p).
Definition put_unc (p : pair) (c : option (oc spill)) := mkPair (p_fc p) (p_flag p) c (p_next p).
Definition put_next (p : pair) (n : Z) := mkPair (p_fc p) (p_flag p) (p_unc p) n.

(** spill_container.py:1103-1118 (__init__). *)
Definition new_pair (u : bool) : pair := mkPair empty_oc u (if u then Some empty_oc else None) (-1).

Definition same_content (a b : spill) : bool :=
  Bool.eqb (s_on a) (s_on b) && (s_sub a =? s_sub b) && (s_rest a =? s_rest b).
Fixpoint same_list (a b : list spill) : bool :=
  match a, b with
  | [], [] => true
  | x :: r, y :: s => same_content x y && same_list r s
  | _, _ => false
  end.

(** orderedcollection.py:271-284 (__eq__). *)
Definition live (l : list (option spill)) : list spill :=
  flat_map (fun o => match o with Some s => [s] | None => [] end) l.
Definition oc_eq (a b : oc spill) : res bool :=
  do x <- iter a; do y <- iter b;
  Ok ((length x =? length y)%nat && same_list (live x) (live y)).

(** spill_container.py:1120-1128 (rewind); the rewind of each container ends
    with the check of the substances (738-764). *)
Definition p_rewind (p : pair) : pair * option exc :=
  match check (p_fc p) with
  | Some e => (p, Some e)
  | None =>
      if negb (p_flag p) then (p, None)
      else match p_unc p with
      | None => (p, Some AttrErr)
      | Some u =>
          match check u with
          | Some e => (p, Some e)
          | None =>
              match oc_eq (p_fc p) u with
              | Raise e => (p, Some e)
              | Ok true => (p, None)
              | Ok false =>
                  match uncertain_copy (p_next p) (p_fc p) with
                  | (n, c, None) => (put_next (put_unc p (Some c)) n, None)
                  | (n, _, Some e) => (put_next p n, Some e)
                  end
              end
          end
      end
  end.

(** spill_container.py:1140-1150 (uncertain setter). *)
Definition p_set_uncertain (p : pair) (v : bool) : pair * option exc :=
  if p_flag p && negb v then
    (mkPair (p_fc p) false None (p_next p), match p_unc p with Some _ => None | None => Some AttrErr end)
  else if negb (p_flag p) && v then
    match uncertain_copy (p_next p) (p_fc p) with
    | (n, c, None) => (mkPair (p_fc p) true (Some c) n, None)
    | (n, _, Some e) => (mkPair (p_fc p) true (p_unc p) n, Some e)
    end
  else (p, None).

Inductive item := ItOne (s : spill) | ItTuple (l : list spill).

Definition add_unc (p : pair) (s : spill) : pair * option exc :=
  match p_unc p with
  | None => (p, Some AttrErr)
  | Some u => let '(u', e) := c_add u s in (put_unc p (Some u'), e)
  end.

(** spill_container.py:1152-1174 (_add_spill_pair, _add_item). *)
Definition add_item (p : pair) (it : item) : pair * option exc :=
  match it with
  | ItOne s =>
      match c_add (p_fc p) s with
      | (c, Some e) => (put_fc p c, Some e)
      | (c, None) =>
          let p := put_fc p c in
          if p_flag p then add_unc (put_next p (p_next p - 1)) (copy_of (p_next p) s) else (p, None)
      end
  | ItTuple l =>
      if p_flag p && negb (length l =? 2)%nat then (p, Some ValueErr)
      else if negb (p_flag p) && negb (length l =? 1)%nat then (p, Some ValueErr)
      else match l with
      | [] => (p, Some IndexErr)
      | s :: r =>
          match c_add (p_fc p) s with
          | (c, Some e) => (put_fc p c, Some e)
          | (c, None) =>
              match r with
              | u :: _ => if p_flag p then add_unc (put_fc p c) u else (put_fc p c, None)
              | [] => (put_fc p c, None)
              end
          end
      end
  end.

(** spill_container.py:1176-1205 (add, append). *)
Fixpoint p_add (p : pair) (items : list item) : pair * option exc :=
  match items with
  | [] => (p, None)
  | it :: r => match add_item p it with
               | (p', None) => p_add p' r
               | (p', Some e) => (p', Some e)
               end
  end.

(** spill_container.py:1207-1218 (remove). *)
Definition p_remove (p : pair) (i : ident) : pair * option exc :=
  let del_fc (p : pair) := let '(c, e) := c_del (p_fc p) i in (put_fc p c, e) in
  if p_flag p then
    match get (p_fc p) i with
    | Raise e => (p, Some e)
    | Ok None => (p, Some ValueErr)
    | Ok (Some s) =>
        match index (p_fc p) (s_id s) with
        | Raise e => (p, Some e)
        | Ok idx =>
            match p_unc p with
            | None => (p, Some AttrErr)
            | Some u => match c_del u (ByPos idx) with
                        | (u', None) => del_fc (put_unc p (Some u'))
                        | (u', Some e) => (put_unc p (Some u'), Some e)
                        end
            end
        end
    end
  else del_fc p.

(** spill_container.py:1225-1229 (__setitem__); 1313-1321 (index). *)
Definition p_set (p : pair) (i : ident) (s : spill) : pair * option exc :=
  match c_replace (p_fc p) i s with
  | (c, Some e) => (put_fc p c, Some e)
  | (c, None) =>
      let p := put_fc p c in
      if p_flag p then
        match index (p_fc p) (s_id s), p_unc p with
        | Ok ix, Some u =>
            let '(u', e) := c_replace u (ByPos ix) (copy_of (p_next p) s) in
            (put_next (put_unc p (Some u')) (p_next p - 1), e)
        | _, None => (p, Some AttrErr)
        | Raise e, _ => (p, Some e)
        end
      else (p, None)
  end.

(** spill_container.py:1332-1336 (clear); clearing does not run the callback. *)
Definition p_clear (p : pair) : pair * option exc :=
  let p := put_fc p (clear (p_fc p)) in
  if p_flag p then
    match p_unc p with
    | None => (p, Some AttrErr)
    | Some u => (put_unc p (Some (clear u)), None)
    end
  else (p, None).

(** spill_container.py:1278-1302 (update_from_dict). *)
Definition p_update (p : pair) (l : list spill) : pair * option exc :=
  let v := values (p_fc p) in
  if negb (len (p_fc p) =? Z.of_nat (length l)) || negb (same_list v l) then
    match p_clear p with
    | (p', None) => p_add p' (map ItOne l)
    | (p', Some e) => (p', Some e)
    end
  else (p, None).

(** A user changes the attributes of a forecast spill. *)
Definition edit_oc (c : oc spill) (k : Z) (f : spill -> spill) : oc spill :=
  mkOC (map (option_map (fun s => if s_id s =? k then copy_of (s_id s) (f s) else s)) (elems c))
       (dindex c) (callbacks c) (log c).

Inductive op :=
| PAdd (items : list item)
| PRemove (i : ident)
| PSet (i : ident) (s : spill)
| PUncertain (v : bool)
| PClear
| PRewind
| PUpdate (l : list spill)
| PEdit (k : Z) (f : spill -> spill).

Definition do_op (p : pair) (o : op) : pair * option exc :=
  match o with
  | PAdd items => p_add p items
  | PRemove i => p_remove p i
  | PSet i s => p_set p i s
  | PUncertain v => p_set_uncertain p v
  | PClear => p_clear p
  | PRewind => p_rewind p
  | PUpdate l => p_update p l
  | PEdit k f => (put_fc p (edit_oc (p_fc p) k f), None)
  end.
Definition run (p : pair) (os : list op) : pair := fold_left (fun p o => fst (do_op p o)) os p.
