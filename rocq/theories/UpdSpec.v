(** * What changing an object from a dictionary should do

    The vocabulary of the properties C137 to C141, stated over the objects
    that exist before and after and over the text that is sent, without the
    functions that read the text. *)
From Verif Require Import Py UpdModel.

(** The ids of the objects that a text names. *)
Fixpoint named (j : json) : list Z :=
  match j with
  | JO id _ fs =>
      match id with Some i => [i] | None => [] end ++ flat_map (fun kj => named (snd kj)) fs
  | JL l => flat_map named l
  | _ => []
  end.
Definition named_in (fs : list (Z * json)) : list Z := flat_map (fun kj => named (snd kj)) fs.

Section Spec.
  Variable schema : Z -> list node.

  (** The attribute [k] of objects of class [c] may be changed by an update. *)
  Definition updatable (c k : Z) : Prop :=
    exists nd, In nd (schema c) /\ n_name nd = k /\ n_upd nd = true.

  (** The object [o] has an attribute that is, or holds, the object [y]. *)
  Definition refers (o : obj) (y : Z) : Prop :=
    exists nd v, In nd (schema (o_cls o)) /\ dget (n_name nd) (o_at o) = Some v /\
      (v = VO (Some y) \/ exists l, v = VL l /\ In (Some y) l).

  (** [z] is [x] or is inside [x]. *)
  Inductive within (h : Z -> option obj) (x : Z) : Z -> Prop :=
  | within_self : within h x x
  | within_step : forall y o z, within h x y -> h y = Some o -> refers o z -> within h x z.

  (** Attributes hold values of the kind that the schema says, and an
      ordered collection holds objects, each of them once. *)
  Definition of_kind (k : kind) (v : val) : Prop :=
    match k, v with
    | Plain, VP _ => True
    | One, VO _ => True
    | Many, VL _ => True
    | Coll, VL l => NoDup l /\ ~ In None l
    | _, _ => False
    end.

  (** A state in which the program can be: ids were given out in turn, every
      object has the attributes of its schema, what it refers to exists, and
      no object is inside itself, so that objects can be ranked by how deep
      they go. *)
  Definition sound (s : st) : Prop :=
    (forall x o, heap s x = Some o ->
       0 <= x < next s /\
       (forall nd, In nd (schema (o_cls o)) ->
          exists v, dget (n_name nd) (o_at o) = Some v /\ of_kind (n_kind nd) v) /\
       (forall y, refers o y -> heap s y <> None)) /\
    exists rank : Z -> nat, forall x o, heap s x = Some o ->
      (rank x < Z.to_nat (next s))%nat /\ forall y, refers o y -> (rank y < rank x)%nat.

  (** The text says of the object what is so already: every attribute of it
      that may be updated has the value it has, and the objects that are
      named in it are the ones that are there, with texts that say of them
      what is so. *)
  Section Agree.
    Variable h : Z -> option obj.
    Inductive agrees : json -> Z -> Prop :=
    | agrees_obj : forall x c fs o, h x = Some o ->
        (forall k j, In (k, j) fs -> updatable (o_cls o) k ->
           exists v, dget k (o_at o) = Some v /\ agrees_val j v) ->
        agrees (JO (Some x) c fs) x
    with agrees_val : json -> val -> Prop :=
    | agrees_plain : forall v, agrees_val (JP v) (VP v)
    | agrees_none : agrees_val JNull (VO None)
    | agrees_one : forall j y, agrees j y -> agrees_val j (VO (Some y))
    | agrees_list : forall js l, agrees_items js l -> agrees_val (JL js) (VL l)
    with agrees_items : list json -> list (option Z) -> Prop :=
    | agrees_nil : agrees_items [] []
    | agrees_cons : forall j y js l, agrees j y -> agrees_items js l -> agrees_items (j :: js) (Some y :: l)
    | agrees_skip : forall js l, agrees_items js l -> agrees_items (JNull :: js) (None :: l).
  End Agree.

  (** Nothing is different: no object, and no id was given out. *)
  Definition unchanged (s s' : st) : Prop :=
    (forall z, heap s' z = heap s z) /\ next s' = next s.

  (** What an item sent to [x] stands for: null for nothing, the id of an
      object inside [x] for that object, anything else for a new object; and
      the same id always for the same object, the one that [R] gives. *)
  Definition stands_for (R : Z -> option Z) (s s' : st) (x : Z) (j : json) (y : option Z) : Prop :=
    (j = JNull /\ y = None) \/
    exists id c fs z, j = JO id c fs /\ y = Some z /\ (forall i, id = Some i -> R i = Some z) /\
      ((id = Some z /\ within (heap s) x z) \/
       ((forall i, id = Some i -> ~ within (heap s) x i) /\ next s <= z < next s')).

  (** The first occurrences in a list. *)
  Fixpoint firsts (l : list (option Z)) : list (option Z) :=
    match l with
    | [] => []
    | a :: r => a :: filter (fun b => negb (oeqb a b)) (firsts r)
    end.

  (** The value [v] that an attribute of kind [k] has when [j] is sent. *)
  Definition means (R : Z -> option Z) (s s' : st) (x : Z) (k : kind) (j : json) (v : val) : Prop :=
    match k with
    | Plain => exists a, j = JP a /\ v = VP a
    | One => exists y, v = VO y /\ stands_for R s s' x j y
    | Many => exists js l, j = JL js /\ v = VL l /\ Forall2 (stands_for R s s' x) js l
    | Coll => exists js l, j = JL js /\ v = VL (firsts l) /\ Forall2 (stands_for R s s' x) js l /\ ~ In None l
    end.

  (** The text [j], sent to [x] or to an object inside [x], has the fields
      [fs] for the object [y]: [j] is the text for [y], or it is the text for
      an object one of whose updatable attributes is sent with such a text.
      Only objects inside [x] are on the way. *)
  Inductive sends (h : Z -> option obj) (x : Z) : json -> Z -> list (Z * json) -> Prop :=
  | sends_here : forall y c fs, within h x y -> sends h x (JO (Some y) c fs) y fs
  | sends_one : forall z c fz oz nd j y fs, within h x z -> h z = Some oz -> In nd (schema (o_cls oz)) ->
      n_upd nd = true -> n_kind nd = One -> dget (n_name nd) fz = Some j ->
      sends h x j y fs -> sends h x (JO (Some z) c fz) y fs
  | sends_item : forall z c fz oz nd js j y fs, within h x z -> h z = Some oz -> In nd (schema (o_cls oz)) ->
      n_upd nd = true -> (n_kind nd = Many \/ n_kind nd = Coll) -> dget (n_name nd) fz = Some (JL js) -> In j js ->
      sends h x j y fs -> sends h x (JO (Some z) c fz) y fs.

  Definition is_list (k : kind) : Prop := k = Many \/ k = Coll.

  (** The attribute [k] of class [c] is a list, or collection, that may be
      updated and is sent. *)
  Definition list_sent (nds : list node) (fs : list (Z * json)) (k : Z) : Prop :=
    exists nd j, In nd nds /\ n_upd nd = true /\ n_name nd = k /\ is_list (n_kind nd) /\ dget k fs = Some j.
End Spec.
