(** * Changing an object from a dictionary: the properties C137 to C141 *)
From Verif Require Import Py UpdModel UpdSpec UpdProofs.

(** A model (class 1) with a plain attribute 10, a read-only one 11, an
    object 12, an ordered collection 13 and a list 14; movers (class 2) with
    a plain attribute and an object 15; winds (class 3); a holder (class 4)
    of one object. *)
Definition ex_schema (c : Z) : list node :=
  if c =? 1 then [ND 10 Plain true false; ND 11 Plain false true; ND 12 One true false; ND 13 Coll true false; ND 14 Many true false]
  else if c =? 2 then [ND 10 Plain true false; ND 15 One true false]
  else if c =? 3 then [ND 10 Plain true false]
  else if c =? 4 then [ND 16 One true false]
  else [].
Definition ex_init (c : Z) : dict val :=
  if c =? 2 then [(10, VP 0); (15, VO None)] else if c =? 3 then [(10, VP 0)] else if c =? 4 then [(16, VO None)] else [].
Definition ex_objs : list (Z * obj) :=
  [(1, OB 1 [(10, VP 5); (11, VP 9); (12, VO (Some 4)); (13, VL [Some 2; Some 3]); (14, VL [None; Some 4; Some 4])]);
   (2, OB 2 [(10, VP 20); (15, VO (Some 5))]); (3, OB 2 [(10, VP 30); (15, VO None)]);
   (4, OB 3 [(10, VP 40)]); (5, OB 3 [(10, VP 50)])].
Definition ex_st : st := ST (fun z => dget z ex_objs) (fun _ => None) 6.
Definition ex_rank (z : Z) : nat := if z =? 1 then 2%nat else if z =? 2 then 1%nat else if z =? 3 then 1%nat else 0%nat.

Lemma ex_init_plain : forall c k v, dget k (ex_init c) = Some v -> targets v = [].
Proof.
  intros c k v H. unfold ex_init in H. apply dget_in in H.
  destruct (c =? 2); [|destruct (c =? 3); [|destruct (c =? 4); [|destruct H]]];
    simpl in H; decompose [or] H; try contradiction; match goal with Q : (_, _) = (k, v) |- _ => inversion Q; reflexivity end.
Qed.
Lemma ex_nodup : forall c, NoDup (map n_name (ex_schema c)).
Proof.
  intro c. unfold ex_schema. destruct (c =? 1); [|destruct (c =? 2); [|destruct (c =? 3); [|destruct (c =? 4)]]];
    simpl; repeat (constructor; [simpl; intro Q; decompose [or] Q; try discriminate; try contradiction|]); constructor.
Qed.
Lemma ex_sound : sound ex_schema ex_st.
Proof.
  assert (CASES : forall x o, heap ex_st x = Some o -> In (x, o) ex_objs) by (intros x o H; apply dget_in; exact H).
  assert (REF : forall o y, refers ex_schema o y -> In y (nexts ex_schema o)) by (intros; now apply nexts_iff).
  split.
  - intros x o H. apply CASES in H. split; [|split].
    + simpl in H. decompose [or] H; try contradiction; match goal with Q : (_, _) = (x, o) |- _ => inversion Q; subst; simpl; lia end.
    + simpl in H. decompose [or] H; try contradiction; match goal with Q : (_, _) = (x, o) |- _ => inversion Q; subst end;
        intros nd I; cbn in I; decompose [or] I; try contradiction; subst; (eexists; split; [reflexivity|simpl; auto]).
      split; [repeat (constructor; [simpl; intro Q; decompose [or] Q; try discriminate; try contradiction|]); constructor|].
      intros Q; decompose [or] Q; try discriminate; contradiction.
    + intros y R. apply REF in R. simpl in H. decompose [or] H; try contradiction; match goal with Q : (_, _) = (x, o) |- _ => inversion Q; subst end;
        cbn in R; decompose [or] R; try contradiction; subst; discriminate.
  - exists ex_rank. intros x o H. apply CASES in H. split.
    + simpl in H. decompose [or] H; try contradiction; match goal with Q : (_, _) = (x, o) |- _ => inversion Q; subst; cbn; lia end.
    + intros y R. apply REF in R. simpl in H. decompose [or] H; try contradiction; match goal with Q : (_, _) = (x, o) |- _ => inversion Q; subst end;
        cbn in R; decompose [or] R; try contradiction; subst; cbn; lia.
Qed.

(** ** C137: sending back what is so changes nothing *)
Theorem C137_send_back : forall schema init s x c fs, sound schema s ->
  agrees schema (heap s) (JO (Some x) c fs) x ->
  exists s', put schema init x fs s = (s', Ok false) /\ unchanged s s'.
Proof.
  intros schema init s x c fs HS A. inversion A; subst. eapply put_back; eassumption.
Qed.
Print Assumptions C137_send_back.

(** All that the model shows: its attributes, with the objects in them. *)
Definition ex_wind (i v : Z) : json := JO (Some i) (Some 3) [(10, JP v)].
Definition ex_all : list (Z * json) :=
  [(10, JP 5); (11, JP 9); (12, ex_wind 4 40);
   (13, JL [JO (Some 2) (Some 2) [(10, JP 20); (15, ex_wind 5 50)]; JO (Some 3) (Some 2) [(10, JP 30); (15, JNull)]]);
   (14, JL [JNull; ex_wind 4 40; ex_wind 4 40])].
Lemma ex_agrees : agrees ex_schema (heap ex_st) (JO (Some 1) (Some 1) ex_all) 1.
Proof.
  assert (W : forall i v, In (i, v) [(4, 40); (5, 50)] -> agrees ex_schema (heap ex_st) (ex_wind i v) i).
  { intros i v I. simpl in I. decompose [or] I; try contradiction; match goal with Q : (_, _) = (i, v) |- _ => inversion Q; subst end;
      (eapply agrees_obj; [reflexivity|]); intros k j [Q|[]] _; inversion Q; subst; eexists; (split; [reflexivity|constructor]). }
  eapply agrees_obj; [reflexivity|]. intros k j I _. simpl in I.
  decompose [or] I; try contradiction; match goal with Q : (_, _) = (k, j) |- _ => inversion Q; subst end; eexists; (split; [reflexivity|]).
  - constructor.
  - constructor.
  - apply agrees_one. apply W. simpl; auto.
  - apply agrees_list. apply agrees_cons; [|apply agrees_cons; [|constructor]].
    + eapply agrees_obj; [reflexivity|]. intros k j [Q|[Q|[]]] _; inversion Q; subst; eexists; (split; [reflexivity|]).
      * constructor.
      * apply agrees_one. apply W. simpl; auto.
    + eapply agrees_obj; [reflexivity|]. intros k j [Q|[Q|[]]] _; inversion Q; subst; eexists; (split; [reflexivity|constructor]).
  - apply agrees_list. apply agrees_skip. apply agrees_cons; [apply W; simpl; auto|]. apply agrees_cons; [apply W; simpl; auto|constructor].
Qed.
Example C137_meets : exists s', put ex_schema ex_init 1 ex_all ex_st = (s', Ok false) /\ unchanged ex_st s'.
Proof. exact (C137_send_back ex_schema ex_init ex_st 1 (Some 1) ex_all ex_sound ex_agrees). Qed.

(** ** C138: only what is named is touched *)
Theorem C138_frame : forall schema init s x o fs, sound schema s ->
  (forall c k v, dget k (init c) = Some v -> targets v = []) -> heap s x = Some o ->
  forall y oy, heap s y = Some oy ->
  exists oy', heap (fst (put schema init x fs s)) y = Some oy' /\ o_cls oy' = o_cls oy /\
    (forall k, ~ updatable schema (o_cls oy) k -> dget k (o_at oy') = dget k (o_at oy)) /\
    (~ (y = x \/ (In y (named_in fs) /\ within schema (heap s) x y)) -> oy' = oy).
Proof. exact put_frame. Qed.
Print Assumptions C138_frame.

(** Mover 3 is moved in front and its attribute changed, and the read-only
    attribute is sent too; mover 2, which is named without fields, and the
    winds stay, and so does the read-only attribute. *)
Example C138_meets :
  let s' := fst (put ex_schema ex_init 1 [(11, JP 77); (13, JL [JO (Some 3) None [(10, JP 31)]; JO (Some 2) None []])] ex_st) in
  heap s' 1 = Some (OB 1 [(10, VP 5); (11, VP 9); (12, VO (Some 4)); (13, VL [Some 3; Some 2]); (14, VL [None; Some 4; Some 4])]) /\
  heap s' 3 = Some (OB 2 [(10, VP 31); (15, VO None)]) /\ heap s' 2 = heap ex_st 2 /\ heap s' 4 = heap ex_st 4.
Proof. repeat split. Qed.

(** ** C139: what is sent is written *)
(** In [x] and in every object inside it for which the text has fields, and
    which is named once. *)
Theorem C139_written : forall schema init s x o c fs s' b, sound schema s ->
  (forall c k v, dget k (init c) = Some v -> targets v = []) ->
  (forall c, NoDup (map n_name (schema c))) -> heap s x = Some o ->
  put schema init x fs s = (s', Ok b) ->
  exists R, forall y oy fy, sends schema (heap s) x (JO (Some x) c fs) y fy -> heap s y = Some oy ->
  count_occ Z.eq_dec (named (JO (Some x) c fs)) y = 1%nat ->
  exists o', heap s' y = Some o' /\ o_cls o' = o_cls oy /\
    (forall nd j, In nd (schema (o_cls oy)) -> n_upd nd = true -> dget (n_name nd) fy = Some j ->
       exists v, dget (n_name nd) (o_at o') = Some v /\ means schema R s s' x (n_kind nd) j v) /\
    (forall k, (forall j, dget k fy = Some j -> ~ updatable schema (o_cls oy) k) -> dget k (o_at o') = dget k (o_at oy)).
Proof.
  intros schema init s x o c fs s' b HS HI HN Hx E. exists (refs s'). intros y oy fy SD Hy Ct.
  eapply put_sends; eassumption.
Qed.
Print Assumptions C139_written.

(** A new name, another object, a shorter collection with a new mover that
    is named twice. *)
Definition ex_new : json := JO (Some 99) (Some 2) [(10, JP 8); (15, ex_wind 5 51)].
Example C139_meets :
  let fs := [(10, JP 6); (12, JO (Some 5) None []); (13, JL [ex_new; JO (Some 3) None []; ex_new])] in
  ~ In 1 (named_in fs) /\
  exists s', put ex_schema ex_init 1 fs ex_st = (s', Ok true) /\
    heap s' 1 = Some (OB 1 [(10, VP 6); (11, VP 9); (12, VO (Some 5)); (13, VL [Some 6; Some 3]); (14, VL [None; Some 4; Some 4])]) /\
    heap s' 6 = Some (OB 2 [(10, VP 8); (15, VO (Some 5))]) /\ heap s' 5 = Some (OB 3 [(10, VP 51)]) /\ next s' = 7.
Proof.
  split; [simpl; intros Q; decompose [or] Q; try discriminate; contradiction|].
  eexists. split; [vm_compute; reflexivity|]. repeat split.
Qed.

(** A text with fields for wind 5, which is inside mover 2. *)
Example C139_sends_meets :
  let fs := [(10, JP 6); (13, JL [JO (Some 3) None [(10, JP 1)]; JO (Some 2) (Some 2) [(15, ex_wind 5 51)]])] in
  sends ex_schema (heap ex_st) 1 (JO (Some 1) None fs) 5 [(10, JP 51)] /\
  count_occ Z.eq_dec (named (JO (Some 1) None fs)) 5 = 1%nat /\
  exists s', put ex_schema ex_init 1 fs ex_st = (s', Ok true) /\ heap s' 5 = Some (OB 3 [(10, VP 51)]).
Proof.
  assert (W2 : within ex_schema (heap ex_st) 1 2).
  { eapply within_step; [apply within_self|reflexivity|]. apply nexts_iff. cbn. auto. }
  assert (W5 : within ex_schema (heap ex_st) 1 5).
  { eapply within_step; [exact W2|reflexivity|]. apply nexts_iff. cbn. auto. }
  split; [|split; [reflexivity|eexists; split; [vm_compute; reflexivity|reflexivity]]].
  eapply sends_item with (nd := ND 13 Coll true false); [apply within_self|reflexivity|cbn; auto|reflexivity|right; reflexivity|reflexivity|right; left; reflexivity|].
  eapply sends_one with (nd := ND 15 One true false); [exact W2|reflexivity|cbn; auto|reflexivity|reflexivity|reflexivity|]. apply sends_here. exact W5.
Qed.

(** A new object is made of what was sent for it; what was not sent, or sent
    as null or for a read-only attribute, is what its class gives it. *)
Theorem C139_new : forall schema init s x o nd c fs s' b, sound schema s ->
  (forall c k v, dget k (init c) = Some v -> targets v = []) ->
  (forall c, NoDup (map n_name (schema c))) -> heap s x = Some o ->
  In nd (schema (o_cls o)) -> n_upd nd = true -> n_kind nd = One ->
  put schema init x [(n_name nd, JO None (Some c) fs)] s = (s', Ok b) ->
  exists R o' z oz, heap s' x = Some o' /\ dget (n_name nd) (o_at o') = Some (VO (Some z)) /\ next s <= z /\
    heap s' z = Some oz /\ o_cls oz = c /\
    (forall nd' j, In nd' (schema c) -> n_ro nd' = false -> dget (n_name nd') fs = Some j -> j <> JNull ->
       exists v, dget (n_name nd') (o_at oz) = Some v /\ means schema R s s' x (n_kind nd') j v) /\
    (forall k, (forall nd' j, In nd' (schema c) -> n_name nd' = k -> n_ro nd' = false -> dget k fs = Some j -> j = JNull) ->
       dget k (o_at oz) = dget k (init c)).
Proof.
  intros schema init s x o nd c fs s' b HS HI HN Hx Hn Up Kd E. exists (refs s').
  exact (put_new schema init s x o nd c fs s' b HS HI HN Hx Hn Up Kd E).
Qed.
Print Assumptions C139_new.
Example C139_new_meets : exists s', put ex_schema ex_init 1 [(12, JO None (Some 2) [(15, ex_wind 4 44)])] ex_st = (s', Ok true) /\
  heap s' 6 = Some (OB 2 [(10, VP 0); (15, VO (Some 4))]) /\ heap s' 4 = Some (OB 3 [(10, VP 44)]).
Proof. eexists. split; [vm_compute; reflexivity|]. split; reflexivity. Qed.

(** Inside a new object this fails: there a known object is updated with a
    table made from it alone, so another known object that the text names is
    taken for a new one.  The wind 4 is sent as the wind of mover 2 and
    mover 2 gets a copy of it; sent to mover 2 by itself it is wind 4. *)
Theorem C139_nested_refuted : exists s x fs s' y i o' z,
  sound ex_schema s /\ ~ In x (named_in fs) /\ put ex_schema ex_init x fs s = (s', Ok true) /\
  within ex_schema (heap s) x y /\ within ex_schema (heap s) x i /\
  fs = [(12, JO (Some 99) (Some 4) [(16, JO (Some y) (Some 2) [(15, JO (Some i) (Some 3) [])])])] /\
  heap s' y = Some o' /\ dget 15 (o_at o') = Some (VO (Some z)) /\ z <> i.
Proof.
  exists ex_st, 1, [(12, JO (Some 99) (Some 4) [(16, JO (Some 2) (Some 2) [(15, JO (Some 4) (Some 3) [])])])].
  eexists. exists 2, 4. eexists. exists 6. split; [exact ex_sound|].
  split; [simpl; intros Q; decompose [or] Q; try discriminate; contradiction|].
  split; [vm_compute; reflexivity|].
  assert (W : forall z, In z [2; 3; 4] -> within ex_schema (heap ex_st) 1 z).
  { intros z I. eapply within_step; [apply within_self|reflexivity|]. apply nexts_iff. cbn. simpl in I. intuition. }
  split; [apply W; simpl; auto|]. split; [apply W; simpl; auto|]. split; [reflexivity|].
  split; [reflexivity|]. split; [reflexivity|discriminate].
Qed.
Print Assumptions C139_nested_refuted.

(** ** C140: the returned flag *)
Theorem C140_flag_partial : forall schema init s x o fs s' b, sound schema s ->
  (forall c k v, dget k (init c) = Some v -> targets v = []) ->
  (forall c, NoDup (map n_name (schema c))) -> heap s x = Some o -> ~ In x (named_in fs) ->
  put schema init x fs s = (s', Ok b) ->
  exists o', heap s' x = Some o' /\
    (b = true <-> exists nd, In nd (schema (o_cls o)) /\ ~ is_list (n_kind nd) /\
       dget (n_name nd) (o_at o') <> dget (n_name nd) (o_at o)).
Proof.
  intros schema init s x o fs s' b HS HI HN Hx NX E.
  destruct (put_effect schema init s x o fs HS HI HN Hx NX) as (o' & A & B & C & _).
  rewrite E in A, C. cbn [fst snd] in A, C. destruct (C b eq_refl) as (_ & _ & C3).
  exists o'. auto.
Qed.
Print Assumptions C140_flag_partial.
Example C140_meets : exists s1 s2,
  put ex_schema ex_init 1 [(10, JP 6); (13, JL [])] ex_st = (s1, Ok true) /\
  put ex_schema ex_init 1 [(10, JP 5); (12, JO (Some 4) None [(10, JP 41)])] ex_st = (s2, Ok false) /\
  ~ In 1 (named_in [(10, JP 5); (12, JO (Some 4) None [(10, JP 41)])]).
Proof.
  eexists. eexists. split; [vm_compute; reflexivity|]. split; [vm_compute; reflexivity|].
  simpl. intros Q; decompose [or] Q; try discriminate; contradiction.
Qed.

(** A collection that loses a member is changed and this is not reported. *)
Theorem C140_flag_refuted : exists s x fs s', sound ex_schema s /\ ~ In x (named_in fs) /\
  put ex_schema ex_init x fs s = (s', Ok false) /\ heap s' x <> heap s x.
Proof.
  exists ex_st, 1, [(13, JL [JO (Some 2) None []])]. eexists. split; [exact ex_sound|].
  split; [simpl; intros Q; decompose [or] Q; try discriminate; contradiction|].
  split; [vm_compute; reflexivity|]. discriminate.
Qed.
Print Assumptions C140_flag_refuted.

(** ** C141: an update that fails *)
Theorem C141_failed_partial : forall schema init s x o fs s' e, sound schema s ->
  (forall c k v, dget k (init c) = Some v -> targets v = []) ->
  (forall c, NoDup (map n_name (schema c))) -> heap s x = Some o -> ~ In x (named_in fs) ->
  put schema init x fs s = (s', Raise e) ->
  exists o', heap s' x = Some o' /\ o_cls o' = o_cls o /\
    forall k, ~ list_sent (schema (o_cls o)) fs k -> dget k (o_at o') = dget k (o_at o).
Proof.
  intros schema init s x o fs s' e HS HI HN Hx NX E.
  destruct (put_effect schema init s x o fs HS HI HN Hx NX) as (o' & A & B & _ & D).
  rewrite E in A, D. cbn [fst snd] in A, D. exists o'. split; [exact A|]. split; [exact B|]. exact (D e eq_refl).
Qed.
Print Assumptions C141_failed_partial.
Example C141_meets : exists s' o', put ex_schema ex_init 1 [(10, JP 6); (12, JP 0)] ex_st = (s', Raise AttrErr) /\
  heap s' 1 = Some o' /\ dget 10 (o_at o') = Some (VP 5).
Proof. eexists. eexists. split; [vm_compute; reflexivity|]. split; reflexivity. Qed.

(** One bad value among the members and the collection is left with the
    members before it; those after it are gone. *)
Theorem C141_atomic_refuted : exists s x fs s' e o', sound ex_schema s /\ ~ In x (named_in fs) /\
  put ex_schema ex_init x fs s = (s', Raise e) /\ heap s' x = Some o' /\
  fs = [(13, JL [JO (Some 2) None [(10, JBad)]; JO (Some 3) None []])] /\ dget 13 (o_at o') = Some (VL []).
Proof.
  exists ex_st, 1, [(13, JL [JO (Some 2) None [(10, JBad)]; JO (Some 3) None []])]. eexists. eexists. eexists.
  split; [exact ex_sound|]. split; [simpl; intros Q; decompose [or] Q; try discriminate; contradiction|].
  split; [vm_compute; reflexivity|]. repeat split.
Qed.
Print Assumptions C141_atomic_refuted.
