(** * Properties of the collections of a model *)

From Coq Require Import ZArith List Bool String Lia.
From Verif Require Import Py PyLemmas StrModel MrgModel MrgSpec MrgProofs.
Import ListNotations.
Open Scope list_scope.
Open Scope Z_scope.

(** ** C200: what an object refers to comes along *)

(** Whatever is added to a model, replaced in it, removed from it or merged into it, in whatever order, whatever its
    movers, weatherers and environment objects refer to is in its environment (missing: objects given to the
    constructor, environment objects removed or replaced, references changed later: see the refutations). *)
Theorem C200_brought_partial : forall w m ops, sound w -> within w m -> Forall (op_within w) ops -> Forall steady ops ->
  brought w m -> brought w (snd (run (w, m) ops)).
Proof. intros w m ops SW WI OW ST B. exact (proj1 (run_brought ops w m SW WI OW ST B)). Qed.

(** Adding an object adds, at the end of the environment and in addition to it, exactly what it reaches. *)
Theorem C200_adding : forall w m c x, sound w -> within w m -> brought w m -> In x (w_objs w) -> hooks c -> c <> Environment ->
  (exists t, m_env (add w c x m) = m_env m ++ t) /\
  forall y, In y (m_env (add w c x m)) <-> In y (m_env m) \/ reach (w_refs w) x y.
Proof.
  intros w m c x SW WI B X H NV.
  destruct (add_env w c x m SW WI X) as (t & P & R).
  destruct (add_ok w c x m SW WI X) as (W1 & B1).
  split; [exists t; exact P |]. intro y. split.
  - intro Y. rewrite P in Y. apply in_app_or in Y. destruct Y as [Y | Y]; [left; exact Y | right].
    destruct (R y Y) as [(E & _) | Q]; [contradiction | exact Q].
  - intros [Y | Y]; [rewrite P; apply in_or_app; left; exact Y |].
    apply (reach_closed w (add w c x m) x y (B1 B)); [| exact Y].
    apply users_in. exists c. split; [exact H | apply add_there; assumption].
Qed.

(** The same for an environment object, which is itself added first. *)
Theorem C200_adding_env : forall w m x, sound w -> within w m -> brought w m -> In x (w_objs w) ->
  (exists t, m_env (add w Environment x m) = m_env m ++ t) /\
  forall y, In y (m_env (add w Environment x m)) <-> In y (m_env m) \/ y = x \/ reach (w_refs w) x y.
Proof.
  intros w m x SW WI B X.
  assert (he : hooks Environment) by (right; right; reflexivity).
  destruct (add_env w Environment x m SW WI X) as (t & P & R).
  destruct (add_ok w Environment x m SW WI X) as (W1 & B1).
  pose proof (add_there w Environment x m SW WI X) as TH. rewrite get_env in TH.
  split; [exists t; exact P |]. intro y. split.
  - intro Y. rewrite P in Y. apply in_app_or in Y. destruct Y as [Y | Y]; [left; exact Y | right].
    destruct (R y Y) as [(_ & E) | Q]; [left; exact E | right; exact Q].
  - intros [Y | [Y | Y]].
    + rewrite P. apply in_or_app. left. exact Y.
    + subst y. exact TH.
    + apply (reach_closed w (add w Environment x m) x y (B1 B)); [| exact Y].
      apply users_in. exists Environment. split; [exact he | exact TH].
Qed.

(** Outputters and spills bring nothing. *)
Theorem C200_others : forall w m c x, ~ hooks c -> m_env (add w c x m) = m_env m.
Proof.
  intros w m c x H. unfold add. destruct (zmem x (get_coll c m)); [reflexivity |].
  destruct c; try reflexivity; exfalso; apply H; unfold hooks; auto.
Qed.

(** A wind mover 1 with the wind 2, waves 3 that refer to the wind 2 and the water 4, evaporation 5 with 2 and 4. *)
Definition w0 : world := World [1; 2; 3; 4; 5] (fun x => if x =? 1 then [2] else if x =? 3 then [2; 4] else if x =? 5 then [2; 4] else []).
Definition none : model := Model [] [] [] [] [] 0 (Some 86400) (Some 900) (Some 97).

Lemma w0_sound : sound w0.
Proof. intros x X. simpl in X. intuition; subst; intros y Y; simpl in *; tauto. Qed.
Lemma none_within : within w0 none.
Proof. split; [intros ? [] |]. repeat split; constructor. Qed.

Example C200_meets : sound w0 /\ within w0 none /\ brought w0 none /\
  Forall (op_within w0) [Add Movers 1; Add Environment 3; Remove Movers 1] /\
  m_env (snd (run (w0, none) [Add Movers 1; Add Environment 3; Remove Movers 1])) = [2; 3; 4].
Proof.
  split; [exact w0_sound | split; [exact none_within | split; [| split; [| reflexivity]]]].
  - intros ? [].
  - repeat constructor; cbn [op_within w_objs w0 In]; tauto.
Qed.
Print Assumptions C200_brought_partial.
Print Assumptions C200_adding.
Print Assumptions C200_adding_env.
Print Assumptions C200_others.

(** Refuted for the constructor: Model(movers=[wind_mover]) does not have the wind of the mover in its environment,
    model.movers += wind_mover has. *)
Theorem C200_constructor_refuted : exists w m, sound w /\ within w none /\
  construct [1] [] [] [] [] 0 (Some 86400) (Some 900) = Ok m /\ m_movers m = m_movers (add w Movers 1 none) /\
  ~ brought w m /\ brought w (add w Movers 1 none).
Proof.
  exists w0, (Model [1] [] [] [] [] 0 (Some 86400) (Some 900) (Some 97)).
  split; [exact w0_sound | split; [exact none_within | split; [reflexivity | split; [reflexivity | split]]]].
  - intro B. specialize (B 1 (or_introl eq_refl) 2 (or_introl eq_refl)). destruct B.
  - apply add_ok; [exact w0_sound | exact none_within | left; reflexivity | intros ? []].
Qed.
Print Assumptions C200_constructor_refuted.

(** What is given to the constructor is brought if it is given too. *)
Theorem C200_constructor : forall w movers weath env outs spills map dur step m,
  construct movers weath env outs spills map dur step = Ok m ->
  (forall x, In x (movers ++ weath ++ env) -> incl (w_refs w x) env) -> brought w m.
Proof.
  intros w movers weath env outs spills map dur step m C H. unfold construct in C.
  destruct (num_steps dur step) as [n |] eqn:N; cbn in C; [| discriminate C]. injection C as C. subst m.
  assert (F : forall l acc x, In x (fold_left (fun a y => oc_add y a) l acc) <-> In x acc \/ In x l).
  { induction l as [| a t IH]; intros acc x; cbn [fold_left]; [simpl; tauto |]. rewrite IH, in_oc_add. simpl. intuition. }
  intros x X z Z0. unfold users in X. cbn [m_movers m_weath m_env] in *. rewrite !in_app_iff, !F in X. rewrite F. right.
  apply (H x); [| exact Z0]. rewrite !in_app_iff. simpl in X. tauto.
Qed.
Example C200_constructor_meets : exists m, construct [1] [5] [2; 4] [] [] 0 (Some 86400) (Some 900) = Ok m /\ brought w0 m.
Proof.
  eexists. split; [reflexivity |]. intros x X z Z0. simpl in *. intuition; subst; simpl in *; tauto.
Qed.
Print Assumptions C200_constructor.

(** Refuted when the wind is taken from the environment or replaced there, or when the mover gets another wind. *)
Theorem C200_later_refuted :
  let m := add w0 Movers 1 none in
  brought w0 m /\
  ~ brought w0 (snd (run (w0, m) [Remove Environment 2])) /\
  ~ brought w0 (snd (run (w0, m) [Replace Environment 2 4])) /\
  let r := run (w0, m) [Refer 1 [4]] in ~ brought (fst r) (snd r).
Proof.
  cbv zeta. split; [| split; [| split]].
  - apply add_ok; [exact w0_sound | exact none_within | left; reflexivity | intros ? []].
  - intro B. specialize (B 1 (or_introl eq_refl) 2 (or_introl eq_refl)). destruct B.
  - intro B. specialize (B 1 (or_introl eq_refl) 2 (or_introl eq_refl)). destruct B as [B | []]. discriminate B.
  - intro B. specialize (B 1 (or_introl eq_refl) 4 (or_introl eq_refl)). destruct B as [B | []]. discriminate B.
Qed.
Print Assumptions C200_later_refuted.

(** ** C201: merging *)

(** The movers, weatherers, outputters and spills of the result: its own in their order, then those of the other model
    that it did not have, in their order. *)
Theorem C201_lists : forall w m o, within w o ->
  m_movers (merge w m o) = m_movers m ++ new_in (m_movers m) (m_movers o) /\
  m_weath (merge w m o) = m_weath m ++ new_in (m_weath m) (m_weath o) /\
  m_outs (merge w m o) = m_outs m ++ new_in (m_outs m) (m_outs o) /\
  m_spills (merge w m o) = m_spills m ++ new_in (m_spills m) (m_spills o) /\
  m_map (merge w m o) = m_map m.
Proof.
  intros w m o WO. split; [| split; [| split; [| split]]].
  - apply (merge_list w m o Movers); [discriminate | exact WO].
  - apply (merge_list w m o Weatherers); [discriminate | exact WO].
  - apply (merge_list w m o Outputters); [discriminate | exact WO].
  - apply (merge_list w m o Spills); [discriminate | exact WO].
  - exact (proj1 (merge_attrs w m o)).
Qed.

(** The environment: its own in its order first; everything of the other model; besides only what is reached from an
    object of the other model that was new.  No object twice. *)
Theorem C201_environment : forall w m o, sound w -> within w m -> within w o ->
  (exists t, m_env (merge w m o) = m_env m ++ t /\
     forall y, In y t -> In y (m_env o) \/
       exists c x, hooks c /\ In x (get_coll c o) /\ ~ In x (get_coll c m) /\ reach (w_refs w) x y) /\
  incl (m_env o) (m_env (merge w m o)) /\ within w (merge w m o) /\
  (brought w m -> brought w (merge w m o)).
Proof.
  intros w m o SW WM WO. destruct (merge_all w m o SW WM WO) as (W & B & P & T & K).
  split; [exact P | split; [| split; [exact W | exact B]]]. intros x X. exact (T Environment x X).
Qed.

(** Merging again changes nothing, nor does merging a model into itself. *)
Theorem C201_twice : forall w m o, sound w -> within w m -> within w o -> merge w (merge w m o) o = merge w m o.
Proof.
  intros w m o SW WM WO. apply merge_incl; [apply attrs_merged |].
  intros c x X. destruct (merge_all w m o SW WM WO) as (_ & _ & _ & T & _). exact (T c x X).
Qed.
Theorem C201_self : forall w m, merge w m m = m.
Proof.
  intros w m. apply merge_incl; [| intro c; apply incl_refl]. unfold attrs. rewrite !or_else_same. destruct m; reflexivity.
Qed.

Definition two : model := Model [1] [5] [3] [] [7; 8] 9 (Some 3600) None (Some 5).
Example C201_meets : within w0 two /\ within w0 (Model [1] [] [4] [] [8] 0 None (Some 900) None) /\
  merge w0 (Model [1] [] [4] [] [8] 0 None (Some 900) None) two = Model [1] [5] [4; 2; 3] [] [8; 7] 0 (Some 3600) (Some 900) (Some 5).
Proof.
  split; [| split; [| reflexivity]]; (split; [intros x X; simpl in X; intuition; subst; simpl; auto 10 |]); repeat split;
    repeat constructor; simpl; intuition discriminate.
Qed.
Print Assumptions C201_lists.
Print Assumptions C201_environment.
Print Assumptions C201_twice.
Print Assumptions C201_self.

(** A model that has a duration and a time step keeps its times (missing: a model that has not both). *)
Theorem C201_time_partial : forall w m o d s, m_dur m = Some d -> m_step m = Some s -> m_nts m = Some (steps_of d s) ->
  m_dur (merge w m o) = Some d /\ m_step (merge w m o) = Some s /\ m_nts (merge w m o) = Some (steps_of d s).
Proof.
  intros w m o d s D S N. destruct (merge_attrs w m o) as (_ & A & B & C). rewrite A, B, C, D, S, N. auto.
Qed.

(** Refuted: a model of two hours without a time step takes the time step and the number of steps of the other model,
    which is the number of steps of the duration of the other: 97, and not the 9 steps that two hours are. *)
Theorem C201_time_refuted : exists m o r, construct [] [] [] [] [] 0 (Some 7200) None = Ok m /\
  construct [] [] [] [] [] 0 (Some 86400) (Some 900) = Ok o /\
  merge w0 m o = r /\ m_dur r = Some 7200 /\ m_step r = Some 900 /\ m_nts r = Some 97 /\ steps_of 7200 900 = 9.
Proof. do 3 eexists. repeat split; reflexivity. Qed.
Print Assumptions C201_time_partial.
Print Assumptions C201_time_refuted.

(** ** C202: an object of a model is found, once, until it is taken *)

(** Whatever is done, no collection has an object twice. *)
Theorem C202_once : forall w m ops, sound w -> within w m -> Forall (op_within w) ops ->
  Forall (fun o => match o with Refer _ _ => False | _ => True end) ops ->
  within w (snd (run (w, m) ops)) /\ forall c, NoDup (get_coll c (snd (run (w, m) ops))).
Proof.
  intros w m ops SW WI OW NR. destruct (run_within ops w m SW WI OW NR) as (_ & W). split; [exact W |].
  apply within_get in W. exact (proj2 W).
Qed.

(** What has been added is there, and is found by its id, until it is removed or replaced. *)
Theorem C202_found : forall w m c x ops, sound w -> within w m -> In x (w_objs w) -> Forall (op_within w) ops ->
  Forall (fun o => match o with Refer _ _ => False | _ => True end) ops -> Forall (fun o => ~ takes c x o) ops ->
  In x (get_coll c (snd (run (w, m) (Add c x :: ops)))) /\ contains_object (snd (run (w, m) (Add c x :: ops))) x = true.
Proof.
  intros w m c x ops SW WI X OW NR NT.
  assert (I : In x (get_coll c (snd (run (w, m) (Add c x :: ops))))).
  { cbn [run fold_left step]. apply run_keeps; try assumption.
    - exact (proj1 (add_ok w c x m SW WI X)).
    - apply add_there; assumption. }
  split; [exact I |]. apply contains_iff. right. exists c. exact I.
Qed.

(** Nothing else is found: only the map and the members of the collections. *)
Theorem C202_contains : forall m x, contains_object m x = true <->
  x = m_map m \/ In x (m_env m) \/ In x (m_spills m) \/ In x (m_movers m) \/ In x (m_weath m) \/ In x (m_outs m).
Proof.
  intros m x. rewrite contains_iff. split.
  - intros [E | (c & I)]; [left; symmetry; exact E | right; destruct c; cbn [get_coll] in I; tauto].
  - intros [E | [I | [I | [I | [I | I]]]]]; [left; symmetry; exact E | right..].
    + exists Environment. exact I.
    + exists Spills. exact I.
    + exists Movers. exact I.
    + exists Weatherers. exact I.
    + exists Outputters. exact I.
Qed.

(** What is removed is gone; removing or replacing what is not there is refused and changes nothing. *)
Theorem C202_removed : forall w m c x y,
  (In x (get_coll c m) -> snd (remove c x m) = None /\ forall z, In z (get_coll c (fst (remove c x m))) <-> In z (get_coll c m) /\ z <> x) /\
  (~ In x (get_coll c m) -> remove c x m = (m, Some KeyErr) /\ replace w c x y m = (m, Some KeyErr)).
Proof.
  intros w m c x y. split.
  - intro I. apply zmem_in in I. unfold remove. rewrite I. cbn [fst snd]. split; [reflexivity |]. intro z. rewrite get_set_same. apply in_oc_remove.
  - intro I. apply zmem_out in I. unfold remove, replace. rewrite I. auto.
Qed.

(** What is replaced is gone and the new object is in its place. *)
Theorem C202_replaced : forall w m c x y a b, c <> Environment -> NoDup (get_coll c m) -> get_coll c m = a ++ x :: b -> ~ In y (get_coll c m) ->
  snd (replace w c x y m) = None /\ get_coll c (fst (replace w c x y m)) = a ++ y :: b.
Proof.
  intros w m c x y a b NV N E NY. unfold replace.
  assert (I : zmem x (get_coll c m) = true) by (apply zmem_in; rewrite E; apply in_or_app; right; left; reflexivity).
  rewrite I. cbn [fst snd]. split; [reflexivity |]. rewrite get_hooked; [| exact NV]. rewrite get_set_same. rewrite E in *. clear I E.
  assert (K : forall l, ~ In x l -> ~ In y l -> oc_replace x y l = l).
  { intros l A B. unfold oc_replace. induction l as [| q t IH]; simpl; [reflexivity |].
    assert (QX : (q =? x) = false) by (apply Z.eqb_neq; intro; subst; apply A; left; reflexivity).
    assert (QY : (q =? y) = false) by (apply Z.eqb_neq; intro; subst; apply B; left; reflexivity).
    rewrite QX, QY. simpl. rewrite QX. f_equal. apply IH; intro; [apply A | apply B]; right; assumption. }
  apply NoDup_remove_2 in N.
  assert (S1 : oc_replace x y (a ++ x :: b) = oc_replace x y a ++ y :: oc_replace x y b).
  { unfold oc_replace. rewrite filter_app, map_app. cbn [filter]. rewrite Z.eqb_refl. cbn [orb map]. rewrite Z.eqb_refl. reflexivity. }
  rewrite S1, !K; [reflexivity | | | |]; intro Q.
  - apply N. apply in_or_app. right. exact Q.
  - apply NY. apply in_or_app. right. right. exact Q.
  - apply N. apply in_or_app. left. exact Q.
  - apply NY. apply in_or_app. left. exact Q.
Qed.

(** The first object of a class, or all of them in order; None if there is none, also when all are asked for. *)
Theorem C202_class : forall is l,
  match find_by_class is l false with
  | One x => exists a b, l = a ++ x :: b /\ is x = true /\ forall y, In y a -> is y = false
  | Nothing => forall y, In y l -> is y = false
  | All _ => False
  end /\
  match find_by_class is l true with
  | All r => r = filter is l /\ r <> []
  | Nothing => forall y, In y l -> is y = false
  | One _ => False
  end.
Proof.
  intros is l. split; unfold find_by_class.
  - induction l as [| a t IH]; cbn [first_of]; [intros ? [] |]. destruct (is a) eqn:A.
    + exists [], t. split; [reflexivity | split; [exact A | intros ? []]].
    + destruct (first_of is t) as [x |].
      * destruct IH as (p & q & E & Q & F). exists (a :: p), q. rewrite E. split; [reflexivity | split; [exact Q |]].
        intros y [Y | Y]; [subst; exact A | exact (F y Y)].
      * intros y [Y | Y]; [subst; exact A | exact (IH y Y)].
  - destruct (filter is l) eqn:F; [| split; [reflexivity | discriminate]].
    intros y Y. destruct (is y) eqn:Q; [| reflexivity]. exfalso. assert (I : In y (filter is l)) by (apply filter_In; split; assumption).
    rewrite F in I. destruct I.
Qed.

(** An array by its name: of the certain spill, or of the uncertain one if there is one. *)
Theorem C202_property : forall A (certain : dict A) (rest : list (dict A)) name,
  get_spill_property (certain :: rest) name false = match dget name certain with Some a => Ok a | None => Raise ValueErr end /\
  (forall u, rest = [u] -> get_spill_property (certain :: rest) name true = match dget name u with Some a => Ok a | None => Raise ValueErr end) /\
  (rest = [] -> get_spill_property (certain :: rest) name true = Raise IndexErr).
Proof. intros A certain rest name. repeat split; intros; subst; reflexivity. Qed.

Example C202_meets :
  within w0 none /\ Forall (op_within w0) [Add Movers 2; Remove Movers 1; Replace Movers 2 4] /\
  Forall (fun o => ~ takes Weatherers 5 o) [Add Movers 2; Remove Movers 1; Replace Movers 2 4] /\
  contains_object (snd (run (w0, none) [Add Weatherers 5; Add Movers 2; Remove Movers 1; Replace Movers 2 4])) 5 = true /\
  contains_object (snd (run (w0, none) [Add Weatherers 5; Add Movers 2; Remove Movers 1; Replace Movers 2 4])) 1 = false /\
  find_by_class (fun x => 3 <? x) [1; 4; 5] false = One 4 /\ find_by_class (fun x => 3 <? x) [1; 4; 5] true = All [4; 5].
Proof.
  split; [exact none_within | split; [| split]].
  - repeat constructor; cbn [op_within w_objs w0 In]; tauto.
  - repeat constructor; cbn [takes]; intros H; try exact H; destruct H as (H & _); discriminate H.
  - repeat split; reflexivity.
Qed.
Print Assumptions C202_once.
Print Assumptions C202_found.
Print Assumptions C202_contains.
Print Assumptions C202_removed.
Print Assumptions C202_replaced.
Print Assumptions C202_class.
Print Assumptions C202_property.

(** ** C203: standard weathering *)

(** A list of names, in upper or lower case: one weatherer for each name, in order. *)
Theorem C203_names : forall l cs ws, Forall2 (fun s c => named (lower s) c) l cs -> add_weathering (Names l) ws = (ws ++ cs, None).
Proof.
  intros l cs ws F. unfold add_weathering, names. rewrite <- (app_nil_r l). rewrite (add_names_ok l cs [] ws F). reflexivity.
Qed.

(** The standard set, whatever weatherers there are. *)
Theorem C203_standard : forall ws,
  add_weathering (Text (lit "standard"%string)) ws = (ws ++ [Evaporation; NaturalDispersion; Emulsification], None).
Proof.
  intro ws.
  apply (C203_names [lit "evaporation"%string; lit "dispersion"%string; lit "emulsification"%string]).
  constructor; [| constructor; [| constructor; [| constructor]]]; apply by_name_iff; reflexivity.
Qed.

(** An unknown name is refused; the weatherers of the names before it stay added, those after it are not added. *)
Theorem C203_refused : forall l cs bad rest ws, Forall2 (fun s c => named (lower s) c) l cs -> (forall c, ~ named (lower bad) c) ->
  add_weathering (Names (l ++ bad :: rest)) ws = (ws ++ cs, Some ValueErr).
Proof.
  intros l cs bad rest ws F B. unfold add_weathering, names. rewrite (add_names_ok l cs (bad :: rest) ws F). cbn [add_names].
  destruct (by_name (lower bad)) as [c |] eqn:E; [| reflexivity]. apply by_name_iff in E. exfalso. exact (B c E).
Qed.

(** Refuted: a single name that is not in a list is refused, as is the name of the set in capitals (a text is taken as
    the list of its letters); an empty text adds nothing without an error. *)
Theorem C203_text_refuted :
  (forall s ws, s <> lit "standard"%string -> s <> [] -> add_weathering (Text s) ws = (ws, Some ValueErr)) /\
  add_weathering (Text (lit "evaporation"%string)) [] = ([], Some ValueErr) /\
  add_weathering (Text (lit "Standard"%string)) [] = ([], Some ValueErr) /\
  add_weathering (Text []) [] = ([], None).
Proof.
  split; [| split; [reflexivity | split; reflexivity]].
  intros s ws NS NE. unfold add_weathering, names.
  destruct (seqb s (lit "standard"%string)) eqn:Q; [apply seqb_iff in Q; contradiction |].
  destruct s as [| a t]; [contradiction |]. cbn [map add_names].
  destruct (by_name (lower [a])) as [c |] eqn:E; [| reflexivity]. apply by_name_iff in E. exfalso.
  unfold named, lower in E. cbn [map] in E.
  destruct E as [(E & _) | [(E & _) | [(E & _) | [(E & _) | (E & _)]]]]; discriminate E.
Qed.

Example C203_meets : add_weathering (Names [lit "Dissolution"%string; lit "EVAPORATION"%string]) [HalfLife] = ([HalfLife; Dissolution; Evaporation], None) /\
  add_weathering (Names [lit "evaporation"%string; lit "biodegradation"%string; lit "dispersion"%string]) [] = ([Evaporation], Some ValueErr) /\
  (forall c, ~ named (lower (lit "biodegradation"%string)) c).
Proof.
  split; [reflexivity | split; [reflexivity |]]. intros c N. apply by_name_iff in N. discriminate N.
Qed.
Print Assumptions C203_standard.
Print Assumptions C203_names.
Print Assumptions C203_refused.
Print Assumptions C203_text_refuted.
