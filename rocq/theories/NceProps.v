(** * Properties of environment objects made from a file *)

From Coq Require Import ZArith List Bool Lia.
From Verif Require Import Py PyLemmas NceModel NceSpec NceProofs.
Import ListNotations.
Open Scope Z_scope.

(** ** C212: which objects are made from a file *)

(** For a list of classes: every object is of a class of the list that is a variable and can be made as it is; every such
    class of the list has an object, or could not be made (with the keywords of the caller if it needs no references);
    and without a grid of the caller all have the grid of the file. *)
Theorem C212_made_partial : forall cs f l grid kw e, ordered cs -> env_from cs f (Some l) grid kw = Ok e ->
  (forall o, In o e -> In (o_cls o) l /\ k_var cs (o_cls o) = true /\ f_make f (o_cls o) (o_grid o) (o_refs o) = true) /\
  (forall c, In c l -> k_var cs c = true ->
     has cs c e \/ exists g kw', f_make f c g kw' = false /\ (grid = None -> g = f_grid f) /\ (k_req cs c = [] -> kw' = kw)) /\
  (grid = None -> f_grid f <> None /\ forall o, In o e -> o_grid o = f_grid f).
Proof.
  intros cs f l grid kw e (Re & _) E. destruct (env_from_eq cs f l grid kw e E) as (g & G & N & ->).
  destruct (all_adds cs f g kw l []) as (m & A & H). cbn [app] in A. rewrite A. split; [| split].
  - intros o I. destruct (H o I) as (C & V & <- & M). auto.
  - intros c I V. destruct (all_has cs f g kw l Re [] c I V) as [X | (kw' & M & Q)]; [left; rewrite <- A; exact X | right].
    exists g, kw'. split; [exact M |]. split; [intros ->; exact G | exact Q].
  - intros ->. split; [rewrite <- G; exact (N eq_refl) |]. intros o I. destruct (H o I) as (_ & _ & GO & _). congruence.
Qed.
Print Assumptions C212_made_partial.

(** No class has two objects, nor one when an earlier object is of it already, if each class of the list finds its
    references when its turn comes. *)
Theorem C212_once_partial : forall cs f l grid kw e, env_from cs f (Some l) grid kw = Ok e ->
  (forall pre c post e1, l = pre ++ c :: post -> env_from cs f (Some pre) grid kw = Ok e1 ->
     NoDup (map fst (k_req cs c)) /\ forall ref klass, In (ref, klass) (k_req cs c) -> has cs klass e1 \/ dget ref kw <> None) ->
  no_repeats cs e.
Proof.
  intros cs f l grid kw. induction l as [| c l IH] using rev_ind; intros e E H.
  - destruct (env_from_eq cs f [] grid kw e E) as (g & _ & _ & ->). cbn [fold_left]. intros a x b Q. destruct a; discriminate.
  - assert (E1 : exists e1, env_from cs f (Some l) grid kw = Ok e1).
    { unfold env_from in *. destruct grid; [eexists; reflexivity |]. destruct (f_grid f); [eexists; reflexivity | discriminate]. }
    destruct E1 as (e1 & E1). assert (NR : no_repeats cs e1).
    { apply (IH e1 E1). intros pre c' post e2 Q E2. apply (H pre c' (post ++ [c]) e2); [| exact E2]. rewrite Q, <- app_assoc. reflexivity. }
    destruct (env_from_snoc cs f l c grid kw e1 E1) as (g & _ & S1). rewrite S1 in E. injection E as <-.
    destruct (H l c [] e1 eq_refl E1) as (ND & F). unfold one.
    destruct (k_var cs c && negb (existsb (fun o => k_is cs (o_cls o) c) e1)) eqn:B; [| exact NR].
    apply andb_prop in B. destruct B as (V & X). apply negb_true_iff in X.
    destruct (refs_found cs f c g (k_req cs c) e1 ND kw F) as (kw1 & RE & _). rewrite RE. destruct (f_make f c g kw1); [| exact NR].
    apply no_repeats_app; [exact NR |]. cbn [o_cls]. intros X'. apply has_exists in X'. congruence.
Qed.
Print Assumptions C212_once_partial.

(** Refuted: without a list of classes all classes should be tried, and none is; the same for the ice aware ones; the
    analysis of any file raises. *)
Theorem C212_default_refuted : forall cs ice f grid kw, f_grid f <> None ->
  env_from cs f None grid kw = Ok [] /\ ice_env_from cs ice f grid kw = Ok [] /\ file_analysis cs f = Raise RuntimeErr.
Proof.
  intros cs ice f grid kw G. unfold file_analysis, ice_env_from, env_from. destruct (f_grid f); [| contradiction]. destruct grid; repeat split.
Qed.
Print Assumptions C212_default_refuted.

(** Refuted: a grid of the caller is used by no object. *)
Theorem C212_grid_refuted : forall cs f l grid kw e, env_from cs f (Some l) (Some grid) kw = Ok e ->
  forall o, In o e -> o_grid o = None.
Proof.
  intros cs f l grid kw e E o I. destruct (env_from_eq cs f l _ kw e E) as (g & G & _ & ->).
  destruct (all_adds cs f g kw l []) as (m & A & H). rewrite A in I. cbn [app] in I. destruct (H o I) as (_ & _ & GO & _). congruence.
Qed.
Print Assumptions C212_grid_refuted.

(** ** C213: objects made from a file refer to each other *)

(** A class whose required references are of classes that have objects adds one object at the end, with the last object
    of each class as its reference and the keywords of the caller, or it could not be made with these. *)
Theorem C213_linked_partial : forall cs f l c grid kw e, env_from cs f (Some l) grid kw = Ok e ->
  k_var cs c = true -> ~ has cs c e -> NoDup (map fst (k_req cs c)) ->
  (forall ref klass, In (ref, klass) (k_req cs c) -> has cs klass e) ->
  exists g kw1, (forall ref klass, In (ref, klass) (k_req cs c) -> exists k, dget ref kw1 = Some (Made k) /\ last_of cs klass e k) /\
    (forall n, ~ In n (map fst (k_req cs c)) -> dget n kw1 = dget n kw) /\ (grid = None -> g = f_grid f) /\
    env_from cs f (Some (l ++ [c])) grid kw = Ok (if f_make f c g kw1 then e ++ [Obj c g kw1] else e).
Proof.
  intros cs f l c grid kw e E V NH ND H. destruct (env_from_snoc cs f l c grid kw e E) as (g & G & S1).
  destruct (refs_found cs f c g (k_req cs c) e ND kw (fun r k I => or_introl (H r k I))) as (kw1 & RE & F & Oth).
  exists g, kw1. split; [| split; [exact Oth | split; [intros ->; exact G |]]].
  - intros r k I. destruct (F r k I) as [X | (X & _)]; [exact X | destruct (X (H r k I))].
  - rewrite S1. f_equal. unfold one. rewrite V. destruct (existsb (fun o => k_is cs (o_cls o) c) e) eqn:X; [destruct NH; apply has_exists; exact X |].
    cbn [andb negb]. rewrite RE. reflexivity.
Qed.
Print Assumptions C213_linked_partial.

(** A class that has an object already, or is no variable, adds nothing. *)
Theorem C213_kept : forall cs f l c grid kw e, env_from cs f (Some l) grid kw = Ok e ->
  k_var cs c = false \/ has cs c e -> env_from cs f (Some (l ++ [c])) grid kw = Ok e.
Proof.
  intros cs f l c grid kw e E H. destruct (env_from_snoc cs f l c grid kw e E) as (g & _ & S1). rewrite S1. f_equal. unfold one.
  destruct H as [-> | H]; [reflexivity |]. apply has_exists in H. rewrite H, andb_false_r. reflexivity.
Qed.
Print Assumptions C213_kept.

(** References are to objects that come earlier in the list. *)
Theorem C213_earlier : forall cs f l grid kw e, env_from cs f (Some l) grid kw = Ok e -> outside kw ->
  forall p o n k, nth_error e p = Some o -> dget n (o_refs o) = Some (Made k) -> (k < p)%nat.
Proof.
  intros cs f l grid kw e E Ou. destruct (env_from_eq cs f l grid kw e E) as (g & _ & _ & ->). apply (all_back cs f g kw l Ou []).
  intros p o n k N. destruct p; discriminate.
Qed.
Print Assumptions C213_earlier.

(** Refuted: a reference to a class that has no object is filled by another object of the class itself, which is in the
    list too, and not by one of the class required. *)
Theorem C213_wrong_refuted : forall cs f l c ref klass kw e g, env_from cs f (Some l) None kw = Ok e -> f_grid f = Some g ->
  k_var cs c = true -> ~ has cs c e -> k_req cs c = [(ref, klass)] -> ~ has cs klass e -> dget ref kw = None ->
  (forall w, f_make f c (Some g) w = true) ->
  env_from cs f (Some (l ++ [c])) None kw =
    Ok (e ++ [Obj c (Some g) kw; Obj c (Some g) (dset ref (Made (length e)) kw)]).
Proof.
  intros cs f l c ref klass kw e g E G V NH Q NK D M. destruct (env_from_snoc cs f l c None kw e E) as (g' & G' & S1). rewrite G in G'. subst g'.
  rewrite S1. f_equal. unfold one. rewrite V. destruct (existsb (fun o => k_is cs (o_cls o) c) e) eqn:X; [destruct NH; apply has_exists; exact X |].
  cbn [andb negb]. rewrite Q. cbn [refs]. cbv zeta. destruct (link_self cs ref klass e 0 kw) as [(_ & L) | (k & _ & (o & N & K) & _)].
  - rewrite L. apply dmem_get in D. rewrite D, M. cbn [refs]. rewrite M, <- app_assoc. reflexivity.
  - destruct NK. exists o. split; [exact (nth_error_In _ _ N) | exact K].
Qed.
Print Assumptions C213_wrong_refuted.

Example C212_meets : ordered two_classes /\
  env_from two_classes easy (Some [1; 2]) None [] = Ok [Obj 1 (Some 5) []; Obj 2 (Some 5) [(7, Made 0)]].
Proof.
  split; [| reflexivity]. split; [exact Z.eqb_refl |]. intros a b c A B. apply Z.eqb_eq in A, B. subst. apply Z.eqb_refl.
Qed.
Example C212_twice : env_from two_classes easy (Some [2; 1]) None [] =
  Ok [Obj 2 (Some 5) []; Obj 2 (Some 5) [(7, Made 0)]; Obj 1 (Some 5) []].
Proof. reflexivity. Qed.
Example C212_given : env_from two_classes easy (Some [1]) (Some 9) [] = Ok [Obj 1 None []].
Proof. reflexivity. Qed.
