(** * Properties of appearances *)

From Coq Require Import ZArith List Bool Lia String.
From Verif Require Import Py PyLemmas StrModel StrLemmas AppModel AppSpec AppProofs.
Import ListNotations.
Open Scope list_scope.
Open Scope Z_scope.

(** ** C226: an appearance tells what the client set. *)
(** After any successful updates the dictionary has every setting that was ever given, with the value given last, and no other. *)
Theorem C226_told_partial kw l o o' typ id dn : dict kw -> Forall dict l -> new_app kw = Ok o -> updates l o = Ok o' ->
  forall k, setting k -> exists r, latest k (kw :: l) r /\ sget k (to_dict typ id dn o') = option_map Some r.
Proof.
  intros D F N U k K. destruct (history kw l D F o o' N U k K) as (L & I). exists (sget k (a_attrs o')). split; [exact L |]. unfold to_dict. rewrite add_data_get.
  destruct (smem k (a_keys o')) eqn:M.
  - apply smem_iff, I in M. destruct (sget k (a_attrs o')); [reflexivity | contradiction].
  - destruct (sget k (a_attrs o')) eqn:G.
    + assert (X : In k (a_keys o')) by (apply I; discriminate). apply smem_iff in X. rewrite X in M. discriminate M.
    + destruct K as (Ka & Kb & Kc). cbn [sget option_map].
      destruct (seqb k (lit "obj_type"%string)) eqn:E1; [apply seqb_iff in E1; contradiction |]. destruct (seqb k (lit "id"%string)) eqn:E2; [apply seqb_iff in E2; contradiction |].
      destruct (seqb k (lit "name"%string)) eqn:E3; [apply seqb_iff in E3; contradiction | reflexivity].
Qed.
Print Assumptions C226_told_partial.

(** A dictionary that names all three is taken, and sets the name; another is refused, and the settings stay. *)
Theorem C226_whole_partial d o : dict d -> whole d -> exists o', update_app d o = (o', Ok tt) /\ sget (lit "name"%string) (a_attrs o') = sget (lit "name"%string) d.
Proof.
  intros D (A & B & C). unfold update_app. destruct (pop_all _ d) as [d1 | e] eqn:P.
  - eexists. split; [reflexivity |]. cbn [a_attrs]. destruct (pop_ok _ d d1 P D) as (D1 & _). rewrite (set_all_get _ d1 D1), (pop_gone _ d d1 _ P (or_introl eq_refl)).
    destruct (sget (lit "name"%string) d) as [v |]; [| contradiction]. cbn [a_attrs]. rewrite sget_sset, seqb_refl. reflexivity.
  - exfalso. cbn [pop_all] in P. destruct (sget (lit "name"%string) d); [| contradiction]. rewrite filter_get in P by discriminate. destruct (sget (lit "obj_type"%string) d); [| contradiction].
    rewrite !filter_get in P by discriminate. destruct (sget (lit "id"%string) d); [discriminate P | contradiction].
Qed.
Print Assumptions C226_whole_partial.
Theorem C226_refused d o : dict d -> ~ whole d -> exists o', update_app d o = (o', Raise KeyErr) /\ a_keys o' = a_keys o /\ forall k, setting k -> sget k (a_attrs o') = sget k (a_attrs o).
Proof.
  intros D NW. unfold update_app. assert (P : pop_all [lit "name"%string; lit "obj_type"%string; lit "id"%string] d = Raise KeyErr).
  { destruct (pop_all _ d) as [d1 | e] eqn:P.
    - destruct (pop_ok _ d d1 P D) as (_ & _ & H). destruct NW. split; [apply H; left; reflexivity |]. split; apply H; [right; left; reflexivity | right; right; left; reflexivity].
    - cbn [pop_all] in P. repeat match type of P with context [sget ?a ?b] => destruct (sget a b) end; congruence. }
  rewrite P. eexists. split; [reflexivity |]. destruct (sget (lit "name"%string) d) as [v |]; [| split; reflexivity]. cbn [a_keys a_attrs]. split; [reflexivity |].
  intros k (K & _). rewrite sget_sset. destruct (seqb k (lit "name"%string)) eqn:E; [apply seqb_iff in E; contradiction | reflexivity].
Qed.
Print Assumptions C226_refused.

Definition color : list (str * Z) := [(lit "color"%string, 5)].
Definition three : list (str * Z) := [(lit "name"%string, 1); (lit "obj_type"%string, 2); (lit "id"%string, 3)].
Example C226_meets : dict (three ++ color) /\ whole (three ++ color) /\ ~ whole color /\ setting (lit "color"%string) /\
  new_app [(lit "size"%string, 4)] = Ok (App [(lit "size"%string, 4)] [lit "size"%string]) /\
  updates [three ++ color] (App [(lit "size"%string, 4)] [lit "size"%string]) = Ok (App [(lit "size"%string, 4); (lit "name"%string, 1); (lit "color"%string, 5)] [lit "size"%string; lit "color"%string]).
Proof.
  split; [repeat (constructor; [cbn [map fst In]; intros H; repeat (destruct H as [H | H]; [discriminate H |]); exact H |]); constructor |].
  split; [repeat split; discriminate |]. split; [intros (A & _); apply A; reflexivity |]. split; [repeat split; discriminate |]. split; reflexivity.
Qed.

(** A setting alone, without the three, should be taken: it is refused. *)
Theorem C226_alone_refuted : ~ (forall kw d o, dict kw -> dict d -> new_app kw = Ok o -> snd (update_app d o) = Ok tt).
Proof.
  intros H. specialize (H [] color (App [] []) ltac:(constructor) ltac:(constructor; [intros [] | constructor]) eq_refl). discriminate H.
Qed.
Print Assumptions C226_alone_refuted.
(** The type and the id an appearance tells cannot be given to another one. *)
Theorem C226_read_only typ id dn o kw : map fst kw = map fst (to_dict typ id dn o) -> new_app kw = Raise AttrErr.
Proof.
  intros E. unfold new_app. rewrite E. assert (X : smem (lit "obj_type"%string) (map fst (to_dict typ id dn o)) = true).
  { apply smem_iff, sget_in. unfold to_dict. rewrite add_data_get. destruct (smem _ _); discriminate. }
  rewrite X. reflexivity.
Qed.
Print Assumptions C226_read_only.
Example C226_read_only_meets : new_app three = Raise AttrErr.
Proof. reflexivity. Qed.
