(** * Proofs about spills *)

From Coq Require Import ZArith List Bool Lia QArith Lqa Qfield Qpower.
From Verif Require Import Py SplModel SplSpec.
Import ListNotations.
Open Scope Z_scope.

(** ** Lists *)

Lemma upd_length {A} : forall (l : list A) i x, length (upd l i x) = length l.
Proof. induction l as [|y t IH]; intros [|i] x; cbn [upd length]; auto. Qed.

Lemma upd_same {A} : forall (l : list A) i x y, nth_error l i = Some y -> nth_error (upd l i x) i = Some x.
Proof.
  induction l as [|z t IH]; intros [|i] x y E; cbn [upd nth_error] in *; try discriminate; eauto.
Qed.

Lemma upd_other {A} : forall (l : list A) i j x, i <> j -> nth_error (upd l i x) j = nth_error l j.
Proof.
  induction l as [|z t IH]; intros [|i] [|j] x N; cbn [upd nth_error]; auto.
  now elim N.
Qed.

Lemma upd_any {A} : forall (l : list A) i j x y, nth_error (upd l i x) j = Some y ->
  (i = j /\ y = x) \/ (i <> j /\ nth_error l j = Some y).
Proof.
  intros l i j x y E. destruct (Nat.eq_dec i j) as [->|N].
  - left. split; auto.
    assert (L : (j < length (upd l j x))%nat) by (apply nth_error_Some; congruence).
    rewrite upd_length in L. apply nth_error_Some in L.
    destruct (nth_error l j) as [z|] eqn:F; [|congruence].
    rewrite (upd_same l j x z F) in E. congruence.
  - right. split; auto. now rewrite upd_other in E.
Qed.

Lemma nth_app_l {A} : forall (l m : list A) i x, nth_error l i = Some x -> nth_error (l ++ m) i = Some x.
Proof.
  intros l m i x E. rewrite nth_error_app1; auto. apply nth_error_Some; congruence.
Qed.

Lemma nth_app_one {A} : forall (l : list A) y i x, nth_error (l ++ [y]) i = Some x ->
  nth_error l i = Some x \/ (i = length l /\ x = y).
Proof.
  intros l y i x E. destruct (Nat.lt_ge_cases i (length l)) as [L|L].
  - left. now rewrite nth_error_app1 in E.
  - right. rewrite nth_error_app2 in E by auto.
    destruct (i - length l)%nat as [|n] eqn:D; cbn in E.
    + split; [lia|congruence].
    + destruct n; discriminate.
Qed.

Lemma nth_app_new {A} : forall (l : list A) y, nth_error (l ++ [y]) (length l) = Some y.
Proof. intros. rewrite nth_error_app2, Nat.sub_diag; auto. Qed.

Lemma nth_lt {A} : forall (l : list A) i x, nth_error l i = Some x -> (i < length l)%nat.
Proof. intros. apply nth_error_Some. congruence. Qed.

(** ** A good world *)

Definition good_unit (u : unit) : Prop :=
  match u with Mass k => (0 < k)%Q | Volume v => (0 < v)%Q | OtherUnit => False end.

Definition good_rel (r : release) : Prop := (0 <= l_mass r)%Q /\ match l_num r with Some n => 0 <= n | None => True end.
Definition good_sub (s : substance) : Prop := (0 < s_density s)%Q.
Definition good_spill (w : world) (p : spill) : Prop :=
  (p_release p < length (w_rels w))%nat /\ (p_sub p < length (w_subs w))%nat /\ good_unit (p_units p).

Record wf (w : world) : Prop := {
  wf_rel : forall j r, nth_error (w_rels w) j = Some r -> good_rel r;
  wf_sub : forall k s, nth_error (w_subs w) k = Some s -> good_sub s;
  wf_spill : forall i p, nth_error (w_spills w) i = Some p -> good_spill w p }.

Lemma wf_put_rel : forall w j r, wf w -> good_rel r -> wf (put_rel w j r).
Proof.
  intros w j r [R U P] G. constructor; cbn [put_rel w_rels w_subs w_spills].
  - intros j' r' E. apply upd_any in E as [[_ ->]|[_ E]]; eauto.
  - exact U.
  - intros i p E. destruct (P i p E) as (A & B & C). unfold good_spill. cbn. rewrite upd_length. auto.
Qed.

Lemma wf_put_sub : forall w k s, wf w -> good_sub s -> wf (put_sub w k s).
Proof.
  intros w k s [R U P] G. constructor; cbn [put_sub w_rels w_subs w_spills].
  - exact R.
  - intros j' r' E. apply upd_any in E as [[_ ->]|[_ E]]; eauto.
  - intros i p E. destruct (P i p E) as (A & B & C). unfold good_spill. cbn. rewrite upd_length. auto.
Qed.

Lemma wf_put_spill : forall w i p, wf w -> good_spill w p -> wf (put_spill w i p).
Proof.
  intros w i p [R U P] G. constructor; cbn [put_spill w_rels w_subs w_spills]; auto.
  intros i' p' E. apply upd_any in E as [[_ ->]|[_ E]].
  - exact G.
  - exact (P _ _ E).
Qed.

Lemma wf_app_rel : forall w r, wf w -> good_rel r -> wf (mkWorld (w_subs w) (w_rels w ++ [r]) (w_spills w)).
Proof.
  intros w r [R U P] G. constructor; cbn [w_rels w_subs w_spills]; auto.
  - intros j x E. apply nth_app_one in E as [E|[_ ->]]; eauto.
  - intros i p E. destruct (P i p E) as (A & B & C). unfold good_spill. cbn. rewrite app_length. cbn. repeat split; auto. lia.
Qed.

Lemma wf_app_sub : forall w s, wf w -> good_sub s -> wf (mkWorld (w_subs w ++ [s]) (w_rels w) (w_spills w)).
Proof.
  intros w s [R U P] G. constructor; cbn [w_rels w_subs w_spills]; auto.
  - intros j x E. apply nth_app_one in E as [E|[_ ->]]; eauto.
  - intros i p E. destruct (P i p E) as (A & B & C). unfold good_spill. cbn. rewrite app_length. cbn. repeat split; auto. lia.
Qed.

Lemma wf_app_spill : forall w p, wf w -> good_spill w p -> wf (mkWorld (w_subs w) (w_rels w) (w_spills w ++ [p])).
Proof.
  intros w p [R U P] G. constructor; cbn [w_rels w_subs w_spills]; auto.
  intros i x E. apply nth_app_one in E as [E|[_ ->]].
  - exact (P _ _ E).
  - exact G.
Qed.

Lemma clip_nonneg : forall m, (0 <= if Qle_bool 0 m then m else 0)%Q.
Proof.
  intros m. destruct (Qle_bool 0 m) eqn:E; [now apply Qle_bool_iff|lra].
Qed.

Lemma set_num_good : forall v r r', set_num v r = Ok r' -> good_rel r -> good_rel r'.
Proof.
  intros v r r' E G. destruct v as [n|]; cbn [set_num] in E.
  - destruct (Z.ltb_spec n 0); [discriminate|]. injection E as <-. split; [apply G|cbn; lia].
  - injection E as <-. split; [apply G|exact Logic.I].
Qed.

Lemma set_mass_good : forall m r, good_rel r -> good_rel (set_mass m r).
Proof. intros m r G. split; [apply clip_nonneg|apply G]. Qed.

Lemma set_num_mass : forall v r r', set_num v r = Ok r' -> l_mass r' = l_mass r.
Proof.
  intros v r r' E. destruct v as [n|]; cbn [set_num] in E.
  - destruct (n <? 0); [discriminate|]. now injection E as <-.
  - now injection E as <-.
Qed.

Lemma new_release_good : forall n p m r, new_release n p m = Ok r -> good_rel r.
Proof.
  intros n p m r E. unfold new_release in E.
  destruct n as [n|], p as [p|]; try discriminate; apply set_num_good in E; auto; split; cbn [l_mass l_num]; auto; apply clip_nonneg.
Qed.

Lemma wf_give : forall w p a, wf w -> wf (fst (give_amount w p a)).
Proof.
  intros w p a W. unfold give_amount.
  destruct (nth_error (w_rels w) (p_release p)) as [r|] eqn:ER; [|exact W].
  destruct (nth_error (w_subs w) (p_sub p)) as [s|] eqn:ES; [|exact W].
  destruct (to_mass _ _ _) as [m|e]; [|exact W].
  cbn [fst]. apply wf_put_rel; auto. apply set_mass_good. exact (wf_rel w W _ _ ER).
Qed.

Lemma give_lengths : forall w p a, length (w_rels (fst (give_amount w p a))) = length (w_rels w) /\
  w_subs (fst (give_amount w p a)) = w_subs w /\ w_spills (fst (give_amount w p a)) = w_spills w.
Proof.
  intros w p a. unfold give_amount.
  destruct (nth_error (w_rels w) (p_release p)) as [r|]; [|auto].
  destruct (nth_error (w_subs w) (p_sub p)) as [s|]; [|auto].
  destruct (to_mass _ _ _) as [m|e]; [|auto].
  cbn. now rewrite upd_length.
Qed.

Lemma wf_pick : forall w o, wf w -> wf (fst (pick_sub w o)).
Proof.
  intros w [k|] W; cbn [pick_sub fst]; auto. apply wf_app_sub; auto. unfold good_sub. cbn. lra.
Qed.

Lemma check_units_good : forall u u', check_units u = Ok u' -> u' = u.
Proof. intros [k|v|] u' E; cbn in E; congruence. Qed.

Lemma good_of_sized : forall u u', check_units u = Ok u' -> sized u -> good_unit u'.
Proof. intros [k|v|] u' E G; cbn in E; try discriminate; injection E as <-; exact G. Qed.

Lemma give_ok_in : forall w p a w', give_amount w p a = (w', None) ->
  (p_release p < length (w_rels w))%nat /\ (p_sub p < length (w_subs w))%nat.
Proof.
  intros w p a w' E. unfold give_amount in E.
  destruct (nth_error (w_rels w) (p_release p)) as [r|] eqn:ER; [|discriminate].
  destruct (nth_error (w_subs w) (p_sub p)) as [s|] eqn:ES; [|discriminate].
  split; eapply nth_lt; eauto.
Qed.

(** The first part of making a spill: the release. *)
Definition place (w1 : world) (rel : option nat) (num : option Z) : world * res nat :=
  match rel with
  | Some j => match nth_error (w_rels w1) j with
              | Some r => match set_num (l_num r) r with
                          | Ok r' => (put_rel w1 j r', Ok j)
                          | Raise e => (w1, Raise e)
                          end
              | None => (w1, Raise AttrErr)
              end
  | None => match new_release num None 0 with
            | Ok r => match set_num num r with
                      | Ok r' => (mkWorld (w_subs w1) (w_rels w1 ++ [r']) (w_spills w1), Ok (length (w_rels w1)))
                      | Raise e => (w1, Raise e)
                      end
            | Raise e => (w1, Raise e)
            end
  end.

Lemma make_spill_eq : forall w sub rel num a u scale, make_spill w sub rel num a u scale =
  let (w1, k) := pick_sub w sub in
  match place w1 rel num with
  | (w2, Raise e) => (w2, Raise e)
  | (w2, Ok j) =>
      match check_units u with
      | Raise e => (w2, Raise e)
      | Ok u' =>
          match give_amount w2 (mkSpill j k u' scale) a with
          | (w3, Some e) => (w3, Raise e)
          | (w3, None) => (w3, Ok (mkSpill j k u' scale))
          end
      end
  end.
Proof. reflexivity. Qed.

Lemma wf_place : forall w rel num, wf w -> wf (fst (place w rel num)).
Proof.
  intros w [j|] num W; cbn [place].
  - destruct (nth_error (w_rels w) j) as [r|] eqn:E; [|exact W].
    destruct (set_num (l_num r) r) as [r'|e] eqn:F; [|exact W].
    cbn [fst]. apply wf_put_rel; auto. eapply set_num_good; eauto. eapply wf_rel; eauto.
  - destruct (new_release num None 0) as [r|e] eqn:E; [|exact W].
    destruct (set_num num r) as [r'|e] eqn:F; [|exact W].
    cbn [fst]. apply wf_app_rel; auto. eapply set_num_good; eauto. eapply new_release_good; eauto.
Qed.

Lemma wf_make : forall w sub rel num a u scale, wf w -> sized u ->
  wf (fst (make_spill w sub rel num a u scale)) /\
  forall p, snd (make_spill w sub rel num a u scale) = Ok p -> good_spill (fst (make_spill w sub rel num a u scale)) p.
Proof.
  intros w sub rel num a u scale W G. rewrite make_spill_eq.
  pose proof (wf_pick w sub W) as W1. destruct (pick_sub w sub) as [w1 k]. cbn [fst] in W1.
  pose proof (wf_place w1 rel num W1) as W2. destruct (place w1 rel num) as [w2 [j|e]]; cbn [fst] in W2;
    [|split; [exact W2|discriminate]].
  destruct (check_units u) as [u'|e] eqn:CU; [|split; [exact W2|discriminate]].
  pose proof (wf_give w2 (mkSpill j k u' scale) a W2) as W3.
  pose proof (give_lengths w2 (mkSpill j k u' scale) a) as (L1 & L2 & _).
  destruct (give_amount w2 (mkSpill j k u' scale) a) as [w3 [e|]] eqn:GA; cbn [fst snd] in *.
  - split; [exact W3|discriminate].
  - split; [exact W3|]. intros p E. injection E as <-. unfold good_spill. cbn [p_release p_sub p_units].
    apply give_ok_in in GA as [A B]. cbn in A, B. rewrite L1, L2. repeat split; auto. eapply good_of_sized; eauto.
Qed.

Lemma wf_set_range : forall w k rg, wf w -> wf (fst (set_range w k rg)).
Proof.
  intros w k rg W. unfold set_range. destruct (nth_error (w_subs w) k) as [s|] eqn:E; [|exact W].
  destruct (check_range rg); [|exact W]. cbn [fst]. apply wf_put_sub; auto. exact (wf_sub w W _ _ E).
Qed.
Lemma wf_set_persist : forall w k rg, wf w -> wf (fst (set_persist w k rg)).
Proof.
  intros w k rg W. unfold set_persist. destruct (nth_error (w_subs w) k) as [s|] eqn:E; [|exact W].
  destruct (check_persist rg); [|exact W]. cbn [fst]. apply wf_put_sub; auto. exact (wf_sub w W _ _ E).
Qed.

Lemma set_range_shape : forall w k rg, w_rels (fst (set_range w k rg)) = w_rels w /\
  w_spills (fst (set_range w k rg)) = w_spills w /\ length (w_subs (fst (set_range w k rg))) = length (w_subs w).
Proof.
  intros. unfold set_range. destruct (nth_error _ _); [|auto]. destruct (check_range _); [|auto].
  cbn. now rewrite upd_length.
Qed.
Lemma set_persist_shape : forall w k rg, w_rels (fst (set_persist w k rg)) = w_rels w /\
  w_spills (fst (set_persist w k rg)) = w_spills w /\ length (w_subs (fst (set_persist w k rg))) = length (w_subs w).
Proof.
  intros. unfold set_persist. destruct (nth_error _ _); [|auto]. destruct (check_persist _); [|auto].
  cbn. now rewrite upd_length.
Qed.

Definition opt_range (w : world) (k : nat) (rg : option (list Q)) :=
  match rg with None => (w, None) | Some _ => set_range w k rg end.
Definition opt_persist (w : world) (k : nat) (p : option persistence) :=
  match p with None => (w, None) | Some _ => set_persist w k p end.

Lemma setup_eq : forall w sub rel a u rg per, setup_spill w sub rel a u rg per =
  match make_spill w sub (Some rel) (Some 1000) a u 0 with
  | (w1, Raise e) => (w1, Raise e)
  | (w1, Ok p) =>
      match opt_range w1 (p_sub p) rg with
      | (w2, Some e) => (w2, Raise e)
      | (w2, None) =>
          match opt_persist w2 (p_sub p) per with
          | (w3, Some e) => (w3, Raise e)
          | (w3, None) => (w3, Ok p)
          end
      end
  end.
Proof. reflexivity. Qed.

Lemma opt_range_shape : forall w k rg, w_rels (fst (opt_range w k rg)) = w_rels w /\
  w_spills (fst (opt_range w k rg)) = w_spills w /\ length (w_subs (fst (opt_range w k rg))) = length (w_subs w).
Proof. intros w k [l|]; [apply set_range_shape|auto]. Qed.
Lemma opt_persist_shape : forall w k rg, w_rels (fst (opt_persist w k rg)) = w_rels w /\
  w_spills (fst (opt_persist w k rg)) = w_spills w /\ length (w_subs (fst (opt_persist w k rg))) = length (w_subs w).
Proof. intros w k [l|]; [apply set_persist_shape|auto]. Qed.

Lemma wf_setup : forall w sub rel a u rg per, wf w -> sized u ->
  wf (fst (setup_spill w sub rel a u rg per)) /\
  forall p, snd (setup_spill w sub rel a u rg per) = Ok p -> good_spill (fst (setup_spill w sub rel a u rg per)) p.
Proof.
  intros w sub rel a u rg per W G. rewrite setup_eq.
  destruct (wf_make w sub (Some rel) (Some 1000) a u 0 W G) as [W1 P1].
  destruct (make_spill w sub (Some rel) (Some 1000) a u 0) as [w1 [p|e]]; cbn [fst snd] in *;
    [|split; [exact W1|discriminate]].
  specialize (P1 p eq_refl).
  assert (W2 : wf (fst (opt_range w1 (p_sub p) rg))) by (destruct rg; [now apply wf_set_range|exact W1]).
  destruct (opt_range_shape w1 (p_sub p) rg) as (A1 & A2 & A3).
  destruct (opt_range w1 (p_sub p) rg) as [w2 [e|]]; cbn [fst snd] in *; [split; [exact W2|discriminate]|].
  assert (W3 : wf (fst (opt_persist w2 (p_sub p) per))) by (destruct per; [now apply wf_set_persist|exact W2]).
  destruct (opt_persist_shape w2 (p_sub p) per) as (B1 & B2 & B3).
  destruct (opt_persist w2 (p_sub p) per) as [w3 [e|]]; cbn [fst snd] in *; [split; [exact W3|discriminate]|].
  split; [exact W3|]. intros p' E. injection E as <-.
  destruct P1 as (X & Y & U). unfold good_spill. rewrite B1, B3, A1, A3. auto.
Qed.

Lemma wf_helper : forall w sub num a u rg per, wf w -> sized u ->
  wf (fst (helper_spill w sub num a u rg per)) /\
  forall p, snd (helper_spill w sub num a u rg per) = Ok p -> good_spill (fst (helper_spill w sub num a u rg per)) p.
Proof.
  intros w sub num a u rg per W G. unfold helper_spill.
  destruct (new_release num None 0) as [r|e] eqn:E; [|split; [exact W|discriminate]].
  apply wf_setup; auto. apply wf_app_rel; auto. eapply new_release_good; eauto.
Qed.

Lemma wf_add : forall x, wf (fst x) -> (forall p, snd x = Ok p -> good_spill (fst x) p) -> wf (fst (add_spill x)).
Proof.
  intros [w [p|e]] W G; cbn [add_spill fst snd] in *; auto. apply wf_app_spill; auto.
Qed.

Lemma wf_shift : forall w i d, wf w -> wf (fst (shift_amount w i d)).
Proof.
  intros w i d W. unfold shift_amount. destruct (nth_error (w_spills w) i) as [p|]; [|exact W].
  destruct (_ || _); [exact W|]. destruct d as [up|]; [|exact W]. cbv zeta.
  destruct (amount w i) as [a|e]; [|exact W].
  match goal with |- context [give_amount w p ?b] => pose proof (wf_give w p b W) as X; destruct (give_amount w p b) as [w1 [e|]] end;
    exact X.
Qed.

Lemma wf_step : forall w o, wf w -> sensible o -> wf (fst (step w o)).
Proof.
  intros w o W G. destruct o as [d rg p|num per m|sub rel num a u sc|sub num a u rg p|i a|i u|i sub|i q|j v|j v|j m|k rg|k p|i d];
    cbn [step sensible] in *.
  - unfold new_substance. destruct (check_range rg) as [r|e]; cbn [bind]; [|exact W].
    destruct (check_persist p) as [n|e]; cbn [bind]; [|exact W]. cbn [fst]. now apply wf_app_sub.
  - destruct (new_release num per m) as [r|e] eqn:E; [|exact W]. cbn [fst]. apply wf_app_rel; auto. eapply new_release_good; eauto.
  - destruct (wf_make w sub rel num a u sc W G). now apply wf_add.
  - destruct (wf_helper w sub num a u rg p W G). now apply wf_add.
  - destruct (nth_error (w_spills w) i) as [p|]; [|exact W]. now apply wf_give.
  - destruct (nth_error (w_spills w) i) as [p|] eqn:E; [|exact W].
    destruct (check_units u) as [u'|e] eqn:C; [|exact W]. cbn [fst]. apply wf_put_spill; auto.
    destruct (wf_spill w W _ _ E) as (A & B & _). unfold good_spill. cbn. repeat split; auto. eapply good_of_sized; eauto.
  - destruct (nth_error (w_spills w) i) as [p|] eqn:E; [|exact W].
    pose proof (wf_pick w sub W) as W1.
    assert (S1 : w_rels (fst (pick_sub w sub)) = w_rels w) by (destruct sub; reflexivity).
    destruct (pick_sub w sub) as [w1 k]. cbn [fst] in *.
    destruct (Nat.ltb_spec k (length (w_subs w1))) as [L|L]; [|exact W].
    cbn [fst]. apply wf_put_spill; auto.
    destruct (wf_spill w W _ _ E) as (A & _ & C). unfold good_spill. cbn. rewrite S1. auto.
  - destruct (nth_error (w_spills w) i) as [p|] eqn:E; [|exact W]. cbn [fst]. apply wf_put_spill; auto.
    exact (wf_spill w W _ _ E).
  - destruct (nth_error (w_rels w) j) as [r|] eqn:E; [|exact W].
    destruct (set_num v r) as [r'|e] eqn:F; [|exact W]. cbn [fst]. apply wf_put_rel; auto.
    eapply set_num_good; eauto. exact (wf_rel w W _ _ E).
  - destruct (nth_error (w_rels w) j) as [r|] eqn:E; [|exact W].
    pose proof (wf_rel w W _ _ E) as G0.
    destruct v as [n|]; cbn [set_per fst]; apply wf_put_rel; auto; split; cbn [l_mass l_num]; auto; apply G0.
  - destruct (nth_error (w_rels w) j) as [r|] eqn:E; [|exact W].
    cbn [fst]. apply wf_put_rel; auto. apply set_mass_good. exact (wf_rel w W _ _ E).
  - now apply wf_set_range.
  - now apply wf_set_persist.
  - pose proof (wf_shift w i d W) as X. destruct (shift_amount w i d) as [w1 [b|e]]; exact X.
Qed.

Lemma wf_run : forall ops w, wf w -> Forall sensible ops -> wf (run w ops).
Proof.
  induction ops as [|o t IH]; intros w W F; cbn [run]; auto.
  inversion F as [|? ? A B]; subst. apply IH; auto. now apply wf_step.
Qed.

Lemma wf_start : wf start.
Proof. constructor; intros i x E; destruct i; discriminate. Qed.

Lemma wf_scripted : forall w, scripted w -> wf w.
Proof. intros w (ops & F & ->). apply wf_run; auto. apply wf_start. Qed.

(** ** Reading and setting *)

Lemma wf_get : forall w i p, wf w -> nth_error (w_spills w) i = Some p ->
  exists r s, nth_error (w_rels w) (p_release p) = Some r /\ nth_error (w_subs w) (p_sub p) = Some s /\
    good_rel r /\ good_sub s /\ good_unit (p_units p).
Proof.
  intros w i p W E. destruct (wf_spill w W _ _ E) as (A & B & C).
  destruct (nth_error (w_rels w) (p_release p)) as [r|] eqn:ER; [|apply nth_error_None in ER; lia].
  destruct (nth_error (w_subs w) (p_sub p)) as [s|] eqn:ES; [|apply nth_error_None in ES; lia].
  exists r, s. split; [auto|]. split; [auto|]. split; [eapply wf_rel; eauto|]. split; [eapply wf_sub; eauto|auto].
Qed.

Lemma to_mass_ok : forall u d a, good_unit u -> (0 < d)%Q -> (0 <= a)%Q ->
  exists m, to_mass u d a = Ok m /\ kilograms u d a m /\ (0 <= m)%Q.
Proof.
  intros u d a G D A. unfold to_mass. apply Qle_bool_iff in A as A'. rewrite A'. cbn [negb].
  destruct u as [k|v|]; cbn in G; [| |tauto]; eexists; (split; [reflexivity|split; [reflexivity|]]);
    repeat apply Qmult_le_0_compat; auto using Qlt_le_weak.
Qed.

Lemma from_mass_kg : forall u d m, good_unit u -> (0 < d)%Q ->
  exists a, from_mass u d m = Ok a /\ kilograms u d a m.
Proof.
  intros u d m G D. unfold from_mass, kilograms. destruct u as [k|v|]; cbn in G; [| |tauto].
  - eexists; split; [reflexivity|]. field. lra.
  - destruct (Qeq_bool d 0) eqn:E; [apply Qeq_bool_iff in E; lra|].
    eexists; split; [reflexivity|]. field. split; lra.
Qed.

Lemma kg_inj : forall u d a b m m', good_unit u -> (0 < d)%Q -> kilograms u d a m -> kilograms u d b m' -> (m == m')%Q -> (a == b)%Q.
Proof.
  intros u d a b m m' G D K1 K2 E. destruct u as [k|v|]; cbn in *; [| |tauto].
  - assert (X : (a * k == b * k)%Q) by lra. apply Qmult_inj_r in X; auto. lra.
  - assert (X : (a * (v * d) == b * (v * d))%Q) by lra. apply Qmult_inj_r in X; auto.
    assert (Y : (0 < v * d)%Q) by (setoid_replace 0%Q with (0 * d)%Q by ring; now apply Qmult_lt_compat_r). lra.
Qed.

Lemma amount_kg : forall w i p, wf w -> nth_error (w_spills w) i = Some p ->
  forall r s, nth_error (w_rels w) (p_release p) = Some r -> nth_error (w_subs w) (p_sub p) = Some s ->
  exists a, amount w i = Ok a /\ kilograms (p_units p) (s_density s) a (l_mass r).
Proof.
  intros w i p W E r s ER ES. unfold amount. rewrite E, ER, ES.
  apply from_mass_kg; [exact (proj2 (proj2 (wf_spill w W _ _ E)))|exact (wf_sub w W _ _ ES)].
Qed.

Lemma reads_of_mass : forall w i p r s a, wf w -> nth_error (w_spills w) i = Some p ->
  nth_error (w_rels w) (p_release p) = Some r -> nth_error (w_subs w) (p_sub p) = Some s ->
  kilograms (p_units p) (s_density s) a (l_mass r) -> reads w i a.
Proof.
  intros w i p r s a W E ER ES K. destruct (amount_kg w i p W E r s ER ES) as (x & A & B).
  exists x. split; auto. eapply kg_inj; eauto; [exact (proj2 (proj2 (wf_spill w W _ _ E)))|exact (wf_sub w W _ _ ES)|reflexivity].
Qed.

Lemma kg_eq : forall u d a m m', kilograms u d a m -> (m == m')%Q -> kilograms u d a m'.
Proof. intros [k|v|] d a m m' K E; cbn in *; auto; lra. Qed.

Lemma kg_eq_amount : forall u d a b m, kilograms u d a m -> (a == b)%Q -> kilograms u d b m.
Proof. intros [k|v|] d a b m K E; cbn in *; auto; rewrite <- E; exact K. Qed.

Lemma mass_of_reads : forall w i p r s a, wf w -> nth_error (w_spills w) i = Some p ->
  nth_error (w_rels w) (p_release p) = Some r -> nth_error (w_subs w) (p_sub p) = Some s ->
  reads w i a -> kilograms (p_units p) (s_density s) a (l_mass r).
Proof.
  intros w i p r s a W E ER ES (x & A & B). destruct (amount_kg w i p W E r s ER ES) as (y & C & D).
  rewrite A in C. injection C as <-. eapply kg_eq_amount; eauto.
Qed.

Lemma give_ok : forall w p r s a, nth_error (w_rels w) (p_release p) = Some r -> nth_error (w_subs w) (p_sub p) = Some s ->
  good_unit (p_units p) -> good_sub s -> (0 <= a)%Q ->
  exists m, kilograms (p_units p) (s_density s) a m /\ (0 <= m)%Q /\
    give_amount w p a = (put_rel w (p_release p) (mkRel (l_num r) (l_per r) m), None).
Proof.
  intros w p r s a ER ES G D A. destruct (to_mass_ok (p_units p) (s_density s) a G D A) as (m & T & K & N).
  exists m. split; auto. split; auto. unfold give_amount. rewrite ER, ES, T. unfold set_mass.
  apply Qle_bool_iff in N. now rewrite N.
Qed.

Lemma give_negative : forall w p r s a, nth_error (w_rels w) (p_release p) = Some r -> nth_error (w_subs w) (p_sub p) = Some s ->
  (a < 0)%Q -> give_amount w p a = (w, Some ValueErr).
Proof.
  intros w p r s a ER ES A. unfold give_amount. rewrite ER, ES. unfold to_mass.
  destruct (Qle_bool 0 a) eqn:E; [apply Qle_bool_iff in E; lra|]. reflexivity.
Qed.

Lemma put_rel_same : forall w j r x, nth_error (w_rels w) j = Some x -> nth_error (w_rels (put_rel w j r)) j = Some r.
Proof. intros. cbn. eapply upd_same; eauto. Qed.

Lemma step_amount : forall w i a, wf w -> (i < length (w_spills w))%nat -> (0 <= a)%Q ->
  exists w', step w (SetAmount i a) = (w', None) /\ wf w' /\ reads w' i a /\
    exists u d kg, in_units w' i u /\ has_density w' i d /\ weighs w' i kg /\ kilograms u d a kg.
Proof.
  intros w i a W L A. destruct (nth_error (w_spills w) i) as [p|] eqn:E; [|apply nth_error_None in E; lia].
  destruct (wf_get w i p W E) as (r & s & ER & ES & GR & GS & GU).
  destruct (give_ok w p r s a ER ES GU GS A) as (m & K & N & G).
  exists (put_rel w (p_release p) (mkRel (l_num r) (l_per r) m)). cbn [step]. rewrite E. split; [exact G|].
  assert (W' : wf (put_rel w (p_release p) (mkRel (l_num r) (l_per r) m))) by (apply wf_put_rel; auto; split; [exact N|apply GR]).
  split; [exact W'|].
  pose proof (put_rel_same w (p_release p) (mkRel (l_num r) (l_per r) m) r ER) as ER'.
  split.
  - eapply reads_of_mass; eauto.
  - exists (p_units p), (s_density s), m. repeat split.
    + now exists p.
    + now exists p, s.
    + exists p, (mkRel (l_num r) (l_per r) m). repeat split; auto; reflexivity.
    + exact K.
Qed.

Lemma step_negative : forall w i a, wf w -> (i < length (w_spills w))%nat -> (a < 0)%Q ->
  step w (SetAmount i a) = (w, Some ValueErr).
Proof.
  intros w i a W L A. destruct (nth_error (w_spills w) i) as [p|] eqn:E; [|apply nth_error_None in E; lia].
  destruct (wf_get w i p W E) as (r & s & ER & ES & _). cbn [step]. rewrite E. eapply give_negative; eauto.
Qed.

(** ** What does not concern a spill leaves its amount *)

Definition K (w : world) (i j k : nat) (u : unit) (m d : Q) : Prop :=
  (exists q, nth_error (w_spills w) i = Some (mkSpill j k u q)) /\
  (exists r, nth_error (w_rels w) j = Some r /\ l_mass r = m) /\
  (exists s, nth_error (w_subs w) k = Some s /\ s_density s = d) /\
  (forall i' p', i' <> i -> nth_error (w_spills w) i' = Some p' -> p_release p' <> j).

Section Kept.
  Variables (i j k : nat) (u : unit) (m d : Q).

  Lemma K_put_rel : forall w j' r', K w i j k u m d -> (j' <> j \/ l_mass r' = m) -> K (put_rel w j' r') i j k u m d.
  Proof.
    intros w j' r' (A & (r & B & B') & C & D) [N|M]; repeat split; auto; cbn.
    - exists r. rewrite upd_other; auto.
    - destruct (Nat.eq_dec j' j) as [->|N].
      + exists r'. split; auto. eapply upd_same; eauto.
      + exists r. rewrite upd_other; auto.
  Qed.

  Lemma K_put_sub : forall w k' s', K w i j k u m d ->
    (forall s, nth_error (w_subs w) k' = Some s -> s_density s' = s_density s) -> K (put_sub w k' s') i j k u m d.
  Proof.
    intros w k' s' (A & B & (s & C & C') & D) M. repeat split; auto. cbn.
    destruct (Nat.eq_dec k' k) as [->|N].
    - exists s'. split; [eapply upd_same; eauto|]. rewrite (M _ C). exact C'.
    - exists s. rewrite upd_other; auto.
  Qed.

  Lemma K_put_other : forall w i' p', K w i j k u m d -> i' <> i -> p_release p' <> j -> K (put_spill w i' p') i j k u m d.
  Proof.
    intros w i' p' ((q & A) & B & C & D) N M. repeat split; auto; cbn.
    - exists q. rewrite upd_other; auto.
    - intros i2 p2 N2 E. apply upd_any in E as [[_ ->]|[_ E]]; eauto.
  Qed.

  Lemma K_put_scale : forall w q', K w i j k u m d -> K (put_spill w i (mkSpill j k u q')) i j k u m d.
  Proof.
    intros w q' ((q & A) & B & C & D). repeat split; auto; cbn.
    - exists q'. eapply upd_same; eauto.
    - intros i2 p2 N2 E. apply upd_any in E as [[X _]|[_ E]]; [congruence|eauto].
  Qed.

  Lemma K_app_rel : forall w r, K w i j k u m d -> K (mkWorld (w_subs w) (w_rels w ++ [r]) (w_spills w)) i j k u m d.
  Proof. intros w r (A & (x & B & B') & C & D). repeat split; auto. exists x. split; auto. now apply nth_app_l. Qed.
  Lemma K_app_sub : forall w s, K w i j k u m d -> K (mkWorld (w_subs w ++ [s]) (w_rels w) (w_spills w)) i j k u m d.
  Proof. intros w r (A & B & (x & C & C') & D). repeat split; auto. exists x. split; auto. now apply nth_app_l. Qed.
  Lemma K_app_spill : forall w p, K w i j k u m d -> p_release p <> j ->
    K (mkWorld (w_subs w) (w_rels w) (w_spills w ++ [p])) i j k u m d.
  Proof.
    intros w p ((q & A) & B & C & D) N. repeat split; auto; cbn.
    - exists q. now apply nth_app_l.
    - intros i' p' N' E. apply nth_app_one in E as [E|[_ ->]]; eauto.
  Qed.

  Lemma K_give : forall w p a, K w i j k u m d -> p_release p <> j -> K (fst (give_amount w p a)) i j k u m d.
  Proof.
    intros w p a H N. unfold give_amount.
    destruct (nth_error (w_rels w) (p_release p)) as [r|]; [|exact H].
    destruct (nth_error (w_subs w) (p_sub p)) as [s|]; [|exact H].
    destruct (to_mass _ _ _) as [x|e]; [|exact H]. cbn [fst]. apply K_put_rel; auto.
  Qed.

  Lemma K_pick : forall w o, K w i j k u m d -> K (fst (pick_sub w o)) i j k u m d.
  Proof. intros w [x|] H; cbn [pick_sub fst]; auto. now apply K_app_sub. Qed.

  Lemma K_place : forall w rel num, K w i j k u m d -> rel <> Some j ->
    K (fst (place w rel num)) i j k u m d /\ forall x, snd (place w rel num) = Ok x -> x <> j.
  Proof.
    intros w [j'|] num H N; cbn [place].
    - assert (N' : j' <> j) by congruence.
      destruct (nth_error (w_rels w) j') as [r|]; [|split; [exact H|discriminate]].
      destruct (set_num (l_num r) r) as [r'|e]; [|split; [exact H|discriminate]].
      cbn [fst snd]. split; [apply K_put_rel; auto|]. congruence.
    - destruct (new_release num None 0) as [r|e]; [|split; [exact H|discriminate]].
      destruct (set_num num r) as [r'|e]; [|split; [exact H|discriminate]].
      cbn [fst snd]. split; [now apply K_app_rel|]. intros x E. injection E as <-.
      destruct H as (_ & (y & B & _) & _). apply nth_lt in B. lia.
  Qed.

  Lemma K_make : forall w sub rel num a u' sc, K w i j k u m d -> rel <> Some j ->
    K (fst (make_spill w sub rel num a u' sc)) i j k u m d /\
    forall p, snd (make_spill w sub rel num a u' sc) = Ok p -> p_release p <> j.
  Proof.
    intros w sub rel num a u' sc H N. rewrite make_spill_eq.
    pose proof (K_pick w sub H) as H1. destruct (pick_sub w sub) as [w1 k1]. cbn [fst] in H1.
    destruct (K_place w1 rel num H1 N) as [H2 N2]. destruct (place w1 rel num) as [w2 [x|e]]; cbn [fst snd] in *;
      [|split; [exact H2|discriminate]].
    specialize (N2 x eq_refl).
    destruct (check_units u') as [u2|e]; [|split; [exact H2|discriminate]].
    pose proof (K_give w2 (mkSpill x k1 u2 sc) a H2 N2) as H3.
    destruct (give_amount w2 (mkSpill x k1 u2 sc) a) as [w3 [e|]]; cbn [fst snd] in *; (split; [exact H3|]); [discriminate|].
    intros p E. injection E as <-. exact N2.
  Qed.

  Lemma K_set_range : forall w k' rg, K w i j k u m d -> K (fst (set_range w k' rg)) i j k u m d.
  Proof.
    intros w k' rg H. unfold set_range. destruct (nth_error (w_subs w) k') as [s|] eqn:E; [|exact H].
    destruct (check_range rg); [|exact H]. cbn [fst]. apply K_put_sub; auto. intros s' E'. cbn. congruence.
  Qed.
  Lemma K_set_persist : forall w k' rg, K w i j k u m d -> K (fst (set_persist w k' rg)) i j k u m d.
  Proof.
    intros w k' rg H. unfold set_persist. destruct (nth_error (w_subs w) k') as [s|] eqn:E; [|exact H].
    destruct (check_persist rg); [|exact H]. cbn [fst]. apply K_put_sub; auto. intros s' E'. cbn. congruence.
  Qed.

  Lemma K_setup : forall w sub rel a u' rg per, K w i j k u m d -> rel <> j ->
    K (fst (setup_spill w sub rel a u' rg per)) i j k u m d /\
    forall p, snd (setup_spill w sub rel a u' rg per) = Ok p -> p_release p <> j.
  Proof.
    intros w sub rel a u' rg per H N. rewrite setup_eq.
    destruct (K_make w sub (Some rel) (Some 1000) a u' 0 H) as [H1 N1]; [congruence|].
    destruct (make_spill w sub (Some rel) (Some 1000) a u' 0) as [w1 [p|e]]; cbn [fst snd] in *;
      [|split; [exact H1|discriminate]].
    specialize (N1 p eq_refl).
    assert (H2 : K (fst (opt_range w1 (p_sub p) rg)) i j k u m d) by (destruct rg; [now apply K_set_range|exact H1]).
    destruct (opt_range w1 (p_sub p) rg) as [w2 [e|]]; cbn [fst snd] in *; [split; [exact H2|discriminate]|].
    assert (H3 : K (fst (opt_persist w2 (p_sub p) per)) i j k u m d) by (destruct per; [now apply K_set_persist|exact H2]).
    destruct (opt_persist w2 (p_sub p) per) as [w3 [e|]]; cbn [fst snd] in *; (split; [exact H3|]); [discriminate|].
    intros p' E. now injection E as <-.
  Qed.

  Lemma K_helper : forall w sub num a u' rg per, K w i j k u m d ->
    K (fst (helper_spill w sub num a u' rg per)) i j k u m d /\
    forall p, snd (helper_spill w sub num a u' rg per) = Ok p -> p_release p <> j.
  Proof.
    intros w sub num a u' rg per H. unfold helper_spill.
    destruct (new_release num None 0) as [r|e]; [|split; [exact H|discriminate]].
    apply K_setup; [now apply K_app_rel|]. destruct H as (_ & (y & B & _) & _). apply nth_lt in B. lia.
  Qed.

  Lemma K_add : forall x, K (fst x) i j k u m d -> (forall p, snd x = Ok p -> p_release p <> j) ->
    K (fst (add_spill x)) i j k u m d.
  Proof. intros [w [p|e]] H N; cbn [add_spill fst snd] in *; auto. apply K_app_spill; auto. Qed.

  Lemma K_step : forall w o, K w i j k u m d -> ~ concerns_amount i j o -> K (fst (step w o)) i j k u m d.
  Proof.
    intros w o H N.
    destruct o as [d' rg p|num per m'|sub rel num a u' sc|sub num a u' rg p|i' a|i' u'|i' sub|i' q|j' v|j' v|j' m'|k' rg|k' p|i' dir];
      cbn [step concerns_amount] in *.
    - unfold new_substance. destruct (check_range rg) as [r|e]; cbn [bind]; [|exact H].
      destruct (check_persist p) as [n|e]; cbn [bind]; [|exact H]. cbn [fst]. now apply K_app_sub.
    - destruct (new_release num per m') as [r|e]; [|exact H]. cbn [fst]. now apply K_app_rel.
    - destruct (K_make w sub rel num a u' sc H) as [H1 N1]; [destruct rel; congruence|]. now apply K_add.
    - destruct (K_helper w sub num a u' rg p H) as [H1 N1]. now apply K_add.
    - destruct (nth_error (w_spills w) i') as [p|] eqn:E; [|exact H]. apply K_give; auto.
      destruct H as (_ & _ & _ & D). eauto.
    - destruct (nth_error (w_spills w) i') as [p|] eqn:E; [|exact H].
      destruct (check_units u') as [u2|e]; [|exact H]. cbn [fst]. apply K_put_other; auto. cbn.
      destruct H as (_ & _ & _ & D). eauto.
    - destruct (nth_error (w_spills w) i') as [p|] eqn:E; [|exact H].
      pose proof (K_pick w sub H) as H1. destruct (pick_sub w sub) as [w1 k1]. cbn [fst] in *.
      destruct (Nat.ltb k1 (length (w_subs w1))); [|exact H]. cbn [fst]. apply K_put_other; auto. cbn.
      destruct H as (_ & _ & _ & D). eauto.
    - destruct (nth_error (w_spills w) i') as [p|] eqn:E; [|exact H]. cbn [fst].
      destruct (Nat.eq_dec i' i) as [->|Ne].
      + pose proof H as ((q0 & A) & _). rewrite A in E. injection E as <-. cbn. now apply K_put_scale.
      + apply K_put_other; auto. cbn. destruct H as (_ & _ & _ & D). eauto.
    - destruct (nth_error (w_rels w) j') as [r|] eqn:E; [|exact H].
      destruct (set_num v r) as [r'|e] eqn:F; [|exact H]. cbn [fst]. apply K_put_rel; auto.
      destruct (Nat.eq_dec j' j) as [->|Ne]; [right|now left].
      apply set_num_mass in F. destruct H as (_ & (y & B & B') & _). congruence.
    - destruct (nth_error (w_rels w) j') as [r|] eqn:E; [|exact H].
      assert (F : l_mass (fst (set_per v r)) = l_mass r) by (destruct v; reflexivity).
      destruct (set_per v r) as [r' e]. cbn [fst] in *. apply K_put_rel; auto.
      destruct (Nat.eq_dec j' j) as [->|Ne]; [right|now left].
      destruct H as (_ & (y & B & B') & _). congruence.
    - destruct (nth_error (w_rels w) j') as [r|] eqn:E; [|exact H]. cbn [fst]. apply K_put_rel; auto.
    - now apply K_set_range.
    - now apply K_set_persist.
    - assert (X : K (fst (shift_amount w i' dir)) i j k u m d).
      { unfold shift_amount. destruct (nth_error (w_spills w) i') as [p|] eqn:E; [|exact H].
        destruct (_ || _); [exact H|]. destruct dir as [up|]; [|exact H]. cbv zeta.
        destruct (amount w i') as [a|e]; [|exact H].
        assert (Np : p_release p <> j) by (destruct H as (_ & _ & _ & D); eauto).
        match goal with |- context [give_amount w p ?b] =>
          pose proof (K_give w p b H Np) as X; destruct (give_amount w p b) as [w1 [e|]] end; exact X. }
      destruct (shift_amount w i' dir) as [w1 [b|e]]; exact X.
  Qed.

  Lemma K_run : forall ops w, K w i j k u m d -> Forall (fun o => ~ concerns_amount i j o) ops -> K (run w ops) i j k u m d.
  Proof.
    induction ops as [|o t IH]; intros w H F; cbn [run]; auto.
    inversion F as [|? ? A B]; subst. apply IH; auto. now apply K_step.
  Qed.

  Lemma K_reads : forall w, K w i j k u m d -> amount w i = from_mass u d m.
  Proof.
    intros w ((q & A) & (r & B & B') & (s & C & C') & _). unfold amount. rewrite A. cbn [p_release p_sub p_units].
    now rewrite B, C, B', C'.
  Qed.
End Kept.

Lemma kept : forall w i j a ops, wf w -> own_release w i -> release_of w i j -> reads w i a ->
  Forall (fun o => ~ concerns_amount i j o) ops -> reads (run w ops) i a.
Proof.
  intros w i j a ops W O (p & E & <-) (x & A & B) F.
  destruct (wf_get w i p W E) as (r & s & ER & ES & _).
  assert (H : K w i (p_release p) (p_sub p) (p_units p) (l_mass r) (s_density s)).
  { split; [exists (p_scale p); now destruct p|]. split; [eauto|]. split; [eauto|]. intros i' p' N E'. now apply (O p E i'). }
  exists x. split; auto. rewrite (K_reads _ _ _ _ _ _ _ (K_run _ _ _ _ _ _ ops w H F)).
  rewrite (K_reads _ _ _ _ _ _ _ H) in A. exact A.
Qed.

(** ** Making a spill *)

Lemma to_mass_inv : forall u d a m, to_mass u d a = Ok m -> (0 <= a)%Q /\ kilograms u d a m.
Proof.
  intros u d a m E. unfold to_mass in E. destruct (Qle_bool 0 a) eqn:A; cbn [negb] in E; [|discriminate].
  apply Qle_bool_iff in A. split; auto. destruct u as [k|v|]; [| |discriminate]; injection E as <-; reflexivity.
Qed.

Lemma kg_nonneg : forall u d a m, good_unit u -> (0 < d)%Q -> (0 <= a)%Q -> kilograms u d a m -> (0 <= m)%Q.
Proof.
  intros u d a m G D A E. destruct u as [k|v|]; cbn in *; [| |tauto]; rewrite E;
    repeat apply Qmult_le_0_compat; auto using Qlt_le_weak.
Qed.

Lemma give_inv : forall w p a w', give_amount w p a = (w', None) ->
  exists r s m, nth_error (w_rels w) (p_release p) = Some r /\ nth_error (w_subs w) (p_sub p) = Some s /\
    (0 <= a)%Q /\ kilograms (p_units p) (s_density s) a m /\ w' = put_rel w (p_release p) (set_mass m r).
Proof.
  intros w p a w' E. unfold give_amount in E.
  destruct (nth_error (w_rels w) (p_release p)) as [r|] eqn:ER; [|discriminate].
  destruct (nth_error (w_subs w) (p_sub p)) as [s|] eqn:ES; [|discriminate].
  destruct (to_mass _ _ _) as [m|e] eqn:T; [|discriminate]. injection E as <-.
  apply to_mass_inv in T as [A B]. exists r, s, m. auto.
Qed.

Lemma set_num_own : forall r r', set_num (l_num r) r = Ok r' -> one_of (l_num r) (l_per r) ->
  l_num r' = l_num r /\ l_per r' = l_per r.
Proof.
  intros r r' E [(n & A & B)|(n & A & B)]; rewrite A in E; cbn [set_num] in E.
  - destruct (n <? 0); [discriminate|]. injection E as <-. cbn. now rewrite A, B.
  - injection E as <-. cbn. now rewrite A, B.
Qed.

Lemma made : forall w sub rel num a u sc w' p, wf w -> sized u -> make_spill w sub rel num a u sc = (w', Ok p) ->
  w_spills w' = w_spills w /\ w_subs w' = w_subs (fst (pick_sub w sub)) /\
  p_units p = u /\ p_sub p = snd (pick_sub w sub) /\ p_scale p = sc /\ (0 <= a)%Q /\
  (match rel with Some j => p_release p = j | None => p_release p = length (w_rels w) end) /\
  exists r s, nth_error (w_rels w') (p_release p) = Some r /\ nth_error (w_subs w') (p_sub p) = Some s /\
    kilograms u (s_density s) a (l_mass r) /\
    match rel with
    | Some j => exists r0 r1, nth_error (w_rels w) j = Some r0 /\ set_num (l_num r0) r0 = Ok r1 /\
                  l_num r = l_num r1 /\ l_per r = l_per r1
    | None => exists r0 r1, new_release num None 0 = Ok r0 /\ set_num num r0 = Ok r1 /\ l_num r = l_num r1 /\ l_per r = l_per r1
    end.
Proof.
  intros w sub rel num a u sc w' p W G E. rewrite make_spill_eq in E.
  pose proof (wf_pick w sub W) as W1.
  assert (P1 : w_spills (fst (pick_sub w sub)) = w_spills w /\ w_rels (fst (pick_sub w sub)) = w_rels w)
    by (destruct sub; split; reflexivity).
  destruct (pick_sub w sub) as [w1 k]. cbn [fst snd] in *. destruct P1 as [P1 P2].
  pose proof (wf_place w1 rel num W1) as W2.
  destruct (place w1 rel num) as [w2 [j|e]] eqn:PL; [|discriminate]. cbn [fst] in W2.
  destruct (check_units u) as [u'|e] eqn:CU; [|discriminate].
  destruct (give_amount w2 (mkSpill j k u' sc) a) as [w3 [e|]] eqn:GA; [discriminate|].
  injection E as <- <-. cbn [p_units p_sub p_scale p_release].
  apply give_inv in GA as (r & s & m & ER & ES & A & KG & ->). cbn [p_units p_sub p_release] in *.
  pose proof (check_units_good _ _ CU) as ->.
  assert (N : (0 <= m)%Q).
  { eapply kg_nonneg; eauto; [eapply good_of_sized; eauto|exact (wf_sub _ W2 _ _ ES)]. }
  assert (SH : w_spills w2 = w_spills w1 /\ w_subs w2 = w_subs w1 /\
    match rel with Some x => j = x | None => j = length (w_rels w1) end /\
    match rel with
    | Some x => exists r0, nth_error (w_rels w1) x = Some r0 /\ set_num (l_num r0) r0 = Ok r
    | None => exists r0, new_release num None 0 = Ok r0 /\ set_num num r0 = Ok r
    end).
  { destruct rel as [x|]; cbn [place] in PL.
    - destruct (nth_error (w_rels w1) x) as [r0|] eqn:E0; [|discriminate].
      destruct (set_num (l_num r0) r0) as [r1|e] eqn:E1; [|discriminate]. injection PL as <- <-.
      split; [reflexivity|]. split; [reflexivity|]. split; [reflexivity|]. exists r0. split; auto.
      rewrite (put_rel_same _ _ _ _ E0) in ER. congruence.
    - destruct (new_release num None 0) as [r0|e] eqn:E0; [|discriminate].
      destruct (set_num num r0) as [r1|e] eqn:E1; [|discriminate]. injection PL as <- <-.
      split; [reflexivity|]. split; [reflexivity|]. split; [reflexivity|]. exists r0. split; auto.
      cbn [w_rels] in ER. rewrite nth_app_new in ER. congruence. }
  destruct SH as (S1 & S2 & S3 & S4).
  split; [cbn [put_rel w_spills]; congruence|]. split; [cbn [put_rel w_subs]; congruence|].
  repeat (split; [auto; fail|]). split; [destruct rel; congruence|].
  exists (set_mass m r), s. split; [now apply put_rel_same with (x := r)|]. split; [exact ES|].
  split.
  - unfold set_mass. cbn [l_mass]. apply Qle_bool_iff in N. now rewrite N.
  - destruct rel as [x|].
    + destruct S4 as (r0 & B & C). exists r0, r. rewrite <- P2. auto.
    + destruct S4 as (r0 & B & C). exists r0, r. auto.
Qed.

Lemma place_ok_given : forall w j r num, wf w -> nth_error (w_rels w) j = Some r ->
  exists w2, place w (Some j) num = (w2, Ok j) /\ (exists r', nth_error (w_rels w2) j = Some r') /\ w_subs w2 = w_subs w.
Proof.
  intros w j r num W E. cbn [place]. rewrite E. destruct (wf_rel w W _ _ E) as [_ N].
  assert (X : exists r', set_num (l_num r) r = Ok r').
  { destruct (l_num r) as [n|]; cbn [set_num]; [|eauto].
    destruct (Z.ltb_spec n 0); [lia|eauto]. }
  destruct X as (r' & ->). eexists; split; [reflexivity|]. split; [|reflexivity].
  exists r'. eapply put_rel_same; eauto.
Qed.

Lemma new_ok : forall num, match num with Some n => 0 <= n | None => True end -> exists r r',
  new_release num None 0 = Ok r /\ set_num num r = Ok r'.
Proof.
  intros [n|] N; cbn.
  - destruct (Z.ltb_spec n 0); [lia|]. cbn. eauto.
  - eauto.
Qed.

Lemma make_ok : forall w sub rel num a u sc, wf w -> good_unit u -> (0 <= a)%Q ->
  match sub with Some k => (k < length (w_subs w))%nat | None => True end ->
  match rel with Some j => (j < length (w_rels w))%nat | None => match num with Some n => 0 <= n | None => True end end ->
  exists w' p, make_spill w sub rel num a u sc = (w', Ok p).
Proof.
  intros w sub rel num a u sc W G A SK RK. rewrite make_spill_eq.
  pose proof (wf_pick w sub W) as W1.
  assert (P1 : w_rels (fst (pick_sub w sub)) = w_rels w /\
    (snd (pick_sub w sub) < length (w_subs (fst (pick_sub w sub))))%nat).
  { destruct sub; split; auto. cbn. rewrite app_length. cbn. lia. }
  destruct (pick_sub w sub) as [w1 k]. cbn [fst snd] in *. destruct P1 as [P2 P3].
  assert (PL : exists w2 j r', place w1 rel num = (w2, Ok j) /\ nth_error (w_rels w2) j = Some r' /\ w_subs w2 = w_subs w1).
  { destruct rel as [j|].
    - destruct (nth_error (w_rels w1) j) as [r|] eqn:E; [|apply nth_error_None in E; rewrite P2 in E; lia].
      destruct (place_ok_given w1 j r num W1 E) as (w2 & B & (r' & C) & D). eauto 6.
    - cbn [place]. destruct (new_ok num RK) as (r & r' & -> & ->). eexists _, _, r'. split; [reflexivity|]. cbn.
      rewrite nth_app_new. auto. }
  pose proof (wf_place w1 rel num W1) as W2.
  destruct PL as (w2 & j & r' & PL & E & SS). rewrite PL in *. cbn [fst] in W2.
  assert (CU : check_units u = Ok u) by (destruct u; cbn in *; tauto). rewrite CU.
  destruct (nth_error (w_subs w2) k) as [s|] eqn:ES; [|apply nth_error_None in ES; rewrite SS in ES; lia].
  destruct (give_ok w2 (mkSpill j k u sc) r' s a E ES G (wf_sub _ W2 _ _ ES) A) as (m & _ & _ & ->). eauto.
Qed.

(** ** Helpers *)

Lemma set_range_ok : forall w k l w', set_range w k (Some l) = (w', None) ->
  exists s, nth_error (w_subs w) k = Some s /\ w' = put_sub w k (mkSub (s_density s) l (s_persist s)).
Proof.
  intros w k l w' E. unfold set_range in E. destruct (nth_error (w_subs w) k) as [s|] eqn:F; [|discriminate].
  destruct (check_range (Some l)) as [x|e] eqn:C; [|discriminate]. injection E as <-. exists s. split; auto.
  unfold check_range in C. destruct (_ || _); [discriminate|]. injection C as <-. reflexivity.
Qed.

Definition secs (p : persistence) : Z := match p with Seconds n => n | Infinite => -1 end.

Lemma set_persist_ok : forall w k p w', set_persist w k (Some p) = (w', None) ->
  exists s, nth_error (w_subs w) k = Some s /\ w' = put_sub w k (mkSub (s_density s) (s_range s) (secs p)).
Proof.
  intros w k p w' E. unfold set_persist in E. destruct (nth_error (w_subs w) k) as [s|] eqn:F; [|discriminate].
  destruct (check_persist (Some p)) as [x|e] eqn:C; [|discriminate]. injection E as <-. exists s. split; auto.
  unfold check_persist in C. destruct p as [n|]; cbn in C.
  - destruct (n =? 0); [discriminate|]. injection C as <-. reflexivity.
  - injection C as <-. reflexivity.
Qed.

Lemma helper_made : forall w sub num a u rg per w' p, wf w -> sized u -> helper_spill w sub num a u rg per = (w', Ok p) ->
  w_spills w' = w_spills w /\ p_units p = u /\ p_sub p = snd (pick_sub w sub) /\ (0 <= a)%Q /\
  p_release p = length (w_rels w) /\
  exists r s s0, nth_error (w_rels w') (p_release p) = Some r /\ nth_error (w_subs w') (p_sub p) = Some s /\
    kilograms u (s_density s) a (l_mass r) /\
    nth_error (w_subs (fst (pick_sub w sub))) (p_sub p) = Some s0 /\ s_density s = s_density s0 /\
    s_range s = (match rg with Some l => l | None => s_range s0 end) /\
    s_persist s = (match per with Some q => secs q | None => s_persist s0 end) /\
    (forall k, k <> p_sub p -> nth_error (w_subs w') k = nth_error (w_subs (fst (pick_sub w sub))) k).
Proof.
  intros w sub num a u rg per w' p W G E. unfold helper_spill in E.
  destruct (new_release num None 0) as [r0|e] eqn:NR; [|discriminate].
  set (w0 := mkWorld (w_subs w) (w_rels w ++ [r0]) (w_spills w)) in *.
  assert (W0 : wf w0) by (apply wf_app_rel; auto; eapply new_release_good; eauto).
  rewrite setup_eq in E.
  destruct (make_spill w0 sub (Some (length (w_rels w))) (Some 1000) a u 0) as [w1 [p1|e]] eqn:MK; [|discriminate].
  apply made in MK; auto. destruct MK as (M1 & M2 & M3 & M4 & _ & M5 & M6 & r & s0 & ER & ES & KG & _).
  assert (PK : w_subs (fst (pick_sub w0 sub)) = w_subs (fst (pick_sub w sub)) /\ snd (pick_sub w0 sub) = snd (pick_sub w sub))
    by (destruct sub; split; reflexivity).
  destruct PK as [PK1 PK2]. rewrite PK1 in M2. rewrite PK2 in M4.
  destruct (opt_range w1 (p_sub p1) rg) as [w2 [e|]] eqn:OR; [discriminate|].
  destruct (opt_persist w2 (p_sub p1) per) as [w3 [e|]] eqn:OP; [discriminate|].
  injection E as <- <-.
  pose proof (opt_range_shape w1 (p_sub p1) rg) as (A1 & A2 & A3). rewrite OR in A1, A2, A3. cbn [fst] in *.
  pose proof (opt_persist_shape w2 (p_sub p1) per) as (B1 & B2 & B3). rewrite OP in B1, B2, B3. cbn [fst] in *.
  assert (X2 : exists s2, nth_error (w_subs w2) (p_sub p1) = Some s2 /\ s_density s2 = s_density s0 /\
    s_range s2 = (match rg with Some l => l | None => s_range s0 end) /\ s_persist s2 = s_persist s0 /\
    forall k, k <> p_sub p1 -> nth_error (w_subs w2) k = nth_error (w_subs w1) k).
  { destruct rg as [l|]; cbn [opt_range] in OR.
    - apply set_range_ok in OR as (s & F & ->). assert (s = s0) by congruence. subst s.
      eexists. split; [cbn; eapply upd_same; eauto|]. cbn. repeat split; auto.
      intros k N. rewrite upd_other; auto.
    - injection OR as <-. exists s0. auto. }
  destruct X2 as (s2 & F2 & D2 & R2 & P2 & O2).
  assert (X3 : exists s3, nth_error (w_subs w3) (p_sub p1) = Some s3 /\ s_density s3 = s_density s2 /\
    s_range s3 = s_range s2 /\ s_persist s3 = (match per with Some q => secs q | None => s_persist s2 end) /\
    forall k, k <> p_sub p1 -> nth_error (w_subs w3) k = nth_error (w_subs w2) k).
  { destruct per as [q|]; cbn [opt_persist] in OP.
    - apply set_persist_ok in OP as (s & F & ->). assert (s = s2) by congruence. subst s.
      eexists. split; [cbn; eapply upd_same; eauto|]. cbn. repeat split; auto.
      intros k N. rewrite upd_other; auto.
    - injection OP as <-. exists s2. auto. }
  destruct X3 as (s3 & F3 & D3 & R3 & P3 & O3).
  split; [rewrite B2, A2, M1; reflexivity|]. split; [exact M3|]. split; [exact M4|]. split; [exact M5|]. split; [exact M6|].
  exists r, s3, s0. split; [rewrite B1, A1; exact ER|]. split; [exact F3|].
  split; [rewrite D3, D2; exact KG|]. split; [rewrite <- M2; exact ES|]. split; [congruence|].
  split; [congruence|]. split; [destruct per; congruence|].
  intros k N. rewrite O3, O2, M2; auto.
Qed.

Lemma helper_ok : forall w sub num a u rg per, wf w -> good_unit u -> (0 <= a)%Q ->
  match sub with Some k => (k < length (w_subs w))%nat | None => True end ->
  match num with Some n => 0 <= n | None => True end ->
  (forall l, rg = Some l -> ~ bad_range l) -> per <> Some (Seconds 0) ->
  exists w' p, helper_spill w sub num a u rg per = (w', Ok p).
Proof.
  intros w sub num a u rg per W G A SK NK RK PK. unfold helper_spill.
  destruct (new_ok num NK) as (r & r' & NR & _). rewrite NR.
  set (w0 := mkWorld (w_subs w) (w_rels w ++ [r]) (w_spills w)).
  assert (W0 : wf w0) by (apply wf_app_rel; auto; eapply new_release_good; eauto).
  assert (GS : sized u) by (destruct u; cbn in *; auto).
  rewrite setup_eq.
  destruct (make_ok w0 sub (Some (length (w_rels w))) (Some 1000) a u 0 W0 G A) as (w1 & p & MK).
  { exact SK. } { cbn. rewrite app_length. cbn. lia. }
  rewrite MK. pose proof (made _ _ _ _ _ _ _ _ _ W0 GS MK) as (_ & _ & _ & _ & _ & _ & _ & r1 & s & _ & ES & _).
  assert (X : exists w2 s2, opt_range w1 (p_sub p) rg = (w2, None) /\ nth_error (w_subs w2) (p_sub p) = Some s2).
  { destruct rg as [l|]; cbn [opt_range]; [|eauto]. unfold set_range. rewrite ES.
    assert (C : check_range (Some l) = Ok l).
    { specialize (RK l eq_refl). unfold check_range. destruct (_ || _) eqn:B; auto. exfalso. apply RK.
      apply orb_true_iff in B as [B|B].
      - right. apply existsb_exists in B as (x & I1 & I2). exists x. split; auto.
        destruct (Qle_bool 0 x) eqn:Q; [discriminate|]. apply Qnot_le_lt. intros H. apply Qle_bool_iff in H. congruence.
      - left. intros L. rewrite L in B. discriminate. }
    rewrite C. eexists _, _. split; [reflexivity|]. cbn. eapply upd_same; eauto. }
  destruct X as (w2 & s2 & -> & E2).
  assert (X : exists w3, opt_persist w2 (p_sub p) per = (w3, None)).
  { destruct per as [q|]; cbn [opt_persist]; [|eauto]. unfold set_persist. rewrite E2. unfold check_persist.
    destruct q as [n|].
    - destruct (Z.eqb_spec n 0); [subst; congruence|eauto].
    - cbn. eauto. }
  destruct X as (w3 & ->). eauto.
Qed.

(** ** Uncertainty *)

Definition factor (up : bool) (s : Q) : Q := (if up then 1 + (2 # 3) * s else 1 - (2 # 3) * s)%Q.

Lemma kg_scale : forall u d a m f, kilograms u d a m -> kilograms u d (a * f) (m * f)%Q.
Proof. intros [k|v|] d a m f E; cbn in *; auto; rewrite E; ring. Qed.

Lemma kg_fun : forall u d a m m', kilograms u d a m -> kilograms u d a m' -> (m == m')%Q.
Proof. intros [k|v|] d a m m' A B; cbn in *; [lra|lra|tauto]. Qed.

Lemma kg_back_nonneg : forall u d a m, good_unit u -> (0 < d)%Q -> kilograms u d a m -> (0 <= m)%Q -> (0 <= a)%Q.
Proof.
  intros u d a m G D E M. destruct (Qlt_le_dec a 0) as [L|L]; auto. exfalso.
  assert (X : (0 <= - a)%Q) by lra.
  assert (Y : kilograms u d (- a) (- m)%Q).
  { destruct u as [k|v|]; cbn in *; auto; rewrite E; ring. }
  pose proof (kg_nonneg u d (- a) (- m) G D X Y) as Z1.
  assert (Z2 : (m == 0)%Q) by lra.
  assert (Y0 : kilograms u d 0 0%Q) by (destruct u; cbn in *; auto; ring).
  pose proof (kg_inj u d a 0 m 0 G D E Y0 Z2). lra.
Qed.

Lemma shift_ok : forall w i p r up, wf w -> nth_error (w_spills w) i = Some p -> nth_error (w_rels w) (p_release p) = Some r ->
  (0 < p_scale p)%Q -> (p_scale p <= 1)%Q ->
  exists m, (m == l_mass r * factor up (p_scale p))%Q /\
    shift_amount w i (Some up) = (put_rel w (p_release p) (mkRel (l_num r) (l_per r) m), Ok true).
Proof.
  intros w i p r up W E ER S0 S1. destruct (wf_get w i p W E) as (r' & s & ER' & ES & GR & GS & GU).
  assert (r' = r) by congruence. subst r'.
  destruct (amount_kg w i p W E r s ER ES) as (a & A & KG).
  pose proof (kg_back_nonneg _ _ _ _ GU GS KG (proj1 GR)) as AN.
  assert (F : (0 <= factor up (p_scale p))%Q) by (unfold factor; destruct up; lra).
  assert (AF : (0 <= a * factor up (p_scale p))%Q) by (now apply Qmult_le_0_compat).
  destruct (give_ok w p r s (a * factor up (p_scale p)) ER ES GU GS AF) as (m & K1 & N & G).
  exists m. split; [eapply kg_fun; [exact K1|now apply kg_scale]|].
  unfold shift_amount. rewrite E.
  destruct (Qle_bool (p_scale p) 0) eqn:B; [apply Qle_bool_iff in B; lra|].
  destruct (Qle_bool (p_scale p) 1) eqn:C; [|apply Qle_bool_iff in S1; congruence]. cbn [negb orb]. cbv zeta.
  rewrite A. unfold factor in G. now rewrite G.
Qed.

Lemma shift_off : forall w i p dir, nth_error (w_spills w) i = Some p ->
  ((p_scale p <= 0)%Q \/ (1 < p_scale p)%Q \/ dir = None) -> shift_amount w i dir = (w, Ok false).
Proof.
  intros w i p dir E [H|[H|H]]; unfold shift_amount; rewrite E.
  - apply Qle_bool_iff in H. now rewrite H.
  - destruct (Qle_bool (p_scale p) 1) eqn:C; [apply Qle_bool_iff in C; lra|]. cbn [negb]. now rewrite orb_true_r.
  - subst dir. now destruct (_ || _).
Qed.

Lemma shifts_weigh : forall n w i p kg up, wf w -> nth_error (w_spills w) i = Some p ->
  (0 < p_scale p)%Q -> (p_scale p <= 1)%Q -> weighs w i kg ->
  weighs (run w (shifts n i (Some up))) i (kg * factor up (p_scale p) ^ Z.of_nat n)%Q.
Proof.
  induction n as [|n IH]; intros w i p kg up W E S0 S1 (p' & r & E' & ER & M).
  - cbn [shifts run]. exists p', r. repeat split; auto. cbn [Z.of_nat Qpower]. rewrite M. ring.
  - assert (p' = p) by congruence. subst p'.
    destruct (shift_ok w i p r up W E ER S0 S1) as (m & Hm & SH).
    cbn [shifts run step]. rewrite SH. cbn [fst].
    assert (GR : good_rel r) by (exact (wf_rel w W _ _ ER)).
    assert (F : (0 <= factor up (p_scale p))%Q) by (unfold factor; destruct up; lra).
    assert (N : (0 <= m)%Q) by (rewrite Hm; apply Qmult_le_0_compat; [apply GR|exact F]).
    pose proof (IH (put_rel w (p_release p) (mkRel (l_num r) (l_per r) m)) i p m up) as IH'.
    assert (X : weighs (put_rel w (p_release p) (mkRel (l_num r) (l_per r) m)) i m).
    { exists p, (mkRel (l_num r) (l_per r) m). split; [exact E|]. split; [now apply put_rel_same with (x := r)|reflexivity]. }
    assert (W' : wf (put_rel w (p_release p) (mkRel (l_num r) (l_per r) m))) by (apply wf_put_rel; auto; split; [exact N|apply GR]).
    destruct (IH' W' E S0 S1 X) as (q & r2 & A & B & C). exists q, r2. split; [exact A|]. split; [exact B|].
    rewrite C, Hm, M. rewrite Nat2Z.inj_succ.
    assert (Y : (factor up (p_scale p) ^ (Z.succ (Z.of_nat n)) == factor up (p_scale p) * factor up (p_scale p) ^ Z.of_nat n)%Q).
    { assert (NZ : ~ (factor up (p_scale p) == 0)%Q) by (unfold factor; destruct up; lra).
      unfold Z.succ. rewrite Qpower_plus; auto. cbn [Qpower Qpower_positive pow_pos]. ring. }
    rewrite Y. ring.
Qed.

(** ** The number of elements *)

Definition ones (w : world) : Prop := forall j r, nth_error (w_rels w) j = Some r -> one_of (l_num r) (l_per r).

Lemma ones_put : forall w j r, ones w -> one_of (l_num r) (l_per r) -> ones (put_rel w j r).
Proof. intros w j r H G j' r' E. cbn in E. apply upd_any in E as [[_ ->]|[_ E]]; eauto. Qed.

Lemma ones_app : forall w r ss ps, ones w -> one_of (l_num r) (l_per r) -> ones (mkWorld ss (w_rels w ++ [r]) ps).
Proof. intros w r ss ps H G j' r' E. cbn in E. apply nth_app_one in E as [E|[_ ->]]; eauto. Qed.

Lemma ones_same : forall w w', w_rels w' = w_rels w -> ones w -> ones w'.
Proof. intros w w' E H j r F. rewrite E in F. eauto. Qed.

Lemma set_num_one : forall v r r', set_num v r = Ok r' -> one_of (l_num r') (l_per r').
Proof.
  intros [n|] r r' E; cbn [set_num] in E.
  - destruct (n <? 0); [discriminate|]. injection E as <-. left. now exists n.
  - injection E as <-. right. cbn. destruct (l_per r) as [q|]; eauto.
Qed.

Lemma new_release_one : forall n p m r, new_release n p m = Ok r -> one_of (l_num r) (l_per r).
Proof.
  intros n p m r E. unfold new_release in E. destruct n, p; try discriminate; eapply set_num_one; eauto.
Qed.

Lemma ones_give : forall w p a, ones w -> ones (fst (give_amount w p a)).
Proof.
  intros w p a H. unfold give_amount.
  destruct (nth_error (w_rels w) (p_release p)) as [r|] eqn:E; [|exact H].
  destruct (nth_error (w_subs w) (p_sub p)) as [s|]; [|exact H].
  destruct (to_mass _ _ _) as [m|e]; [|exact H]. cbn [fst]. apply ones_put; auto. exact (H _ _ E).
Qed.

Lemma ones_make : forall w sub rel num a u sc, ones w -> ones (fst (make_spill w sub rel num a u sc)).
Proof.
  intros w sub rel num a u sc H. rewrite make_spill_eq.
  assert (H1 : ones (fst (pick_sub w sub))) by (destruct sub; auto).
  destruct (pick_sub w sub) as [w1 k]. cbn [fst] in H1.
  assert (H2 : ones (fst (place w1 rel num))).
  { destruct rel as [j|]; cbn [place].
    - destruct (nth_error (w_rels w1) j) as [r|]; [|exact H1]. destruct (set_num (l_num r) r) as [r'|e] eqn:E; [|exact H1].
      cbn [fst]. apply ones_put; auto. eapply set_num_one; eauto.
    - destruct (new_release num None 0) as [r|e]; [|exact H1]. destruct (set_num num r) as [r'|e] eqn:E; [|exact H1].
      cbn [fst]. apply ones_app; auto. eapply set_num_one; eauto. }
  destruct (place w1 rel num) as [w2 [j|e]]; [|exact H2]. cbn [fst] in H2.
  destruct (check_units u) as [u'|e]; [|exact H2].
  pose proof (ones_give w2 (mkSpill j k u' sc) a H2) as H3.
  destruct (give_amount w2 (mkSpill j k u' sc) a) as [w3 [e|]]; exact H3.
Qed.

Lemma ones_setup : forall w sub rel a u rg per, ones w -> ones (fst (setup_spill w sub rel a u rg per)).
Proof.
  intros w sub rel a u rg per H. rewrite setup_eq.
  pose proof (ones_make w sub (Some rel) (Some 1000) a u 0 H) as H1.
  destruct (make_spill w sub (Some rel) (Some 1000) a u 0) as [w1 [p|e]]; [|exact H1]. cbn [fst] in H1.
  pose proof (opt_range_shape w1 (p_sub p) rg) as (A1 & _). apply (ones_same w1) in A1; auto.
  destruct (opt_range w1 (p_sub p) rg) as [w2 [e|]]; [exact A1|]. cbn [fst] in A1.
  pose proof (opt_persist_shape w2 (p_sub p) per) as (B1 & _). apply (ones_same w2) in B1; auto.
  destruct (opt_persist w2 (p_sub p) per) as [w3 [e|]]; exact B1.
Qed.

Lemma ones_step : forall w o, ones w -> (forall j, o <> SetPer j None) -> ones (fst (step w o)).
Proof.
  intros w o H N.
  destruct o as [d rg p|num per m|sub rel num a u sc|sub num a u rg p|i a|i u|i sub|i q|j v|j v|j m|k rg|k p|i dir]; cbn [step].
  - destruct (new_substance d rg p); exact H.
  - destruct (new_release num per m) as [r|e] eqn:E; [|exact H]. cbn [fst]. apply ones_app; auto. eapply new_release_one; eauto.
  - pose proof (ones_make w sub rel num a u sc H) as X. destruct (make_spill w sub rel num a u sc) as [w1 [p|e]]; exact X.
  - assert (X : ones (fst (helper_spill w sub num a u rg p))).
    { unfold helper_spill. destruct (new_release num None 0) as [r|e] eqn:E; [|exact H]. apply ones_setup.
      apply ones_app; auto. eapply new_release_one; eauto. }
    destruct (helper_spill w sub num a u rg p) as [w1 [p1|e]]; exact X.
  - destruct (nth_error (w_spills w) i); [|exact H]. now apply ones_give.
  - destruct (nth_error (w_spills w) i); [|exact H]. destruct (check_units u); exact H.
  - destruct (nth_error (w_spills w) i); [|exact H].
    assert (X : ones (fst (pick_sub w sub))) by (destruct sub; exact H).
    destruct (pick_sub w sub) as [w1 k]. destruct (Nat.ltb _ _); [exact X|exact H].
  - destruct (nth_error (w_spills w) i); exact H.
  - destruct (nth_error (w_rels w) j) as [r|]; [|exact H]. destruct (set_num v r) as [r'|e] eqn:E; [|exact H].
    cbn [fst]. apply ones_put; auto. eapply set_num_one; eauto.
  - destruct (nth_error (w_rels w) j) as [r|]; [|exact H]. destruct v as [n|]; [|now elim (N j)].
    cbn [set_per fst]. apply ones_put; auto. right. now exists n.
  - destruct (nth_error (w_rels w) j) as [r|] eqn:E; [|exact H]. cbn [fst]. apply ones_put; auto. exact (H _ _ E).
  - pose proof (set_range_shape w k rg) as (A & _). now apply (ones_same w).
  - pose proof (set_persist_shape w k p) as (A & _). now apply (ones_same w).
  - assert (X : ones (fst (shift_amount w i dir))).
    { unfold shift_amount. destruct (nth_error (w_spills w) i) as [p|]; [|exact H].
      destruct (_ || _); [exact H|]. destruct dir as [up|]; [|exact H]. cbv zeta.
      destruct (amount w i) as [a|e]; [|exact H].
      match goal with |- context [give_amount w p ?b] =>
        pose proof (ones_give w p b H) as X; destruct (give_amount w p b) as [w1 [e|]] end; exact X. }
    destruct (shift_amount w i dir) as [w1 [b|e]]; exact X.
Qed.

Lemma ones_run : forall ops w, ones w -> (forall j, ~ In (SetPer j None) ops) -> ones (run w ops).
Proof.
  induction ops as [|o t IH]; intros w H N; cbn [run]; auto. apply IH.
  - apply ones_step; auto. intros j E. apply (N j). now left.
  - intros j I1. apply (N j). now right.
Qed.

(** ** What does not concern the windage of a spill leaves it *)

Definition V (w : world) (i k : nat) (rg : list Q) (n : Z) : Prop :=
  (exists p, nth_error (w_spills w) i = Some p /\ p_sub p = k) /\
  (exists s, nth_error (w_subs w) k = Some s /\ s_range s = rg /\ s_persist s = n).

Section KeptWindage.
  Variables (i k : nat) (rg : list Q) (n : Z).

  Lemma V_grow : forall w w', V w i k rg n ->
    (forall p, nth_error (w_spills w) i = Some p -> exists p', nth_error (w_spills w') i = Some p' /\ p_sub p' = p_sub p) ->
    (forall s, nth_error (w_subs w) k = Some s -> nth_error (w_subs w') k = Some s) -> V w' i k rg n.
  Proof.
    intros w w' ((p & A & B) & (s & C & D)) P S1. destruct (P p A) as (p' & E & F).
    split; [exists p'; split; congruence|]. exists s. auto.
  Qed.

  Lemma V_same : forall w w', V w i k rg n -> w_spills w' = w_spills w -> w_subs w' = w_subs w -> V w' i k rg n.
  Proof. intros w w' H A B. eapply V_grow; eauto; rewrite ?A, ?B; eauto. Qed.

  Lemma V_pick : forall w o, V w i k rg n -> V (fst (pick_sub w o)) i k rg n.
  Proof.
    intros w [x|] H; cbn [pick_sub fst]; auto. eapply V_grow; eauto; cbn; eauto.
    intros s E. now apply nth_app_l.
  Qed.

  Lemma V_make : forall w sub rel num a u sc, V w i k rg n -> V (fst (make_spill w sub rel num a u sc)) i k rg n.
  Proof.
    intros w sub rel num a u sc H. rewrite make_spill_eq.
    pose proof (V_pick w sub H) as H1. destruct (pick_sub w sub) as [w1 k1]. cbn [fst] in H1.
    assert (H2 : V (fst (place w1 rel num)) i k rg n).
    { apply (V_same w1); auto; destruct rel as [j|]; cbn [place].
      - destruct (nth_error (w_rels w1) j) as [r|]; auto. destruct (set_num (l_num r) r); auto.
      - destruct (new_release num None 0) as [r|]; auto. destruct (set_num num r); auto.
      - destruct (nth_error (w_rels w1) j) as [r|]; auto. destruct (set_num (l_num r) r); auto.
      - destruct (new_release num None 0) as [r|]; auto. destruct (set_num num r); auto. }
    destruct (place w1 rel num) as [w2 [j|e]]; [|exact H2]. cbn [fst] in H2.
    destruct (check_units u) as [u'|e]; [|exact H2].
    pose proof (give_lengths w2 (mkSpill j k1 u' sc) a) as (_ & X & Y).
    pose proof (V_same w2 _ H2 Y X) as H3.
    destruct (give_amount w2 (mkSpill j k1 u' sc) a) as [w3 [e|]]; exact H3.
  Qed.

  Lemma V_range : forall w k' r, V w i k rg n -> k' <> k -> V (fst (set_range w k' r)) i k rg n.
  Proof.
    intros w k' r H N. unfold set_range. destruct (nth_error (w_subs w) k') as [s|]; [|exact H].
    destruct (check_range r); [|exact H]. cbn [fst]. eapply V_grow; eauto; cbn; eauto.
    intros s' E. rewrite upd_other; auto.
  Qed.
  Lemma V_persist : forall w k' r, V w i k rg n -> k' <> k -> V (fst (set_persist w k' r)) i k rg n.
  Proof.
    intros w k' r H N. unfold set_persist. destruct (nth_error (w_subs w) k') as [s|]; [|exact H].
    destruct (check_persist r); [|exact H]. cbn [fst]. eapply V_grow; eauto; cbn; eauto.
    intros s' E. rewrite upd_other; auto.
  Qed.

  Lemma V_setup : forall w sub rel a u r per, V w i k rg n -> wf w -> sized u ->
    match sub with Some k' => k' <> k \/ (r = None /\ per = None) | None => True end ->
    V (fst (setup_spill w sub rel a u r per)) i k rg n.
  Proof.
    intros w sub rel a u r per H W G C. rewrite setup_eq.
    pose proof (V_make w sub (Some rel) (Some 1000) a u 0 H) as H1.
    destruct (make_spill w sub (Some rel) (Some 1000) a u 0) as [w1 [p|e]] eqn:MK; [|exact H1]. cbn [fst] in H1.
    apply made in MK as (_ & _ & _ & PS & _); auto.
    assert (C' : p_sub p <> k \/ (r = None /\ per = None)).
    { rewrite PS. destruct sub as [k'|]; cbn [pick_sub snd]; auto. left.
      destruct H as (_ & s & E & _). apply nth_lt in E. lia. }
    assert (H2 : V (fst (opt_range w1 (p_sub p) r)) i k rg n).
    { destruct r as [l|]; cbn [opt_range]; auto. destruct C' as [C'|[C' _]]; [|discriminate]. now apply V_range. }
    destruct (opt_range w1 (p_sub p) r) as [w2 [e|]]; [exact H2|]. cbn [fst] in H2.
    assert (H3 : V (fst (opt_persist w2 (p_sub p) per)) i k rg n).
    { destruct per as [l|]; cbn [opt_persist]; auto. destruct C' as [C'|[_ C']]; [|discriminate]. now apply V_persist. }
    destruct (opt_persist w2 (p_sub p) per) as [w3 [e|]]; exact H3.
  Qed.

  Lemma V_add : forall x, V (fst x) i k rg n -> V (fst (add_spill x)) i k rg n.
  Proof.
    intros [w [p|e]] H; cbn [add_spill fst] in *; auto. eapply V_grow; eauto; cbn; eauto.
    intros q E. exists q. split; auto. now apply nth_app_l.
  Qed.

  Lemma V_put_spill : forall w i' p p', V w i k rg n -> nth_error (w_spills w) i' = Some p -> (i' <> i \/ p_sub p' = p_sub p) ->
    V (put_spill w i' p') i k rg n.
  Proof.
    intros w i' p p' H E C. eapply V_grow; eauto; cbn; eauto. intros q F.
    destruct (Nat.eq_dec i' i) as [->|N].
    - exists p'. split; [eapply upd_same; eauto|]. destruct C as [C|C]; congruence.
    - exists q. rewrite upd_other; auto.
  Qed.

  Lemma V_step : forall w o, V w i k rg n -> wf w -> sensible o -> ~ concerns_windage i k o -> V (fst (step w o)) i k rg n.
  Proof.
    intros w o H W G N.
    destruct o as [d r p|num per m|sub rel num a u sc|sub num a u r p|i' a|i' u|i' sub|i' q|j v|j v|j m|k' r|k' p|i' dir];
      cbn [step concerns_windage sensible] in *.
    - destruct (new_substance d r p) as [s|e]; [|exact H]. cbn [fst]. eapply V_grow; eauto; cbn; eauto.
      intros s' E. now apply nth_app_l.
    - destruct (new_release num per m) as [x|e]; exact H.
    - apply V_add. now apply V_make.
    - apply V_add. unfold helper_spill. destruct (new_release num None 0) as [x|e] eqn:E; [|exact H].
      apply V_setup; auto.
      + apply wf_app_rel; auto. eapply new_release_good; eauto.
      + destruct sub as [k'|]; auto. destruct (Nat.eq_dec k' k) as [->|Ne]; auto. right.
        destruct r, p; auto; exfalso; apply N; split; auto; (left; discriminate) || (right; discriminate).
    - destruct (nth_error (w_spills w) i') as [p|]; [|exact H].
      pose proof (give_lengths w p a) as (_ & X & Y). exact (V_same w _ H Y X).
    - destruct (nth_error (w_spills w) i') as [p|] eqn:E; [|exact H]. destruct (check_units u); [|exact H]. cbn [fst].
      eapply V_put_spill; eauto.
    - destruct (nth_error (w_spills w) i') as [p|] eqn:E; [|exact H].
      pose proof (V_pick w sub H) as H1.
      assert (S1 : w_spills (fst (pick_sub w sub)) = w_spills w) by (destruct sub; reflexivity).
      destruct (pick_sub w sub) as [w1 k1]. cbn [fst] in *.
      destruct (Nat.ltb _ _); [|exact H]. cbn [fst]. apply V_put_spill with (p := p); [exact H1|rewrite S1; exact E|now left].
    - destruct (nth_error (w_spills w) i') as [p|] eqn:E; [|exact H]. cbn [fst]. eapply V_put_spill; eauto.
    - destruct (nth_error (w_rels w) j) as [x|]; [|exact H]. destruct (set_num v x); exact H.
    - destruct (nth_error (w_rels w) j) as [x|]; [|exact H]. destruct (set_per v x); exact H.
    - destruct (nth_error (w_rels w) j) as [x|]; exact H.
    - now apply V_range.
    - now apply V_persist.
    - assert (X : V (fst (shift_amount w i' dir)) i k rg n).
      { unfold shift_amount. destruct (nth_error (w_spills w) i') as [p|]; [|exact H].
        destruct (_ || _); [exact H|]. destruct dir as [up|]; [|exact H]. cbv zeta.
        destruct (amount w i') as [a|e]; [|exact H].
        match goal with |- context [give_amount w p ?b] =>
          pose proof (give_lengths w p b) as (_ & X & Y); pose proof (V_same w _ H Y X) as H1;
          destruct (give_amount w p b) as [w1 [e|]] end; exact H1. }
      destruct (shift_amount w i' dir) as [w1 [b|e]]; exact X.
  Qed.

  Lemma V_run : forall ops w, V w i k rg n -> wf w -> Forall sensible ops -> Forall (fun o => ~ concerns_windage i k o) ops ->
    V (run w ops) i k rg n.
  Proof.
    induction ops as [|o t IH]; intros w H W F F'; cbn [run]; auto.
    inversion F as [|? ? A B]; subst. inversion F' as [|? ? A' B']; subst.
    apply IH; auto; [now apply V_step|now apply wf_step].
  Qed.
End KeptWindage.
