(** * Proofs about surface concentrations, hulls and contours *)
From Coq Require Import QArith Lia Lqa Bool.
From Verif Require Import Py PyLemmas SrfModel SrfSpec.
Open Scope Z_scope.

(** ** Lists of numbers *)
Lemma qmem_in : forall x l, qmem x l = true <-> exists y, In y l /\ (x == y)%Q.
Proof.
  intros x l. unfold qmem. rewrite existsb_exists. split; intros (y & A & B); exists y; split; auto; apply Qeq_bool_iff; auto.
Qed.
(** The representatives that [distinct] counts *)
Fixpoint reps (l : list Q) : list Q := match l with [] => [] | x :: r => if qmem x r then reps r else x :: reps r end.
Lemma reps_length : forall l, length (reps l) = distinct l.
Proof. induction l as [|x l IH]; simpl; [reflexivity|]. destruct (qmem x l); simpl; auto. Qed.
Lemma reps_in : forall l x, In x (reps l) -> In x l.
Proof. induction l as [|y l IH]; simpl; intros x H; [exact H|]. destruct (qmem y l); [right; auto|]. destruct H; auto. Qed.
Lemma reps_all : forall l x, In x l -> exists y, In y (reps l) /\ (x == y)%Q.
Proof.
  induction l as [|z l IH]; intros x H; [destruct H|]. simpl. destruct H as [->|H].
  - destruct (qmem x l) eqn:E; [|exists x; split; [left; reflexivity|apply Qeq_refl]].
    apply qmem_in in E. destruct E as (y & A & B). destruct (IH y A) as (w & C & D). exists w. split; [exact C|rewrite B; exact D].
  - destruct (IH x H) as (w & C & D). exists w. split; [destruct (qmem z l); [exact C|right; exact C]|exact D].
Qed.
Definition apart (d : list Q) : Prop := forall i j x y, nth_error d i = Some x -> nth_error d j = Some y -> (x == y)%Q -> i = j.
Lemma reps_apart : forall l, apart (reps l).
Proof.
  induction l as [|z l IH]; intros i j x y A B E; [destruct i; discriminate|]. simpl in A, B. destruct (qmem z l) eqn:M; [apply (IH i j x y A B E)|].
  assert (N : forall w, In w (reps l) -> ~ (z == w)%Q).
  { intros w W Q. assert (qmem z l = true) by (apply qmem_in; exists w; split; [apply reps_in; exact W|exact Q]). congruence. }
  destruct i as [|i]; destruct j as [|j]; simpl in A, B; [reflexivity| | |f_equal; apply (IH i j x y A B E)].
  - inversion A; subst. exfalso. apply (N y); [eapply nth_error_In; exact B|exact E].
  - inversion B; subst. exfalso. apply (N x); [eapply nth_error_In; exact A|symmetry; exact E].
Qed.
(** More numbers apart than representatives do not fit (pigeonhole). *)
Lemma apart_le : forall d r, apart d -> Forall (fun x => exists y, In y r /\ (x == y)%Q) d -> (length d <= length r)%nat.
Proof.
  induction d as [|x d IH]; intros r A F; [simpl; lia|]. inversion F; subst. destruct H1 as (y & I & E).
  apply in_split in I. destruct I as (r1 & r2 & ->).
  assert (L : (length d <= length (r1 ++ r2))%nat).
  { apply IH.
    - intros i j u v P Q R. assert (S i = S j) by (apply (A (S i) (S j) u v P Q R)). lia.
    - rewrite Forall_forall in H2 |- *. intros w W. destruct (H2 w W) as (z & Z1 & Z2).
      exists z. split; [|exact Z2]. apply in_app_iff in Z1. apply in_app_iff. destruct Z1 as [Z1|[Z1|Z1]]; auto.
      subst z. exfalso. apply In_nth_error in W. destruct W as (i & W).
      assert (X : S i = 0%nat) by (apply (A (S i) 0%nat w x); [exact W|reflexivity|rewrite Z2, E; apply Qeq_refl]). discriminate. }
  rewrite app_length in *. simpl. lia.
Qed.
Lemma firstn_nth : forall (A : Type) n (l : list A) i x, nth_error (firstn n l) i = Some x -> nth_error l i = Some x.
Proof.
  intros A. induction n as [|n IH]; intros l i x H; [destruct i; discriminate|]. destruct l as [|y l]; [exact H|]. destruct i as [|i]; [exact H|].
  simpl in *. apply IH; exact H.
Qed.
Lemma distinct_at_least : forall n l, (n <= distinct l)%nat <-> at_least n l.
Proof.
  intros n l. split.
  - intros H. exists (firstn n (reps l)). split; [rewrite firstn_length, reps_length; lia|]. split.
    + intros i j x y A B E. apply (reps_apart l i j x y); [eapply firstn_nth; exact A|eapply firstn_nth; exact B|exact E].
    + apply Forall_forall. intros x I. exists x. split; [|apply Qeq_refl]. apply In_nth_error in I. destruct I as (i & I). apply firstn_nth in I. apply nth_error_In in I. apply reps_in; exact I.
  - intros (d & L & A & F). rewrite <- L, <- reps_length. apply apart_le; [exact A|].
    rewrite Forall_forall in *. intros x I. destruct (F x I) as (y & Y & E). destruct (reps_all l y Y) as (z & Z1 & Z2). exists z. split; [exact Z1|rewrite E; exact Z2].
Qed.

Lemma fold_min : forall l x, (fold_left Z.min l x <= x) /\ Forall (fun y => fold_left Z.min l x <= y) l /\ (fold_left Z.min l x = x \/ In (fold_left Z.min l x) l).
Proof.
  induction l as [|y l IH]; intros x; simpl; [split; [lia|split; [constructor|auto]]|].
  destruct (IH (Z.min x y)) as (A & B & C). split; [lia|]. split; [constructor; [lia|exact B]|].
  destruct C as [C|C]; [|auto]. rewrite C. destruct (Z.min_spec x y) as [(_ & ->)|(_ & ->)]; auto.
Qed.
Lemma fold_max : forall l x, (x <= fold_left Z.max l x) /\ Forall (fun y => y <= fold_left Z.max l x) l.
Proof.
  induction l as [|y l IH]; intros x; simpl; [split; [lia|constructor]|].
  destruct (IH (Z.max x y)) as (A & B). split; [lia|]. constructor; [lia|exact B].
Qed.
Lemma fold_max_in : forall l x, fold_left Z.max l x = x \/ In (fold_left Z.max l x) l.
Proof.
  induction l as [|y l IH]; intros x; simpl; [auto|]. destruct (IH (Z.max x y)) as [C|C]; [|auto]. rewrite C. destruct (Z.max_spec x y) as [(_ & ->)|(_ & ->)]; auto.
Qed.
Definition first_age (l : list elem) : Z := match l with [] => 0 | e :: r => zmin (e_age e) (map e_age r) end.
Definition last_age (l : list elem) : Z := match l with [] => 0 | e :: r => zmax (e_age e) (map e_age r) end.
Lemma first_age_youngest : forall l, l <> [] -> youngest l (first_age l).
Proof.
  intros [|e l] N; [congruence|]. unfold youngest, first_age, zmin. destruct (fold_min (map e_age l) (e_age e)) as (A & B & C). split.
  - destruct C as [C|C]; [exists e; split; [left; reflexivity|symmetry; exact C]|]. apply in_map_iff in C. destruct C as (x & X & I). exists x. split; [right; exact I|exact X].
  - constructor; [exact A|]. apply Forall_forall. intros x I. rewrite Forall_forall in B. apply B, in_map, I.
Qed.
Lemma last_age_max : forall l, Forall (fun e => e_age e <= last_age l) l.
Proof.
  intros [|e l]; constructor.
  - unfold last_age, zmax. apply fold_max.
  - unfold last_age, zmax. destruct (fold_max (map e_age l) (e_age e)) as (_ & B). apply Forall_forall. intros x I. rewrite Forall_forall in B. apply B, in_map, I.
Qed.
Lemma youngest_unique : forall l a b, youngest l a -> youngest l b -> a = b.
Proof.
  intros l a b ((x & X & <-) & A) ((y & Y & <-) & B). rewrite Forall_forall in A, B. specialize (A y Y). specialize (B x X). lia.
Qed.

Section Kde.
Variable cosd : Q -> Q.
Variable kde : list (Q * Q) -> option (list Q) -> option (Q * Q -> Q).
Notation kern := (kernel cosd kde).

(** The value of an element of the spill [l], computed in the bin that starts at [t] *)
Definition value (l : list elem) (t : Z) (e : elem) : Q :=
  let k := filter (fun x => e_age x <? t + bin_length) l in
  if Nat.ltb 2 (distinct (map e_lat k)) && Nat.ltb 2 (distinct (map e_lon k)) then
    match kern k with
    | None => 0%Q
    | Some f => let total := qsum (map e_mass k) in
                (if Qle_bool total 0 then f e * inject_Z (Z.of_nat (length k)) else f e * total)%Q
    end
  else 0%Q.
Definition bin_of (m age : Z) : Z := m + bin_length * ((age - m) / bin_length).

Lemma combine_map : forall (A B : Type) (f : A -> B) l, combine l (map f l) = map (fun x => (x, f x)) l.
Proof. induction l; simpl; [reflexivity|]. rewrite IHl. reflexivity. Qed.
Lemma round_value : forall l t h, (forall e, In e l -> t <= e_age e -> h e = 0%Q) ->
  round cosd kde l t (map h l) = map (fun e => if (t <=? e_age e) && (e_age e <? t + bin_length) then value l t e else h e) l.
Proof.
  intros l t h Z0. unfold round, value. cbv zeta.
  destruct (Nat.ltb 2 (distinct (map e_lat (filter (fun x => e_age x <? t + bin_length) l))) && Nat.ltb 2 (distinct (map e_lon (filter (fun x => e_age x <? t + bin_length) l)))).
  - destruct (kern (filter (fun x => e_age x <? t + bin_length) l)) as [f|].
    + rewrite combine_map, map_map. apply map_ext. intros e. rewrite (andb_comm (t <=? e_age e)). reflexivity.
    + apply map_ext_in. intros e I. destruct (t <=? e_age e) eqn:E; [|reflexivity]. destruct (e_age e <? t + bin_length); [|reflexivity]. simpl. apply Z0; [exact I|apply Z.leb_le; exact E].
  - apply map_ext_in. intros e I. destruct (t <=? e_age e) eqn:E; [|reflexivity]. destruct (e_age e <? t + bin_length); [|reflexivity]. simpl. apply Z0; [exact I|apply Z.leb_le; exact E].
Qed.

Lemma bins_value : forall l m M fuel j, Forall (fun e => m <= e_age e <= M) l -> 0 <= j <= (M - m) / bin_length + 1 -> (M - m) / bin_length + 1 - j < Z.of_nat fuel ->
  bins cosd kde fuel l M (m + bin_length * j) (map (fun e => if e_age e <? m + bin_length * j then value l (bin_of m (e_age e)) e else 0%Q) l) =
  Some (map (fun e => value l (bin_of m (e_age e)) e) l).
Proof.
  intros l m M fuel. induction fuel as [|fuel IH]; intros j A J F; [lia|].
  cbn [bins]. destruct (m + bin_length * j <=? M) eqn:E.
  - apply Z.leb_le in E. rewrite round_value.
    + replace (m + bin_length * j + bin_length) with (m + bin_length * (j + 1)) by lia.
      assert (JJ : j <= (M - m) / bin_length) by (apply Z.div_le_lower_bound; unfold bin_length in *; lia).
      rewrite <- (IH (j + 1) A) by lia. f_equal. apply map_ext_in. intros e I. rewrite Forall_forall in A. specialize (A e I).
      destruct (m + bin_length * j <=? e_age e) eqn:X; destruct (e_age e <? m + bin_length * (j + 1)) eqn:Y; cbn [andb];
        apply Z.leb_le in X || apply Z.leb_gt in X; apply Z.ltb_lt in Y || apply Z.ltb_ge in Y.
      * assert (B : bin_of m (e_age e) = m + bin_length * j).
        { unfold bin_of. f_equal. f_equal. symmetry. apply Z.div_unique with (r := e_age e - m - bin_length * j); [left; unfold bin_length in *; lia|lia]. }
        rewrite B. reflexivity.
      * destruct (e_age e <? m + bin_length * j) eqn:W; [apply Z.ltb_lt in W; lia|reflexivity].
      * destruct (e_age e <? m + bin_length * j) eqn:W; [reflexivity|apply Z.ltb_ge in W; lia].
      * unfold bin_length in *; lia.
    + intros e I L. destruct (e_age e <? m + bin_length * j) eqn:W; [apply Z.ltb_lt in W; lia|reflexivity].
  - apply Z.leb_gt in E. f_equal. apply map_ext_in. intros e I. rewrite Forall_forall in A. specialize (A e I).
    destruct (e_age e <? m + bin_length * j) eqn:W; [reflexivity|apply Z.ltb_ge in W; lia].
Qed.
Definition enough (l : list elem) (fuel : nat) : Prop := (last_age l - first_age l) / bin_length + 1 < Z.of_nat fuel.
Lemma one_spill_value : forall l fuel, enough l fuel ->
  one_spill cosd kde fuel l = Some (map (fun e => value l (bin_of (first_age l) (e_age e)) e) l).
Proof.
  intros [|e l] fuel F; [reflexivity|]. unfold one_spill. fold (first_age (e :: l)). set (L := e :: l) in *.
  change (zmax (e_age e) (map e_age l)) with (last_age L). change (zmin (e_age e) (map e_age l)) with (first_age L).
  assert (A : Forall (fun e => first_age L <= e_age e <= last_age L) L).
  { pose proof (last_age_max L) as X. destruct (first_age_youngest L) as (_ & Y); [discriminate|]. rewrite Forall_forall in *. intros x I. split; [apply Y, I|apply X, I]. }
  assert (G : first_age L <= last_age L) by (inversion A; lia).
  assert (D : 0 <= (last_age L - first_age L) / bin_length) by (apply Z.div_pos; unfold bin_length; lia).
  pose proof (bins_value L (first_age L) (last_age L) fuel 0 A ltac:(lia) ltac:(unfold enough in F; lia)) as B.
  rewrite Z.mul_0_r, Z.add_0_r in B. rewrite <- B. f_equal. apply map_ext_in. intros x I. rewrite Forall_forall in A. specialize (A x I).
  destruct (e_age x <? first_age L) eqn:W; [apply Z.ltb_lt in W; lia|reflexivity].
Qed.
Lemma scatter_map : forall s l g h, scatter s l (map h l) (map g (filter (fun e => e_spill e =? s) l)) = map (fun e => if e_spill e =? s then g e else h e) l.
Proof.
  induction l as [|e l IH]; intros g h; [reflexivity|]. cbn [map filter scatter]. destruct (e_spill e =? s); cbn [map]; rewrite IH; reflexivity.
Qed.
Definition conc (l : list elem) (e : elem) : Q :=
  value (same_spill l e) (bin_of (first_age (same_spill l e)) (e_age e)) e.
Lemma spills_value : forall l fuel ss h, (forall s, In s ss -> enough (filter (fun e => e_spill e =? s) l) fuel) ->
  spills cosd kde fuel l ss (map h l) = Some (map (fun e => if zmem (e_spill e) ss then conc l e else h e) l).
Proof.
  intros l fuel. induction ss as [|s ss IH]; intros h F; [reflexivity|]. cbn [spills]. rewrite one_spill_value by (apply F; left; reflexivity).
  rewrite scatter_map, IH by (intros x I; apply F; right; exact I). f_equal. apply map_ext. intros e. unfold zmem. cbn [existsb].
  destruct (existsb (Z.eqb (e_spill e)) ss); [rewrite orb_true_r; reflexivity|]. rewrite orb_false_r.
  destruct (e_spill e =? s) eqn:E; [|reflexivity]. apply Z.eqb_eq in E. unfold conc, same_spill. rewrite E. reflexivity.
Qed.
Lemma value_ltb : forall n l, Nat.ltb n (distinct l) = true <-> at_least (S n) l.
Proof. intros. rewrite Nat.ltb_lt. apply distinct_at_least. Qed.
Lemma conc_given : forall l e, In e l -> given kern l e (conc l e).
Proof.
  intros l e I. exists (first_age (same_spill l e)).
  assert (N : same_spill l e <> []). { intros X. assert (Y : In e (same_spill l e)) by (unfold same_spill; apply filter_In; split; [exact I|apply Z.eqb_refl]). rewrite X in Y. destruct Y. }
  split; [apply first_age_youngest; exact N|]. cbv zeta. unfold conc, value. cbv zeta. set (m := first_age (same_spill l e)).
  assert (B : bin_of m (e_age e) + bin_length = hour_end m (e_age e)) by (unfold bin_of, hour_end, bin_length; lia). rewrite B. fold (used l m e).
  set (k := used l m e). destruct (kern k) as [f|].
  - destruct (Nat.ltb 2 (distinct (map e_lat k)) && Nat.ltb 2 (distinct (map e_lon k))) eqn:D.
    + apply andb_true_iff in D. destruct D as (D1 & D2). left. split; [apply value_ltb, D1|]. split; [apply value_ltb, D2|]. destruct (Qle_bool (qsum (map e_mass k)) 0); reflexivity.
    + right. split; [|reflexivity]. apply andb_false_iff in D. destruct D as [D|D]; [left|right]; intros X; apply value_ltb in X; congruence.
  - destruct (_ && _); reflexivity.
Qed.
End Kde.

(** ** Contours *)
Lemma insideb_within : forall cs i v, insideb cs i v = true <-> within cs i v.
Proof.
  intros cs i v. unfold insideb, within. rewrite andb_true_iff. split.
  - intros (A & B). split; intros x X; rewrite X in *; apply Qle_bool_iff; assumption.
  - intros (A & B). split; [destruct (lower cs i)|destruct (upper cs i)]; try reflexivity; apply Qle_bool_iff; auto.
Qed.
Lemma filter_filter : forall (A : Type) (f g : A -> bool) l, filter f (filter g l) = filter (fun x => f x && g x) l.
Proof.
  intros A f g. induction l as [|x l IH]; [reflexivity|]. cbn [filter]. destruct (g x) eqn:G.
  - cbn [filter]. rewrite andb_true_r. rewrite IH. reflexivity.
  - rewrite andb_false_r. exact IH.
Qed.
Lemma chosen_inside : forall (P : Type) cs i prev cut (rows : list (P * Q)), nth_error cs i = Some cut ->
  (forall j, i = S j -> nth_error cs j = Some prev) -> chosen P (length cs) i prev cut rows = filter (fun x => insideb cs i (snd x)) rows.
Proof.
  intros P cs i prev cut rows N Pv. assert (L : (i < length cs)%nat) by (apply nth_error_Some; congruence). unfold chosen, insideb, lower, upper. destruct i as [|j].
  - rewrite N. change (Nat.eqb 0 0) with true. apply filter_ext. intros x. reflexivity.
  - rewrite (Pv j eq_refl), N. change (Nat.eqb (S j) 0) with false. cbv iota. destruct (Nat.eqb (S j) (length cs - 1)) eqn:E.
    + apply Nat.eqb_eq in E. assert (X : Nat.eqb (S (S j)) (length cs) = true) by (apply Nat.eqb_eq; lia).
      rewrite X. apply filter_ext. intros x. rewrite andb_true_r. reflexivity.
    + apply Nat.eqb_neq in E. assert (X : Nat.eqb (S (S j)) (length cs) = false) by (apply Nat.eqb_neq; lia).
      rewrite X. rewrite filter_filter. reflexivity.
Qed.
Lemma positions_rows : forall (P : Type) (rows : list (P * Z)) cols col s cs i,
  map fst (filter (fun x => insideb cs i (snd x)) (rows_of P (Container P rows cols) s col)) = positions_in rows col s cs i.
Proof.
  intros P rows cols. unfold rows_of. cbn [s_rows]. induction rows as [|[p s'] rows IH]; intros col s cs i; [reflexivity|]. destruct col as [|v col]; [reflexivity|].
  cbn [combine filter positions_in fst snd]. destruct (s' =? s); [|apply IH]. cbn [map filter fst snd andb]. destruct (insideb cs i v); [|apply IH].
  cbn [map fst]. rewrite IH. reflexivity.
Qed.

Section Geometry.
Variables P H : Type.
Variable concave_hull : list P -> geom H.
Variable buffer : H -> H.
Definition contour_of (s : Z) (rows : list (P * Z)) (col : list Q) (cs : list cutoff) (i : nat) : list (contour H) :=
  match nth_error cs i with
  | Some (Cutoff v (Some a) (Some b) (Some l)) =>
      match positions_in rows col s (map c_cut cs) i with
      | [] => []
      | ps => match hull_of P H concave_hull buffer ps with Some h => [Contour H s v a b l h] | None => [] end
      end
  | _ => []
  end.
Lemma loop_contours : forall s rows cols col cs todo done prev, cs = done ++ todo -> Forall complete cs ->
  (forall j, length done = S j -> nth_error (map c_cut cs) j = Some prev) ->
  loop P H concave_hull buffer s (rows_of P (Container P rows cols) s col) (length cs) (length done) prev todo =
  Ok (concat (map (contour_of s rows col cs) (seq (length done) (length todo)))).
Proof.
  intros s rows cols col cs. induction todo as [|c todo IH]; intros done prev E C Pv; [reflexivity|].
  cbn [loop length seq map concat].
  assert (N : nth_error cs (length done) = Some c) by (rewrite E, nth_error_app2, Nat.sub_diag by lia; reflexivity).
  assert (NC : nth_error (map c_cut cs) (length done) = Some (c_cut c)) by (apply map_nth_error; exact N).
  assert (CH := chosen_inside P (map c_cut cs) (length done) prev (c_cut c) (rows_of P (Container P rows cols) s col) NC Pv). rewrite map_length in CH. rewrite CH.
  assert (PR := positions_rows P rows cols col s (map c_cut cs) (length done)).
  assert (CC : complete c) by (rewrite Forall_forall in C; apply C; rewrite E; apply in_app_iff; right; left; reflexivity).
  destruct CC as (a & b & l & CC).
  assert (REST : loop P H concave_hull buffer s (rows_of P (Container P rows cols) s col) (length cs) (S (length done)) (c_cut c) todo =
     Ok (concat (map (contour_of s rows col cs) (seq (S (length done)) (length todo))))).
  { specialize (IH (done ++ [c]) (c_cut c)). rewrite app_length in IH. simpl length in IH. rewrite Nat.add_1_r in IH. apply IH; [rewrite E, <- app_assoc; reflexivity|exact C|].
    intros j J. inversion J; subst j. exact NC. }
  rewrite REST. clear REST IH. 
  assert (CO : contour_of s rows col cs (length done) = match positions_in rows col s (map c_cut cs) (length done) with
    | [] => [] | ps => match hull_of P H concave_hull buffer ps with Some h => [Contour H s (c_cut c) a b l h] | None => [] end end).
  { unfold contour_of. rewrite N. rewrite CC at 1. reflexivity. }
  rewrite CO, <- PR. assert (K1 : c_id c = Some a) by (rewrite CC; reflexivity). assert (K2 : c_color c = Some b) by (rewrite CC; reflexivity). assert (K3 : c_label c = Some l) by (rewrite CC; reflexivity).
  rewrite K1, K2, K3. clear CC. cbn [key bind].
  destruct (filter (fun x => insideb (map c_cut cs) (length done) (snd x)) (rows_of P (Container P rows cols) s col)) as [|x xs]; [reflexivity|].
  cbn [map]. destruct (hull_of P H concave_hull buffer (fst x :: map fst xs)); reflexivity.
Qed.
End Geometry.

Lemma first_above : forall cs (v : Q), (exists i c, nth_error cs i = Some c /\ (v <= c)%Q /\ forall j d, (j < i)%nat -> nth_error cs j = Some d -> (d < v)%Q) \/
  (forall j d, nth_error cs j = Some d -> (d < v)%Q).
Proof.
  induction cs as [|c cs IH]; intros v; [right; intros [|j] d X; discriminate|].
  destruct (Qlt_le_dec c v) as [L|L].
  - destruct (IH v) as [(i & d & A & B & C)|A].
    + left. exists (S i), d. split; [exact A|]. split; [exact B|]. intros [|j] e J X; [inversion X; subst; exact L|]. apply (C j); [lia|exact X].
    + right. intros [|j] d X; [inversion X; subst; exact L|apply (A j d X)].
  - left. exists 0%nat, c. split; [reflexivity|]. split; [exact L|]. intros j d J; lia.
Qed.
