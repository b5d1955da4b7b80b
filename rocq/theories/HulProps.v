(** * Properties of hulls, contours and the JSON output of spills *)

From Coq Require Import ZArith List Bool Lia Permutation.
From Verif Require Import Py PyLemmas HulModel HulSpec HulProofs.
Import ListNotations.
Open Scope Z_scope.

(** ** C214: contours around the elements of a spill *)

(** If the columns asked for are there: for each spill asked for, in order, and for each of its cutoffs, the contour
    around the elements of this spill with a value for this cutoff, with the number, colour and label of the cutoff. *)
Theorem C214_contours_partial : forall s surf visc els cs,
  (forall n st, In (n, st) cs -> t_cuts st <> [] -> columns surf visc (t_param st) = true) -> els <> [] ->
  calculate_contours s surf visc els cs = Ok (flat_map (contours_of s els) cs).
Proof.
  intros s surf visc els cs H NE. unfold calculate_contours. destruct cs as [| c cs]; [reflexivity |]. destruct els as [| e els]; [contradiction |].
  apply all_contours_ok. exact H.
Qed.
Print Assumptions C214_contours_partial.

Theorem C214_none : forall s surf visc cs, calculate_contours s surf visc [] cs = Ok [].
Proof. intros s surf visc [| c cs]; reflexivity. Qed.
Print Assumptions C214_none.

(** The elements of a contour are those for its cutoff. *)
Theorem C214_test : forall cuts i x, for_cutoff_b cuts i x = true <-> for_cutoff cuts i x.
Proof. exact for_cutoff_spec. Qed.
Print Assumptions C214_test.

(** With two cutoffs or more, in any order, every value is for one of them. *)
Theorem C214_covered_partial : forall cuts x, (2 <= length cuts)%nat -> exists i, for_cutoff cuts i x.
Proof.
  intros cuts x L.
  assert (W : forall n, (n < length cuts)%nat -> (exists i, (i < n)%nat /\ for_cutoff cuts i x) \/ (forall j, n = S j -> exists p, nth_error cuts j = Some p /\ p <= x)).
  { induction n as [| n IH]; intros Ln; [right; discriminate |]. destruct (IH ltac:(lia)) as [(i & I & F) | H]; [left; exists i; split; [lia | exact F] |].
    destruct (nth_error cuts n) as [c |] eqn:N; [| apply nth_error_None in N; lia]. destruct (Z.le_gt_cases x c) as [C | C].
    - left. exists n. split; [lia |]. split; [lia |]. split; [destruct n as [| m]; [exact I | exact (H m eq_refl)] | right; exists c; auto].
    - right. intros j Q. injection Q as <-. exists c. split; [exact N | lia]. }
  destruct cuts as [| a [| b cuts]]; try (cbn [length] in L; lia). set (all := a :: b :: cuts) in *.
  destruct (W (length all - 1)%nat) as [(i & _ & F) | H]; [cbn [length all]; subst all; cbn [length]; lia | exists i; exact F |].
  exists (length all - 1)%nat. assert (G : (2 <= length all)%nat) by exact L. split; [lia |]. split.
  - destruct (length all - 1)%nat as [| m] eqn:M; [lia | exact (H m eq_refl)].
  - left. split; lia.
Qed.
Print Assumptions C214_covered_partial.

(** With cutoffs that increase, a value that is not a cutoff is for one of them only. *)
Theorem C214_once_partial : forall cuts x i j, increasing cuts -> ~ In x cuts -> for_cutoff cuts i x -> for_cutoff cuts j x -> i = j.
Proof.
  intros cuts x. assert (W : forall i j, (i < j)%nat -> increasing cuts -> ~ In x cuts -> for_cutoff cuts i x -> for_cutoff cuts j x -> False).
  { intros i j L IN NI (I1 & _ & U) (J1 & Lo & _). destruct j as [| m]; [lia |]. destruct Lo as (p & P & Px).
    destruct U as [(_ & U) | (c & C & Cx)]; [lia |]. assert (x <> p) by (intros ->; apply NI; exact (nth_error_In _ _ P)).
    assert (c <= p); [| lia]. destruct (Nat.eq_dec i m) as [-> | D]; [rewrite C in P; injection P as ->; lia |].
    assert (c < p); [| lia]. apply (IN i m c p); [lia | exact C | exact P]. }
  intros i j IN NI A B. destruct (Nat.lt_trichotomy i j) as [L | [L | L]]; [destruct (W i j L IN NI A B) | exact L | destruct (W j i L IN NI B A)].
Qed.
Print Assumptions C214_once_partial.

(** Refuted: a value that is a cutoff, not the last, is for two of them. *)
Theorem C214_twice_refuted : forall cuts i x, increasing cuts -> nth_error cuts i = Some x -> (S i < length cuts)%nat ->
  for_cutoff cuts i x /\ for_cutoff cuts (S i) x.
Proof.
  intros cuts i x IN N L. split.
  - split; [lia |]. split; [destruct i as [| j]; [exact I |] | right; exists x; split; [exact N | lia]].
    destruct (nth_error cuts j) as [p |] eqn:P; [| apply nth_error_None in P; lia]. exists p. split; [reflexivity |].
    specialize (IN j (S j) p x (Nat.lt_succ_diag_r j) P N). lia.
  - split; [exact L |]. split; [exists x; split; [exact N | lia] |]. right.
    destruct (nth_error cuts (S i)) as [c |] eqn:C; [| apply nth_error_None in C; lia]. exists c. split; [reflexivity |].
    specialize (IN i (S i) x c (Nat.lt_succ_diag_r i) N C). lia.
Qed.
Print Assumptions C214_twice_refuted.

(** Refuted: with a single cutoff a larger value is for none, so that its element is in no contour. *)
Theorem C214_single_refuted : forall c x, c < x -> forall i, ~ for_cutoff [c] i x.
Proof.
  intros c x L i (I1 & _ & U). cbn [length] in *. destruct i as [| i]; [| lia]. destruct U as [(N & _) | (d & D & Dx)]; [contradiction |].
  cbn [nth_error] in D. injection D as <-. lia.
Qed.
Print Assumptions C214_single_refuted.

(** Refuted: contours by depth or windage, which a spill may ask for, always raise; those by viscosity or surface
    concentration if the elements do not have it. *)
Theorem C214_columns_refuted : forall s surf visc els cs n st, els <> [] -> In (n, st) cs -> t_cuts st <> [] ->
  t_param st = Depth \/ t_param st = Windage \/ (t_param st = SurfConc /\ surf = false) \/ (t_param st = Viscosity /\ visc = false) ->
  calculate_contours s surf visc els cs = Raise KeyErr.
Proof.
  intros s surf visc els cs n st NE I C P. unfold calculate_contours. destruct cs as [| c cs]; [destruct I |]. destruct els as [| e els]; [contradiction |].
  apply all_contours_key. exists n, st. split; [exact I |]. split; [exact C |].
  destruct P as [-> | [-> | [(-> & ->) | (-> & ->)]]]; reflexivity.
Qed.
Print Assumptions C214_columns_refuted.

(** ** C215: hulls around the elements *)

(** The shape around points: a hull without an area is buffered, what has none then is left out. *)
Theorem C215_drawn s ps g : area s ps = Some g <-> drawn s ps g.
Proof.
  unfold area, drawn, wide. destruct (g_kind (s_hull s ps)) eqn:K; (split; [| intros (W & [E | ([P | P] & E)]); subst g; rewrite ?K in *; try discriminate; destruct W as [W | W]; rewrite ?W; try reflexivity; discriminate]).
  - rewrite K. intros E. injection E as <-. auto.
  - rewrite K. intros E. injection E as <-. auto.
  - destruct (g_kind (s_buffer s (s_hull s ps))) eqn:B; intros E; try discriminate; injection E as <-; auto.
  - destruct (g_kind (s_buffer s (s_hull s ps))) eqn:B; intros E; try discriminate; injection E as <-; auto.
  - rewrite K. discriminate.
Qed.
Print Assumptions C215_drawn.
Example C215_drawn_meets : exists s, area s [1; 2] = Some (Geom MultiPolygon 7) /\ drawn s [1; 2] (Geom MultiPolygon 7).
Proof.
  exists (Shapes (fun _ => Geom Line 3) (fun _ => Geom MultiPolygon 7) (fun _ => Geom Else 0)). split; [reflexivity |].
  split; [right; reflexivity | right; split; [right; reflexivity | reflexivity]].
Qed.

(** By spill: one hull around the elements of each spill, in the order the spills are first seen, if it has an area; the
    spills share out the elements.  Joined: the union of these, without a number.  Not by spill: one around all. *)
Theorem C215_hulls : forall s ks, concat ks <> [] ->
  let els := concat ks in let nums := firsts (map e_num els) in
  let found := flat_map (hull_of s els) nums in
  NoDup nums /\ (forall n, In n nums <-> exists e, In e els /\ e_num e = n) /\
  Permutation (flat_map (fun n => elements_of n els) nums) els /\
  calculate_hull s ks false true = (map fst found, map snd found) /\
  calculate_hull s ks true true = ([s_union s (map fst found)], [None]) /\
  calculate_hull s ks false false = match area s (map e_pos els) with Some g => ([g], [None]) | None => ([], []) end.
Proof.
  intros s ks NE els nums found. unfold found.
  assert (CH : forall u sep, calculate_hull s ks u sep =
      let f := if sep then spill_hulls s (concat ks) (uniq [] (map e_num (concat ks)))
               else match area s (map e_pos (concat ks)) with Some g => [(g, None)] | None => [] end in
      if u then ([s_union s (map fst f)], [None]) else (map fst f, map snd f)).
  { intros u sep. unfold calculate_hull. clear -NE. destruct (concat ks); [contradiction | reflexivity]. }
  destruct (uniq_NoDup (map e_num els) []) as (ND & H). rewrite firsts_eq in *. fold nums in ND, H.
  assert (H' : forall n, In n nums <-> exists e, In e els /\ e_num e = n).
  { intros n. rewrite H, in_map_iff. split; [intros ((e & E & I) & _); exists e; auto | intros (e & I & E); split; [exists e; auto | intros []]]. }
  split; [exact ND |]. split; [exact H' |]. split.
  { apply split_perm; [exact ND |]. intros e I. apply H'. exists e. auto. }
  rewrite !CH. cbv zeta iota. fold els. rewrite spill_hulls_eq. fold nums. split; [reflexivity |]. split; [reflexivity |]. destruct (area s (map e_pos els)); reflexivity.
Qed.
Print Assumptions C215_hulls.

Theorem C215_empty : forall s ks union separate, concat ks = [] -> calculate_hull s ks union separate = ([], []).
Proof. intros s ks union separate E. unfold calculate_hull. rewrite E. reflexivity. Qed.
Print Assumptions C215_empty.

(** ** C216: the cutoffs of the spills *)

(** There is a style for exactly the spills that show contours, under their position, with the cutoffs of the colour map,
    the largest number at the end, and the colour and label at the same place. *)
Theorem C216_styles : forall any spills r, cutoff_struct any 0 spills = Ok r ->
  NoDup (map fst r) /\
  (forall j o k, nth_error spills j = Some o -> wanted any o k -> exists st, In (Z.of_nat j, st) r /\ styled k st) /\
  (forall i st, In (i, st) r -> exists j o k, i = Z.of_nat j /\ nth_error spills j = Some o /\ wanted any o k /\ styled k st).
Proof.
  intros any spills r E. destruct (struct_ok any spills 0 r E) as (H1 & H2). split; [exact (proj1 (struct_keys _ _ _ _ E)) |]. split.
  - intros j o k N W. destruct (H2 j k) as (st & S1); [exists o; auto |]. exists st. split; [| exact (style_fun k st S1)].
    apply H1. exists j, k. split; [lia |]. split; [exists o; auto | exact S1].
  - intros i st I. apply H1 in I. destruct I as (j & k & -> & (o & N & W) & S1). exists j, o, k. split; [lia |]. split; [exact N |]. split; [exact W | exact (style_fun k st S1)].
Qed.
Print Assumptions C216_styles.

(** It is refused exactly if a spill that shows contours asks for something not supported, or lacks numbers, labels or
    colours. *)
Theorem C216_refused : forall any spills, (exists r, cutoff_struct any 0 spills = Ok r) <->
  (forall j o k, nth_error spills j = Some o -> wanted any o k -> complete k).
Proof.
  intros any spills. split.
  - intros (r & E) j o k N W. destruct (struct_ok any spills 0 r E) as (_ & H2). destruct (H2 j k) as (st & S1); [exists o; auto |]. exact (style_complete k st S1).
  - intros H. apply struct_total. intros j k (o & N & W). exact (H j o k N W).
Qed.
Print Assumptions C216_refused.

(** ** C217: the JSON output of a step *)

(** One record of all elements for each container, certain and uncertain apart and in order; one list of contours for each
    certain container, by spill, none lost; the time of the step. *)
Theorem C217_records_partial : forall s bounds spills l out cs, write_output s bounds false spills l = Ok out -> cutoff_struct false 0 spills = Ok cs ->
  (forall r k, In (r, k) (combine (o_certain out) (filter (fun k => negb (k_uncertain k)) l)) \/ In (r, k) (combine (o_uncertain out) (filter k_uncertain l)) ->
     r_pos r = map e_pos (k_els k) /\ r_mass r = map (fun e => e_val e Mass) (k_els k) /\ r_num r = map e_num (k_els k) /\ r_length r = Z.of_nat (length (k_els k))) /\
  length (o_certain out) = length (filter (fun k => negb (k_uncertain k)) l) /\ length (o_uncertain out) = length (filter k_uncertain l) /\
  (forall k, l <> [] -> (forall x, In x l -> k_time x = k) -> o_time out = k) /\
  Forall2 (fun k groups => exists c, calculate_contours s (k_surf k) (k_visc k) (k_els k) cs = Ok c /\
      NoDup (map fst groups) /\ (forall n g, In (n, g) groups -> g = filter (fun x => n_spill x =? n) c) /\ Permutation (concat (map snd groups)) c)
    (filter (fun k => negb (k_uncertain k)) l) (o_contours out).
Proof.
  intros s bounds spills l out cs E C. unfold write_output in E. rewrite C in E. cbn [bind] in E.
  destruct (collect s bounds cs l l (Output 0 [] [] [] [])) as [out0 | e] eqn:Q; cbn [bind] in E; [| discriminate]. injection E as ->.
  destruct (collect_ok _ _ _ _ _ _ _ Q) as (A & B & _ & D & cts & F & G). cbn [o_certain o_uncertain o_time o_contours app] in *.
  assert (CM : forall ks r k, In (r, k) (combine (map (fun k0 => record_of (k_els k0)) ks) ks) -> r = record_of (k_els k)).
  { induction ks as [| k0 ks IH]; intros r k I; [destruct I |]. cbn [map combine] in I. destruct I as [I | I]; [injection I as <- <-; reflexivity | exact (IH r k I)]. }
  rewrite A, B, !map_length. split; [| split; [reflexivity | split; [reflexivity | split]]].
  - intros r k [I | I]; apply CM in I; subst r; repeat split.
  - intros k NE H. rewrite D. destruct (exists_last NE) as (b & x & ->). rewrite map_app. cbn [map]. rewrite last_last. apply H. apply in_or_app. right. left. reflexivity.
  - rewrite F. clear -G. induction G as [| k c ks cts K G IH]; [constructor |]. cbn [map]. constructor; [| exact IH]. exists c. split; [exact K |].
    unfold by_spill. destruct (uniq_NoDup (map n_spill c) []) as (ND & H). rewrite map_map. cbn [fst]. rewrite map_id. split; [exact ND |]. split.
    + intros n g I. apply in_map_iff in I. destruct I as (n' & E & _). injection E as <- <-. reflexivity.
    + rewrite map_map. cbn [snd]. rewrite <- flat_map_concat_map. apply split_perm; [exact ND |]. intros a I. apply H. split; [apply in_map; exact I | intros []].
Qed.
Print Assumptions C217_records_partial.

(** Refuted: with a directory for the output every step raises. *)
Theorem C217_dir_refuted : forall s bounds spills l out, write_output s bounds true spills l <> Ok out.
Proof.
  intros s bounds spills l out. unfold write_output. destruct (cutoff_struct false 0 spills); cbn [bind]; [| discriminate].
  destruct (collect _ _ _ _ _ _); cbn [bind]; discriminate.
Qed.
Print Assumptions C217_dir_refuted.

(** Refuted: the bounds of the uncertain elements are around the certain elements as well. *)
Theorem C217_bounds_refuted : forall s spills c u out, k_uncertain c = false -> k_uncertain u = true ->
  write_output s true false spills [c; u] = Ok out ->
  o_bounds out = [calculate_hull s [k_els c; k_els u] true true].
Proof.
  intros s spills c u out C U E. unfold write_output in E. destruct (cutoff_struct false 0 spills) as [cs | e]; cbn [bind] in E; [| discriminate].
  destruct (collect s true cs [c; u] [c; u] (Output 0 [] [] [] [])) as [out0 | e] eqn:Q; cbn [bind] in E; [| discriminate]. injection E as ->.
  destruct (collect_ok _ _ _ _ _ _ _ Q) as (_ & _ & B & _). rewrite B. cbn [filter]. rewrite C, U. reflexivity.
Qed.
Print Assumptions C217_bounds_refuted.

(** Without bounds asked for there are none. *)
Theorem C217_no_bounds : forall s spills dir l out, write_output s false dir spills l = Ok out -> o_bounds out = [].
Proof.
  intros s spills dir l out E. unfold write_output in E. destruct (cutoff_struct false 0 spills) as [cs | e]; cbn [bind] in E; [| discriminate].
  destruct (collect s false cs l l (Output 0 [] [] [] [])) as [out0 | e] eqn:Q; cbn [bind] in E; [| discriminate]. destruct dir; [discriminate |]. injection E as ->.
  destruct (collect_ok _ _ _ _ _ _ _ Q) as (_ & _ & B & _). exact B.
Qed.
Print Assumptions C217_no_bounds.

Example C214_meets : increasing [3; 5; 9] /\
  calculate_contours plain false false [at_pos 10 0 2; at_pos 20 0 4; at_pos 40 0 5; at_pos 80 1 4; at_pos 160 0 30]
    [(0, Style Mass [Cut 3 0 7 8; Cut 5 1 7 9; Cut 9 2 6 9])] =
  Ok [Contour 0 (Cut 3 0 7 8) (Geom Polygon 10); Contour 0 (Cut 5 1 7 9) (Geom Polygon 60); Contour 0 (Cut 9 2 6 9) (Geom Polygon 200)].
Proof.
  split; [| reflexivity]. intros i j a b L A B. destruct i as [| [| [| i]]], j as [| [| [| j]]]; try lia; cbn [nth_error] in *; try discriminate;
    try (injection A as <-; injection B as <-; lia); repeat match goal with H : nth_error [] ?n = Some _ |- _ => destruct n; discriminate H end.
Qed.
Example C215_meets : calculate_hull plain [[at_pos 10 1 2; at_pos 20 0 4]; [at_pos 40 1 5]] false true = ([Geom Polygon 50; Geom Polygon 20], [Some 1; Some 0]).
Proof. reflexivity. Qed.
Example C216_meets : cutoff_struct false 0 [None; Some (Look (Some Age) true [0; 9] [3; 5] [1; 2; 3] [4; 5; 6])] =
  Ok [(1, Style Age [Cut 3 0 4 1; Cut 5 1 5 2; Cut 9 2 6 3])].
Proof. reflexivity. Qed.
Example C217_meets : write_output plain true false [] [Container false [at_pos 10 0 1] false false 60; Container true [at_pos 5 0 1] false false 60] =
  Ok (Output 60 [Rec [10] [1] [0] 1] [[]] [Rec [5] [1] [0] 1] [([Geom MultiPolygon 15], [None])]).
Proof. reflexivity. Qed.
