(** * Properties of reading BNA files *)

From Coq Require Import ZArith List Bool Lia.
From Verif Require Import Py PyLemmas StrModel StrLemmas BnaModel BnaSpec BnaProofs.
Import ListNotations.
Open Scope Z_scope.

(** A float() for the examples: the texts of one digit. *)
Definition a_float : floats := fun s => match strip s with [c] => if (48 <=? c) && (c <=? 57) then Some (c - 48) else None | _ => None end.
Definition nl : str := [10].
Definition pt_line (a b : Z) : str := [48 + a; comma; 48 + b; 10].
Lemma pt_coord a b : 0 <= a <= 3 -> 0 <= b <= 3 -> coord_line a_float (a, b) (pt_line a b).
Proof.
  intros A B. exists [48 + a], [48 + b; 10].
  assert (a = 0 \/ a = 1 \/ a = 2 \/ a = 3) as [-> | [-> | [-> | ->]]] by lia; assert (b = 0 \/ b = 1 \/ b = 2 \/ b = 3) as [-> | [-> | [-> | ->]]] by lia;
    repeat split; cbn; unfold comma; intuition (try lia).
Qed.
Ltac line := apply pt_coord; lia.
Ltac prop := repeat split; cbn; unfold quote; intuition (try lia).
Ltac wh := intros c C; cbn in C; intuition (subst; reflexivity).

Definition tri : entry := Entry [97] [98] 4 [(0, 0); (1, 0); (0, 1); (0, 0)].
Definition lin : entry := Entry [99] [] (-3) [(1, 1); (2, 1); (1, 1)].
Definition a_file : list str :=
  nl :: header_line tri [32] nl :: [pt_line 0 0; pt_line 1 0; pt_line 0 1; pt_line 0 0] ++ nl :: header_line lin [] nl :: [pt_line 1 1; pt_line 2 1; pt_line 1 1] ++ [].
Lemma a_file_written : written a_float [tri; lin] a_file.
Proof.
  unfold a_file. apply W_blank; [wh |]. apply W_entry; [prop | wh | wh | repeat constructor; line |]. apply W_blank; [wh |].
  apply W_entry; [prop | wh | wh | repeat constructor; line |]. constructor.
Qed.

(** ** C218: what is written is read. *)
Theorem C218_read_partial flt pt es f : pt = AList \/ pt = PolygonSet -> written flt es f ->
  exists ps, read_bna flt pt f = Ok ps /\ Forall2 meant es ps.
Proof.
  intros PT W. exists (map result es). split.
  - destruct PT as [-> | ->]; cbn [read_bna]; apply (loop_written flt es f W); lia.
  - induction W as [| es l f W1 W IH | e es pad pad2 lines f P W1 W2 F W IH]; [constructor | exact IH |]. constructor; [exact (result_meant e P) | exact IH].
Qed.
Print Assumptions C218_read_partial.
Example C218_read_partial_meets : written a_float [tri; lin] a_file /\
  read_bna a_float AList a_file = Ok [Poly [(0, 0); (1, 0); (0, 1)] Polygon [97] [98]; Poly [(1, 1); (2, 1); (1, 1)] Polyline [99] []].
Proof. split; [exact a_file_written | vm_compute; reflexivity]. Qed.

(** There is one meaning only: two results that are meant by the entries are the same up to the point that is dropped. *)
Theorem C218_one_meaning e p q : proper e -> meant e p -> meant e q -> p = q.
Proof.
  intros (_ & _ & NZ & _). destruct p as [pp pk pn ps], q as [qp qk qn qs]. unfold meant; cbn [p_name p_sname p_kind p_points].
  intros (-> & -> & P1 & P2 & P3) (-> & -> & Q1 & Q2 & Q3).
  assert (e_number e = 1 \/ (e_number e < 0 \/ e_number e = 2) \/ 2 < e_number e) as [C | [C | C]] by lia.
  - destruct (P1 C) as (-> & ->), (Q1 C) as (-> & ->). reflexivity.
  - destruct (P2 C) as (-> & ->), (Q2 C) as (-> & ->). reflexivity.
  - destruct (P3 C) as (-> & [(PC & a & PE) | (PC & ->)]), (Q3 C) as (-> & [(QC & b & QE) | (QC & ->)]); try contradiction; [| reflexivity].
    rewrite PE in QE. apply app_inj_tail in QE. destruct QE as (-> & _). reflexivity.
Qed.
Print Assumptions C218_one_meaning.
Example C218_one_meaning_meets : proper tri /\ meant tri (Poly [(0, 0); (1, 0); (0, 1)] Polygon [97] [98]).
Proof.
  split; [prop |]. unfold meant, tri; cbn. repeat split; try lia. left. split; [exists (0, 0), [(1, 0); (0, 1)]; reflexivity | exists (0, 0); reflexivity].
Qed.

(** The class that is offered for the result is no function that can be called, another name is refused. *)
Theorem C218_type flt f : read_bna flt BNADataClass f = Raise TypeErr /\ read_bna flt OtherType f = Raise ValueErr.
Proof. split; reflexivity. Qed.
Print Assumptions C218_type.
Example C218_type_meets : read_bna a_float BNADataClass a_file = Raise TypeErr.
Proof. reflexivity. Qed.

(** A polygon of three written points, the last the first again, has two points only. *)
Definition thin : entry := Entry [97] [98] 3 [(0, 0); (1, 0); (0, 0)].
Theorem C218_thin_refuted : ~ (forall flt es f ps p, written flt es f -> read_bna flt AList f = Ok ps -> In p ps -> p_kind p = Polygon -> (3 <= length (p_points p))%nat).
Proof.
  intros H. specialize (H a_float [thin] (header_line thin [] nl :: [pt_line 0 0; pt_line 1 0; pt_line 0 0] ++ [])
    [Poly [(0, 0); (1, 0)] Polygon [97] [98]] (Poly [(0, 0); (1, 0)] Polygon [97] [98])).
  assert (W : written a_float [thin] (header_line thin [] nl :: [pt_line 0 0; pt_line 1 0; pt_line 0 0] ++ [])).
  { apply W_entry; [prop | wh | wh | repeat constructor; line | constructor]. }
  specialize (H W ltac:(vm_compute; reflexivity) ltac:(left; reflexivity) eq_refl). cbn in H. lia.
Qed.
Print Assumptions C218_thin_refuted.

(** ** C219: what is not written well is refused. *)
Theorem C219_only_value flt pt f e : pt = AList \/ pt = PolygonSet -> read_bna flt pt f = Raise e -> e = ValueErr.
Proof. intros [-> | ->]; cbn [read_bna]; apply loop_err; lia. Qed.
Print Assumptions C219_only_value.
Example C219_only_value_meets : read_bna a_float AList [[97; 10]] = Raise ValueErr.
Proof. vm_compute. reflexivity. Qed.

(** The file ends before the points that were announced. *)
Theorem C219_short_partial flt pt es f e pad pad2 ps lines : pt = AList \/ pt = PolygonSet -> written flt es f ->
  ~ In quote (e_name e) -> ~ In quote (e_sname e) -> white pad -> white pad2 -> Forall2 (coord_line flt) ps lines -> Z.of_nat (length lines) < Z.abs (e_number e) ->
  read_bna flt pt (f ++ header_line e pad pad2 :: lines) = Raise ValueErr.
Proof.
  intros PT W N S1 W1 W2 F L. assert (B : next flt (header_line e pad pad2 :: lines) = Raise ValueErr).
  { unfold next. rewrite (skip_nonblank _ _ quote) by (try reflexivity; left; reflexivity). rewrite (header_ok e pad pad2 N S1 W1 W2). cbn [bind snd fst]. unfold kind_of.
    destruct ((e_number e <? 0) || (e_number e =? 2)) eqn:K; cbn [bind snd fst].
    - rewrite (points_few flt ps lines F) by lia. reflexivity.
    - apply orb_false_iff in K. destruct K as (K & _). apply Z.ltb_ge in K.
      destruct (e_number e =? 1); [| destruct (2 <? e_number e); [| reflexivity]]; cbn [bind snd fst]; rewrite (points_few flt ps lines F) by lia; reflexivity. }
  destruct PT as [-> | ->]; cbn [read_bna]; apply (loop_bad flt es f _ W B); lia.
Qed.
Print Assumptions C219_short_partial.
Example C219_short_partial_meets : written a_float [tri; lin] a_file /\ read_bna a_float AList (a_file ++ [header_line tri [] nl; pt_line 0 0]) = Raise ValueErr.
Proof. split; [exact a_file_written | vm_compute; reflexivity]. Qed.

(** A number of zero points. *)
Theorem C219_zero_partial flt pt es f e pad pad2 rest : pt = AList \/ pt = PolygonSet -> written flt es f ->
  ~ In quote (e_name e) -> ~ In quote (e_sname e) -> white pad -> white pad2 -> e_number e = 0 ->
  read_bna flt pt (f ++ header_line e pad pad2 :: rest) = Raise ValueErr.
Proof.
  intros PT W N S1 W1 W2 Z0. assert (B : next flt (header_line e pad pad2 :: rest) = Raise ValueErr).
  { unfold next. rewrite (skip_nonblank _ _ quote) by (try reflexivity; left; reflexivity). rewrite (header_ok e pad pad2 N S1 W1 W2). cbn [bind snd fst]. rewrite Z0. reflexivity. }
  destruct PT as [-> | ->]; cbn [read_bna]; apply (loop_bad flt es f _ W B); lia.
Qed.
Print Assumptions C219_zero_partial.
Example C219_zero_partial_meets : read_bna a_float AList (a_file ++ [header_line (Entry [97] [98] 0 []) [] nl]) = Raise ValueErr.
Proof. vm_compute. reflexivity. Qed.

(** A line that is not blank and has fewer than four quotes where a name is due. *)
Theorem C219_header_partial flt pt es f h c rest : pt = AList \/ pt = PolygonSet -> written flt es f ->
  In c h -> space c = false -> (count_occ Z.eq_dec h quote < 4)%nat ->
  read_bna flt pt (f ++ h :: rest) = Raise ValueErr.
Proof.
  intros PT W I S1 Q. assert (B : next flt (h :: rest) = Raise ValueErr).
  { unfold next. rewrite (skip_nonblank _ _ c I S1). unfold header. assert (L := split_on_count quote h).
    destruct (split_on quote h) as [| x0 [| x1 [| x2 [| x3 [| x4 r]]]]]; try reflexivity. cbn [length] in L. lia. }
  destruct PT as [-> | ->]; cbn [read_bna]; apply (loop_bad flt es f _ W B); lia.
Qed.
Print Assumptions C219_header_partial.
Example C219_header_partial_meets : read_bna a_float AList (a_file ++ [pt_line 0 0]) = Raise ValueErr /\ (count_occ Z.eq_dec (pt_line 0 0) quote < 4)%nat.
Proof. split; [vm_compute; reflexivity | cbn; lia]. Qed.

(** A point of one number should be refused, and is read as a point with the number twice. *)
Theorem C219_one_refuted : ~ (forall flt e pad pad2 line, proper e -> white pad -> white pad2 -> ~ In comma line ->
  read_bna flt AList [header_line e pad pad2; line] = Raise ValueErr).
Proof.
  intros H. specialize (H a_float (Entry [97] [98] 1 [(0, 0)]) [] nl [51; 10]).
  assert (X : read_bna a_float AList [header_line (Entry [97] [98] 1 [(0, 0)]) [] nl; [51; 10]] = Raise ValueErr).
  { apply H; [prop | wh | wh | cbn; unfold comma; intuition lia]. }
  vm_compute in X. discriminate X.
Qed.
Print Assumptions C219_one_refuted.

(** The names without a comma before the number should be refused, or the number read; its first digit is dropped. *)
Theorem C219_comma_refuted : ~ (forall flt name sname n rest ps, ~ In quote name -> ~ In quote sname ->
  read_bna flt AList (([quote] ++ name ++ [quote; comma; quote] ++ sname ++ [quote] ++ number n ++ nl) :: rest) = Ok ps ->
  exists p, nth_error ps 0 = Some p /\ Z.of_nat (length (p_points p)) = Z.abs n).
Proof.
  intros H. destruct (H a_float [97] [98] 12 [pt_line 0 0; pt_line 1 1] [Poly [(0, 0); (1, 1)] Polyline [97] [98]]) as (p & E & L);
    [cbn; unfold quote; intuition lia | cbn; unfold quote; intuition lia | vm_compute; reflexivity |].
  injection E as <-. vm_compute in L. discriminate L.
Qed.
Print Assumptions C219_comma_refuted.
