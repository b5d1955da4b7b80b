(** * Proofs about BNA files *)

From Coq Require Import ZArith List Bool Lia DecimalNat.
From Verif Require Import Py PyLemmas StrModel StrLemmas BnaModel BnaSpec.
Import ListNotations.
Open Scope Z_scope.

Lemma lstrip_white a s : white a -> lstrip (a ++ s) = lstrip s.
Proof.
  induction a as [| c a IH]; intros W; [reflexivity |]. cbn [app lstrip]. rewrite (W c (or_introl eq_refl)). apply IH. intros x X. apply W. right. exact X.
Qed.

Lemma lstrip_head s : (s <> [] -> space (hd 0 s) = false) -> lstrip s = s.
Proof. destruct s as [| c t]; intros H; [reflexivity |]. cbn [lstrip]. cbn [hd] in H. rewrite H by discriminate. reflexivity. Qed.

Lemma strip_mid a s b : white a -> white b -> (s <> [] -> space (hd 0 s) = false /\ space (last s 0) = false) -> strip (a ++ s ++ b) = s.
Proof.
  intros A B H. unfold strip. rewrite (lstrip_white a _ A). destruct s as [| c t].
  - cbn [app]. assert (E : lstrip b = []).
    { rewrite <- (app_nil_r b), (lstrip_white b [] B). reflexivity. }
    rewrite E. reflexivity.
  - destruct H as (H1 & H2); [discriminate |]. rewrite (lstrip_head ((c :: t) ++ b)) by (intros _; exact H1).
    rewrite rev_app_distr, lstrip_white by (intros x X; apply B, in_rev, X). rewrite lstrip_head; [apply rev_involutive |].
    intros _. destruct (exists_last (l := c :: t)) as (r & y & E); [discriminate |]. rewrite E in *. rewrite last_last in H2. rewrite rev_app_distr. exact H2.
Qed.

Lemma strip_white a : white a -> strip a = [].
Proof. intros A. rewrite <- (app_nil_r a). apply (strip_mid a [] []); [exact A | intros x [] | congruence]. Qed.

Lemma lstrip_keeps c s : In c s -> space c = false -> In c (lstrip s).
Proof. induction s as [| x t IH]; intros I S1; [exact I |]. cbn [lstrip]. destruct (space x) eqn:E; [| exact I]. destruct I as [-> | I]; [congruence | exact (IH I S1)]. Qed.

Lemma strip_keeps c s : In c s -> space c = false -> In c (strip s).
Proof. intros I S1. unfold strip. apply in_rev. rewrite rev_involutive. apply lstrip_keeps; [| exact S1]. apply in_rev. rewrite rev_involutive. apply lstrip_keeps; assumption. Qed.

(** Numbers. *)
Lemma dec_digits d : forall acc, dec (Z.of_nat acc) (digits d) = Some (Z.of_nat (Nat.of_uint_acc d acc)).
Proof.
  induction d as [| d IH | d IH | d IH | d IH | d IH | d IH | d IH | d IH | d IH | d IH]; intros acc; [reflexivity | ..];
    cbn [digits dec Z.leb Z.compare Pos.compare Pos.compare_cont andb Nat.of_uint_acc]; rewrite <- IH; f_equal;
    rewrite ?Nat2Z.inj_succ, ?Nat.tail_mul_spec, Nat2Z.inj_mul; lia.
Qed.

Lemma str_nat_ne n : str_nat n <> [].
Proof.
  unfold str_nat. intros E. assert (Q := Unsigned.of_to n). destruct (Nat.to_uint n) eqn:U; try discriminate E. cbn in Q. subst n. discriminate U.
Qed.

Lemma decimal_nat n : decimal (str_nat n) = Some (Z.of_nat n).
Proof.
  unfold decimal. destruct (str_nat n) as [| c t] eqn:E; [destruct (str_nat_ne n E) |]. rewrite <- E. unfold str_nat.
  change 0 with (Z.of_nat 0). rewrite (dec_digits (Nat.to_uint n) 0). f_equal. f_equal. exact (Unsigned.of_to n).
Qed.

Lemma digit_space c : 48 <= c <= 57 -> space c = false.
Proof. intros H. unfold space. destruct (Z.eqb_spec c 32), (Z.leb_spec 9 c), (Z.leb_spec c 13); cbn; lia. Qed.

Lemma number_chars n c : In c (number n) -> space c = false /\ c <> quote.
Proof.
  unfold number. destruct (n <? 0); [intros [<- | I]; [split; [reflexivity | discriminate] |] | intros I]; apply str_nat_range in I; (split; [apply digit_space; exact I | unfold quote; lia]).
Qed.
Lemma number_ne n : number n <> [].
Proof. unfold number. destruct (n <? 0); [discriminate | apply str_nat_ne]. Qed.

Lemma last_In {A} (l : list A) d : l <> [] -> In (last l d) l.
Proof. intros N. destruct (exists_last N) as (r & y & ->). rewrite last_last. apply in_or_app. right. left. reflexivity. Qed.

Lemma int_number pad n : white pad -> py_int (pad ++ number n) = Some n.
Proof.
  intros W. unfold py_int. assert (E : strip (pad ++ number n) = number n).
  { rewrite <- (app_nil_r (number n)) at 1. apply strip_mid; [exact W | intros x [] |]. intros N. split.
    - destruct (number n) as [| c t] eqn:Q; [contradiction |]. apply (number_chars n). rewrite Q. left. reflexivity.
    - apply (number_chars n). apply last_In. exact N. }
  rewrite E. unfold number. destruct (Z.ltb_spec n 0) as [L | L].
  - cbn [Z.eqb Pos.eqb]. rewrite decimal_nat. cbn [option_map]. f_equal. lia.
  - destruct (str_nat (Z.to_nat n)) as [| c t] eqn:Q; [destruct (str_nat_ne _ Q) |].
    assert (C : 48 <= c <= 57) by (apply (str_nat_range (Z.to_nat n)); rewrite Q; left; reflexivity).
    destruct (Z.eqb_spec c 45); [lia |]. destruct (Z.eqb_spec c 43); [lia |]. rewrite <- Q, decimal_nat. f_equal. lia.
Qed.

(** Headers. *)
Lemma white_quote s : white s -> ~ In quote s.
Proof. intros W I. apply W in I. discriminate. Qed.

Lemma split_header name sname f4 : ~ In quote name -> ~ In quote sname -> ~ In quote f4 ->
  split_on quote ([quote] ++ name ++ [quote; comma; quote] ++ sname ++ [quote] ++ f4) = [[]; name; [comma]; sname; f4].
Proof.
  intros N S1 F. replace ([quote] ++ name ++ [quote; comma; quote] ++ sname ++ [quote] ++ f4)
    with ([] ++ quote :: (name ++ quote :: ([comma] ++ quote :: (sname ++ quote :: f4)))) by reflexivity.
  rewrite !split_app, !split_none by (first [assumption | intros [H | []]; discriminate H | intros []]). reflexivity.
Qed.

Lemma header_ok e pad pad2 : ~ In quote (e_name e) -> ~ In quote (e_sname e) -> white pad -> white pad2 ->
  header (header_line e pad pad2) = Ok (e_name e, e_sname e, e_number e).
Proof.
  intros N S1 W1 W2. unfold header, header_line.
  replace ([quote] ++ e_name e ++ [quote; comma; quote] ++ e_sname e ++ [quote; comma] ++ pad ++ number (e_number e) ++ pad2)
    with ([quote] ++ e_name e ++ [quote; comma; quote] ++ e_sname e ++ [quote] ++ (comma :: pad ++ number (e_number e) ++ pad2)) by reflexivity.
  rewrite split_header; [| assumption | assumption |].
  - assert (E : strip (comma :: pad ++ number (e_number e) ++ pad2) = comma :: pad ++ number (e_number e)).
    { replace (comma :: pad ++ number (e_number e) ++ pad2) with ([] ++ (comma :: pad ++ number (e_number e)) ++ pad2) by (cbn [app]; rewrite <- app_assoc; reflexivity).
      apply strip_mid; [intros x [] | exact W2 |]. intros _. split; [reflexivity |].
      assert (NE := number_ne (e_number e)). destruct (exists_last NE) as (r & y & Q). apply (number_chars (e_number e)). rewrite Q.
      rewrite app_comm_cons, app_assoc, last_last. apply in_or_app. right. left. reflexivity. }
    rewrite E. cbn [tl]. rewrite (int_number pad _ W1). reflexivity.
  - intros [H | I]; [discriminate H |]. apply in_app_or in I. destruct I as [I | I]; [exact (white_quote pad W1 I) |].
    apply in_app_or in I. destruct I as [I | I]; [exact (proj2 (number_chars _ _ I) eq_refl) | exact (white_quote pad2 W2 I)].
Qed.

(** Points. *)
Lemma coords_ok flt p line : coord_line flt p line -> coords flt line = Ok p.
Proof.
  intros (a & b & -> & A & B & FA & FB). unfold coords. rewrite split_app, !split_none by assumption. cbn [app floats_of]. rewrite FA, FB. destruct p. reflexivity.
Qed.

Lemma points_ok flt ps lines rest : Forall2 (coord_line flt) ps lines -> points flt (length ps) (lines ++ rest) = Ok (ps, rest).
Proof.
  induction 1 as [| p line ps lines C F IH]; [reflexivity |]. cbn [length points app]. rewrite (coords_ok _ _ _ C). cbn [bind]. rewrite IH. reflexivity.
Qed.

Lemma pair_eqb_spec a b : pair_eqb a b = true <-> a = b.
Proof. unfold pair_eqb. rewrite andb_true_iff, !Z.eqb_eq. destruct a, b. cbn [fst snd]. split; [intros (-> & ->); reflexivity | intros E; injection E; auto]. Qed.

Lemma open_ring_spec l : (2 < length l)%nat ->
  (closed l /\ exists a, l = open_ring l ++ [a]) \/ (~ closed l /\ open_ring l = l).
Proof.
  intros L. destruct l as [| p t]; [cbn [length] in L; lia |]. unfold open_ring.
  assert (NE : t <> []) by (destruct t; [cbn [length] in L; lia | discriminate]). destruct (exists_last NE) as (m & q & ->).
  rewrite app_comm_cons, last_last. rewrite removelast_last. destruct (pair_eqb p q) eqn:B.
  - left. apply pair_eqb_spec in B. subst q. split; [exists p, m; reflexivity | exists p; reflexivity].
  - right. split; [| reflexivity]. intros (p' & m' & E). cbn [app] in E. injection E as -> E. apply app_inj_tail in E. destruct E as (_ & ->).
    assert (X : pair_eqb p' p' = true) by (apply pair_eqb_spec; reflexivity). congruence.
Qed.

Definition result (e : entry) : poly :=
  if (e_number e <? 0) || (e_number e =? 2) then Poly (e_points e) Polyline (e_name e) (e_sname e)
  else if e_number e =? 1 then Poly (e_points e) Point (e_name e) (e_sname e)
  else Poly (open_ring (e_points e)) Polygon (e_name e) (e_sname e).

Lemma result_meant e : proper e -> meant e (result e).
Proof.
  intros (_ & _ & NZ & L). unfold result, meant. destruct (Z.ltb_spec (e_number e) 0), (Z.eqb_spec (e_number e) 2), (Z.eqb_spec (e_number e) 1); cbn [orb p_name p_sname p_kind p_points];
    (split; [reflexivity |]); (split; [reflexivity |]); (split; [intros; try lia; auto |]); (split; [intros; try lia; auto |]); intros; try lia.
  split; [reflexivity |]. apply open_ring_spec. lia.
Qed.

Lemma next_entry flt e pad pad2 lines f : proper e -> white pad -> white pad2 -> Forall2 (coord_line flt) (e_points e) lines ->
  next flt (header_line e pad pad2 :: lines ++ f) = Ok (Some (result e, f)).
Proof.
  intros (N & S1 & NZ & L) W1 W2 F. unfold next. assert (SB : skip_blank (header_line e pad pad2 :: lines ++ f) = header_line e pad pad2 :: lines ++ f).
  { cbn [skip_blank]. destruct (strip (header_line e pad pad2)) as [| c t] eqn:Q; [| reflexivity]. exfalso.
    assert (I : In quote (strip (header_line e pad pad2))) by (apply strip_keeps; [left; reflexivity | reflexivity]). rewrite Q in I. destruct I. }
  rewrite SB, (header_ok e pad pad2 N S1 W1 W2). cbn [bind snd fst]. unfold kind_of, result.
  assert (LP : Z.to_nat (Z.abs (e_number e)) = length (e_points e)) by lia.
  destruct (Z.ltb_spec (e_number e) 0), (Z.eqb_spec (e_number e) 2); cbn [orb bind fst snd];
    try (rewrite LP, (points_ok flt _ _ f F); reflexivity).
  assert (LP' : Z.to_nat (e_number e) = length (e_points e)) by lia.
  destruct (Z.eqb_spec (e_number e) 1); cbn [bind fst snd]; [rewrite LP', (points_ok flt _ _ f F); reflexivity |].
  destruct (Z.ltb_spec 2 (e_number e)); [| lia]. cbn [bind fst snd]. rewrite LP', (points_ok flt _ _ f F). reflexivity.
Qed.

Lemma next_blank flt l f : white l -> next flt (l :: f) = next flt f.
Proof. intros W. unfold next. cbn [skip_blank]. rewrite (strip_white l W). reflexivity. Qed.

Lemma loop_written flt es f : written flt es f -> forall fuel, (length f < fuel)%nat -> loop flt fuel f = Ok (map result es).
Proof.
  induction 1 as [| es l f W H IH | e es pad pad2 lines f P W1 W2 F H IH]; intros fuel L; (destruct fuel as [| m]; [lia |]).
  - reflexivity.
  - cbn [length] in L. specialize (IH (S m) ltac:(lia)). cbn [loop] in *. rewrite (next_blank flt l f W). exact IH.
  - cbn [loop]. rewrite (next_entry flt e pad pad2 lines f P W1 W2 F). cbn [bind]. cbn [length] in L. rewrite app_length in L.
    rewrite (IH m) by lia. reflexivity.
Qed.

(** Errors. *)
Lemma header_err h e : header h = Raise e -> e = ValueErr.
Proof.
  unfold header. destruct (split_on quote h) as [| a [| b [| c [| d [| f4 r]]]]]; try congruence. destruct (py_int (tl (strip f4))); congruence.
Qed.
Lemma coords_err flt l e : coords flt l = Raise e -> e = ValueErr.
Proof. unfold coords. destruct (floats_of flt (split_on comma l)) as [[| x [| y [| z r]]] |]; congruence. Qed.
Lemma points_err flt n : forall f e, points flt n f = Raise e -> e = ValueErr.
Proof.
  induction n as [| n IH]; intros f e E; cbn [points] in E; [discriminate |]. destruct f as [| l r]; [congruence |].
  destruct (coords flt l) as [p | e'] eqn:C; cbn [bind] in E; [| injection E as <-; exact (coords_err _ _ _ C)].
  destruct (points flt n r) as [q | e'] eqn:Q; cbn [bind] in E; [discriminate | injection E as <-; exact (IH _ _ Q)].
Qed.
Lemma points_short flt n : forall f ps r, points flt n f = Ok (ps, r) -> length f = (n + length r)%nat /\ length ps = n.
Proof.
  induction n as [| n IH]; intros f ps r E; cbn [points] in E; [injection E as <- <-; auto |]. destruct f as [| l t]; [discriminate |].
  destruct (coords flt l) as [p |]; cbn [bind] in E; [| discriminate]. destruct (points flt n t) as [(qs, q) |] eqn:Q; cbn [bind fst snd] in E; [| discriminate].
  injection E as <- <-. destruct (IH _ _ _ Q). cbn [length]. lia.
Qed.
Lemma skip_le f : (length (skip_blank f) <= length f)%nat.
Proof. induction f as [| h r IH]; [reflexivity |]. cbn [skip_blank]. destruct (strip h); cbn [length]; lia. Qed.
Lemma next_err flt f e : next flt f = Raise e -> e = ValueErr.
Proof.
  unfold next. destruct (skip_blank f) as [| h r]; [discriminate |]. destruct (header h) as [((a, b), n) |] eqn:H; cbn [bind snd]; [| intros E; injection E as <-; exact (header_err _ _ H)].
  destruct (kind_of n) as [(k, m) |] eqn:K; cbn [bind snd fst].
  - destruct (points flt (Z.to_nat m) r) as [(ps, q) |] eqn:P; cbn [bind]; [discriminate | intros E; injection E as <-; exact (points_err _ _ _ _ P)].
  - unfold kind_of in K. destruct ((n <? 0) || (n =? 2)); [discriminate |]. destruct (n =? 1); [discriminate |]. destruct (2 <? n); congruence.
Qed.
Lemma next_short flt f p r : next flt f = Ok (Some (p, r)) -> (length r < length f)%nat.
Proof.
  unfold next. assert (L := skip_le f). destruct (skip_blank f) as [| h t]; [discriminate |]. cbn [length] in L.
  destruct (header h) as [((a, b), n) |]; cbn [bind snd]; [| discriminate]. destruct (kind_of n) as [(k, m) |]; cbn [bind snd fst]; [| discriminate].
  destruct (points flt (Z.to_nat m) t) as [(ps, q) |] eqn:P; cbn [bind fst snd]; [| discriminate]. intros E. injection E as _ <-. destruct (points_short _ _ _ _ _ P). lia.
Qed.
Lemma loop_err flt fuel : forall f e, (length f < fuel)%nat -> loop flt fuel f = Raise e -> e = ValueErr.
Proof.
  induction fuel as [| m IH]; intros f e L E; [lia |]. cbn [loop] in E. destruct (next flt f) as [[(p, r) |] | e'] eqn:N; cbn [bind] in E; [| discriminate | injection E as <-; exact (next_err _ _ _ N)].
  assert (LS := next_short _ _ _ _ N). destruct (loop flt m r) as [l | e'] eqn:Q; cbn [bind] in E; [discriminate |]. injection E as <-. apply (IH r e'); [lia | exact Q].
Qed.

Lemma loop_bad flt es f bad : written flt es f -> next flt bad = Raise ValueErr -> forall fuel, (length (f ++ bad) < fuel)%nat -> loop flt fuel (f ++ bad) = Raise ValueErr.
Proof.
  intros H B. induction H as [| es l f W H IH | e es pad pad2 lines f P W1 W2 F H IH]; intros fuel L; (destruct fuel as [| m]; [lia |]).
  - cbn [app loop]. rewrite B. reflexivity.
  - cbn [length app] in *. specialize (IH (S m) ltac:(lia)). cbn [loop] in *. rewrite (next_blank flt l _ W). exact IH.
  - cbn [app length] in *. rewrite <- app_assoc in *. cbn [loop]. rewrite (next_entry flt e pad pad2 lines _ P W1 W2 F). cbn [bind]. rewrite app_length in L.
    rewrite (IH m) by lia. reflexivity.
Qed.

Lemma skip_nonblank h r c : In c h -> space c = false -> skip_blank (h :: r) = h :: r.
Proof. intros I S1. cbn [skip_blank]. destruct (strip h) as [| x t] eqn:Q; [| reflexivity]. exfalso. assert (X := strip_keeps c h I S1). rewrite Q in X. destruct X. Qed.

Lemma split_on_count c s : length (split_on c s) = S (count_occ Z.eq_dec s c).
Proof.
  induction s as [| x t IH]; [reflexivity |]. cbn [split_on count_occ]. destruct (Z.eqb_spec x c) as [-> | N]; destruct (Z.eq_dec _ _) as [E | E]; try congruence.
  - cbn [length]. rewrite IH. reflexivity.
  - destruct (split_on c t); cbn [length] in *; [discriminate IH | exact IH].
Qed.

Lemma points_few flt ps lines : Forall2 (coord_line flt) ps lines -> forall n, (length lines < n)%nat -> points flt n lines = Raise ValueErr.
Proof.
  induction 1 as [| p l ps lines C F IH]; intros n L; (destruct n as [| n]; [cbn [length] in L; lia |]); cbn [points]; [reflexivity |].
  rewrite (coords_ok _ _ _ C). cbn [bind]. cbn [length] in L. rewrite IH by lia. reflexivity.
Qed.
