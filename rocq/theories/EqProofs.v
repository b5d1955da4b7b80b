(** * Lemmas about comparing objects *)
From Coq Require Import QArith Qabs Lia Lqa PeanoNat Bool.
From Verif Require Import Py PyLemmas EqModel EqSpec.
Local Open Scope Z_scope.

(** Induction over values with hypotheses for what is inside. *)
Lemma val_ind2 : forall P : val -> Prop,
  (forall f, P (VF f)) -> (forall z, P (VI z)) -> (forall z, P (VX z)) -> (forall r c l, P (VA r c l)) ->
  (forall l, Forall P l -> P (VL l)) -> (forall l, Forall P l -> P (VC l)) ->
  (forall i fs, Forall (fun kv => P (snd kv)) fs -> P (VO i fs)) ->
  forall v, P v.
Proof.
  intros P HF HI HX HA HL HC HO. fix IH 1. intros [f|z|z|r c l|l|l|i fs].
  - apply HF.
  - apply HI.
  - apply HX.
  - apply HA.
  - apply HL. induction l; constructor; auto.
  - apply HC. induction l; constructor; auto.
  - apply HO. induction fs; constructor; auto.
Qed.

Lemma num_iff : forall v f, num v = Some f <-> number v f.
Proof.
  intros v f. split.
  - destruct v; simpl; intros H; inversion H; subst; constructor.
  - intros []; reflexivity.
Qed.
Lemma nums_iff : forall l s, nums l = Some s <-> Forall2 number l s.
Proof.
  induction l as [|v l IH]; intros s; simpl.
  - split; [ intros H; inversion H; constructor | intros H; inversion H; reflexivity ].
  - split.
    + destruct (num v) as [a|] eqn:E; [|discriminate]. destruct (nums l) as [r|] eqn:F; [|discriminate].
      intros H; inversion H; subst. constructor; [ apply num_iff; exact E | apply IH; reflexivity ].
    + intros H; inversion H; subst. apply num_iff in H2. apply IH in H4. rewrite H2, H4. reflexivity.
Qed.
Lemma table_iff : forall v r c l, table v = Some (r, c, l) <-> entries v r c l.
Proof.
  intros v r c l. split.
  - destruct v as [f|z|z|r' c' l'|l'|l'|i fs]; simpl; try discriminate; intros H.
    + inversion H; subst. apply entries_number. constructor.
    + inversion H; subst. apply entries_number. constructor.
    + inversion H; subst. constructor.
    + destruct (nums l') as [s|] eqn:E; [|discriminate]. inversion H; subst. apply entries_list, nums_iff, E.
    + destruct (nums l') as [s|] eqn:E; [|discriminate]. inversion H; subst. apply entries_coll, nums_iff, E.
  - intros H. destruct H as [r c l|v f N|l s F|l s F]; simpl.
    + reflexivity.
    + destruct N; reflexivity.
    + apply nums_iff in F. rewrite F. reflexivity.
    + apply nums_iff in F. rewrite F. reflexivity.
Qed.

Lemma common_iff : forall n m k, common n m = Some k <-> stretch n m k.
Proof.
  intros n m k. unfold common, stretch.
  destruct (n =? m)%nat eqn:E; [ apply Nat.eqb_eq in E | apply Nat.eqb_neq in E ].
  - split; [ intros H; injection H as H; lia | intros H; f_equal; lia ].
  - destruct (n =? 1)%nat eqn:F; [ apply Nat.eqb_eq in F | apply Nat.eqb_neq in F ].
    + split; [ intros H; injection H as H; lia | intros H; f_equal; lia ].
    + destruct (m =? 1)%nat eqn:G; [ apply Nat.eqb_eq in G | apply Nat.eqb_neq in G ].
      * split; [ intros H; injection H as H; lia | intros H; f_equal; lia ].
      * split; [ discriminate | lia ].
Qed.
Lemma stretch_fun : forall n m k k', stretch n m k -> stretch n m k' -> k = k'.
Proof. unfold stretch. intros. lia. Qed.

Lemma feq_iff : forall a b, feq a b = true <-> same_number a b.
Proof.
  intros a b. unfold same_number, infinite. split.
  - destruct a, b; simpl; try discriminate; intros H.
    + left. exists q, q0. repeat split. apply Qeq_bool_iff, H.
    + right. auto.
    + right. auto.
  - intros [(x & y & A & B & E)|[E [A|A]]].
    + subst. simpl. apply Qeq_bool_iff, E.
    + subst. reflexivity.
    + subst. reflexivity.
Qed.

Lemma close_iff : forall rt at_ a b, close rt at_ a b = true <-> close_to rt at_ a b.
Proof.
  intros rt at_ a b. unfold close_to, infinite. split.
  - destruct a, b; simpl; try discriminate; intros H.
    + left. exists q, q0. repeat split. apply Qle_bool_iff, H.
    + right. auto.
    + right. auto.
  - intros [(x & y & A & B & E)|[E [A|A]]].
    + subst. simpl. apply Qle_bool_iff, E.
    + subst. reflexivity.
    + subst. reflexivity.
Qed.

Lemma entry_nth : forall r c l i j, entry (r, c, l) i j = match at_place r c l i j with Some a => a | None => NaN end.
Proof.
  intros r c l i j. unfold entry, at_place.
  destruct (Nat.eq_dec r 1) as [E|E]; [ apply Nat.eqb_eq in E | apply Nat.eqb_neq in E ]; rewrite E;
  destruct (Nat.eq_dec c 1) as [F|F]; [ apply Nat.eqb_eq in F | apply Nat.eqb_neq in F | apply Nat.eqb_eq in F | apply Nat.eqb_neq in F ]; rewrite F;
  match goal with |- nth ?k _ _ = _ => generalize k end; intros k;
  destruct (nth_error l k) eqn:G;
  try (apply nth_error_nth; exact G); try (apply nth_overflow, nth_error_None; exact G).
Qed.

Lemma entry_close : forall rt at_ r c l r' c' l' i j,
  close rt at_ (entry (r, c, l) i j) (entry (r', c', l') i j) = true <->
  exists a b, at_place r c l i j = Some a /\ at_place r' c' l' i j = Some b /\ close_to rt at_ a b.
Proof.
  intros. rewrite !entry_nth. split.
  - destruct (at_place r c l i j) as [a|]; [|simpl; discriminate].
    destruct (at_place r' c' l' i j) as [b|]; [|destruct a; simpl; discriminate].
    intros H. exists a, b. repeat split. apply close_iff, H.
  - intros (a & b & A & B & E). rewrite A, B. apply close_iff, E.
Qed.

Lemma tables_close_iff : forall rt at_ r c l r' c' l',
  tables_close rt at_ (r, c, l) (r', c', l') = Ok true <->
  exists n m, stretch r r' n /\ stretch c c' m /\
    forall i j, (i < n)%nat -> (j < m)%nat ->
      exists a b, at_place r c l i j = Some a /\ at_place r' c' l' i j = Some b /\ close_to rt at_ a b.
Proof.
  intros. unfold tables_close. split.
  - destruct (common r r') as [n|] eqn:E; [|discriminate]. destruct (common c c') as [m|] eqn:F; [|discriminate].
    intros H. inversion H as [H']. exists n, m. split; [ apply common_iff, E | ]. split; [ apply common_iff, F | ].
    intros i j Hi Hj. rewrite forallb_forall in H'.
    assert (A : In i (seq 0 n)) by (apply in_seq; lia). apply H' in A. rewrite forallb_forall in A.
    assert (B : In j (seq 0 m)) by (apply in_seq; lia). apply A in B. apply entry_close in B. exact B.
  - intros (n & m & E & F & H). apply common_iff in E. apply common_iff in F. rewrite E, F. f_equal.
    apply forallb_forall. intros i Hi. apply forallb_forall. intros j Hj. apply in_seq in Hi. apply in_seq in Hj.
    apply entry_close. apply H; lia.
Qed.

Lemma allclose_iff : forall rt at_ v w, allclose rt at_ v w = Ok true <-> all_close rt at_ v w.
Proof.
  intros rt at_ v w. unfold allclose, all_close. split.
  - destruct (table v) as [[[r c] l]|] eqn:E; [|discriminate].
    destruct (table w) as [[[r' c'] l']|] eqn:F; [|discriminate].
    intros H. apply tables_close_iff in H. destruct H as (n & m & A & B & H).
    exists r, c, l, r', c', l', n, m. split; [ apply table_iff, E | ]. split; [ apply table_iff, F | ]. auto.
  - intros (r & c & l & r' & c' & l' & n & m & E & F & A & B & H).
    apply table_iff in E. apply table_iff in F. rewrite E, F. apply tables_close_iff. exists n, m. auto.
Qed.

Lemma array_iff : forall v, is_array v = true <-> an_array v.
Proof.
  intros v. split.
  - destruct v; simpl; try discriminate. intros _. unfold an_array. eauto.
  - intros (r & c & l & E). subst. reflexivity.
Qed.
Lemma float_iff : forall v, is_float v = true <-> a_float v.
Proof.
  intros v. split.
  - destruct v; simpl; try discriminate. intros _. unfold a_float. eauto.
  - intros (f & E). subst. reflexivity.
Qed.
Lemma array_not : forall v, is_array v = false <-> ~ an_array v.
Proof. intros v. rewrite <- array_iff. destruct (is_array v); split; congruence. Qed.
Lemma float_not : forall v, is_float v = false <-> ~ a_float v.
Proof. intros v. rewrite <- float_iff. destruct (is_float v); split; congruence. Qed.
Lemma size_has : forall v, has_size v (size v).
Proof.
  intros [f|z|z|r c l|l|l|i fs]; simpl; try constructor;
  try (intros (r' & c' & l' & E); discriminate); intros; split; discriminate.
Qed.
Lemma size_fun : forall v n, has_size v n -> n = size v.
Proof.
  intros v n H. destruct H as [r c l|l|l|v A B]; simpl; try reflexivity.
  destruct v as [f|z|z|r c l|l|l|i fs]; simpl; try reflexivity.
  - exfalso. apply A. exists r, c, l. reflexivity.
  - destruct (B l) as [C _]. congruence.
  - destruct (B l) as [_ C]. congruence.
Qed.

(** The message about an object with attributes: [self] pairs each value
    with the comparison of it. *)
Lemma dget_pairs : forall (g : val -> val * (val -> res bool)) k fs,
  dget k (map (fun kv => (fst kv, g (snd kv))) fs) = option_map g (dget k fs).
Proof.
  intros g k fs. induction fs as [|[a v] fs IH]; simpl; [reflexivity|].
  destruct (k =? a); [reflexivity|exact IH].
Qed.
Lemma dget_forall : forall (P : val -> Prop) k fs v,
  Forall (fun kv => P (snd kv)) fs -> dget k fs = Some v -> P v.
Proof.
  intros P k fs v F. induction F as [|[a u] fs H F IH]; simpl; [discriminate|].
  destruct (k =? a); [ intros E; inversion E; subst; exact H | exact IH ].
Qed.

Section Eq.
  Variables (rtol atol : Q) (cls : Z -> Z) (schema : Z -> list (Z * bool)) (id_name : Z).
  Notation eqv := (py_eq rtol atol cls schema id_name).
  Notation EQ := (equal rtol atol cls schema id_name).
  Notation MT := (matches rtol atol cls schema id_name).
  Notation IT := (items rtol atol cls schema id_name).
  Notation same := (attr_same rtol atol).
  Notation pairs fs := (map (fun kv => (fst kv, (snd kv, eqv (snd kv)))) fs).

  Lemma compared_iff : forall c k, In k (compared schema id_name c) <-> counts schema id_name c k.
  Proof.
    intros c k. unfold compared, counts. rewrite in_map_iff. split.
    - intros ([n t] & E & I). apply filter_In in I. simpl in *. subst n. destruct I as [I B].
      apply andb_prop in B. destruct B as [B C]. subst t. split; [exact I|].
      apply negb_true_iff, Z.eqb_neq in C. exact C.
    - intros [I N]. exists (k, true). split; [reflexivity|]. apply filter_In. split; [exact I|]. simpl.
      apply negb_true_iff, Z.eqb_neq, N.
  Qed.

  Lemma same_iff : forall v w, (eqv v w = Ok true <-> EQ v w) -> (same v (eqv v) w = Ok true <-> MT v w).
  Proof.
    intros v w IH. unfold attr_same.
    destruct (is_array v || is_array w) eqn:A.
    - assert (A' : an_array v \/ an_array w) by (apply orb_prop in A; rewrite !array_iff in A; exact A).
      destruct (size v =? size w)%nat eqn:Z.
      + apply Nat.eqb_eq in Z. split.
        * intros H. apply matches_array with (n := size v); [ exact A' | apply size_has | rewrite Z; apply size_has | ].
          apply allclose_iff. destruct (allclose rtol atol v w) as [b|[]]; congruence.
        * intros H. assert (C : all_close rtol atol v w).
          { destruct H as [v w n _ _ _ H|v w N1 N2 _ _|v w N1 N2 _ _ _]; [ exact H | | ]; exfalso; tauto. }
          apply allclose_iff in C. rewrite C. reflexivity.
      + apply Nat.eqb_neq in Z. split; [ discriminate | ]. intros H. exfalso.
        destruct H as [v w n _ S1 S2 _|v w N1 N2 _ _|v w N1 N2 _ _ _]; [ | tauto | tauto ].
        apply size_fun in S1. apply size_fun in S2. congruence.
    - apply orb_false_elim in A. destruct A as [A1 A2]. apply array_not in A1. apply array_not in A2.
      destruct (is_float v || is_float w) eqn:F.
      + assert (F' : a_float v \/ a_float w) by (apply orb_prop in F; rewrite !float_iff in F; exact F).
        split.
        * intros H. apply matches_float; auto. apply allclose_iff, H.
        * intros H. apply allclose_iff. destruct H as [v w n [B|B] _ _ _|v w _ _ _ H|v w _ _ N1 N2 _]; try tauto.
      + apply orb_false_elim in F. destruct F as [F1 F2]. apply float_not in F1. apply float_not in F2.
        split.
        * intros H. apply matches_other; auto. apply IH, H.
        * intros H. apply IH. destruct H as [v w n [B|B] _ _ _|v w _ _ [B|B] _|v w _ _ _ _ H]; try tauto.
  Qed.

  (** No difference is found just when every compared attribute is the same. *)
  Lemma diffs_nil : forall early names self other,
    diffs rtol atol early names self other = Ok [] <->
    forall k, In k names -> exists v py w, dget k self = Some (v, py) /\ dget k other = Some w /\ same v py w = Ok true.
  Proof.
    intros early names self other. induction names as [|k names IH]; simpl.
    - split; [ intros _ k [] | reflexivity ].
    - split.
      + intros H.
        destruct (dget k self) as [[v py]|] eqn:S; [|discriminate].
        destruct (dget k other) as [w|] eqn:T; [|discriminate].
        destruct (same v py w) as [[]|e] eqn:M; simpl in H; [ | | discriminate ].
        * intros k' [<-|I]; [ eauto 6 | ]. apply IH; assumption.
        * exfalso. destruct early; [discriminate|].
          destruct (diffs rtol atol false names self other); simpl in H; discriminate.
      + intros H. destruct (H k (or_introl eq_refl)) as (v & py & w & S & T & M). rewrite S, T, M. simpl.
        apply IH. intros k' I. apply H. right. exact I.
  Qed.

  Lemma diff_nil : forall early i self w,
    diff rtol atol cls schema id_name early i self w = Ok [] <->
    exists i' fs', w = VO i' fs' /\ cls i = cls i' /\
      forall k, counts schema id_name (cls i) k ->
        exists v py u, dget k self = Some (v, py) /\ dget k fs' = Some u /\ same v py u = Ok true.
  Proof.
    intros early i self w. unfold diff. split.
    - destruct w as [f|z|z|r c l|l|l|i' fs']; simpl;
        try (destruct early; [discriminate|]; destruct (diffs rtol atol false _ _ _); simpl; discriminate).
      intros H. exists i', fs'. split; [reflexivity|].
      destruct ((i =? i') || (cls i =? cls i')) eqn:B; simpl in H.
      + split.
        * apply orb_prop in B. destruct B as [B|B]; apply Z.eqb_eq in B; congruence.
        * destruct (diffs rtol atol early _ _ _) as [d|] eqn:D; simpl in H; [|discriminate].
          destruct d; simpl in H; [|discriminate]. intros k C. apply compared_iff in C.
          exact (proj1 (diffs_nil _ _ _ _) D k C).
      + exfalso. destruct early; [discriminate|]. destruct (diffs rtol atol false _ _ _); simpl in H; discriminate.
    - intros (i' & fs' & -> & C & H). rewrite C, Z.eqb_refl, orb_true_r. simpl.
      rewrite C in H. rewrite (proj2 (diffs_nil early _ self fs')); [reflexivity|].
      intros k I. apply H, compared_iff, I.
  Qed.

  Lemma all_same_iff : forall short l, Forall (fun v => forall w, eqv v w = Ok true <-> EQ v w) l ->
    forall l', length l = length l' ->
    (all_same short (map (fun a => (a, eqv a)) l) l' = Ok true <-> IT short l l').
  Proof.
    intros short l F. induction F as [|v l Hv F IH]; intros [|w l'] L; simpl in *; try discriminate.
    - split; [ constructor | reflexivity ].
    - assert (L' : length l = length l') by congruence. specialize (IH l' L').
      set (b := match v, w with VO i _, VO i' _ => if short && (i =? i') then Ok true else eqv v w | _, _ => eqv v w end).
      assert (B : b = eqv v w \/ (b = Ok true /\ short = true /\ exists i fs fs', v = VO i fs /\ w = VO i fs')).
      { unfold b. destruct v; auto. destruct w; auto. destruct short; simpl; auto.
        destruct (i =? i0) eqn:E; auto. apply Z.eqb_eq in E. subst. right. repeat split; eauto. }
      assert (Q : (do x <- b; if x : bool then all_same short (map (fun a => (a, eqv a)) l) l' else Ok false) = Ok true
                  <-> (b = Ok true /\ IT short l l')).
      { destruct b as [[]|e]; simpl; split; try tauto; try (intros; split; tauto); intros H; try discriminate; destruct H; discriminate. }
      rewrite Q. clear Q. split.
      + intros [H1 H2]. destruct B as [B|(B & -> & i & fs & fs' & -> & ->)].
        * rewrite B in H1. apply Hv in H1. constructor; assumption.
        * apply items_self. exact H2.
      + intros H. inversion H; subst.
        * split; [|assumption]. destruct B as [B|(B & _)]; [|exact B]. rewrite B. apply Hv. assumption.
        * split; [|assumption]. unfold b. simpl. rewrite Z.eqb_refl. reflexivity.
  Qed.

  Lemma items_length : forall short l l', IT short l l' -> length l = length l'.
  Proof. intros short l. induction l; intros l' H; inversion H; subst; simpl; auto. Qed.

  Lemma eq_iff : forall v w, eqv v w = Ok true <-> EQ v w.
  Proof.
    intros v. induction v as [f|z|z|r c l|l IH|l IH|i fs IH] using val_ind2; intros w.
    - split.
      + intros H. assert (N : exists g, num w = Some g /\ feq f g = true).
        { simpl in H. destruct w; simpl in *; try discriminate; inversion H; eauto. }
        destruct N as (g & N & E). apply equal_num with (a := f) (b := g); [ constructor | apply num_iff, N | apply feq_iff, E ].
      + intros H. inversion H; subst. inversion H0; subst. apply feq_iff in H2. apply num_iff in H1.
        destruct w; simpl in *; try discriminate; inversion H1; subst; rewrite H2; reflexivity.
    - split.
      + intros H. assert (N : exists g, num w = Some g /\ feq (Fin (inject_Z z)) g = true).
        { simpl in H. destruct w; simpl in *; try discriminate; inversion H; eauto. }
        destruct N as (g & N & E). apply equal_num with (a := Fin (inject_Z z)) (b := g); [ constructor | apply num_iff, N | apply feq_iff, E ].
      + intros H. inversion H; subst. inversion H0; subst. apply feq_iff in H2. apply num_iff in H1.
        cbn [py_eq]. rewrite H1. destruct w; try discriminate; rewrite H2; reflexivity.
    - split.
      + simpl. intros H. destruct w; try discriminate. inversion H as [E]. apply Z.eqb_eq in E. subst. constructor.
      + intros H. inversion H; subst; [ inversion H0 | simpl; rewrite Z.eqb_refl; reflexivity ].
    - split; [ discriminate | ]. intros H. inversion H; subst. inversion H0.
    - split.
      + simpl. intros H. destruct w as [f|z|z|r c l'|l'|l'|i fs]; try discriminate.
        destruct (length l =? length l')%nat eqn:L; [|discriminate]. apply Nat.eqb_eq in L.
        constructor. apply all_same_iff; assumption.
      + intros H. inversion H; subst; [ inversion H0 | ]. simpl. rewrite (items_length _ _ _ H1), Nat.eqb_refl.
        apply all_same_iff; [ assumption | exact (items_length _ _ _ H1) | assumption ].
    - split.
      + simpl. intros H. destruct w as [f|z|z|r c l'|l'|l'|i fs]; try discriminate.
        destruct (length l =? length l')%nat eqn:L; [|discriminate]. apply Nat.eqb_eq in L.
        constructor. apply all_same_iff; assumption.
      + intros H. inversion H; subst; [ inversion H0 | ]. simpl. rewrite (items_length _ _ _ H1), Nat.eqb_refl.
        apply all_same_iff; [ assumption | exact (items_length _ _ _ H1) | assumption ].
    - assert (P : eqv (VO i fs) w = Ok true <-> diff rtol atol cls schema id_name true i (pairs fs) w = Ok []).
      { simpl. destruct (diff rtol atol cls schema id_name true i (pairs fs) w) as [[|]|]; simpl; split; congruence. }
      rewrite P. clear P. rewrite diff_nil. split.
      + intros (i' & fs' & -> & C & H). constructor; [exact C|]. intros k K. destruct (H k K) as (v & py & u & A & B & M).
        rewrite dget_pairs with (g := fun v => (v, eqv v)) in A. destruct (dget k fs) as [v'|] eqn:E; [|discriminate].
        simpl in A. inversion A; subst. exists v, u. repeat split; try assumption.
        apply same_iff; [ | exact M ]. apply (dget_forall (fun v => forall w, eqv v w = Ok true <-> EQ v w) k fs); assumption.
      + intros H. inversion H; subst; [ inversion H0 | ].
        exists i', fs'. split; [reflexivity|]. split; [assumption|]. intros k K.
        match goal with X : forall k, counts _ _ _ k -> _ |- _ => destruct (X k K) as (v & u & A & B & M) end.
        exists v, (eqv v), u. rewrite dget_pairs with (g := fun v => (v, eqv v)), A. repeat split; try assumption.
        apply same_iff; [ | exact M ]. apply (dget_forall (fun v => forall w, eqv v w = Ok true <-> EQ v w) k fs); assumption.
  Qed.

  Lemma attr_iff : forall v w, same v (eqv v) w = Ok true <-> MT v w.
  Proof. intros v w. apply same_iff, eq_iff. Qed.
End Eq.


(** ** No exception *)
Section Total.
  Variables (rtol atol : Q) (cls : Z -> Z) (schema : Z -> list (Z * bool)) (id_name : Z) (mixed : bool).
  Notation eqv := (py_eq rtol atol cls schema id_name).
  Notation CM := (comparable cls schema id_name mixed).
  Notation CMS := (comparables cls schema id_name mixed).
  Notation same := (attr_same rtol atol).
  Notation pairs fs := (map (fun kv => (fst kv, (snd kv, eqv (snd kv)))) fs).
  Definition fine (v : val) : Prop := forall w, ~ an_array v -> CM v w -> exists b, eqv v w = Ok b.

  Lemma number_table : forall v a, number v a -> table v = Some (1%nat, 1%nat, [a]).
  Proof. intros v a []; reflexivity. Qed.

  Lemma same_fine : forall v w, fine v -> CM v w -> exists b, same v (eqv v) w = Ok b.
  Proof.
    intros v w F C. unfold attr_same. destruct (is_array v || is_array w) eqn:A.
    - assert (E : exists r c l l', v = VA r c l /\ w = VA r c l').
      { destruct C; simpl in A; try discriminate; eauto 6.
        - destruct H, H0; discriminate.
        - apply array_not in H0. apply array_not in H1. rewrite H0, H1 in A. discriminate. }
      destruct E as (r & c & l & l' & -> & ->). simpl. rewrite Nat.eqb_refl.
      unfold allclose, tables_close, common. simpl. rewrite !Nat.eqb_refl. eauto.
    - apply orb_false_elim in A. destruct A as [A1 A2]. apply array_not in A1.
      destruct (is_float v || is_float w) eqn:G.
      + assert (E : exists a b, number v a /\ number w b).
        { destruct C; simpl in G; try discriminate; eauto.
          apply float_not in H2. apply float_not in H3. rewrite H2, H3 in G. discriminate. }
        destruct E as (a & b & N & M). unfold allclose. rewrite (number_table _ _ N), (number_table _ _ M). simpl. eauto.
      + apply F; assumption.
  Qed.

  Lemma diffs_fine : forall early names self other,
    (forall k, In k names -> exists v py w b, dget k self = Some (v, py) /\ dget k other = Some w /\ same v py w = Ok b) ->
    exists d, diffs rtol atol early names self other = Ok d.
  Proof.
    intros early names self other. induction names as [|k names IH]; simpl; intros H; [eauto|].
    destruct (H k (or_introl eq_refl)) as (v & py & w & b & S & T & M). rewrite S, T, M. simpl.
    destruct IH as [d D]; [ intros; apply H; auto | ].
    destruct b; [eauto|]. destruct early; [eauto|]. rewrite D. simpl. eauto.
  Qed.

  Lemma obj_fine : forall early i fs i' fs', Forall (fun kv => fine (snd kv)) fs -> cls i = cls i' -> CM (VO i fs) (VO i' fs') ->
    exists d, diff rtol atol cls schema id_name early i (pairs fs) (VO i' fs') = Ok d.
  Proof.
    intros early i fs i' fs' F C H. unfold diff. rewrite C, Z.eqb_refl, orb_true_r. simpl.
    assert (K : forall k, counts schema id_name (cls i) k -> exists v w, dget k fs = Some v /\ dget k fs' = Some w /\ CM v w).
    { inversion H; subst.
      - match goal with X : number (VO _ _) _ |- _ => inversion X end.
      - destruct H0 as [[z E]|[z E]]; discriminate.
      - congruence.
      - assumption. }
    destruct (diffs_fine early (compared schema id_name (cls i')) (pairs fs) fs') as [d D].
    - intros k I. apply compared_iff in I. rewrite <- C in I. destruct (K k I) as (v & w & A & B & M).
      assert (Fv : fine v) by (apply (dget_forall fine k fs); assumption).
      destruct (same_fine v w Fv M) as [b E]. exists v, (eqv v), w, b.
      rewrite dget_pairs with (g := fun v => (v, eqv v)), A. auto.
    - rewrite D. simpl. eauto.
  Qed.

  Lemma list_fine : forall short l l', Forall fine l -> CMS l l' ->
    exists b, all_same short (map (fun a => (a, eqv a)) l) l' = Ok b.
  Proof.
    intros short l l' F. revert l'. induction F as [|v l Fv F IH]; intros l' H.
    - simpl. eauto.
    - inversion H; subst; simpl; [eauto|].
      destruct (Fv w) as [b B]; [assumption|assumption|]. destruct (IH l'0) as [d D]; [assumption|].
      rewrite B, D. destruct v; try (destruct b; simpl; eauto; fail).
      destruct w; try (destruct b; simpl; eauto; fail).
      destruct (short && (i =? i0)); destruct b; simpl; eauto.
  Qed.

  Lemma eq_fine : forall v, fine v.
  Proof.
    intros v. induction v as [f|z|z|r c l|l IH|l IH|i fs IH] using val_ind2; intros w NA C.
    - simpl. destruct w; eauto. exfalso. inversion C; subst.
      + match goal with X : number (VA _ _ _) _ |- _ => inversion X end.
      + match goal with X : ~ an_array (VA _ _ _) |- _ => apply X; unfold an_array; eauto end.
    - simpl. destruct w; eauto. exfalso. inversion C; subst.
      + match goal with X : number (VA _ _ _) _ |- _ => inversion X end.
      + match goal with X : ~ an_array (VA _ _ _) |- _ => apply X; unfold an_array; eauto end.
    - simpl. destruct w; eauto. exfalso. inversion C; subst.
      + match goal with X : number (VA _ _ _) _ |- _ => inversion X end.
      + match goal with X : ~ an_array (VA _ _ _) |- _ => apply X; unfold an_array; eauto end.
    - exfalso. apply NA. unfold an_array. eauto.
    - inversion C; subst.
      + inversion H.
      + destruct w; simpl; eauto.
        * exfalso. apply H1. unfold an_array. eauto.
        * destruct H as [[z E]|[z E]]; discriminate.
      + simpl. destruct (length l =? length l')%nat; [ apply list_fine; assumption | eauto ].
    - inversion C; subst.
      + inversion H.
      + destruct w; simpl; eauto. destruct H as [[z E]|[z E]]; discriminate.
      + simpl. destruct (length l =? length l')%nat; [ apply list_fine; assumption | eauto ].
    - assert (P : forall i' fs', w = VO i' fs' -> cls i = cls i' -> exists b, eqv (VO i fs) w = Ok b).
      { intros i' fs' -> E. destruct (obj_fine true i fs i' fs' IH E C) as [d D]. simpl. rewrite D. simpl. eauto. }
      inversion C; subst.
      + match goal with X : number (VO _ _) _ |- _ => inversion X end.
      + destruct w; try (simpl; eauto; fail). destruct H as [[z E]|[z E]]; discriminate.
      + simpl. unfold diff. assert (B : (i =? i') = false) by (apply Z.eqb_neq; congruence).
        match goal with X : cls _ <> cls _ |- _ => apply Z.eqb_neq in X; rewrite B, X end. simpl. eauto.
      + eapply P; [reflexivity|assumption].
  Qed.
End Total.

(** ** Copies *)
Section Copy.
  Variables (rtol atol : Q) (cls : Z -> Z) (schema : Z -> list (Z * bool)) (id_name : Z).
  Hypotheses (rtol_pos : (0 <= rtol)%Q) (atol_pos : (0 <= atol)%Q).
  Notation EQ := (equal rtol atol cls schema id_name).
  Notation MT := (matches rtol atol cls schema id_name).
  Notation IT := (items rtol atol cls schema id_name).
  Notation CP := (copy cls schema id_name).
  Notation CPS := (copies cls schema id_name).

  Lemma close_refl : forall a, a <> NaN -> close_to rtol atol a a.
  Proof.
    intros [q| | |] N; [ | right; split; [reflexivity|left; reflexivity] | right; split; [reflexivity|right; reflexivity] | congruence ].
    left. exists q, q. split; [reflexivity|]. split; [reflexivity|].
    setoid_replace (q - q)%Q with 0%Q by ring. change (Qabs 0) with 0%Q.
    assert (A : (0 <= rtol * Qabs q)%Q) by (apply Qmult_le_0_compat; [assumption|apply Qabs_nonneg]). lra.
  Qed.
  Lemma same_refl : forall a, a <> NaN -> same_number a a.
  Proof.
    intros [q| | |] N; [ | right; split; [reflexivity|left; reflexivity] | right; split; [reflexivity|right; reflexivity] | congruence ].
    left. exists q, q. repeat split.
  Qed.

  Lemma place_in : forall r c l i j, length l = (r * c)%nat -> (i < r)%nat -> (j < c)%nat -> exists a, at_place r c l i j = Some a /\ In a l.
  Proof.
    intros r c l i j L Hi Hj. unfold at_place.
    set (k := ((if Nat.eq_dec r 1 then 0 else i) * c + (if Nat.eq_dec c 1 then 0 else j))%nat).
    assert (K : (k < length l)%nat).
    { unfold k. destruct (Nat.eq_dec r 1), (Nat.eq_dec c 1); nia. }
    destruct (nth_error l k) as [a|] eqn:E.
    - exists a. split; [reflexivity|]. apply nth_error_In in E. exact E.
    - apply nth_error_None in E. lia.
  Qed.

  Lemma copy_matches : forall v w, (~ an_array v -> CP v w -> EQ v w) -> CP v w -> MT v w.
  Proof.
    intros v w IH C. destruct (is_array v) eqn:A.
    - destruct v; try discriminate. inversion C; subst.
      apply matches_array with (n := (r * c)%nat); [ left; unfold an_array; eauto | constructor | constructor | ].
      exists r, c, l, r, c, l, r, c.
      split; [constructor|]. split; [constructor|]. split; [left; auto|]. split; [left; auto|].
      intros i j Hi Hj. match goal with L : length l = _ |- _ => destruct (place_in r c l i j L Hi Hj) as (a & P & I) end.
      exists a, a. split; [exact P|]. split; [exact P|]. apply close_refl. congruence.
    - assert (A' : is_array w = false) by (destruct C; try discriminate; reflexivity).
      apply array_not in A. apply array_not in A'. destruct (is_float v) eqn:F.
      + destruct v; try discriminate. inversion C; subst.
        apply matches_float; auto; [ left; unfold a_float; eauto | ].
        exists 1%nat, 1%nat, [f], 1%nat, 1%nat, [f], 1%nat, 1%nat.
        split; [apply entries_number; constructor|]. split; [apply entries_number; constructor|].
        split; [left; auto|]. split; [left; auto|]. intros i j Hi Hj. exists f, f. split; [reflexivity|]. split; [reflexivity|].
        apply close_refl. assumption.
      + assert (F' : is_float w = false) by (destruct C; try discriminate; reflexivity).
        apply float_not in F. apply float_not in F'. apply matches_other; auto.
  Qed.

  Lemma copies_items : forall short l l', Forall (fun v => forall w, ~ an_array v -> CP v w -> EQ v w) l -> CPS l l' -> IT short l l'.
  Proof.
    intros short l l' F. revert l'. induction F as [|v l Fv F IH]; intros l' H; inversion H; subst; constructor; auto.
  Qed.

  Lemma copy_equal : forall v w, ~ an_array v -> CP v w -> EQ v w.
  Proof.
    intros v. induction v as [f|z|z|r c l|l IH|l IH|i fs IH] using val_ind2; intros w NA C.
    - inversion C; subst. apply equal_num with (a := f) (b := f); [constructor|constructor|]. apply same_refl. assumption.
    - inversion C; subst. eapply equal_num; [constructor|constructor|]. apply same_refl. discriminate.
    - inversion C; subst. constructor.
    - exfalso. apply NA. unfold an_array. eauto.
    - inversion C; subst. constructor. apply copies_items; assumption.
    - inversion C; subst. constructor. apply copies_items; assumption.
    - inversion C; subst. constructor; [assumption|]. intros k K.
      match goal with X : forall k, counts _ _ _ k -> _ |- _ => destruct (X k K) as (v & w & A & B & M) end.
      exists v, w. split; [exact A|]. split; [exact B|]. apply copy_matches; [|exact M].
      intros N _. apply (dget_forall (fun v => forall w, ~ an_array v -> CP v w -> EQ v w) k fs v IH A); assumption.
  Qed.
End Copy.

(** ** Symmetry, transitivity, other tolerances *)
Lemma stretch_sym : forall n m k, stretch n m k -> stretch m n k.
Proof. unfold stretch. intros. lia. Qed.

Lemma all_close_map : forall rt at_ rt' at_' v w, (forall a b, close_to rt at_ a b -> close_to rt' at_' a b) ->
  all_close rt at_ v w -> all_close rt' at_' v w.
Proof.
  intros rt at_ rt' at_' v w H (r & c & l & r' & c' & l' & n & m & E & F & A & B & K).
  exists r, c, l, r', c', l', n, m. repeat (split; [assumption|]). intros i j Hi Hj.
  destruct (K i j Hi Hj) as (a & b & P & Q & C). exists a, b. auto.
Qed.
Lemma all_close_flip : forall rt at_ rt' at_' v w, (forall a b, close_to rt at_ a b -> close_to rt' at_' b a) ->
  all_close rt at_ v w -> all_close rt' at_' w v.
Proof.
  intros rt at_ rt' at_' v w H (r & c & l & r' & c' & l' & n & m & E & F & A & B & K).
  exists r', c', l', r, c, l, n, m. split; [assumption|]. split; [assumption|].
  split; [apply stretch_sym; assumption|]. split; [apply stretch_sym; assumption|]. intros i j Hi Hj.
  destruct (K i j Hi Hj) as (a & b & P & Q & C). exists b, a. auto.
Qed.
Lemma same_number_sym : forall a b, same_number a b -> same_number b a.
Proof.
  intros a b [(x & y & A & B & E)|[E I]].
  - left. exists y, x. repeat split; try assumption. symmetry. exact E.
  - right. subst. auto.
Qed.
Lemma same_number_trans : forall a b c, same_number a b -> same_number b c -> same_number a c.
Proof.
  intros a b c [(x & y & -> & -> & E)|[<- I]]; [|auto].
  intros [(y' & z & P & -> & F)|[P [I|I]]]; [ | subst; discriminate | discriminate ].
  inversion P; subst. left. exists x, z. repeat split. rewrite E. exact F.
Qed.
Lemma number_fun : forall v a b, number v a -> number v b -> a = b.
Proof. intros v a b H K. inversion H; subst; inversion K; reflexivity. Qed.

Section Change.
  Variables (rt at_ rt' at_' : Q) (cls : Z -> Z) (schema : Z -> list (Z * bool)) (id_name : Z).
  Notation EQ := (equal rt at_ cls schema id_name).
  Notation EQ' := (equal rt' at_' cls schema id_name).
  Notation MT := (matches rt at_ cls schema id_name).
  Notation MT' := (matches rt' at_' cls schema id_name).
  Notation IT := (items rt at_ cls schema id_name).
  Notation IT' := (items rt' at_' cls schema id_name).
  Notation EX := (exact cls schema id_name).

  Lemma equal_weaken : (forall a b, close_to rt at_ a b -> close_to rt' at_' a b) -> forall v w, EQ v w -> EQ' v w.
  Proof.
    intros CL v. induction v as [f|z|z|r c l|l IH|l IH|i fs IH] using val_ind2; intros w H.
    - inversion H; subst. eapply equal_num; eassumption.
    - inversion H; subst. eapply equal_num; eassumption.
    - inversion H; subst; [ eapply equal_num; eassumption | constructor ].
    - inversion H; subst. eapply equal_num; eassumption.
    - inversion H; subst; [ eapply equal_num; eassumption | ]. constructor. clear H. revert l' H1.
      induction IH as [|v l Hv IH IHl]; intros l' H; inversion H; subst; first [ apply items_nil | apply items_cons; solve [auto] | apply items_self; solve [auto] ].
    - inversion H; subst; [ eapply equal_num; eassumption | ]. constructor. clear H. revert l' H1.
      induction IH as [|v l Hv IH IHl]; intros l' H; inversion H; subst; first [ apply items_nil | apply items_cons; solve [auto] | apply items_self; solve [auto] ].
    - inversion H; subst; [ eapply equal_num; eassumption | ]. constructor; [assumption|]. intros k K.
      match goal with X : forall k, counts _ _ _ k -> _ |- _ => destruct (X k K) as (v & w & A & B & M) end.
      exists v, w. split; [exact A|]. split; [exact B|].
      pose proof (dget_forall (fun v => forall w, EQ v w -> EQ' v w) k fs v IH A) as Hv. simpl in Hv.
      inversion M; subst.
      + eapply matches_array; try eassumption. eapply all_close_map; eassumption.
      + apply matches_float; try assumption. eapply all_close_map; eassumption.
      + apply matches_other; auto.
  Qed.

  Lemma equal_flip : (forall a b, close_to rt at_ a b -> close_to rt' at_' b a) -> forall v w, EQ v w -> EQ' w v.
  Proof.
    intros CL v. induction v as [f|z|z|r c l|l IH|l IH|i fs IH] using val_ind2; intros w H.
    - inversion H; subst. eapply equal_num; try eassumption. apply same_number_sym. assumption.
    - inversion H; subst. eapply equal_num; try eassumption. apply same_number_sym. assumption.
    - inversion H; subst; [ eapply equal_num; try eassumption; apply same_number_sym; assumption | constructor ].
    - inversion H; subst. eapply equal_num; try eassumption. apply same_number_sym. assumption.
    - inversion H; subst; [ eapply equal_num; try eassumption; apply same_number_sym; assumption | ].
      constructor. clear H. revert l' H1.
      induction IH as [|v l Hv IH IHl]; intros l' H; inversion H; subst; first [ apply items_nil | apply items_cons; solve [auto] | apply items_self; solve [auto] ].
    - inversion H; subst; [ eapply equal_num; try eassumption; apply same_number_sym; assumption | ].
      constructor. clear H. revert l' H1.
      induction IH as [|v l Hv IH IHl]; intros l' H; inversion H; subst; first [ apply items_nil | apply items_cons; solve [auto] | apply items_self; solve [auto] ].
    - inversion H; subst; [ eapply equal_num; try eassumption; apply same_number_sym; assumption | ].
      constructor; [congruence|]. intros k K.
      match goal with X : forall k, counts _ _ _ k -> _, E : cls _ = cls _ |- _ => rewrite <- E in K; destruct (X k K) as (v & w & A & B & M) end.
      exists w, v. split; [exact B|]. split; [exact A|].
      pose proof (dget_forall (fun v => forall w, EQ v w -> EQ' w v) k fs v IH A) as Hv. simpl in Hv.
      inversion M; subst.
      + eapply matches_array; try eassumption; [ tauto | ]. eapply all_close_flip; eassumption.
      + apply matches_float; try assumption; [ tauto | ]. eapply all_close_flip; eassumption.
      + apply matches_other; auto.
  Qed.

  (** Without floats and arrays the tolerances play no role. *)
  Lemma equal_exact : forall v w, EX v -> EX w -> EQ v w -> EQ' v w.
  Proof.
    intros v. induction v as [f|z|z|r c l|l IH|l IH|i fs IH] using val_ind2; intros w X Y H.
    - inversion H; subst. eapply equal_num; eassumption.
    - inversion H; subst. eapply equal_num; eassumption.
    - inversion H; subst; [ eapply equal_num; eassumption | constructor ].
    - inversion H; subst. eapply equal_num; eassumption.
    - inversion H; subst; [ eapply equal_num; eassumption | ]. constructor.
      inversion X as [| | |? X' | |]; inversion Y as [| | |? Y' | |]; subst. clear H X Y. revert l' H1 Y'.
      induction IH as [|v l Hv IH IHl]; intros l' H Y'; inversion H; subst; inversion X'; subst; inversion Y'; subst; first [ apply items_nil | apply items_cons; solve [auto] | apply items_self; solve [auto] ].
    - inversion H; subst; [ eapply equal_num; eassumption | ]. constructor.
      inversion X as [| | | |? X' |]; inversion Y as [| | | |? Y' |]; subst. clear H X Y. revert l' H1 Y'.
      induction IH as [|v l Hv IH IHl]; intros l' H Y'; inversion H; subst; inversion X'; subst; inversion Y'; subst; first [ apply items_nil | apply items_cons; solve [auto] | apply items_self; solve [auto] ].
    - inversion H; subst; [ eapply equal_num; eassumption | ]. constructor; [assumption|]. intros k K.
      match goal with Z : forall k, counts _ _ _ k -> exists _, _ |- _ => destruct (Z k K) as (v & w & A & B & M) end.
      exists v, w. split; [exact A|]. split; [exact B|].
      pose proof (dget_forall (fun v => forall w, EX v -> EX w -> EQ v w -> EQ' v w) k fs v IH A) as Hv. simpl in Hv.
      inversion X as [| | | | |? ? X']; inversion Y as [| | | | |? ? Y']; subst.
      destruct (X' k v K A) as (F1 & A1 & E1).
      assert (K' : counts schema id_name (cls i') k) by congruence.
      destruct (Y' k w K' B) as (F2 & A2 & E2).
      inversion M; subst; try tauto. apply matches_other; auto.
  Qed.
End Change.

Lemma close_weaken : forall rt at_ rt' at_', (rt <= rt' -> at_ <= at_' ->
  forall a b, close_to rt at_ a b -> close_to rt' at_' a b)%Q.
Proof.
  intros rt at_ rt' at_' R A a b [(x & y & -> & -> & E)|H]; [|right; exact H].
  left. exists x, y. split; [reflexivity|]. split; [reflexivity|].
  assert (P : (rt * Qabs y <= rt' * Qabs y)%Q) by (apply Qmult_le_compat_r; [exact R|apply Qabs_nonneg]). lra.
Qed.

Lemma close_flip : forall rt at_, (0 <= rt -> rt < 1 -> 0 <= at_ ->
  forall a b, close_to rt at_ a b -> close_to (rt / (1 - rt)) (at_ / (1 - rt)) b a)%Q.
Proof.
  intros rt at_ R0 R1 A a b [(x & y & -> & -> & E)|[-> I]]; [|right; auto].
  left. exists y, x. split; [reflexivity|]. split; [reflexivity|].
  assert (T : (Qabs y <= Qabs (y - x) + Qabs x)%Q).
  { setoid_replace y with ((y - x) + x)%Q at 1 by ring. apply Qabs_triangle. }
  rewrite Qabs_Qminus in E. set (d := Qabs (y - x)) in *.
  assert (P : (rt * Qabs y <= rt * (d + Qabs x))%Q).
  { rewrite (Qmult_comm rt), (Qmult_comm rt). apply Qmult_le_compat_r; assumption. }
  assert (Q : (d * (1 - rt) <= at_ + rt * Qabs x)%Q) by lra.
  setoid_replace (at_ / (1 - rt) + rt / (1 - rt) * Qabs x)%Q with ((at_ + rt * Qabs x) / (1 - rt))%Q
    by (field; lra).
  apply Qle_shift_div_l; [lra|exact Q].
Qed.

Lemma close_trans : forall rt at_ rt' at_', (0 <= rt -> 0 <= at_ -> 0 <= rt' -> 0 <= at_' ->
  forall a b c, close_to rt at_ a b -> close_to rt' at_' b c ->
  close_to (rt + rt' + rt * rt') (at_ + at_' + rt * at_') a c)%Q.
Proof.
  intros rt at_ rt' at_' R A R' A' a b c [(x & y & -> & -> & E)|[<- I]].
  - intros [(y' & z & P & -> & F)|[P [I|I]]]; [ | subst; discriminate | discriminate ].
    inversion P; subst y'. left. exists x, z. split; [reflexivity|]. split; [reflexivity|].
    assert (T1 : (Qabs (x - z) <= Qabs (x - y) + Qabs (y - z))%Q).
    { setoid_replace (x - z)%Q with ((x - y) + (y - z))%Q by ring. apply Qabs_triangle. }
    assert (T2 : (Qabs y <= Qabs (y - z) + Qabs z)%Q).
    { setoid_replace y with ((y - z) + z)%Q at 1 by ring. apply Qabs_triangle. }
    assert (S : (rt * Qabs y <= rt * (at_' + rt' * Qabs z + Qabs z))%Q).
    { rewrite (Qmult_comm rt), (Qmult_comm rt (_ + _)). apply Qmult_le_compat_r; [lra|exact R]. }
    lra.
  - intros H. destruct I; subst a; destruct H as [(y' & z & P & _)|[<- I]]; try discriminate; right; split; [ reflexivity | unfold infinite; auto | reflexivity | unfold infinite; auto ].
Qed.

Section Trans.
  Variables (rt at_ rt' at_' : Q) (cls : Z -> Z) (schema : Z -> list (Z * bool)) (id_name : Z).
  Hypotheses (R : (0 <= rt)%Q) (A : (0 <= at_)%Q) (R' : (0 <= rt')%Q) (A' : (0 <= at_')%Q).
  Notation rt3 := (rt + rt' + rt * rt')%Q.
  Notation at3 := (at_ + at_' + rt * at_')%Q.
  Notation E1 := (equal rt at_ cls schema id_name).
  Notation E2 := (equal rt' at_' cls schema id_name).
  Notation E3 := (equal rt3 at3 cls schema id_name).
  Notation M1 := (matches rt at_ cls schema id_name).
  Notation M2 := (matches rt' at_' cls schema id_name).
  Notation M3 := (matches rt3 at3 cls schema id_name).
  Notation CM := (comparable cls schema id_name false).
  Notation CMS := (comparables cls schema id_name false).

  Lemma bounds : (rt <= rt3 /\ at_ <= at3 /\ rt' <= rt3 /\ at_' <= at3)%Q.
  Proof.
    assert (P : (0 <= rt * rt')%Q) by (apply Qmult_le_0_compat; assumption).
    assert (Q : (0 <= rt * at_')%Q) by (apply Qmult_le_0_compat; assumption).
    repeat split; lra.
  Qed.
  Lemma first_third : forall v w, E1 v w -> E3 v w.
  Proof. apply equal_weaken. apply close_weaken; apply bounds. Qed.
  Lemma second_third : forall v w, E2 v w -> E3 v w.
  Proof. apply equal_weaken. apply close_weaken; apply bounds. Qed.

  Lemma comp_array_inv : forall v w, CM v w -> an_array v \/ an_array w -> exists r c l l', v = VA r c l /\ w = VA r c l'.
  Proof.
    intros v w C [H|H]; destruct H as (r & c & l & ->); inversion C; subst; eauto 6;
      try (match goal with X : number (VA _ _ _) _ |- _ => inversion X end);
      match goal with X : ~ an_array (VA _ _ _) |- _ => exfalso; apply X; unfold an_array; eauto end.
  Qed.
  Lemma comp_float_inv : forall v w, CM v w -> a_float v \/ a_float w -> exists f g, v = VF f /\ w = VF g.
  Proof.
    intros v w C H. inversion C; subst; try (destruct H as [[f H]|[f H]]; discriminate); try tauto.
    match goal with X : false = true \/ _ |- _ => destruct X as [X|X]; [discriminate|] end.
    assert (F : a_float v /\ a_float w) by tauto. destruct F as [[f ->] [g ->]]. eauto.
  Qed.

  Lemma matches_trans : forall v w u, (forall w u, CM v w -> CM w u -> E1 v w -> E2 w u -> E3 v u) ->
    CM v w -> CM w u -> M1 v w -> M2 w u -> M3 v u.
  Proof.
    intros v w u IH C D H K. destruct H as [v w n X S T H|v w X Y F H|v w X Y F G H].
    - destruct (comp_array_inv v w C X) as (r & c & l & l' & -> & ->).
      destruct (comp_array_inv (VA r c l') u D) as (r2 & c2 & l2 & l'' & P & ->); [ left; unfold an_array; eauto | ].
      inversion P; subst r2 c2 l2. clear P.
      assert (K' : all_close rt' at_' (VA r c l') (VA r c l'')).
      { inversion K; subst; try assumption. exfalso.
        match goal with Z : ~ an_array (VA _ _ l') |- _ => apply Z; unfold an_array; eauto end. }
      apply matches_array with (n := (r * c)%nat); [ left; unfold an_array; eauto | constructor | constructor | ].
      destruct H as (r1 & c1 & m1 & r2 & c2 & m2 & n1 & n2 & P1 & P2 & P3 & P4 & H).
      destruct K' as (r3 & c3 & m3 & r4 & c4 & m4 & n3 & n4 & Q1 & Q2 & Q3 & Q4 & K').
      inversion P1; subst; [|match goal with Z : number _ _ |- _ => inversion Z end].
      inversion P2; subst; [|match goal with Z : number _ _ |- _ => inversion Z end].
      inversion Q1; subst; [|match goal with Z : number _ _ |- _ => inversion Z end].
      inversion Q2; subst; [|match goal with Z : number _ _ |- _ => inversion Z end].
      assert (n1 = r4) by (unfold stretch in P3; lia). assert (n3 = r4) by (unfold stretch in Q3; lia).
      assert (n2 = c4) by (unfold stretch in P4; lia). assert (n4 = c4) by (unfold stretch in Q4; lia). subst.
      exists r4, c4, m1, r4, c4, m4, r4, c4. split; [constructor|]. split; [constructor|]. split; [left; auto|]. split; [left; auto|].
      intros i j Hi Hj. destruct (H i j Hi Hj) as (a & b & B1 & B2 & B3).
      destruct (K' i j Hi Hj) as (b' & c & B4 & B5 & B6). rewrite B2 in B4. inversion B4; subst b'.
      exists a, c. split; [exact B1|]. split; [exact B5|]. apply close_trans with (b := b); assumption.
    - destruct (comp_float_inv v w C F) as (f & g & -> & ->).
      destruct (comp_float_inv (VF g) u D) as (g' & h & P & ->); [ left; unfold a_float; eauto | ].
      inversion P; subst g'. clear P.
      assert (NA : forall x, ~ an_array (VF x)) by (intros x (r & c & l & Z); discriminate).
      assert (K' : all_close rt' at_' (VF g) (VF h)).
      { inversion K; subst; try assumption.
        exfalso. match goal with Z : ~ a_float (VF g) |- _ => apply Z; unfold a_float; eauto end. }
      apply matches_float; auto; [ left; unfold a_float; eauto | ].
      destruct H as (r1 & c1 & m1 & r2 & c2 & m2 & n1 & n2 & P1 & P2 & P3 & P4 & H).
      destruct K' as (r3 & c3 & m3 & r4 & c4 & m4 & n3 & n4 & Q1 & Q2 & Q3 & Q4 & K').
      inversion P1; subst; inversion P2; subst; inversion Q1; subst; inversion Q2; subst.
      repeat match goal with Z : number (VF _) _ |- _ => inversion Z; subst; clear Z end.
      assert (n1 = 1%nat) by (unfold stretch in P3; lia). assert (n3 = 1%nat) by (unfold stretch in Q3; lia).
      assert (n2 = 1%nat) by (unfold stretch in P4; lia). assert (n4 = 1%nat) by (unfold stretch in Q4; lia). subst.
      destruct (H O O) as (a & b & B1 & B2 & B3); [lia|lia|].
      destruct (K' O O) as (b' & c & B4 & B5 & B6); [lia|lia|]. rewrite B2 in B4. inversion B4; subst b'.
      do 8 eexists. split; [apply entries_number; constructor|]. split; [apply entries_number; constructor|].
      split; [left; split; reflexivity|]. split; [left; split; reflexivity|].
      intros i j Hi Hj. replace i with O by lia. replace j with O by lia.
      exists a, c. split; [exact B1|]. split; [exact B5|]. apply close_trans with (b := b); assumption.
    - assert (K' : E2 w u).
      { inversion K; subst; [ | | assumption ]; exfalso.
        - destruct (comp_array_inv w u D) as (r & c & l & l' & -> & _); [assumption|]. apply Y. unfold an_array. eauto.
        - destruct (comp_float_inv w u D) as (f & g & -> & _); [assumption|]. apply G. unfold a_float. eauto. }
      apply matches_other; auto.
      + inversion K; subst; auto. intros Z. destruct (comp_array_inv w u D) as (r & c & l & l' & -> & _); [auto|].
        apply Y. unfold an_array. eauto.
      + intros Z. destruct (comp_float_inv w u D) as (f & g & -> & _); [auto|]. apply G. unfold a_float. eauto.
      + apply IH with (w := w); assumption.
  Qed.

  Lemma self_same : forall i fs fs', CM (VO i fs) (VO i fs') -> fs = fs'.
  Proof.
    intros i fs fs' C. inversion C; subst; auto; try congruence.
    - match goal with Z : number (VO _ _) _ |- _ => inversion Z end.
    - destruct H as [[z E]|[z E]]; discriminate.
  Qed.

  Lemma items_trans : forall short l l' l'', Forall (fun v => forall w u, CM v w -> CM w u -> E1 v w -> E2 w u -> E3 v u) l ->
    CMS l l' -> CMS l' l'' -> items rt at_ cls schema id_name short l l' -> items rt' at_' cls schema id_name short l' l'' ->
    items rt3 at3 cls schema id_name short l l''.
  Proof.
    intros short l l' l'' F. revert l' l''. induction F as [|v l Hv F IH]; intros l' l'' C D H K.
    - inversion H; subst. inversion K; subst. constructor.
    - inversion C as [| | |? w ? l0 NA NB C1 C2]; subst; [inversion H|].
      inversion D as [| | |? u ? l1 NC ND D1 D2]; subst; [inversion K|].
      inversion H; subst; inversion K; subst.
      + apply items_cons; [ apply Hv with (w := w); assumption | eapply IH; eassumption ].
      + apply self_same in D1. subst. apply items_cons; [ apply first_third; assumption | eapply IH; eassumption ].
      + apply self_same in C1. subst. apply items_cons; [ apply second_third; assumption | eapply IH; eassumption ].
      + apply items_self. eapply IH; eassumption.
  Qed.

  Lemma equal_trans : forall v w u, CM v w -> CM w u -> E1 v w -> E2 w u -> E3 v u.
  Proof.
    assert (N : forall v w u, (exists a, number v a) -> E1 v w -> E2 w u -> E3 v u).
    { intros v w u [a0 N] H K. destruct H as [v w a b H1 H2 H3| | | |]; try (inversion N; fail).
      destruct K as [w u b' c K1 K2 K3| | | |]; try (inversion H2; fail).
      pose proof (number_fun _ _ _ H2 K1). subst b'.
      eapply equal_num; try eassumption. eapply same_number_trans; eassumption. }
    intros v. induction v as [f|z|z|r c l|l IH|l IH|i fs IH] using val_ind2; intros w u C D H K.
    - eapply N; try eassumption. eexists. constructor.
    - eapply N; try eassumption. eexists. constructor.
    - inversion H; subst; [ eapply N; try eassumption; eauto | ].
      apply second_third. exact K.
    - inversion H; subst. eapply N; try eassumption. eauto.
    - inversion H; subst; [ eapply N; try eassumption; eauto | ]. inversion K; subst; [ match goal with Z : number (VL _) _ |- _ => inversion Z end | ].
      constructor. apply items_trans with (l' := l'); try assumption.
      + inversion C; subst; try assumption.
        * match goal with Z : number (VL _) _ |- _ => inversion Z end.
        * destruct H0 as [[z E]|[z E]]; discriminate.
      + inversion D; subst; try assumption.
        * match goal with Z : number (VL _) _ |- _ => inversion Z end.
        * destruct H0 as [[z E]|[z E]]; discriminate.
    - inversion H; subst; [ eapply N; try eassumption; eauto | ]. inversion K; subst; [ match goal with Z : number (VC _) _ |- _ => inversion Z end | ].
      constructor. apply items_trans with (l' := l'); try assumption.
      + inversion C; subst; try assumption.
        * match goal with Z : number (VC _) _ |- _ => inversion Z end.
        * destruct H0 as [[z E]|[z E]]; discriminate.
      + inversion D; subst; try assumption.
        * match goal with Z : number (VC _) _ |- _ => inversion Z end.
        * destruct H0 as [[z E]|[z E]]; discriminate.
    - inversion H as [| | | |? ? i' fs' L1 H1]; subst; [ eapply N; try eassumption; eauto | ].
      inversion K as [| | | |? ? i'' fs'' L2 H2]; subst; [ match goal with Z : number (VO _ _) _ |- _ => inversion Z end | ].
      assert (C1 : forall k, counts schema id_name (cls i) k -> exists v w, dget k fs = Some v /\ dget k fs' = Some w /\ CM v w).
      { inversion C; subst; try assumption; try congruence.
        - match goal with Z : number (VO i _) _ |- _ => inversion Z end.
        - destruct H0 as [[z E]|[z E]]; discriminate. }
      assert (D1 : forall k, counts schema id_name (cls i') k -> exists v w, dget k fs' = Some v /\ dget k fs'' = Some w /\ CM v w).
      { inversion D; subst; try assumption; try congruence.
        - match goal with Z : number (VO i' _) _ |- _ => inversion Z end.
        - destruct H0 as [[z E]|[z E]]; discriminate. }
      constructor; [congruence|]. intros k Kk.
      assert (Kk' : counts schema id_name (cls i') k) by congruence.
      destruct (H1 k Kk) as (v & w & G1 & G2 & M). destruct (H2 k Kk') as (w' & u & G3 & G4 & M').
      destruct (C1 k Kk) as (v' & w'' & G5 & G6 & CC). destruct (D1 k Kk') as (w3 & u' & G7 & G8 & DD).
      assert (w' = w) by congruence. assert (v' = v) by congruence. assert (w'' = w) by congruence.
      assert (w3 = w) by congruence. assert (u' = u) by congruence. subst.
      exists v, u. split; [exact G1|]. split; [exact G4|].
      apply matches_trans with (w := w); try assumption.
      exact (dget_forall (fun v => forall w u, CM v w -> CM w u -> E1 v w -> E2 w u -> E3 v u) k fs v IH G1).
  Qed.
End Trans.

(** ** The list of differences *)
Section Diffs.
  Variables (rtol atol : Q) (cls : Z -> Z) (schema : Z -> list (Z * bool)) (id_name : Z).
  Notation eqv := (py_eq rtol atol cls schema id_name).
  Notation MT := (matches rtol atol cls schema id_name).
  Notation same := (attr_same rtol atol).
  Notation pairs fs := (map (fun kv => (fst kv, (snd kv, eqv (snd kv)))) fs).

  Lemma diffs_in : forall names self other d, diffs rtol atol false names self other = Ok d ->
    forall k, In k d <-> In k names /\ exists v py w, dget k self = Some (v, py) /\ dget k other = Some w /\ same v py w <> Ok true.
  Proof.
    intros names self other. induction names as [|n names IH]; simpl; intros d H k.
    - inversion H; subst. simpl. tauto.
    - destruct (dget n self) as [[v py]|] eqn:S; [|discriminate].
      destruct (dget n other) as [w|] eqn:T; [|discriminate].
      destruct (same v py w) as [[]|e] eqn:M; simpl in H; [ | | discriminate ].
      + rewrite (IH d H k). split; [ tauto | ]. intros [[<-|I] X]; [|tauto].
        destruct X as (v' & py' & w' & X1 & X2 & X3). congruence.
      + destruct (diffs rtol atol false names self other) as [e|] eqn:D; simpl in H; [|discriminate].
        inversion H; subst. simpl. rewrite (IH e eq_refl k). split.
        * intros [<-|[I X]]; [|tauto]. split; [auto|]. exists v, py, w. rewrite M. repeat split; try assumption. discriminate.
        * tauto.
  Qed.
  Lemma diffs_nodup : forall names self other d, NoDup names -> diffs rtol atol false names self other = Ok d -> NoDup d.
  Proof.
    intros names self other. induction names as [|n names IH]; simpl; intros d N H.
    - inversion H; subst. constructor.
    - inversion N; subst.
      destruct (dget n self) as [[v py]|] eqn:S; [|discriminate].
      destruct (dget n other) as [w|] eqn:T; [|discriminate].
      destruct (same v py w) as [[]|e] eqn:M; simpl in H; [ auto | | discriminate ].
      destruct (diffs rtol atol false names self other) as [e|] eqn:D; simpl in H; [|discriminate].
      inversion H; subst. constructor; [|auto]. intros I. apply (diffs_in _ _ _ _ D) in I. tauto.
  Qed.
  Lemma diffs_early : forall names self other d, diffs rtol atol false names self other = Ok d ->
    diffs rtol atol true names self other = Ok (firstn 1 d).
  Proof.
    intros names self other. induction names as [|n names IH]; simpl; intros d H.
    - inversion H; subst. reflexivity.
    - destruct (dget n self) as [[v py]|] eqn:S; [|discriminate].
      destruct (dget n other) as [w|] eqn:T; [|discriminate].
      destruct (same v py w) as [[]|e] eqn:M; simpl in *; [ auto | | discriminate ].
      destruct (diffs rtol atol false names self other) as [e|] eqn:D; simpl in H; [|discriminate].
      inversion H; subst. reflexivity.
  Qed.
  Lemma compared_nodup : forall c, NoDup (map fst (schema c)) -> NoDup (compared schema id_name c).
  Proof.
    intros c. unfold compared. induction (schema c) as [|[n t] l IH]; simpl; intros N; [constructor|].
    inversion N; subst. destruct (t && negb (n =? id_name)); simpl; [|auto]. constructor; [|auto].
    intros I. apply in_map_iff in I. destruct I as ([n' t'] & E & I). apply filter_In in I. simpl in E. subst n'.
    match goal with X : ~ In _ _ |- _ => apply X end. apply in_map_iff. exists (n, t'). tauto.
  Qed.

  Lemma diff_same_class : forall early i fs i' fs', cls i = cls i' ->
    diff rtol atol cls schema id_name early i (pairs fs) (VO i' fs') =
    do d <- diffs rtol atol early (compared schema id_name (cls i)) (pairs fs) fs'; Ok (map Some d).
  Proof. intros early i fs i' fs' C. unfold diff. rewrite C, Z.eqb_refl, orb_true_r. reflexivity. Qed.
End Diffs.
