(** * Property C113: queries on spill data *)
From Coq Require Import String.
From Verif Require Import Py PyLemmas QLemmas PipModel StrModel StrLemmas QryModel QrySpec QryProofs.
Open Scope Z_scope.

(** For every condition of groups of comparisons (the groups joined with &&, the comparisons in a
    group with ||) on properties that hold whole numbers, the result has the properties asked for,
    each with the values of exactly the elements that meet the condition, in order. *)
Theorem C113_partial : forall containers ucert n cols targets cnf,
  py_get containers ucert = Ok (n, cols) -> rectangular n cols -> cnf <> [] ->
  Forall (fun cl => cl <> [] /\ Forall (fun a => name (prop a) /\ proper (const a) /\ whole_numbers cols (prop a)) cl) cnf ->
  NoDup targets -> Forall (fun t => In t (map fst cols)) targets ->
  exists r f, get_spill_data containers targets (cond_text cnf) ucert = Ok r /\ map fst r = targets /\
    (forall i, (i < n)%nat -> (f i = true <-> cond_holds cols i cnf)) /\
    Forall (fun kl => values_at cols (fst kl) (chosen f n) (snd kl)) r.
Proof.
  intros containers ucert n cols targets cnf HG HR Hne HC HN HT.
  assert (W : forall p, whole_numbers cols p -> numeric n cols p /\ forall i q, number_at cols p i q -> inject_Z (qtrunc q) = q).
  { intros p [c [Ec Fc]]. split.
    - exists c. split; auto. split.
      + unfold rectangular in HR. rewrite Forall_forall in HR. apply (HR _ (sget_In _ _ _ Ec)).
      + eapply Forall_impl; [|exact Fc]. cbn beta. intros v [z ->]. eauto.
    - intros i q [c' [Ec' En]]. rewrite Ec in Ec'. injection Ec' as <-. apply nth_error_In in En. rewrite Forall_forall in Fc.
      destruct (Fc _ En) as [z Ez]. injection Ez as ->. rewrite qtrunc_whole. reflexivity. }
  destruct (query_ok containers ucert n cols targets cnf HG HR Hne) as [r [f [E [F1 [F2 F3]]]]]; auto.
  { eapply Forall_impl; [|exact HC]. cbn beta. intros cl [H1 H2]. split; auto. split.
    - eapply Forall_impl; [|exact H2]. cbn beta. intros a [A1 [A2 _]]. split; auto.
    - eapply Forall_impl; [|exact H2]. cbn beta. intros a [_ [_ A3]]. apply W. exact A3. }
  exists r, f. split; [exact E|]. split; [exact F1|]. split; [|exact F3].
  intros i Hi. rewrite (F2 i Hi). unfold cond_holds. clear -HC W.
  induction HC as [|cl l [_ H2] _ IH]; [split; constructor|]. rewrite !Forall_cons_iff, IH.
  assert (X : Exists (trunc_holds cols i) cl <-> Exists (atom_holds cols i) cl); [|tauto].
  clear IH. induction H2 as [|a l' [_ [_ A3]] _ IHa]; [split; intros X; inversion X|]. rewrite !Exists_cons, IHa.
  assert (Y : trunc_holds cols i a <-> atom_holds cols i a); [|tauto].
  destruct (W _ A3) as [_ Q]. unfold trunc_holds, atom_holds. split; intros [q [H1 H3]]; exists q; (split; [exact H1|]); [rewrite <- (Q i q H1)|rewrite (Q i q H1)]; exact H3.
Qed.
Print Assumptions C113_partial.

(** Other numbers are compared by their whole part. *)
Theorem C113_whole_part : forall containers ucert n cols targets cnf,
  py_get containers ucert = Ok (n, cols) -> rectangular n cols -> cnf <> [] ->
  Forall (fun cl => cl <> [] /\ Forall (fun a => name (prop a) /\ proper (const a)) cl /\
                    Forall (fun a => exists c, sget (prop a) cols = Some c /\ length c = n /\ Forall (fun v => exists q, v = Num q) c) cl) cnf ->
  NoDup targets -> Forall (fun t => In t (map fst cols)) targets ->
  exists r f, get_spill_data containers targets (cond_text cnf) ucert = Ok r /\ map fst r = targets /\
    (forall i, (i < n)%nat -> (f i = true <-> Forall (fun cl => Exists (fun a => exists q, number_at cols (prop a) i q /\
        holds (aop a) (inject_Z (Z.quot (Qnum q) (Zpos (Qden q)))) (numb_value (const a))) cl) cnf)) /\
    Forall (fun kl => values_at cols (fst kl) (chosen f n) (snd kl)) r.
Proof. exact query_ok. Qed.
Print Assumptions C113_whole_part.

(** An example: two elements of three meet the condition. *)
Definition s_status := lit "status_codes".
Definition s_spill := lit "spill_num".
Definition s_age := lit "age".
Definition s_mass := lit "mass".
Definition s_pos := lit "positions".
Definition q_cols : columns :=
  [(s_status, [Num 2; Num 3; Num 2]); (s_spill, [Num 0; Num 1; Num 1]); (s_age, [Num 900; Num 1800; Num 0]);
   (s_mass, [Num (9#10); Num (1#2); Num 2]); (s_pos, [Vec [1; 2; 0]; Vec [1; 2; 0]; Vec [5; 5; 0]])]%Q.
Definition int_ (ds : list Z) : numb := mkNumb false ds [].
Example C113_meets :
  let cnf := [[mkAtom s_status Eq (int_ [3]); mkAtom s_spill Gt (int_ [0])]; [mkAtom s_age Lt (mkNumb false [1; 8; 0; 0] [5])]] in
  rectangular 3 q_cols /\
  Forall (fun cl => cl <> [] /\ Forall (fun a => name (prop a) /\ proper (const a) /\ whole_numbers q_cols (prop a)) cl) cnf /\
  cond_text cnf = lit " status_codes == 3 || spill_num > 0 && age < 1800.5 " /\
  get_spill_data [(3%nat, q_cols)] [s_mass; s_age] (cond_text cnf) 0 =
    Ok [(s_mass, [Num (1#2); Num 2]); (s_age, [Num 1800; Num 0])].
Proof.
  cbn zeta. split; [repeat constructor|]. split; [|split; [reflexivity|vm_compute; reflexivity]].
  assert (N : forall p, In p [s_status; s_spill; s_age] -> name p /\ whole_numbers q_cols p).
  { intros p [<-|[<-|[<-|[]]]]; (split; [split; [discriminate|repeat constructor; discriminate]|]);
      (eexists; split; [reflexivity|]); repeat constructor; eexists; reflexivity. }
  assert (P : forall w f, forallb (fun d => (0 <=? d) && (d <=? 9)) (w ++ f) = true -> w <> [] -> (hd 1 w <> 0 \/ w = [0]) -> proper (mkNumb false w f)).
  { intros w f H1 H2 H3. rewrite forallb_app in H1. apply andb_true_iff in H1 as [A B].
    assert (G : forall l, forallb (fun d => (0 <=? d) && (d <=? 9)) l = true -> Forall digit l).
    { intros l Hl. rewrite forallb_forall in Hl. apply Forall_forall. intros d Hd. specialize (Hl d Hd).
      apply andb_true_iff in Hl as [L1 L2]. unfold digit. apply Z.leb_le in L1, L2. lia. }
    repeat split; cbn; auto. intros r ->. destruct H3 as [H3|H3]; [cbn in H3; congruence|injection H3 as ->; reflexivity]. }
  assert (A : forall p w f, In p [s_status; s_spill; s_age] -> forallb (fun d => (0 <=? d) && (d <=? 9)) (w ++ f) = true -> w <> [] -> (hd 1 w <> 0 \/ w = [0]) ->
    name p /\ proper (mkNumb false w f) /\ whole_numbers q_cols p).
  { intros p w f H0 H1 H2 H3. destruct (N p H0) as [N1 N2]. auto. }
  apply Forall_cons; [|apply Forall_cons; [|apply Forall_nil]]; (split; [discriminate|]).
  - apply Forall_cons; [|apply Forall_cons; [|apply Forall_nil]].
    + exact (A s_status [3] [] ltac:(cbn; auto) eq_refl ltac:(discriminate) ltac:(left; discriminate)).
    + exact (A s_spill [0] [] ltac:(cbn; auto) eq_refl ltac:(discriminate) ltac:(right; reflexivity)).
  - apply Forall_cons; [|apply Forall_nil].
    exact (A s_age [1; 8; 0; 0] [5] ltac:(cbn; auto) eq_refl ltac:(discriminate) ltac:(left; discriminate)).
Qed.

(** ** What does not hold *)

(** Fractions are cut off before the comparison: a mass of 0.9 is not greater than 0.5. *)
Theorem C113_fraction_refuted :
  exists r, get_spill_data [(3%nat, q_cols)] [s_spill] (cond_text [[mkAtom s_mass Gt (mkNumb false [0] [5])]]) 0 = Ok r /\
    r = [(s_spill, [Num 1])] /\ number_at q_cols s_mass 0 (9#10) /\ Qlt (numb_value (mkNumb false [0] [5])) (9#10).
Proof.
  eexists. split; [vm_compute; reflexivity|]. split; [reflexivity|]. split; [eexists; split; reflexivity|reflexivity].
Qed.
Print Assumptions C113_fraction_refuted.

(** || binds more strongly than &&: of [a && b || c], which Python and most languages read as
    [(a && b) || c], an element with c alone is not found. *)
Theorem C113_precedence_refuted :
  get_spill_data [(3%nat, q_cols)] [s_age] (lit "spill_num == 5 && age == 0 || status_codes == 3") 0 = Ok [(s_age, [])] /\
  get_spill_data [(3%nat, q_cols)] [s_age] (lit "status_codes == 3") 0 = Ok [(s_age, [Num 1800])].
Proof. split; vm_compute; reflexivity. Qed.
Print Assumptions C113_precedence_refuted.

(** Other operators find nothing, conditions without spaces, positions and properties given as one
    text raise errors. *)
Theorem C113_other_texts_refuted :
  get_spill_data [(3%nat, q_cols)] [s_age] (lit "status_codes != 3") 0 = Ok [(s_age, [])] /\
  get_spill_data [(3%nat, q_cols)] [s_age] (lit "status_codes==3") 0 = Raise KeyErr /\
  get_spill_data [(3%nat, q_cols)] [s_age] (lit "status_codes ==3") 0 = Raise IndexErr /\
  get_spill_data [(3%nat, q_cols)] [s_age] (lit "positions > 1") 0 = Raise TypeErr /\
  get_spill_data [(3%nat, q_cols)] (map (fun c => [c]) s_age) (lit "status_codes == 3") 0 = Raise KeyErr.
Proof. repeat split; vm_compute; reflexivity. Qed.
Print Assumptions C113_other_texts_refuted.
