(** * C132 to C136: the start of a run *)
From Coq Require Import Lia Permutation.
From Verif Require Import Py PyLemmas OrderModel SetModel SetSpec SetProofs.
Open Scope Z_scope.

(** ** C132: default references *)
(** At the start of a run every object that asks for a reference and has none gets the first object, in the
    environment, then the map, the movers, the weatherers and the outputters, that offers the name; nothing else
    changes. *)
Theorem C132_attached : forall eqv m h, declared h (takers m) ->
  exists h', attach eqv m h = Ok h' /\ (forall x, same_but_refs (h x) (h' x)) /\
  forall x n,
    (In x (takers m) -> asks h n x -> forall y, first_offer h n (sources m) y -> o_attr (h' x) n = Some (Some y)) /\
    ((~ In x (takers m) \/ ~ asks h n x \/ forall y, In y (sources m) -> ~ offers h n y) -> o_attr (h' x) n = o_attr (h x) n).
Proof. exact attach_main. Qed.
Print Assumptions C132_attached.

(** A second start changes no reference. *)
Theorem C132_again : forall eqv m h h', declared h (takers m) -> attach eqv m h = Ok h' ->
  exists h'', attach eqv m h' = Ok h'' /\ forall x n, o_attr (h'' x) n = o_attr (h' x) n.
Proof.
  intros eqv m h h' D E. destruct (attach_main eqv m h D) as (h1 & E1 & SB & A). rewrite E in E1. inversion E1; subst h1.
  assert (NN : forall x n, o_attr (h x) n <> None -> o_attr (h' x) n <> None).
  { intros x n N. destruct (A x n) as (A1 & A2).
    destruct (in_dec Z.eq_dec x (takers m)) as [I|I]; [|rewrite A2; auto].
    destruct (first_in h n (sources m)) as [y|] eqn:F.
    - destruct (o_attr (h x) n) as [[z|]|] eqn:Q; [| |contradiction].
      + rewrite A2; [congruence|]. right. left. intros (_ & _ & Q2). congruence.
      + destruct (o_mdr (h x)) eqn:M; [|rewrite A2; [congruence|right; left; intros (Q2 & _); congruence]].
        destruct (o_req (h x)) as [ns|] eqn:R1; [|rewrite A2; [congruence|right; left; intros (_ & (? & Q2 & _) & _); congruence]].
        destruct (in_dec Z.eq_dec n ns) as [J|J].
        * rewrite (A1 I) with (y := y); [discriminate| |apply first_in_some; exact F]. split; [exact M|]. split; [|exact Q]. eauto.
        * rewrite A2; [congruence|]. right. left. intros (_ & (ms & Q2 & Q3) & _). rewrite R1 in Q2. inversion Q2. subst. contradiction.
    - rewrite A2; [exact N|]. right. right. apply first_in_none. exact F. }
  assert (D' : declared h' (takers m)).
  { intros x ns n I R1 J. apply NN. destruct (SB x) as (_ & s2 & _). rewrite <- s2 in R1. exact (D x ns n I R1 J). }
  destruct (attach_main eqv m h' D') as (h2 & E2 & SB2 & A2). exists h2. split; [exact E2|].
  intros x n. apply (A2 x n). destruct (in_dec Z.eq_dec x (takers m)) as [I|I]; [|left; exact I]. right.
  destruct (first_in h n (sources m)) as [y|] eqn:F.
  - left. intros (M & (ns & R1 & J) & Q). destruct (SB x) as (_ & s2 & s3 & _).
    destruct (A x n) as (A1 & A3).
    destruct (o_attr (h x) n) as [[z|]|] eqn:Q0.
    + rewrite A3 in Q; [congruence|]. right. left. intros (_ & _ & Q2). congruence.
    + rewrite (A1 I) with (y := y) in Q; [discriminate| |apply first_in_some; exact F].
      split; [congruence|]. split; [|exact Q0]. exists ns. split; [congruence|exact J].
    + rewrite A3 in Q; [congruence|]. right. left. intros (_ & _ & Q2). congruence.
  - right. intros y I2 O1. apply (proj1 (first_in_none h n (sources m)) F y I2). apply offers_iff. apply offers_iff in O1.
    destruct (SB y) as (s1 & _). rewrite s1. exact O1.
Qed.
Print Assumptions C132_again.

(** After set_make_default_refs(False) the objects in the three collections keep their references. *)
Theorem C132_off : forall eqv m h h', declared h (takers m) -> attach eqv m (set_make_default_refs false m h) = Ok h' ->
  forall x n, In x (m_weath m ++ m_movers m ++ m_env m) -> o_attr (h' x) n = o_attr (h x) n.
Proof.
  intros eqv m h h' D E x n I.
  assert (X : forall l k, (forall y, o_attr (fold_left (fun h x => upd h x (set_mdr false (h x))) l k y) = o_attr (k y) /\
              o_req (fold_left (fun h x => upd h x (set_mdr false (h x))) l k y) = o_req (k y)) /\
              forall y, In y l \/ o_mdr (k y) = false -> o_mdr (fold_left (fun h x => upd h x (set_mdr false (h x))) l k y) = false).
  { induction l as [|a l IH]; intros k; simpl.
    - split; [auto|]. intros y [[]|M]; exact M.
    - destruct (IH (upd k a (set_mdr false (k a)))) as (I1 & I2). split.
      + intros y. destruct (I1 y) as (P & Q). rewrite P, Q. destruct (Z.eq_dec y a) as [->|N].
        * rewrite upd_same. auto.
        * rewrite upd_other by exact N. auto.
      + intros y Y. apply I2. destruct (Z.eq_dec y a) as [->|N]; [right; rewrite upd_same; reflexivity|].
        rewrite upd_other by exact N. destruct Y as [[Y|Y]|Y]; [congruence|left; exact Y|right; exact Y]. }
  destruct (X (m_weath m ++ m_movers m ++ m_env m) h) as (X1 & X2).
  fold (set_make_default_refs false m h) in X1, X2. set (k := set_make_default_refs false m h) in *.
  assert (D' : declared k (takers m)).
  { intros y ns j J R1 K. destruct (X1 y) as (P & Q). rewrite P. rewrite Q in R1. exact (D y ns j J R1 K). }
  destruct (attach_main eqv m k D') as (h1 & E1 & SB & A). rewrite E in E1. inversion E1; subst h1.
  destruct (A x n) as (_ & A2). rewrite A2; [destruct (X1 x) as (P & _); rewrite P; reflexivity|].
  right. left. intros (M & _). rewrite X2 in M by (left; exact I). discriminate.
Qed.
Print Assumptions C132_off.

(** A model for the examples: waters 1 and 2, winds 3 and 4, a map 5, evaporation 6, a spill 7 with an oil 8; the
    wind 4 is also aware of ice (name 9). *)
Definition ex_water : obj := Obj (One water) None true (no_attr []) None false false 101.
Definition ex_wind : obj := Obj (One wind) None true (no_attr []) None true false 102.
Definition ex_ice : obj := Obj (Many [wind; 9]) None true (no_attr []) None false false 103.
Definition ex_map : obj := Obj (One 10) None true (no_attr []) None false false 104.
Definition ex_evap : obj := Obj (One 11) (Some [water; wind]) true (no_attr [water; wind]) (Some true) false true 8.
Definition ex_spill : obj := Obj NoRef None true (no_attr []) (Some true) false false 105.
Definition ex_oil : obj := Obj (One 12) (Some [water]) true (no_attr [water]) None false false 106.
Definition ex_heap : heap := fun x =>
  if x =? 1 then ex_water else if x =? 2 then ex_water else if x =? 3 then ex_wind else if x =? 4 then ex_ice
  else if x =? 5 then ex_map else if x =? 6 then ex_evap else if x =? 7 then ex_spill else ex_oil.
Definition ex_model : model := Mod [2; 1; 4; 3] 5 [] [6] [] [Node 7 [Node 8 []]].

Example C132_meets : declared ex_heap (takers ex_model) /\ asks ex_heap water 8 /\ asks ex_heap wind 6 /\
  first_offer ex_heap water (sources ex_model) 2 /\ first_offer ex_heap wind (sources ex_model) 4 /\
  exists h', attach (fun _ _ => false) ex_model ex_heap = Ok h' /\
    o_attr (h' 8) water = Some (Some 2) /\ o_attr (h' 6) wind = Some (Some 4).
Proof.
  split.
  { intros x ns n I. simpl in I. repeat destruct I as [<-|I]; try destruct I; vm_compute; intros E; inversion E; subst; simpl;
      intros J; repeat destruct J as [<-|J]; try destruct J; discriminate. }
  split; [split; [reflexivity|]; split; [eexists; split; [reflexivity|left; reflexivity]|reflexivity]|].
  split; [split; [reflexivity|]; split; [eexists; split; [reflexivity|right; left; reflexivity]|reflexivity]|].
  split; [apply first_in_some; reflexivity|]. split; [apply first_in_some; reflexivity|].
  eexists. split; [vm_compute; reflexivity|]. split; reflexivity.
Qed.

(** But what has been attached stays: with another water in the environment the next run still uses the water of the
    first, although the user never chose it. *)
Theorem C132_stale_refuted : exists eqv m m' h h' h'' x,
  declared h (takers m) /\ asks h water x /\ In x (takers m) /\
  attach eqv m h = Ok h' /\
  m' = Mod [1; 3] (m_map m) (m_movers m) (m_weath m) (m_outs m) (m_spills m) /\
  attach eqv m' h' = Ok h'' /\
  compile_env h'' m' = Some 1 /\ ~ In 2 (sources m') /\ o_attr (h'' x) water = Some (Some 2).
Proof.
  destruct C132_meets as (D & A8 & _). exists (fun _ _ => false), ex_model.
  eexists. exists ex_heap. eexists. eexists. exists 8.
  split; [exact D|]. split; [exact A8|]. split; [vm_compute; tauto|].
  split; [vm_compute; reflexivity|]. split; [reflexivity|]. split; [vm_compute; reflexivity|].
  split; [reflexivity|]. split; [|reflexivity]. vm_compute. intros Q. repeat destruct Q as [Q|Q]; try discriminate. exact Q.
Qed.
Print Assumptions C132_stale_refuted.

(** ** C133: spreading *)
(** If a weatherer that is on uses the area, then afterwards exactly one spreading and one Langmuir weatherer are on,
    the last one of each or a new one; other weatherers are not touched. *)
Theorem C133_switched_partial : forall f g h ws, NoDup ws -> ~ In f ws -> ~ In g ws -> f <> g ->
  proper_weatherers h ws -> area_used h ws ->
  let (h', ws') := switch f g h ws in
  exists s l, one_on spreading h' ws' s /\ one_on langmuir h' ws' l /\
    (last_of spreading h ws s \/ ((forall z, In z ws -> ~ role spreading (h z)) /\ s = f)) /\
    (last_of langmuir h ws l \/ ((forall z, In z ws -> ~ role langmuir (h z)) /\ l = g)) /\
    NoDup ws' /\
    (forall x, In x ws' <-> In x ws \/ x = s \/ x = l) /\
    (forall x, ~ role spreading (h x) -> ~ role langmuir (h x) -> x <> f -> x <> g -> h' x = h x).
Proof. exact switch_main. Qed.
Print Assumptions C133_switched_partial.

(** Otherwise nothing changes. *)
Theorem C133_idle : forall f g h ws, NoDup ws -> proper_weatherers h ws -> ~ area_used h ws ->
  snd (switch f g h ws) = ws /\ forall x, fst (switch f g h ws) x = h x.
Proof. exact switch_idle. Qed.
Print Assumptions C133_idle.

(** With at most one weatherer of each kind, a second start, in whatever order the weatherers now are, changes no switch
    and adds nothing. *)
Theorem C133_again : forall f g f' g' h ws ws2, NoDup ws -> ~ In f ws -> ~ In g ws -> f <> g ->
  proper_weatherers h ws -> area_used h ws -> at_most_one spreading h ws -> at_most_one langmuir h ws ->
  let (h', ws') := switch f g h ws in
  Permutation ws' ws2 -> ~ In f' ws' -> ~ In g' ws' -> f' <> g' ->
  let (h'', ws'') := switch f' g' h' ws2 in
  (forall x, In x ws'' <-> In x ws') /\ forall x, In x ws' -> o_on (h'' x) = o_on (h' x).
Proof.
  intros f g f' g' h ws ws2 ND NF NG FG OK AU M1 M2.
  assert (S1 := switch_main f g h ws ND NF NG FG OK AU).
  assert (FL := fun x => switch_fields f g h ws x ND).
  destruct (switch f g h ws) as [h' ws'] eqn:E1. cbv zeta in FL. cbn [fst] in FL.
  destruct S1 as (s & l & ONS & ONL & LS & LL & ND' & IN & KEEP).
  intros PM NF' NG' FG'.
  (* roles after the first start *)
  assert (RS : role spreading (h' s)) by apply ONS. assert (RL : role langmuir (h' l)) by apply ONL.
  assert (SL : s <> l) by (intros ->; exact (role_excl _ RS RL)).
  assert (AR : forall x, In x ws -> o_ref (h' x) = o_ref (h x) /\ o_area (h' x) = o_area (h x) /\ o_on (h' x) <> None).
  { intros x I. assert (N1 : x <> f) by (intros ->; contradiction). assert (N2 : x <> g) by (intros ->; contradiction).
    destruct (FL x N1 N2) as [->|(b & ->)]; simpl; split; auto; split; auto; [|discriminate]. apply OK. exact I. }
  assert (U1 : at_most_one spreading h' ws').
  { intros x y Ix Iy Rx Ry. apply IN in Ix. apply IN in Iy.
    assert (Q : forall z, In z ws \/ z = s \/ z = l -> role spreading (h' z) -> z = s).
    { intros z Iz Rz. destruct Iz as [Iz|[Iz|Iz]]; [|exact Iz|subst; exfalso; exact (role_excl _ Rz RL)].
      unfold role in Rz. rewrite (proj1 (AR z Iz)) in Rz. destruct LS as [LS|(LS & _)].
      - destruct LS as (a & b & Ea & Ra & _). apply M1; try assumption. rewrite Ea. apply in_or_app. right. left. reflexivity.
      - exfalso. exact (LS z Iz Rz). }
    rewrite (Q x Ix Rx), (Q y Iy Ry). reflexivity. }
  assert (U2 : at_most_one langmuir h' ws').
  { intros x y Ix Iy Rx Ry. apply IN in Ix. apply IN in Iy.
    assert (Q : forall z, In z ws \/ z = s \/ z = l -> role langmuir (h' z) -> z = l).
    { intros z Iz Rz. destruct Iz as [Iz|[Iz|Iz]]; [|subst; exfalso; exact (role_excl _ RS Rz)|exact Iz].
      unfold role in Rz. rewrite (proj1 (AR z Iz)) in Rz. destruct LL as [LL|(LL & _)].
      - destruct LL as (a & b & Ea & Ra & _). apply M2; try assumption. rewrite Ea. apply in_or_app. right. left. reflexivity.
      - exfalso. exact (LL z Iz Rz). }
    rewrite (Q x Ix Rx), (Q y Iy Ry). reflexivity. }
  assert (IF : f <> s -> s <> g -> In s ws).
  { intros A B. destruct LS as [(a & b & -> & _)|(_ & ->)]; [apply in_or_app; right; left; reflexivity|congruence]. }
  assert (NEW : forall x, In x ws' -> ~ In x ws -> (x = s /\ s = f) \/ (x = l /\ l = g)).
  { intros x I NI. apply IN in I. destruct I as [I|[->| ->]]; [contradiction| |].
    - left. split; [reflexivity|]. destruct LS as [(a & b & -> & _)|(_ & Q)]; [|exact Q].
      exfalso. apply NI. apply in_or_app. right. left. reflexivity.
    - right. split; [reflexivity|]. destruct LL as [(a & b & -> & _)|(_ & Q)]; [|exact Q].
      exfalso. apply NI. apply in_or_app. right. left. reflexivity. }
  assert (NEWAREA : forall x, In x ws' -> ~ In x ws -> o_area (h' x) = true).
  { intros x I NI. unfold switch in E1.
    destruct (look_fold ws (ST h false None None) ND) as (H1 & H2 & H3 & H4 & H5).
    set (st := fold_left look ws (ST h false None None)) in *. cbn [s_heap s_area s_spread s_lang] in *.
    rewrite H3, (proj2 (area_used_iff h ws) AU) in E1. cbn [orb] in E1. rewrite H4, H5 in E1. unfold turn_on in E1.
    assert (NIH : forall y, In y ws -> x <> y) by (intros y J ->; contradiction).
    destruct (last_role spreading h ws) as [a|] eqn:La; destruct (last_role langmuir h ws) as [b|] eqn:Lb; inversion E1; subst; clear E1;
      repeat match goal with H : last_role _ _ _ = Some _ |- _ => apply last_role_some in H; destruct H as (? & ? & ? & _) end.
    - exfalso. exact (NI I).
    - apply in_app_or in I. destruct I as [I|[<-|[]]]; [contradiction|]. rewrite upd_same. reflexivity.
    - apply in_app_or in I. destruct I as [I|[<-|[]]]; [contradiction|].
      rewrite upd_other; [rewrite upd_same; reflexivity|]. apply NIH. subst. apply in_or_app. right. left. reflexivity.
    - rewrite <- app_assoc in I. apply in_app_or in I. destruct I as [I|[<-|[<-|[]]]]; [contradiction| |rewrite upd_same; reflexivity].
      rewrite upd_other by exact FG. rewrite upd_same. reflexivity. }
  assert (ON' : forall x, In x ws' -> o_on (h' x) <> None).
  { intros x I. destruct (in_dec Z.eq_dec x ws) as [J|J]; [apply AR; exact J|].
    destruct (NEW x I J) as [(-> & _)|(-> & _)].
    - destruct ONS as (_ & _ & Q). rewrite (proj2 (Q s I RS) eq_refl). discriminate.
    - destruct ONL as (_ & _ & Q). rewrite (proj2 (Q l I RL) eq_refl). discriminate. }
  assert (OK' : proper_weatherers h' ws2).
  { intros x I2. assert (I : In x ws') by (eapply Permutation_in; [symmetry; exact PM|exact I2]).
    split; [apply ON'; exact I|]. destruct (in_dec Z.eq_dec x ws) as [J|J].
    - destruct (AR x J) as (R1 & R2 & _). unfold role. rewrite R1, R2. apply OK. exact J.
    - intros _. apply NEWAREA; assumption. }
  assert (ND2 : NoDup ws2) by (eapply Permutation_NoDup; eassumption).
  assert (IS : In s ws') by apply ONS. assert (ILW : In l ws') by apply ONL.
  assert (IP : forall x, In x ws2 <-> In x ws').
  { intros x. split; intros I; [eapply Permutation_in; [symmetry; exact PM|exact I]|eapply Permutation_in; eassumption]. }
  assert (AU' : area_used h' ws2).
  { exists s. split; [apply IP; exact IS|]. destruct ONS as (_ & _ & Q). split; [apply Q; auto|].
    apply OK'; [apply IP; exact IS|left; exact RS]. }
  assert (NF2 : ~ In f' ws2) by (rewrite IP; exact NF'). assert (NG2 : ~ In g' ws2) by (rewrite IP; exact NG').
  assert (S2 := switch_main f' g' h' ws2 ND2 NF2 NG2 FG' OK' AU').
  assert (FL2 := fun x => switch_fields f' g' h' ws2 x ND2).
  destruct (switch f' g' h' ws2) as [h'' ws''] eqn:E2. cbv zeta in FL2. cbn [fst] in FL2.
  destruct S2 as (s2 & l2 & ONS2 & ONL2 & LS2 & LL2 & _ & IN2 & KEEP2).
  assert (Es : s2 = s).
  { destruct LS2 as [(a & b & Ea & Ra & _)|(Q & _)]; [|exfalso; exact (Q s (proj2 (IP s) IS) RS)].
    apply U1; try assumption. apply IP. rewrite Ea. apply in_or_app. right. left. reflexivity. }
  assert (El : l2 = l).
  { destruct LL2 as [(a & b & Ea & Ra & _)|(Q & _)]; [|exfalso; exact (Q l (proj2 (IP l) ILW) RL)].
    apply U2; try assumption. apply IP. rewrite Ea. apply in_or_app. right. left. reflexivity. }
  subst s2 l2. split.
  - intros x. rewrite IN2, IP. split; [intros [I|[->| ->]]; assumption|auto].
  - intros x I. assert (N1 : x <> f') by (intros ->; contradiction). assert (N2 : x <> g') by (intros ->; contradiction).
    assert (RF : o_ref (h'' x) = o_ref (h' x)) by (destruct (FL2 x N1 N2) as [->|(b & ->)]; reflexivity).
    assert (NO : o_on (h'' x) <> None) by (destruct (FL2 x N1 N2) as [->|(b & ->)]; [apply ON'; exact I|discriminate]).
    assert (NO1 := ON' x I).
    assert (I2 : In x ws'') by (apply IN2; left; apply IP; exact I).
    assert (BOTH : forall (a b : option bool) (P : Prop), a <> None -> b <> None -> (a = Some true <-> P) -> (b = Some true <-> P) -> a = b).
    { intros [[|]|] [[|]|] P Na Nb A B; try contradiction; try reflexivity.
      - exfalso. assert (Q : Some false = Some true) by (apply B; apply A; reflexivity). discriminate.
      - exfalso. assert (Q : Some false = Some true) by (apply A; apply B; reflexivity). discriminate. }
    destruct (is_one spreading (o_ref (h' x))) eqn:Q1; [|destruct (is_one langmuir (o_ref (h' x))) eqn:Q2].
    + apply is_one_iff in Q1. apply (BOTH _ _ (x = s)); try assumption.
      * apply ONS2; [exact I2|unfold role; congruence].
      * apply ONS; [exact I|exact Q1].
    + apply is_one_iff in Q2. apply (BOTH _ _ (x = l)); try assumption.
      * apply ONL2; [exact I2|unfold role; congruence].
      * apply ONL; [exact I|exact Q2].
    + rewrite KEEP2; try assumption; [reflexivity| |]; intros Q; apply is_one_iff in Q; congruence.
Qed.
Print Assumptions C133_again.

(** Evaporation 6, a spreading 21 the user switched off, no Langmuir. *)
Definition ex_w : heap := fun x => if x =? 6 then ex_evap else if x =? 21 then set_on false fay else ex_spill.
Example C133_meets : NoDup [6; 21] /\ proper_weatherers ex_w [6; 21] /\ area_used ex_w [6; 21] /\
  at_most_one spreading ex_w [6; 21] /\ at_most_one langmuir ex_w [6; 21] /\
  snd (switch 31 32 ex_w [6; 21]) = [6; 21; 32] /\
  o_on (fst (switch 31 32 ex_w [6; 21]) 21) = Some true /\ o_on (fst (switch 31 32 ex_w [6; 21]) 32) = Some true.
Proof.
  split; [repeat constructor; simpl; intuition; discriminate|].
  split; [intros x [<-|[<-|[]]]; vm_compute; split; try discriminate; auto|].
  split; [exists 6; vm_compute; auto|].
  split; [intros x y [<-|[<-|[]]] [<-|[<-|[]]]; vm_compute; auto; discriminate|].
  split; [intros x y [<-|[<-|[]]] [<-|[<-|[]]]; vm_compute; auto; discriminate|].
  split; [reflexivity|]. split; reflexivity.
Qed.

(** So the switch of the user does not count. *)
Theorem C133_user_refuted : exists f g h ws x, NoDup ws /\ proper_weatherers h ws /\ In x ws /\ o_on (h x) = Some false /\
  o_on (fst (switch f g h ws) x) = Some true.
Proof.
  exists 31, 32, ex_w, [6; 21], 21. destruct C133_meets as (A & B & _). split; [exact A|]. split; [exact B|].
  split; [simpl; auto|]. split; reflexivity.
Qed.
Print Assumptions C133_user_refuted.

(** With two spreading weatherers the second run may use the other one: the sorting puts FayGravityViscous before
    ConstantArea, and the last one is switched on. *)
Definition ex_two : heap := fun x => if x =? 6 then ex_evap else if x =? 22 then set_on true fay
  else if x =? 21 then fay else if x =? 23 then lang else ex_spill.
Definition ex_cls (x : Z) : wclass := if x =? 6 then Evaporation else if x =? 22 then ConstantArea else if x =? 21 then FayGravityViscous else Langmuir.
Theorem C133_two_refuted : exists f g h ws ws2 cls x y, NoDup ws /\ proper_weatherers h ws /\ x <> y /\
  let (h', ws') := switch f g h ws in
  ws' = ws /\ sorted_weatherers cls (map Some ws') = Ok (map Some ws2) /\
  o_on (h' x) = Some true /\ o_on (h' y) = Some false /\
  let (h'', ws'') := switch f g h' ws2 in
  o_on (h'' x) = Some false /\ o_on (h'' y) = Some true.
Proof.
  exists 31, 32, ex_two, [22; 6; 21; 23], [6; 21; 22; 23], ex_cls, 21, 22.
  split; [repeat constructor; simpl; intuition; discriminate|].
  split; [intros x [<-|[<-|[<-|[<-|[]]]]]; vm_compute; split; try discriminate; auto; intros [Q|Q]; discriminate|].
  split; [discriminate|]. vm_compute. repeat split.
Qed.
Print Assumptions C133_two_refuted.

(** ** C134: finding and adding *)
Theorem C134_find : forall h n l,
  (forall y, find_ref h n l = Some y <-> first_offer h n l y) /\
  (find_ref h n l = None <-> forall x, In x l -> ~ offers h n x) /\
  (forall ys, find_refs h n l = Some ys -> ys <> [] /\ (forall x, In x ys <-> In x l /\ offers h n x)) /\
  (find_refs h n l = None <-> forall x, In x l -> ~ offers h n x).
Proof.
  intros h n l. rewrite find_ref_first. split; [intros y; apply first_in_some|]. split; [apply first_in_none|].
  unfold find_refs. set (p := fun x => match o_ref (h x) with NoRef => false | One m => m =? n | Many ns => existsb (Z.eqb n) ns end).
  assert (IFF : forall x, In x (filter p l) <-> In x l /\ offers h n x).
  { intros x. rewrite filter_In. unfold p. rewrite find_test. reflexivity. }
  destruct (filter p l) as [|z r] eqn:F.
  - split; [discriminate|]. split; [|reflexivity]. intros _ x I Q. apply (proj2 (IFF x)). split; assumption.
  - split.
    + intros ys E. inversion E; subst ys. split; [discriminate|exact IFF].
    + split; [discriminate|]. intros N. exfalso. destruct (proj1 (IFF z) (or_introl eq_refl)) as (I & Q). exact (N z I Q).
Qed.
Print Assumptions C134_find.

(** The water passed to a release is the one that objects without water get. *)
Theorem C134_water : forall eqv m h h' x y, declared h (takers m) -> attach eqv m h = Ok h' ->
  compile_env h m = Some y -> In x (takers m) -> asks h water x -> o_attr (h' x) water = Some (Some y) /\ compile_env h' m = Some y.
Proof.
  intros eqv m h h' x y D E C I A. destruct (attach_main eqv m h D) as (h1 & E1 & SB & AT). rewrite E in E1. inversion E1; subst h1.
  unfold compile_env in *. split.
  - apply AT; try assumption. apply first_in_some. rewrite find_ref_first in C. unfold sources. rewrite first_in_app, C. reflexivity.
  - rewrite <- C. apply find_ref_ext. intros z. symmetry. apply SB.
Qed.
Print Assumptions C134_water.

Example C134_water_meets : compile_env ex_heap ex_model = Some 2 /\ find_ref ex_heap 9 (m_env ex_model) = Some 4 /\
  find_refs ex_heap wind (m_env ex_model) = Some [4; 3] /\ find_ref ex_heap waves (m_env ex_model) = None.
Proof. repeat split. Qed.

(** add_env keeps what is there and adds each new item once. *)
Theorem C134_add : forall h items env, NoDup env ->
  snd (add_env h false items env) = false /\ NoDup (fst (add_env h false items env)) /\
  (forall y, In y (fst (add_env h false items env)) <-> In y env \/ In y items) /\
  exists new, fst (add_env h false items env) = env ++ new.
Proof. exact add_env_plain. Qed.
Print Assumptions C134_add.

(** With quash, one item takes the place of the first of its class, or is added at the end. *)
Theorem C134_quash_partial : forall h x env, ~ In x env ->
  snd (add_env h true [x] env) = true /\
  ((exists a y b, env = a ++ y :: b /\ fst (add_env h true [x] env) = a ++ x :: b /\ o_cls (h y) = o_cls (h x) /\
      forall z, In z a -> o_cls (h z) <> o_cls (h x)) \/
   (fst (add_env h true [x] env) = env ++ [x] /\ forall z, In z env -> o_cls (h z) <> o_cls (h x))).
Proof.
  intros h x env N. simpl. split; [reflexivity|]. destruct (replace_class h x env) as [e|] eqn:E.
  - left. destruct (replace_class_spec h x env e E) as (a & y & b & -> & -> & C & F). exists a, y, b. auto.
  - right. unfold oc_add. rewrite zmem_no by exact N. split; [reflexivity|]. exact (replace_class_none h x env E).
Qed.
Print Assumptions C134_quash_partial.

(** Of several items only the first gets there. *)
Theorem C134_quash_refuted : exists h items env x, NoDup (items ++ env) /\ In x items /\ ~ In x (fst (add_env h true items env)) /\
  snd (add_env h true items env) = true.
Proof.
  exists ex_heap, [2; 3], [1], 3. split; [repeat constructor; simpl; intuition; discriminate|].
  split; [simpl; auto|]. split; [vm_compute; intros [Q|[]]; discriminate|]. reflexivity.
Qed.
Print Assumptions C134_quash_refuted.
Example C134_add_meets : add_env ex_heap false [2; 3] [1] = ([1; 2; 3], false) /\ add_env ex_heap true [2] [3; 1] = ([3; 2], true) /\
  add_env ex_heap true [4] [3; 1] = ([3; 1; 4], true).
Proof. repeat split. Qed.

(** ** C135: validation *)
(** validate refuses a model exactly if some object that takes part lacks wind, water or waves and will not be given
    one, or would be given one although there is none in the environment. *)
Theorem C135_validate : forall h m, validate h m = false <->
  exists x, In x (m_movers m ++ m_weath m ++ m_env m ++ m_outs m) /\ takes_part (h x) /\
    ((o_lax (h x) = false /\ o_mdr (h x) = false /\ exists n, In n [wind; water; waves] /\ o_attr (h x) n = Some None) \/
     exists n, (o_mdr (h x) = true /\ In n [wind; water; waves] /\ o_attr (h x) n <> None) /\
       forall y, In y (m_env m) -> ~ offers h n y).
Proof. exact validate_false. Qed.
Print Assumptions C135_validate.

(** A run that starts has wind, water and waves for every object that takes part, if its validation is the normal one or
    it takes default references. *)
Theorem C135_begin_partial : forall eqv f g m h m' h',
  begin_run eqv f g m h = Ok (m', h', true) ->
  declared (fst (switch f g h (m_weath m))) (takers m') ->
  forall x n, In x (m_movers m' ++ m_weath m' ++ m_env m' ++ m_outs m') -> takes_part (h' x) ->
  In n [wind; water; waves] -> o_attr (h' x) n <> None ->
  (o_mdr (h' x) = true -> exists ns, o_req (h' x) = Some ns /\ In n ns) ->
  o_lax (h' x) = false \/ o_mdr (h' x) = true ->
  exists y, o_attr (h' x) n = Some (Some y).
Proof. exact begin_complete. Qed.
Print Assumptions C135_begin_partial.

Example C135_meets : exists m' h', begin_run (fun _ _ => false) 31 32 ex_model ex_heap = Ok (m', h', true) /\
  m_weath m' = [6; 31; 32] /\ declared (fst (switch 31 32 ex_heap (m_weath ex_model))) (takers m') /\
  o_attr (h' 31) water = Some (Some 2) /\ o_attr (h' 32) wind = Some (Some 4).
Proof.
  eexists. eexists. split; [vm_compute; reflexivity|]. split; [reflexivity|].
  split; [|split; reflexivity].
  intros x ns n I. simpl in I. repeat destruct I as [<-|I]; try destruct I; vm_compute; intros E; inversion E; subst; simpl;
    intros J; repeat destruct J as [<-|J]; try destruct J; discriminate.
Qed.

(** Waves always call themselves valid: without wind, and not taking default references, they let the run start. *)
Definition ex_waves (mdr : bool) : obj := Obj (One waves) (Some [wind; water]) mdr (no_attr [wind; water]) None true false 107.
Theorem C135_waves_refuted : exists eqv f g m h m' h' x,
  begin_run eqv f g m h = Ok (m', h', true) /\ In x (m_env m') /\ takes_part (h' x) /\ o_attr (h' x) wind = Some None.
Proof.
  exists (fun _ _ => false), 31, 32, (Mod [3; 9] 5 [] [] [] []), (upd ex_heap 9 (ex_waves false)).
  eexists. eexists. exists 9. split; [vm_compute; reflexivity|]. split; [simpl; auto|]. split; [discriminate|reflexivity].
Qed.
Print Assumptions C135_waves_refuted.

(** And a model in which every object has all it needs is refused when the water is not in the environment as well. *)
Definition ex_disp : obj := Obj (One 13) (Some [waves; water]) true (fun n => if n =? water then Some (Some 1) else if n =? waves then Some (Some 9) else None)
  (Some true) false false 9.
Theorem C135_own_refuted : exists eqv f g m h m' h',
  begin_run eqv f g m h = Ok (m', h', false) /\
  forall x n, In x (takers m') -> In n [wind; water; waves] -> o_attr (h' x) n <> Some None.
Proof.
  exists (fun _ _ => false), 31, 32, (Mod [] 5 [] [6] [] []), (upd ex_heap 6 ex_disp).
  eexists. eexists. split; [vm_compute; reflexivity|].
  intros x n [<-|[]] [<-|[<-|[<-|[]]]]; vm_compute; discriminate.
Qed.
Print Assumptions C135_own_refuted.

(** ** C136: the check of the inputs *)
Theorem C136_refuses : forall c v ps, (exists e, check_inputs c v ps = Raise e) <-> impossible c ps.
Proof. exact check_raise. Qed.
Print Assumptions C136_refuses.

Theorem C136_messages : forall c v ps ms ok, check_inputs c v ps = Ok (ms, ok) ->
  (ok = true <-> v = true /\ ~ exists p, In p ps /\ p_on p = true /\ released_before c p) /\
  (In NoSpills ms <-> ps = []) /\
  (In OffMap ms <-> exists p, In p ps /\ p_on p = true /\ (p_start_on_map p = false \/ exists l, p_end p = Some (false, l))) /\
  (In OnLand ms <-> exists p, In p ps /\ p_on p = true /\ (p_start_on_land p = true \/ exists m, p_end p = Some (m, true))) /\
  (In Above ms <-> exists p, In p ps /\ p_on p = true /\ p_depth_ok p = false) /\
  (In NoneReleased ms <-> (exists p, In p ps /\ p_on p = true) /\ forall p, In p ps -> p_on p = true -> too_late c p) /\
  (In NoOverlap ms <-> In (true, false) (c_movers c)).
Proof.
  intros c v ps ms ok E. destruct (check_ok c v ps ms ok E) as (A & B & C & D & F & G & H).
  split; [exact A|]. split; [exact B|]. split; [exact C|]. split; [exact D|]. split; [exact F|]. split; [|exact H].
  assert (M : forall p, meets_run c p = false <-> too_late c p).
  { intros p. unfold meets_run, too_late. destruct (c_backwards c); rewrite Z.ltb_ge; reflexivity. }
  rewrite G. split; intros (X & Y); (split; [exact X|]); intros p I O1; apply M; apply Y; assumption.
Qed.
Print Assumptions C136_messages.

(** The messages about the pour point and about the times of release. *)
Theorem C136_times : forall c v ps ms ok, check_inputs c v ps = Ok (ms, ok) ->
  (In TooCold ms <-> exists p, In p ps /\ p_on p = true /\ p_weatherable p = true /\ exists b, p_sinks p = Some (true, b)) /\
  (In Before ms <-> exists p, In p ps /\ p_on p = true /\ released_before c p) /\
  (In After ms <-> exists p, In p ps /\ p_on p = true /\ released_after c p).
Proof. exact check_times. Qed.
Print Assumptions C136_times.

Definition ex_p : spill := Spill true true true false (Some (false, true)) 3600 7200 true (Some (true, false)).
Example C136_meets :
  check_inputs (Cin 0 86400 900 false true [(true, false); (false, false)]) true [ex_p] =
    Ok ([OffMap; OnLand; After; TooCold; NoOverlap], true) /\
  check_inputs (Cin 5000 86400 900 false true []) true [ex_p] = Ok ([OffMap; OnLand; Before; TooCold], false) /\
  check_inputs (Cin 86400 (-86400) (-900) true true []) true [ex_p] = Raise RuntimeErr.
Proof. repeat split. Qed.

(** A forward time step with a negative duration is not noticed. *)
Theorem C136_signs_refuted : exists c ps ms, 0 < c_time_step c /\ c_duration c < 0 /\ check_inputs c true ps = Ok (ms, true).
Proof. exists (Cin 0 (-86400) 900 false true []), [ex_p]. eexists. split; [reflexivity|]. split; [reflexivity|]. reflexivity. Qed.
Print Assumptions C136_signs_refuted.
