(** * Properties of shapefile output *)

From Coq Require Import ZArith QArith List Bool Lia Permutation Sorted String.
From Verif Require Import Py PyLemmas StrModel StrLemmas ShpModel ShpSpec ShpProofs.
Import ListNotations.
Open Scope list_scope.
Open Scope Z_scope.

(** A world for the examples. *)
Fixpoint ins (x : el) (l : list el) : list el := match l with y :: t => if e_conc x <=? e_conc y then x :: l else y :: ins x t | [] => [x] end.
Definition isort (l : list el) : list el := fold_right ins [] l.
Lemma isort_sorts : sorts isort.
Proof.
  assert (P : forall x l, Permutation (x :: l) (ins x l)).
  { intros x. induction l as [| y l IH]; cbn [ins]; [reflexivity |]. destruct (_ <=? _); [reflexivity |]. rewrite perm_swap, IH. reflexivity. }
  assert (H : forall x y l, e_conc y <= e_conc x -> HdRel (fun a b => e_conc a <= e_conc b) y l -> HdRel (fun a b => e_conc a <= e_conc b) y (ins x l)).
  { intros x y [| z l] L D; cbn [ins]; [constructor; exact L |]. inversion D; subst. destruct (_ <=? _); constructor; assumption. }
  assert (Q : forall x l, Sorted (fun a b => e_conc a <= e_conc b) l -> Sorted (fun a b => e_conc a <= e_conc b) (ins x l)).
  { intros x. induction l as [| y l IH]; intros S1; cbn [ins]; [repeat constructor |]. destruct (Z.leb_spec (e_conc x) (e_conc y)) as [L | L].
    - constructor; [exact S1 | constructor; exact L].
    - inversion S1; subst. constructor; [apply IH; assumption | apply H; [lia | assumption]]. }
  intros l. induction l as [| x l (IP & IS)]; cbn [isort fold_right]; [split; [reflexivity | constructor] |].
  split; [rewrite <- P; constructor; exact IP | apply Q; exact IS].
Qed.
Definition dbf_ext : str := lit ".dbf"%string.
Definition w0 : world := World isort (fun bs sep => match bs with [] => None | b :: _ => match b_els b with [] => None | _ => Some 7 end end) [shp_ext; dbf_ext].
Definition a_cfg (name : string) (zip cb ub : bool) : cfg := Cfg (lit name) zip cb true ub true true (Some (-5 # 1)) true.
Definition sc : box := Box false 1000 [El 1 30; El 2 10] true.
Definition su : box := Box true 1000 [El 3 30; El 4 10] true.
Definition two : list (bool * list box) := [(true, [sc; su]); (false, [sc; su])].

(** ** C220: what a zipped output holds. *)
Theorem C220_zip_partial w g h u steps s : sorts (w_sort w) -> g_on g = true -> g_zip g = true -> g_name g <> [] -> plain (stem (g_name g)) ->
  run w g (start g) (h ++ Prepare u :: as_ops steps ++ [Finish]) = Ok s ->
  exists fc fcb fu fub,
    sget (stem (g_name g) ++ zip_ext) (s_out s) =
      Some (if u || g_cb g
            then Bundle ([zipped g t_certain fc] ++ (if g_cb g then [zipped g t_certain_b fcb] else []) ++
                   (if u then zipped g t_uncertain fu :: (if g_ub g then [zipped g t_uncertain_b fub] else []) else []))
            else Whole fc) /\
    Forall2 (shows (g_off g)) (boxes false steps) fc /\ Forall2 (shows (g_off g)) (boxes true steps) fu /\
    bounds w (g_off g) (g_cb g) (g_cb_sep g) (map (fun b => [b]) (boxes false steps)) fcb /\
    bounds w (g_off g) (g_ub g) (g_ub_sep g) (around (g_ub_all g) steps) fub.
Proof.
  intros S1 On Z1 NE P R. rewrite run_app in R. destruct (run w g (start g) h) as [s0 |] eqn:H0; cbn [bind] in R; [| discriminate].
  assert (N0 := name_inv w g Z1 NE h (start g) s0 (start_name g Z1) H0). cbn [run do_op bind] in R. rewrite run_app in R.
  destruct (run w g (prepare g u s0) (as_ops steps)) as [s1 |] eqn:H1; cbn [bind] in R; [| discriminate]. cbn [run do_op] in R.
  assert (NP : s_name (prepare g u s0) = stem (g_name g) ++ zip_ext).
  { apply (name_inv w g Z1 NE [Prepare u] s0); [exact N0 | reflexivity]. }
  assert (N1 := name_inv w g Z1 NE _ _ _ NP H1).
  apply (steps_grow w g S1 On) in H1. destruct H1 as (fc & fcb & fu & fub & -> & A & B & C & D). unfold prepare in *. rewrite On in *. cbn [s_c s_cb s_u s_ub s_unc s_name s_tmp s_out app] in *.
  match type of R with context [finish w g ?x] => destruct (finish_zip w g x u Z1 P eq_refl) as (s2 & F & N2 & G) end. rewrite F in R. cbn [bind] in R. injection R as <-.
  cbn [s_name s_c s_cb s_u s_ub] in G. rewrite N1 in G. exists fc, fcb, fu, fub. split; [exact G |]. auto.
Qed.
Print Assumptions C220_zip_partial.
Example C220_zip_partial_meets : exists s, run w0 (a_cfg "out.shp" true true true) (start (a_cfg "out.shp" true true true))
    ([Prepare false; Step true [sc]; Finish] ++ Prepare true :: as_ops two ++ [Finish]) = Ok s /\
  sorts (w_sort w0) /\ plain (stem (g_name (a_cfg "out.shp" true true true))) /\
  sget (lit "out.zip"%string) (s_out s) = Some (Bundle
    [(lit "out_certain.zip"%string, Whole [Rows 1000 (Some 19000) [El 2 10; El 1 30]]); (lit "out_certain_boundary.zip"%string, Whole [Bound 1000 (Some 19000) true 7]);
     (lit "out_uncertain.zip"%string, Whole [Rows 1000 (Some 19000) [El 3 30; El 4 10]]); (lit "out_uncertain_boundary.zip"%string, Whole [Bound 1000 (Some 19000) true 7])]).
Proof.
  eexists. split; [vm_compute; reflexivity |]. split; [exact isort_sorts |]. split; [intros I; vm_compute in I; intuition discriminate | vm_compute; reflexivity].
Qed.

(** A step is refused exactly for an offset of a day or more. *)
Theorem C220_offset w g sp s q m : g_on g = true -> g_off g = Some q -> Qeq (q * 60) (inject_Z m) ->
  (Z.abs m < 1440 -> forall wr, exists r, step w g wr sp s = Ok r) /\
  (Z.abs m >= 1440 -> sp <> [] -> step w g true sp s = Raise ValueErr).
Proof.
  intros On Off E.
  assert (M : forall m, Qeq (q * 60) (inject_Z m) -> Z.quot (Qnum q * 60) (Zpos (Qden q)) = m).
  { intros m0 M. destruct q as [n d]. unfold Qeq, Qmult, inject_Z in M. cbn [Qnum Qden] in *. rewrite Z.mul_1_r, Pos.mul_1_r in M. rewrite M. apply Z.quot_mul. discriminate. }
  split.
  - intros L wr.
    assert (U : forall t, utc (g_off g) t = Ok (Some (t - 60 * m))).
    { intros t. unfold utc. rewrite Off. cbv zeta. rewrite (M m E). destruct (Z.ltb_spec (Z.abs m) 1440); [reflexivity | lia]. }
    unfold step. rewrite On. cbn [negb]. destruct wr; [| eexists; reflexivity].
    assert (A : forall l s, (l = [] \/ sp <> []) -> exists s1, add_all w g sp s l = Ok s1).
    { induction l as [| b l IH]; intros s0 NE; [eexists; reflexivity |]. cbn [add_all]. destruct NE as [NE | NE]; [discriminate |].
      unfold add_box, particles. rewrite U. cbn [bind]. cbv zeta. destruct (b_unc b).
      - destruct (g_ub g); [| cbn [bind]; apply IH; right; exact NE]. unfold boundary. destruct (g_ub_all g).
        + destruct sp as [| b0 sp']; [contradiction |]. rewrite U. cbn [bind]. apply IH. right. exact NE.
        + rewrite U. cbn [bind]. apply IH. right. exact NE.
      - destruct (g_cb g); [| cbn [bind]; apply IH; right; exact NE]. unfold boundary. rewrite U. cbn [bind]. apply IH. right. exact NE. }
    destruct (A sp s) as (s1 & ->); [destruct sp; [left; reflexivity | right; discriminate] |]. cbn [bind]. eexists. reflexivity.
  - intros L NE. unfold step. rewrite On. cbn [negb]. destruct sp as [| b sp]; [contradiction |]. cbn [add_all]. unfold add_box, particles, utc. rewrite Off. cbv zeta. rewrite (M m E).
    destruct (Z.ltb_spec (Z.abs m) 1440); [lia | reflexivity].
Qed.
Print Assumptions C220_offset.
Example C220_offset_meets : step w0 (Cfg (lit "a"%string) true true true true true true (Some (24 # 1)) true) true [sc] (start (a_cfg "a" true true true)) = Raise ValueErr /\
  Qeq ((24 # 1) * 60) (inject_Z 1440).
Proof. split; vm_compute; reflexivity. Qed.

(** The certain and the uncertain elements, and their boundaries, should be in files of their own: not for a name with a dot. *)
Theorem C220_dots_refuted : ~ (forall w g steps s, sorts (w_sort w) -> g_on g = true -> g_zip g = true ->
  run w g (start g) (Prepare true :: as_ops steps ++ [Finish]) = Ok s ->
  exists n fc ms, sget (stem (g_name g) ++ zip_ext) (s_out s) = Some (Bundle ((n, Whole fc) :: ms)) /\ Forall2 (shows (g_off g)) (boxes false steps) fc).
Proof.
  intros H. edestruct (H w0 (a_cfg "run.1.shp" true false false) two) as (n & fc & ms & E & F); [exact isort_sorts | reflexivity | reflexivity | vm_compute; reflexivity |].
  vm_compute in E. injection E as <- <- <-. inversion F as [| b f l l' S1 F1]; subst. destruct S1 as (u & rows & R & _ & P & _). injection R as _ <-.
  assert (I : In (El 1 30) [El 3 30; El 4 10]) by (apply (Permutation_in _ P); left; reflexivity). destruct I as [I | [I | []]]; discriminate I.
Qed.
Print Assumptions C220_dots_refuted.

(** ** C221: the files when they are not zipped. *)
Theorem C221_plain_partial w g steps s : sorts (w_sort w) -> g_on g = true -> g_zip g = false -> plain (stem (g_name g)) -> NoDup (w_parts w) -> Forall ext (w_parts w) ->
  run w g (start g) (Prepare false :: as_ops steps ++ [Finish]) = Ok s ->
  exists fc fcb,
    (forall p, In p (w_parts w) -> sget (stem (g_name g) ++ p) (s_out s) = Some (Part p fc)) /\
    (forall p, In p (w_parts w) -> g_cb g = true -> sget (stem (g_name g) ++ t_boundary ++ p) (s_out s) = Some (Part p fcb)) /\
    Forall2 (shows (g_off g)) (boxes false steps) fc /\
    bounds w (g_off g) (g_cb g) (g_cb_sep g) (map (fun b => [b]) (boxes false steps)) fcb.
Proof.
  intros S1 On Z1 P ND EX R. cbn [run do_op bind] in R. rewrite run_app in R.
  destruct (run w g (prepare g false (start g)) (as_ops steps)) as [s1 |] eqn:H1; cbn [bind] in R; [| discriminate]. cbn [run do_op] in R.
  apply (steps_grow w g S1 On) in H1. destruct H1 as (fc & fcb & fu & fub & -> & A & B & C & D). unfold prepare, start in *. rewrite On in *. cbn [s_c s_cb s_u s_ub s_unc s_name s_tmp s_out app] in *.
  match type of R with context [finish w g ?x] => destruct (finish_plain w g x Z1 P eq_refl eq_refl ND EX) as (s2 & F & G1 & G2) end. rewrite F in R. cbn [bind] in R. injection R as <-.
  cbn [s_c s_cb] in G1, G2. exists fc, fcb. auto.
Qed.
Print Assumptions C221_plain_partial.
Example C221_plain_partial_meets : exists s, run w0 (a_cfg "out" false true true) (start (a_cfg "out" false true true)) (Prepare false :: as_ops [(true, [sc])] ++ [Finish]) = Ok s /\
  NoDup (w_parts w0) /\ Forall ext (w_parts w0) /\
  map fst (s_out s) = [lit "out.shp"%string; lit "out.dbf"%string; lit "out_boundary.shp"%string; lit "out_boundary.dbf"%string].
Proof.
  eexists. split; [vm_compute; reflexivity |]. split; [repeat constructor; cbn; intuition discriminate |]. split; [| vm_compute; reflexivity].
  constructor; [exact shp_is_ext |]. constructor; [exists 100, [98; 102]; split; [reflexivity | cbn; intuition lia] | constructor].
Qed.

(** With uncertainty and without zip the one file should have all the parts of the shapefiles: it has one part of each. *)
Theorem C221_bundle_refuted : ~ (forall w g steps s ms, sorts (w_sort w) -> g_on g = true ->
  run w g (start g) (Prepare true :: as_ops steps ++ [Finish]) = Ok s -> sget (s_name s) (s_out s) = Some (Bundle ms) ->
  forall p, In p (w_parts w) -> exists n fs, In (n, Part p fs) ms \/ In (n, Whole fs) ms).
Proof.
  intros H. edestruct (H w0 (a_cfg "out.shp" false false false) two) with (p := dbf_ext) as (n & fs & I); [exact isort_sorts | reflexivity | vm_compute; reflexivity | vm_compute; reflexivity | right; left; reflexivity |].
  destruct I as [[I | [I | []]] | [I | [I | []]]]; discriminate I.
Qed.
Print Assumptions C221_bundle_refuted.

(** The file that a step tells of should be there after the run: it is not without zip, when boundaries are asked for. *)
Theorem C221_told_refuted : ~ (forall w g sp s0 s n, sorts (w_sort w) -> g_on g = true -> In shp_ext (w_parts w) ->
  step w g true sp (prepare g false (start g)) = Ok (s0, Some n) -> finish w g s0 = Ok s -> sget n (s_out s) <> None).
Proof.
  intros H. eapply (H w0 (a_cfg "out.shp" false false true) [sc]); [exact isort_sorts | reflexivity | left; reflexivity | vm_compute; reflexivity | vm_compute; reflexivity | vm_compute; reflexivity].
Qed.
Print Assumptions C221_told_refuted.

(** An outputter that was off when the run started and is on at its end raises. *)
Theorem C221_switched w g g' u steps : g_on g = false -> exists s, run w g (start g) (Prepare u :: as_ops steps) = Ok s /\ finish w g' s = Raise AttrErr.
Proof.
  intros Off. exists (start g). split; [| reflexivity]. cbn [run do_op bind]. unfold prepare. rewrite Off. cbn [start s_c s_unc s_name s_tmp s_out]. fold (start g).
  induction steps as [| [wr sp] steps IH]; [reflexivity |]. cbn [as_ops map run do_op fst snd]. unfold step. rewrite Off. cbn [negb bind fst]. exact IH.
Qed.
Print Assumptions C221_switched.
Example C221_switched_meets : finish w0 (a_cfg "out" true true true) (start (a_cfg "out" true true true)) = Raise AttrErr.
Proof. reflexivity. Qed.
