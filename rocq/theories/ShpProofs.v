(** * Proofs about shapefile output *)

From Coq Require Import ZArith QArith List Bool Lia Permutation Sorted.
From Verif Require Import Py PyLemmas StrModel StrLemmas ShpModel ShpSpec.
Import ListNotations.
Open Scope list_scope.
Open Scope Z_scope.

Lemma utc_ok off t u : utc off t = Ok u -> universal off t u.
Proof.
  unfold utc, universal. destruct off as [q |]; [| congruence]. cbv zeta. destruct (Z.abs _ <? 1440); [| discriminate]. intros E. injection E as <-.
  intros m M. exists (t - 60 * m). split; [| lia]. destruct q as [n d]. cbn [Qnum Qden]. unfold Qeq, Qmult, inject_Z in M. cbn [Qnum Qden] in *.
  rewrite Z.mul_1_r, Pos.mul_1_r in M. rewrite M, Z.quot_mul by discriminate. reflexivity.
Qed.

Lemma particles_ok w g b f : sorts (w_sort w) -> particles w g b = Ok f -> shows (g_off g) b f.
Proof.
  intros S1. unfold particles. destruct (utc (g_off g) (b_time b)) as [u |] eqn:U; cbn [bind]; [| discriminate]. intros E. injection E as <-.
  apply utc_ok in U. exists u. destruct (b_conc b) eqn:C, (b_unc b) eqn:N; cbn [andb negb];
    eexists; (split; [reflexivity |]); (split; [exact U |]); try (split; [reflexivity | split; [discriminate | reflexivity]]).
  destruct (S1 (b_els b)) as (P & So). split; [exact P |]. split; [auto |]. intros [H | H]; discriminate H.
Qed.

Lemma boundary_ok w g bs sep fs : boundary w g bs sep = Ok fs -> outlines w (g_off g) sep bs fs.
Proof.
  unfold boundary, outlines. destruct bs as [| b r]; [discriminate |]. destruct (utc (g_off g) (b_time b)) as [u |] eqn:U; cbn [bind]; [| discriminate]. intros E. injection E as <-.
  destruct (w_hull w (b :: r) sep) as [h |]; [| reflexivity]. exists b, r, u. split; [reflexivity |]. split; [reflexivity | exact (utc_ok _ _ _ U)].
Qed.

(** The frames that are added for certain boxes, uncertain boxes and what these are bounded with. *)
Definition grows (w : world) (g : cfg) (cs us : list box) (ar : list (list box)) (s s' : st) : Prop :=
  exists fc fcb fu fub,
    s' = St (s_c s ++ fc) (s_cb s ++ fcb) (s_u s ++ fu) (s_ub s ++ fub) (s_unc s) (s_name s) (s_tmp s) (s_out s) /\
    Forall2 (shows (g_off g)) cs fc /\ Forall2 (shows (g_off g)) us fu /\
    bounds w (g_off g) (g_cb g) (g_cb_sep g) (map (fun b => [b]) cs) fcb /\ bounds w (g_off g) (g_ub g) (g_ub_sep g) ar fub.

Lemma bounds_app w off yes sep a b x y : bounds w off yes sep a x -> bounds w off yes sep b y -> bounds w off yes sep (a ++ b) (x ++ y).
Proof.
  intros (l & -> & A) (m & -> & B). exists (l ++ m). split; [symmetry; apply concat_app |]. destruct yes; [apply Forall2_app; assumption | subst; reflexivity].
Qed.
Lemma bounds_nil w off yes sep : bounds w off yes sep [] [].
Proof. exists []. split; [reflexivity |]. destruct yes; constructor. Qed.

Lemma grows_refl w g s : grows w g [] [] [] s s.
Proof.
  exists [], [], [], []. rewrite !app_nil_r. destruct s; split; [reflexivity |]. repeat split; try constructor; apply bounds_nil.
Qed.
Lemma grows_trans w g c1 u1 a1 c2 u2 a2 s s1 s2 : grows w g c1 u1 a1 s s1 -> grows w g c2 u2 a2 s1 s2 -> grows w g (c1 ++ c2) (u1 ++ u2) (a1 ++ a2) s s2.
Proof.
  intros (fc & fcb & fu & fub & -> & A1 & A2 & A3 & A4) (gc & gcb & gu & gub & -> & B1 & B2 & B3 & B4). cbn [s_c s_cb s_u s_ub s_unc s_name s_tmp s_out].
  exists (fc ++ gc), (fcb ++ gcb), (fu ++ gu), (fub ++ gub). rewrite !app_assoc. split; [reflexivity |]. rewrite map_app.
  split; [apply Forall2_app; assumption |]. split; [apply Forall2_app; assumption |]. split; apply bounds_app; assumption.
Qed.

Definition certain_of (l : list box) : list box := filter (fun b => Bool.eqb (b_unc b) false) l.
Definition uncertain_of (l : list box) : list box := filter (fun b => Bool.eqb (b_unc b) true) l.
Definition around_of (all : bool) (sp l : list box) : list (list box) := map (fun b => if all then sp else [b]) (filter b_unc l).

Lemma bounds_one w off yes sep bs fs : yes = true -> outlines w off sep bs fs -> bounds w off yes sep [bs] fs.
Proof. intros -> O. exists [fs]. cbn [concat]. rewrite app_nil_r. split; [reflexivity |]. constructor; [exact O | constructor]. Qed.
Lemma bounds_off w off yes sep bss : yes = false -> bounds w off yes sep bss [].
Proof. intros ->. exists []. split; reflexivity. Qed.

Lemma add_box_grows w g sp s b s' : sorts (w_sort w) -> add_box w g sp s b = Ok s' ->
  grows w g (certain_of [b]) (uncertain_of [b]) (around_of (g_ub_all g) sp [b]) s s'.
Proof.
  intros S1. unfold add_box, certain_of, uncertain_of, around_of. cbn [filter]. destruct (particles w g b) as [f |] eqn:P; cbn [bind]; [| discriminate]. apply (particles_ok w g b f S1) in P.
  destruct (b_unc b) eqn:N; cbn [Bool.eqb map]; cbv zeta.
  - destruct (g_ub g) eqn:G.
    + destruct (boundary w g _ (g_ub_sep g)) as [h |] eqn:B; cbn [bind]; [| discriminate]. intros E. injection E as <-. apply boundary_ok in B.
      exists [], [], [f], h. rewrite !app_nil_r. split; [reflexivity |]. split; [constructor |]. split; [repeat constructor; exact P |]. split; [apply bounds_nil | apply bounds_one; assumption].
    + intros E. injection E as <-. exists [], [], [f], []. rewrite !app_nil_r. split; [reflexivity |]. split; [constructor |]. split; [repeat constructor; exact P |]. split; [apply bounds_nil | apply bounds_off; assumption].
  - destruct (g_cb g) eqn:G.
    + destruct (boundary w g _ (g_cb_sep g)) as [h |] eqn:B; cbn [bind]; [| discriminate]. intros E. injection E as <-. apply boundary_ok in B.
      exists [f], h, [], []. rewrite !app_nil_r. split; [reflexivity |]. split; [repeat constructor; exact P |]. split; [constructor |]. split; [apply bounds_one; assumption | apply bounds_nil].
    + intros E. injection E as <-. exists [f], [], [], []. rewrite !app_nil_r. split; [reflexivity |]. split; [repeat constructor; exact P |]. split; [constructor |]. split; [apply bounds_off; assumption | apply bounds_nil].
Qed.

Lemma add_all_grows w g sp l : sorts (w_sort w) -> forall s s', add_all w g sp s l = Ok s' ->
  grows w g (certain_of l) (uncertain_of l) (around_of (g_ub_all g) sp l) s s'.
Proof.
  intros S1. induction l as [| b l IH]; intros s s' E; cbn [add_all] in E; [injection E as <-; apply grows_refl |].
  destruct (add_box w g sp s b) as [s1 |] eqn:B; cbn [bind] in E; [| discriminate].
  apply (add_box_grows w g sp s b s1 S1) in B. specialize (IH s1 s' E). unfold certain_of, uncertain_of, around_of in *.
  change (b :: l) with ([b] ++ l). rewrite !filter_app, map_app. exact (grows_trans _ _ _ _ _ _ _ _ _ _ _ B IH).
Qed.

Lemma run_app w g a : forall s b, run w g s (a ++ b) = do s1 <- run w g s a; run w g s1 b.
Proof. induction a as [| o a IH]; intros s b; [reflexivity |]. cbn [app run]. destruct (do_op w g s o) as [s1 |]; cbn [bind]; [apply IH | reflexivity]. Qed.

Lemma steps_grow w g : sorts (w_sort w) -> g_on g = true -> forall steps s s', run w g s (as_ops steps) = Ok s' ->
  grows w g (boxes false steps) (boxes true steps) (around (g_ub_all g) steps) s s'.
Proof.
  intros S1 On. induction steps as [| [wr sp] steps IH]; intros s s' E; cbn [as_ops map run fst snd] in E; [injection E as <-; apply grows_refl |].
  cbn [do_op] in E. unfold step in E. rewrite On in E. cbn [negb] in E. unfold boxes, around, written in *. cbn [filter fst]. destruct wr.
  - destruct (add_all w g sp s sp) as [s1 |] eqn:A; cbn [bind fst] in E; [| discriminate]. apply (add_all_grows w g sp sp S1) in A. specialize (IH s1 s' E).
    cbn [map snd concat flat_map]. rewrite !filter_app. exact (grows_trans _ _ _ _ _ _ _ _ _ _ _ A IH).
  - cbn [bind fst] in E. exact (IH s s' E).
Qed.

(** Names. *)
Lemma last_dot_plain s : plain s -> last_dot s = None.
Proof.
  induction s as [| c t IH]; intros P; [reflexivity |]. cbn [last_dot]. rewrite IH by (intros I; apply P; right; exact I).
  destruct (Z.eqb_spec c 46); [destruct P; left; assumption | reflexivity].
Qed.
Lemma last_dot_app a b : last_dot b <> None -> last_dot (a ++ b) = option_map (fun ab => (a ++ fst ab, snd ab)) (last_dot b).
Proof.
  intros N. induction a as [| c a IH]; [cbn [app]; destruct (last_dot b) as [[x y] |]; reflexivity |]. cbn [app last_dot]. rewrite IH. destruct (last_dot b) as [[x y] |]; [reflexivity | destruct (N eq_refl)].
Qed.
Lemma last_dot_ext p : ext p -> last_dot p = Some ([], p).
Proof. intros (c & t & -> & N). set (u := c :: t) in *. cbn [last_dot]. rewrite (last_dot_plain u N). reflexivity. Qed.
Lemma stem_plain s : plain s -> stem s = s.
Proof. intros P. unfold stem, parted. rewrite (last_dot_plain s P). reflexivity. Qed.
Lemma parted_ext a p : a <> [] -> ext p -> parted (a ++ p) = (a, p).
Proof.
  intros NE E. unfold parted. assert (L := last_dot_ext p E). rewrite last_dot_app by congruence. rewrite L. cbn [option_map fst snd]. rewrite app_nil_r.
  destruct E as (c & t & -> & _). destruct a; [contradiction | reflexivity].
Qed.

Lemma zip_is_ext : ext zip_ext. Proof. exists 122, [105; 112]. split; [reflexivity | cbn; intuition lia]. Qed.
Lemma shp_is_ext : ext shp_ext. Proof. exists 115, [104; 112]. split; [reflexivity | cbn; intuition lia]. Qed.

Definition tags : list str := [t_certain; t_certain_b; t_uncertain; t_uncertain_b].
Lemma tag_plain t : In t tags -> plain t /\ t <> [].
Proof. intros [<- | [<- | [<- | [<- | []]]]]; (split; [intros I; cbn in I; intuition lia | discriminate]). Qed.
Lemma built_eq g t : plain (stem (g_name g)) -> In t tags -> built g t = (stem (g_name g) ++ t) ++ (if g_zip g then zip_ext else shp_ext).
Proof.
  intros P T. unfold built, with_suffix. rewrite stem_plain; [reflexivity |]. intros I. apply in_app_or in I. destruct I as [I | I]; [exact (P I) | exact (proj1 (tag_plain t T) I)].
Qed.
Lemma stem_built g t : plain (stem (g_name g)) -> In t tags -> stem (built g t) = stem (g_name g) ++ t.
Proof.
  intros P T. rewrite (built_eq g t P T). unfold stem at 1. rewrite parted_ext; [reflexivity | | destruct (g_zip g); [exact zip_is_ext | exact shp_is_ext]].
  intros E. apply app_eq_nil in E. exact (proj2 (tag_plain t T) (proj2 E)).
Qed.

Lemma seqb_tags g a b : plain (stem (g_name g)) -> In a tags -> In b tags -> a <> b -> seqb (built g a) (built g b) = false.
Proof.
  intros P A B N. destruct (seqb (built g a) (built g b)) eqn:E; [| reflexivity]. apply seqb_iff in E. rewrite !built_eq in E by assumption.
  apply app_inv_tail in E. apply app_inv_head in E. contradiction.
Qed.

Lemma sget_built g a b (v : file) d : plain (stem (g_name g)) -> In a tags -> In b tags -> a <> b -> sget (built g a) (sset (built g b) v d) = sget (built g a) d.
Proof. intros P A B N. rewrite sget_sset, (seqb_tags g a b P A B N). reflexivity. Qed.
Lemma sget_same {V} k (v : V) d : sget k (sset k v d) = Some v.
Proof. rewrite sget_sset, seqb_refl. reflexivity. Qed.

Ltac tg := first [left; reflexivity | right; tg].
Lemma finish_zip w g s unc : g_zip g = true -> plain (stem (g_name g)) -> s_unc s = Some unc ->
  exists s', finish w g s = Ok s' /\ s_name s' = s_name s /\
    sget (s_name s) (s_out s') =
      Some (if unc || g_cb g
            then Bundle ([zipped g t_certain (s_c s)] ++ (if g_cb g then [zipped g t_certain_b (s_cb s)] else []) ++
                   (if unc then zipped g t_uncertain (s_u s) :: (if g_ub g then [zipped g t_uncertain_b (s_ub s)] else []) else []))
            else Whole (s_c s)).
Proof.
  intros Z1 P U. assert (I1 : In t_certain tags) by (unfold tags; cbn [In]; tg). assert (I2 : In t_certain_b tags) by (unfold tags; cbn [In]; tg).
  assert (I3 : In t_uncertain tags) by (unfold tags; cbn [In]; tg). assert (I4 : In t_uncertain_b tags) by (unfold tags; cbn [In]; tg).
  assert (BE : forall t, In t tags -> forall fs, (built g t, Whole fs) = zipped g t fs).
  { intros t T fs. unfold zipped. rewrite (built_eq g t P T), Z1, <- app_assoc. reflexivity. }
  unfold finish, bundle, write. rewrite U, Z1. cbv zeta.
  destruct unc, (g_cb g), (g_ub g); cbn [andb orb app members];
    repeat first [rewrite sget_same | rewrite sget_built by (try assumption; discriminate)]; cbn [bind];
    eexists; (split; [reflexivity |]); (split; [reflexivity |]); cbn [s_out]; rewrite sget_same, ?BE by assumption; reflexivity.
Qed.

(** Shapefiles that are not zipped. *)
Lemma put_parts_new name fs : name <> [] -> stem name <> [] -> forall ps d, NoDup ps -> Forall ext ps ->
  (forall p, In p ps -> sget (with_suffix name p) d = None) ->
  put_parts name fs ps d = d ++ map (fun p => (with_suffix name p, Part p fs)) ps.
Proof.
  intros N1 N2. induction ps as [| p ps IH]; intros d ND EX NEW; cbn [put_parts map]; [symmetry; apply app_nil_r |].
  inversion ND as [| ? ? ND1 ND2]; subst. inversion EX as [| ? ? EX1 EX2]; subst.
  rewrite (sset_new _ _ d) by (apply NEW; left; reflexivity). rewrite IH; [rewrite <- app_assoc; reflexivity | assumption | assumption |].
  intros q Q. rewrite <- sset_new by (apply NEW; left; reflexivity). rewrite sget_sset. destruct (seqb (with_suffix name q) (with_suffix name p)) eqn:E; [| apply NEW; right; exact Q].
  apply seqb_iff in E. unfold with_suffix in E. apply app_inv_head in E. subst q. contradiction.
Qed.

Lemma copy_app name tag new a : forall b out, copy_parts name tag new (a ++ b) out = copy_parts name tag new b (copy_parts name tag new a out).
Proof. induction a as [| [n f] a IH]; intros b out; [reflexivity |]. cbn [app copy_parts]. apply IH. Qed.

Lemma copy_none name tag new d : forall out, (forall n f, In (n, f) d -> startswith (stem name ++ [46]) n = false) -> copy_parts name tag new d out = out.
Proof.
  induction d as [| [n f] d IH]; intros out H; [reflexivity |]. cbn [copy_parts]. rewrite (H n f) by (left; reflexivity). apply IH. intros n' f' I. apply (H n' f'). right. exact I.
Qed.

Lemma removesuffix_app a t : removesuffix t (a ++ t) = a.
Proof.
  unfold removesuffix. replace (endswith t (a ++ t)) with true by (symmetry; apply endswith_iff; exists a; reflexivity).
  rewrite app_length. replace (length a + length t - length t)%nat with (length a) by lia. rewrite firstn_app, Nat.sub_diag, firstn_all. apply app_nil_r.
Qed.

(** Copying the files of one builder. *)
Lemma copy_own x tag new fs name : stem name = x ++ tag -> tag <> [] -> forall ps out, NoDup ps -> Forall ext ps ->
  (forall p, In p ps -> sget (x ++ new ++ p) (copy_parts name tag new (map (fun p => (with_suffix name p, Part p fs)) ps) out) = Some (Part p fs)) /\
  (forall k, (forall p, In p ps -> k <> x ++ new ++ p) -> sget k (copy_parts name tag new (map (fun p => (with_suffix name p, Part p fs)) ps) out) = sget k out).
Proof.
  intros ST TN. assert (XN : x ++ tag <> []) by (intros E; apply app_eq_nil in E; exact (TN (proj2 E))).
  induction ps as [| p ps IH]; intros out ND EX; [split; [intros p [] | reflexivity] |].
  inversion ND as [| ? ? ND1 ND2]; subst. inversion EX as [| ? ? EX1 EX2]; subst. cbn [map copy_parts].
  assert (SW : startswith (stem name ++ [46]) (with_suffix name p) = true).
  { unfold with_suffix. destruct EX1 as (c & t & -> & _). apply startswith_iff. exists (c :: t). rewrite <- app_assoc. reflexivity. }
  rewrite SW. assert (PE : parted (with_suffix name p) = (x ++ tag, p)) by (unfold with_suffix; rewrite ST; apply parted_ext; assumption).
  assert (PS : stem (with_suffix name p) = x ++ tag) by (unfold stem at 1; rewrite PE; reflexivity).
  assert (PX : suffix (with_suffix name p) = p) by (unfold suffix; rewrite PE; reflexivity). rewrite PS, PX, removesuffix_app. set (out1 := sset (x ++ new ++ p) (Part p fs) out).
  destruct (IH out1 ND2 EX2) as (A & B). split.
  - intros q [<- | Q]; [| exact (A q Q)]. rewrite B; [unfold out1; apply sget_same |]. intros q Q E. apply app_inv_head, app_inv_head in E. subst q. contradiction.
  - intros k K. rewrite B by (intros q Q; apply K; right; exact Q). unfold out1. rewrite sget_sset. destruct (seqb k (x ++ new ++ p)) eqn:E; [| reflexivity].
    apply seqb_iff in E. destruct (K p (or_introl eq_refl) E).
Qed.

Lemma parts_none x (ta tb : str) (fs : list frame) ps q na : Forall ext ps -> ext q -> stem na = x ++ ta ->
  (forall r r', ta ++ 46 :: r <> tb ++ 46 :: r') -> sget (x ++ tb ++ q) (map (fun p => (with_suffix na p, Part p fs)) ps) = None.
Proof.
  intros EX (c & t & -> & _) SA D. apply sget_none. rewrite map_map. intros I. apply in_map_iff in I. destruct I as (p & E & I). cbn [fst] in E.
  rewrite Forall_forall in EX. destruct (EX p I) as (c' & t' & -> & _). unfold with_suffix in E. rewrite SA, <- app_assoc in E. apply app_inv_head in E. exact (D _ _ E).
Qed.
Lemma parts_other x ta tb fs ps na nb : Forall ext ps -> stem na = x ++ ta -> stem nb = x ++ tb -> (forall r r', ta ++ 46 :: r <> tb ++ 46 :: r') ->
  forall n f, In (n, f) (map (fun p => (with_suffix na p, Part p fs)) ps) -> startswith (stem nb ++ [46]) n = false.
Proof.
  intros EX SA SB D n f I. apply in_map_iff in I. destruct I as (p & E & I). injection E as <- <-. rewrite Forall_forall in EX. destruct (EX p I) as (c' & t' & -> & _).
  destruct (startswith (stem nb ++ [46]) (with_suffix na (46 :: c' :: t'))) eqn:S1; [| reflexivity]. apply startswith_iff in S1. destruct S1 as (r & E).
  unfold with_suffix in E. rewrite SA, SB, <- !app_assoc in E. apply app_inv_head in E. cbn [app] in E. destruct (D _ _ E).
Qed.

Lemma finish_plain w g s : g_zip g = false -> plain (stem (g_name g)) -> s_unc s = Some false -> s_tmp s = [] -> NoDup (w_parts w) -> Forall ext (w_parts w) ->
  exists s', finish w g s = Ok s' /\
    (forall p, In p (w_parts w) -> sget (stem (g_name g) ++ p) (s_out s') = Some (Part p (s_c s))) /\
    (forall p, In p (w_parts w) -> g_cb g = true -> sget (stem (g_name g) ++ t_boundary ++ p) (s_out s') = Some (Part p (s_cb s))).
Proof.
  intros Z1 P U T ND EX. set (x := stem (g_name g)) in *.
  assert (I1 : In t_certain tags) by (unfold tags; cbn [In]; tg). assert (I2 : In t_certain_b tags) by (unfold tags; cbn [In]; tg).
  assert (S1 := stem_built g t_certain P I1). assert (S2 := stem_built g t_certain_b P I2). fold x in S1, S2.
  assert (D1 : forall r r', t_certain ++ 46 :: r <> t_certain_b ++ 46 :: r') by (intros r r' E; discriminate E).
  assert (D2 : forall r r', t_certain_b ++ 46 :: r <> t_certain ++ 46 :: r') by (intros r r' E; discriminate E).
  assert (NE : forall t, In t tags -> stem (built g t) <> []).
  { intros t H. rewrite (stem_built g t P H). intros E. apply app_eq_nil in E. exact (proj2 (tag_plain t H) (proj2 E)). }
  assert (NB : forall t, In t tags -> built g t <> []) by (intros t H E; apply (NE t H); rewrite E; reflexivity).
  set (dc := map (fun p => (with_suffix (built g t_certain) p, Part p (s_c s))) (w_parts w)).
  set (db := map (fun p => (with_suffix (built g t_certain_b) p, Part p (s_cb s))) (w_parts w)).
  assert (WC : write w g t_certain (s_c s) [] = dc).
  { unfold write. rewrite Z1. apply put_parts_new; auto. }
  assert (WB : write w g t_certain_b (s_cb s) dc = dc ++ db).
  { unfold write. rewrite Z1. apply put_parts_new; auto. intros q Q. unfold with_suffix. rewrite S2, <- app_assoc.
    apply (parts_none x t_certain t_certain_b); try assumption. rewrite Forall_forall in EX. exact (EX q Q). }
  unfold finish. rewrite U, Z1, T, WC. cbv zeta. cbn [andb]. destruct (g_cb g) eqn:CB.
  - rewrite WB. cbn [bind]. eexists. split; [reflexivity |]. cbn [s_out]. rewrite !copy_app.
    rewrite (copy_none (built g t_certain) _ _ db) by (apply (parts_other x t_certain_b t_certain); assumption).
    rewrite (copy_none (built g t_certain_b) _ _ dc) by (apply (parts_other x t_certain t_certain_b); assumption).
    destruct (copy_own x t_certain [] (s_c s) (built g t_certain) S1 ltac:(discriminate) (w_parts w) (s_out s) ND EX) as (A & _). fold dc in A. cbn [app] in A.
    destruct (copy_own x t_certain_b t_boundary (s_cb s) (built g t_certain_b) S2 ltac:(discriminate) (w_parts w) (copy_parts (built g t_certain) t_certain [] dc (s_out s)) ND EX) as (B & K). fold db in B, K.
    split; [| intros p I _; exact (B p I)]. intros p I. rewrite K; [exact (A p I) |]. intros q Q E. apply app_inv_head in E. rewrite Forall_forall in EX.
    destruct (EX p I) as (c & t & -> & _). discriminate E.
  - cbn [bind]. eexists. split; [reflexivity |]. cbn [s_out]. rewrite (copy_none (built g t_certain_b) _ _ dc) by (apply (parts_other x t_certain t_certain_b); assumption).
    destruct (copy_own x t_certain [] (s_c s) (built g t_certain) S1 ltac:(discriminate) (w_parts w) (s_out s) ND EX) as (A & _). fold dc in A. cbn [app] in A.
    split; [exact A | intros p _ H; discriminate H].
Qed.

(** The name of the file. *)
Lemma stem_ne s : s <> [] -> stem s <> [].
Proof. intros N. unfold stem, parted. destruct (last_dot s) as [[[| a0 a] [| b0 [| b1 b]]] |]; try exact N. discriminate. Qed.
Lemma name_inv w g : g_zip g = true -> g_name g <> [] -> forall h s s', s_name s = stem (g_name g) ++ zip_ext -> run w g s h = Ok s' -> s_name s' = stem (g_name g) ++ zip_ext.
Proof.
  intros Z1 N. induction h as [| o h IH]; intros s s' E R; cbn [run] in R; [injection R as <-; exact E |].
  destruct (do_op w g s o) as [s1 |] eqn:D; cbn [bind] in R; [| discriminate]. apply (IH s1 s'); [| exact R]. clear R IH. destruct o as [u | wr sp |]; cbn [do_op] in D.
  - injection D as <-. unfold prepare. destruct (g_on g); cbn [s_name]; [| exact E]. destruct u; [| exact E]. unfold with_suffix, stem at 1. rewrite E, parted_ext; [reflexivity | apply stem_ne; exact N | exact zip_is_ext].
  - unfold step in D. destruct (negb (g_on g)); cbn [bind fst] in D; [injection D as <-; exact E |]. destruct wr; cbn [bind fst] in D; [| injection D as <-; exact E].
    destruct (add_all w g sp s sp) as [s2 |] eqn:A; cbn [bind fst] in D; [| discriminate]. injection D as <-.
    assert (K : forall l s s2, add_all w g sp s l = Ok s2 -> s_name s2 = s_name s).
    { clear. induction l as [| b l IH]; intros s s2 A; cbn [add_all] in A; [injection A as <-; reflexivity |]. destruct (add_box w g sp s b) as [s1 |] eqn:B; cbn [bind] in A; [| discriminate].
      rewrite (IH s1 s2 A). unfold add_box in B. destruct (particles w g b); cbn [bind] in B; [| discriminate]. cbv zeta in B.
      destruct (b_unc b); [destruct (g_ub g) | destruct (g_cb g)]; try (injection B as <-; reflexivity); (destruct (boundary w g _ _); cbn [bind] in B; [injection B as <-; reflexivity | discriminate]). }
    rewrite (K sp s s2 A). exact E.
  - unfold finish in D. destruct (s_unc s) as [u |]; [| discriminate]. cbv zeta in D.
    match type of D with bind ?x _ = _ => destruct x end; cbn [bind] in D; [injection D as <-; exact E | discriminate].
Qed.
Lemma start_name g : g_zip g = true -> s_name (start g) = stem (g_name g) ++ zip_ext.
Proof. intros Z1. unfold start. rewrite Z1. reflexivity. Qed.
