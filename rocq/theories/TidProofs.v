(** * Proofs about tide files and files from the server *)

From Coq Require Import ZArith List Bool Lia String.
From Verif Require Import Py PyLemmas StrModel StrLemmas TidModel TidSpec.
Import ListNotations.
Open Scope list_scope.
Open Scope Z_scope.

Lemma starts_iff k l : seqb k (firstn (List.length k) l) = true <-> starts k l.
Proof.
  rewrite seqb_iff. split.
  - intros E. exists (skipn (List.length k) l). rewrite E at 1. symmetry. apply firstn_skipn.
  - intros (t & ->). rewrite firstn_app, Nat.sub_diag, firstn_all. cbn [firstn]. symmetry. apply app_nil_r.
Qed.

Lemma split_count c s : List.length (split_on c s) = S (count_occ Z.eq_dec s c).
Proof.
  induction s as [| x t IH]; [reflexivity |]. cbn [split_on count_occ]. destruct (Z.eqb_spec x c) as [-> | N]; destruct (Z.eq_dec _ _) as [E | E]; try congruence.
  - cbn [List.length]. rewrite IH. reflexivity.
  - destruct (split_on c t); cbn [List.length] in *; [discriminate IH | exact IH].
Qed.

(** The four lines that are looked at. *)
Definition head_ok (a b c d : str) : bool :=
  seqb (lit "[StationInfo]"%string) (firstn 13 a) && (seqb (lit "Type="%string) (firstn 5 b) &&
    (seqb (lit "Name="%string) (firstn 5 c) && (seqb (lit "Latitude="%string) (firstn 9 d) && true))).
Lemma obj_two (a b : str) (r : list str) : b <> [] -> obj_to_create (a :: b :: r) =
  if head_ok a b (nth 0 r []) (nth 1 r []) then Ok Shio else if (List.length (split_on comma (nth 1 r [])) =? 7)%nat then Ok Ossm else Raise ValueErr.
Proof. intros N. unfold obj_to_create. cbn [nth nth_error]. destruct b as [| b0 b]; [contradiction |]. reflexivity. Qed.

Lemma head_iff a b c d : head_ok a b c d = true <->
  starts (lit "[StationInfo]"%string) a /\ starts (lit "Type="%string) b /\ starts (lit "Name="%string) c /\ starts (lit "Latitude="%string) d.
Proof.
  unfold head_ok. rewrite !andb_true_iff, <- !starts_iff. change (List.length (lit "[StationInfo]"%string)) with 13%nat. change (List.length (lit "Type="%string)) with 5%nat.
  change (List.length (lit "Name="%string)) with 5%nat. change (List.length (lit "Latitude="%string)) with 9%nat. intuition.
Qed.

Lemma obj_shio f : text f -> shio f -> obj_to_create f = Ok Shio.
Proof.
  intros T (a & b & c & d & r & -> & H). assert (NB := Forall_inv (Forall_inv_tail T)). cbv beta in NB. rewrite obj_two by exact NB. cbn [nth].
  apply head_iff in H. rewrite H. reflexivity.
Qed.
Lemma obj_rest f : text f -> (2 <= List.length f)%nat -> ~ shio f ->
  (ossm f -> obj_to_create f = Ok Ossm) /\ (~ ossm f -> obj_to_create f = Raise ValueErr).
Proof.
  intros T L NS. destruct f as [| a [| b r]]; try (cbn [List.length] in L; lia). assert (NB := Forall_inv (Forall_inv_tail T)). cbv beta in NB. rewrite (obj_two a b r NB).
  assert (H : head_ok a b (nth 0 r []) (nth 1 r []) = false).
  { destruct (head_ok _ _ _ _) eqn:H; [| reflexivity]. exfalso. apply NS. apply head_iff in H. destruct r as [| c [| d r]]; cbn [nth] in H.
    - destruct H as (_ & _ & (t & E) & _). discriminate E.
    - destruct H as (_ & _ & _ & (t & E)). discriminate E.
    - exists a, b, c, d, r. split; [reflexivity | exact H]. }
  rewrite H, split_count. change comma with 44. split.
  - intros (a' & b' & c' & d' & r' & E & C). injection E as -> -> ->. cbn [nth]. rewrite C. reflexivity.
  - intros NO. destruct (Nat.eqb_spec (S (count_occ Z.eq_dec (nth 1 r []) 44)) 7) as [E | E]; [| reflexivity]. exfalso. apply NO. injection E as E.
    destruct r as [| c [| d r]]; cbn [nth count_occ] in E; try discriminate E. exists a, b, c, d, r. split; [reflexivity | exact E].
Qed.
Lemma obj_short f : (List.length f < 2)%nat -> obj_to_create f = Raise IndexErr.
Proof. intros L. destruct f as [| a [| b r]]; [reflexivity | reflexivity | cbn [List.length] in L; lia]. Qed.

Lemma until_sends cs r : Forall (fun c => c <> []) cs -> until_empty (cs ++ [] :: r) = cs.
Proof. induction 1 as [| c cs N F IH]; [reflexivity |]. cbn [app until_empty]. destruct c; [contradiction |]. rewrite IH. reflexivity. Qed.

Lemma writes_last file d l : forall got x, last (writes file d got l) x = Disk (sset file (got ++ concat l) (d_files d)) (d_dirs d).
Proof.
  induction l as [| c t IH]; intros got x; cbn [writes concat]; [cbn [last]; rewrite app_nil_r; reflexivity |]. rewrite app_assoc, <- (IH (got ++ c) x). destruct t; reflexivity.
Qed.
Lemma writes_In file d l : forall got x, In x (writes file d got l) -> exists n, x = Disk (sset file (got ++ concat (firstn n l)) (d_files d)) (d_dirs d).
Proof.
  induction l as [| c t IH]; intros got x I; cbn [writes] in I.
  - destruct I as [<- | []]. exists O. cbn [firstn concat]. rewrite app_nil_r. reflexivity.
  - destruct I as [<- | I]; [exists O; cbn [firstn concat]; rewrite app_nil_r; reflexivity |]. destruct (IH _ _ I) as (n & ->). exists (S n). cbn [firstn concat]. rewrite app_assoc. reflexivity.
Qed.

Lemma dirname_app dir c name : c <> slash -> ~ In slash name -> dirname ((dir ++ [c]) ++ slash :: name) = dir ++ [c].
Proof.
  intros C NS. unfold dirname. rewrite rcut_app by exact NS. cbn [fst]. rewrite rev_app_distr. cbn [rev app strip_l]. destruct (Z.eqb_spec c slash) as [E | E]; [contradiction |].
  replace (rev (c :: rev dir)) with (dir ++ [c]) by (cbn [rev]; rewrite rev_involutive; reflexivity). destruct dir; reflexivity.
Qed.
