(** * Vocabulary for polygons and sets of polygons *)
From Verif Require Import Py QLemmas PipModel PipSpec PolyModel.
Open Scope Q_scope.

(** ** Orientation *)

(** Twice the area, positive if the points go round counterclockwise. *)
Definition signed_area2 (l : list pt) : Q :=
  fold_right (fun e s => (fst (fst e) * snd (snd e) - fst (snd e) * snd (fst e)) + s) 0 (edges l).

Definition shift (d p : pt) : pt := (fst p + fst d, snd p + snd d).

(** Seen from its first vertex the polygon turns one way only, as convex ones do,
    and really turns at its second vertex if it turns left. *)
Definition turns_one_way (l : list pt) : Prop :=
  match l with
  | v :: a :: b :: r =>
      (0 < cross v a b /\ forall x y, In (x, y) (pairs (a :: b :: r)) -> 0 <= cross v x y) \/
      (forall x y, In (x, y) (pairs (a :: b :: r)) -> cross v x y <= 0)
  | _ => False
  end.

(** ** Thinning *)

(** What is drawn: the pixels in turn, without repetitions. *)
Fixpoint dedup (l : list (Z * Z)) : list (Z * Z) :=
  match l with
  | a :: r => match r with b :: _ => if pix_eqb a b then dedup r else a :: dedup r | [] => [a] end
  | [] => []
  end.
Definition drawn (scale : Q * Q) (p : polygon) : list (Z * Z) := dedup (map (pixel scale) (pg_points p)).

Definition pt_same (a b : pt) : Prop := fst a == fst b /\ snd a == snd b.
Definition closed (p : polygon) : Prop :=
  exists v r, pg_points p = v :: r /\ pt_same v (last (v :: r) v).

(** ** Sets *)

(** The operations on a set; a transformation moves each point by itself. *)
Inductive set_op :=
| SAppend (p : polygon) (metadata : option Z)
| STransform (f : pt -> pt).

Definition ps_do (s : pset) (o : set_op) : pset :=
  match o with
  | SAppend p m => fst (append s p m)
  | STransform f => ps_transform s (map f)
  end.
Definition ps_run (os : list set_op) : pset := fold_left ps_do os ps_new.

(** What a set should be: a list of polygons.  A polygon without points is only
    taken while no polygon has points. *)
Definition no_points (l : list polygon) : Prop := forall q, In q l -> pg_points q = [].
Definition with_meta (p : polygon) (m : option Z) : polygon :=
  match m with Some m => mkPoly (pg_points p) m | None => p end.
Definition map_poly (f : pt -> pt) (p : polygon) : polygon := mkPoly (map f (pg_points p)) (pg_meta p).

(** [l'] is what [l] should be after the operation. *)
Inductive should (l : list polygon) : set_op -> list polygon -> Prop :=
| sh_append p m : (pg_points p <> [] \/ no_points l) -> should l (SAppend p m) (l ++ [with_meta p m])
| sh_refuse p m : pg_points p = [] -> ~ no_points l -> should l (SAppend p m) l
| sh_trans f : should l (STransform f) (map (map_poly f) l).

Inductive should_run : list set_op -> list polygon -> Prop :=
| sr_nil : should_run [] []
| sr_snoc os l o l' : should_run os l -> should l o l' -> should_run (os ++ [o]) l'.

(** The set shows exactly these polygons. *)
Definition shows (s : pset) (l : list polygon) : Prop :=
  ps_len s = Z.of_nat (length l) /\
  (forall i, ps_get s i = py_get l i) /\
  ps_iter s = Ok l /\
  ps_total s = Z.of_nat (length (concat (map pg_points l))).

(** ** Releases from polygons *)

(** In the triangle, its sides included. *)
Definition in_triangle (a b c p : pt) : Prop :=
  exists u v w, 0 <= u /\ 0 <= v /\ 0 <= w /\ u + v + w == 1 /\
  fst p == u * fst a + v * fst b + w * fst c /\ snd p == u * snd a + v * snd b + w * snd c.

(** [tw] lists triangles with weights; the polygons' shares of the weight, in turn. *)
Definition share (polys : list tpoly) (tw : list tri * list Q) (i : nat) : Q :=
  let before := length (concat (firstn i polys)) in
  qsum (firstn (length (nth i polys [])) (skipn before (snd tw))).
