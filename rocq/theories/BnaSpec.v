(** * What a BNA file is *)

From Coq Require Import ZArith List Bool Lia.
From Verif Require Import Py StrModel BnaModel.
Import ListNotations.
Open Scope Z_scope.

Definition white (s : str) : Prop := forall c, In c s -> space c = true.

(** The text of a number. *)
Definition number (n : Z) : str := if n <? 0 then 45 :: str_nat (Z.to_nat (- n)) else str_nat (Z.to_nat n).

(** Two texts that float() takes, with a comma between them. *)
Definition coord_line (flt : floats) (p : Z * Z) (line : str) : Prop :=
  exists a b, line = a ++ comma :: b /\ ~ In comma a /\ ~ In comma b /\ flt a = Some (fst p) /\ flt b = Some (snd p).

(** What is written for a polygon: its names, a number that is negative for a line, and points. *)
Record entry := Entry { e_name : str; e_sname : str; e_number : Z; e_points : list (Z * Z) }.
Definition header_line (e : entry) (pad pad2 : str) : str :=
  [quote] ++ e_name e ++ [quote; comma; quote] ++ e_sname e ++ [quote; comma] ++ pad ++ number (e_number e) ++ pad2.
Definition proper (e : entry) : Prop :=
  ~ In quote (e_name e) /\ ~ In quote (e_sname e) /\ e_number e <> 0 /\ Z.of_nat (length (e_points e)) = Z.abs (e_number e).

(** The lines of a file with these entries. *)
Inductive written (flt : floats) : list entry -> list str -> Prop :=
| W_end : written flt [] []
| W_blank : forall es l f, white l -> written flt es f -> written flt es (l :: f)
| W_entry : forall e es pad pad2 lines f, proper e -> white pad -> white pad2 -> Forall2 (coord_line flt) (e_points e) lines ->
    written flt es f -> written flt (e :: es) (header_line e pad pad2 :: lines ++ f).

(** What should be read: one point is a point, two points or a negative number a line, more a polygon without the last
    point if it is the first again. *)
Definition closed (l : list (Z * Z)) : Prop := exists p m, l = p :: m ++ [p].
Definition meant (e : entry) (p : poly) : Prop :=
  p_name p = e_name e /\ p_sname p = e_sname e /\
  (e_number e = 1 -> p_kind p = Point /\ p_points p = e_points e) /\
  (e_number e < 0 \/ e_number e = 2 -> p_kind p = Polyline /\ p_points p = e_points e) /\
  (2 < e_number e -> p_kind p = Polygon /\
     ((closed (e_points e) /\ exists a, e_points e = p_points p ++ [a]) \/ (~ closed (e_points e) /\ p_points p = e_points e))).
