(** * What a gridcur file says

    The vocabulary of the properties C155 to C157: the text of a file and what
    it means, without the reader and the writer. *)
From Coq Require Import QArith Qabs.
From Verif Require Import Py TimeModel GcModel.
Local Open Scope Z_scope.

(** The number that a word stands for. *)
Inductive number : word -> num -> Prop :=
| num_whole : forall z, number (I z) (Some (inject_Z z))
| num_other : forall x, number (D x) x.

(** The lines of a time: row, column (from 1) and two numbers each. *)
Record section := Section_ { s_time : fields; s_data : list (Z * Z * word * word) }.
Definition data_line (e : Z * Z * word * word) : line := let '(r, c, u, v) := e in [I r; I c; u; v].
Definition time_line (t : fields) : line := [W TIMETAG; I (f_d t); I (f_mo t); I (f_y t); I (f_h t); I (f_mi t)].
Definition section_lines (s : section) : list line := time_line (s_time s) :: map data_line (s_data s).

(** A line of data in a grid of [nr] rows and [nc] columns. *)
Definition in_grid (nr nc : nat) (e : Z * Z * word * word) : Prop :=
  let '(r, c, u, v) := e in 1 <= r <= Z.of_nat nr /\ 1 <= c <= Z.of_nat nc /\ (exists x, number u x) /\ exists y, number v y.

(** A line before the header. *)
Definition before (l : line) : Prop := exists w ws, l = w :: ws /\ w <> W GRIDCUR /\ w <> W GRIDWIND.
Definition tag (k : kind) : word := W (match k with Currents => GRIDCUR | Winds => GRIDWIND end).

(** The lines of the grid: a key and a number each; the last one for a key
    holds. *)
Definition grid_line (l : line) : Prop := exists k w x ws, l = W k :: w :: ws /\ k <> TIMETAG /\ number w x.
Definition mentions (g : list line) (k : Z) : Prop := exists ws, In (W k :: ws) g.
Inductive says : list line -> Z -> num -> Prop :=
| says_here : forall k w x ws r, number w x -> ~ mentions r k -> says ((W k :: w :: ws) :: r) k x
| says_later : forall l r k x, says r k x -> says (l :: r) k x.

(** A moment to the minute, as a file has it. *)
Definition minute (t : fields) : Prop := fields_ok t = true /\ f_s t = 0 /\ f_us t = 0.

(** The value at a row and column, from 0. *)
Definition at2 (a : arr) (r c : nat) (x : num) : Prop := exists row, nth_error a r = Some row /\ nth_error row c = Some x.
Definition rect (nr nc : nat) (a : arr) : Prop := length a = nr /\ forall row, In row a -> length row = nc.

(** The last line for a row and column (from 1), if there is one. *)
Definition at_place (r c : Z) (e : Z * Z * word * word) : bool := let '(a, b, _, _) := e in (a =? r) && (b =? c).
Definition last_line (r c : Z) (l : list (Z * Z * word * word)) : option (word * word) :=
  match rev (filter (at_place r c) l) with (_, _, u, v) :: _ => Some (u, v) | [] => None end.

(** The two arrays of a time are what its lines say, 0 where there is no line. *)
Definition filled (nr nc : nat) (s : section) (U V : arr) : Prop :=
  rect nr nc U /\ rect nr nc V /\
  forall r c, (r < nr)%nat -> (c < nc)%nat ->
    match last_line (Z.of_nat r + 1) (Z.of_nat c + 1) (s_data s) with
    | None => at2 U r c (Some 0%Q) /\ at2 V r c (Some 0%Q)
    | Some (u, v) => exists x y, number u x /\ number v y /\ at2 U r c x /\ at2 V r c y
    end.

(** Numbers at equal distances: [n] of them from [a], each [d] further. *)
Definition spaced (l : list num) (n : nat) (a d : Q) : Prop :=
  length l = n /\ forall i x, nth_error l i = Some x -> exists q, x = Some q /\ (q == a + inject_Z (Z.of_nat i) * d)%Q.

Definition same_num (x y : num) : Prop :=
  match x, y with Some a, Some b => (a == b)%Q | None, None => True | _, _ => False end.
(** Equal up to half of the sixth decimal. *)
Definition close (x y : num) : Prop :=
  match x, y with Some a, Some b => (Qabs (a - b) <= 1 # 2000000)%Q | None, None => True | _, _ => False end.
(** Numbers that six decimals hold, and what a number becomes in a file. *)
Definition six_decimals (q : Q) : Prop := exists z, (q == z # 1000000)%Q.
Definition written (y x : num) : Prop := close y x /\ forall q, x = Some q -> six_decimals q -> same_num y x.
(** The arrays of all times. *)
Definition all_filled (nr nc : nat) (ss : list section) (us vs : list arr) : Prop :=
  length us = length ss /\ length vs = length ss /\
  forall i s U V, nth_error ss i = Some s -> nth_error us i = Some U -> nth_error vs i = Some V -> filled nr nc s U V.
(** The text of a file. *)
Definition text (pre : list line) (k : kind) (units : list word) (grid : list line) (ss : list section) : list line :=
  pre ++ (tag k :: units) :: grid ++ concat (map section_lines ss).
