(** * Gridcur files

    Modelled: /repo/py_gnome/gnome/environment/gridcur.py: [read_file]
    (lines 137-192), [write_gridcur] (195-238), [make_grid_arrays] (240-271),
    [init_from_gridcur] (70-134) and [from_gridcur] (53-67).

    A file is a list of lines, a line the list of the words it has between
    blanks.  A word is a whole number, another number (perhaps nan) or anything
    else.  Numbers are rationals or nan, without rounding, but for the six
    decimals of the data, which are modelled (a tie goes up, where Python takes
    the even one).  The tags are read with or without brackets in the same way,
    and [TIME] is followed by a blank.  Every error of [read_file] is
    GridCurReadError, here [OSErr].

    Not modelled: bytes, encodings, infinite numbers, the C++ reader of the same
    format, and what [GridCurrent] does with the arrays. *)
From Coq Require Import QArith Qround.
From Verif Require Import Py TimeModel.
Local Open Scope Z_scope.

(** A number: None is nan. *)
Definition num := option Q.
Inductive word := I (z : Z) | D (x : num) | W (z : Z).
Definition line := list word.

(** The words of the format. *)
Definition GRIDCUR : Z := 1.
Definition GRIDWIND : Z := 2.
Definition TIMETAG : Z := 3.
Definition NUMROWS : Z := 4.
Definition NUMCOLS : Z := 5.
Definition LOLAT : Z := 6.
Definition HILAT : Z := 7.
Definition LOLONG : Z := 8.
Definition HILONG : Z := 9.
Definition STARTLAT : Z := 10.
Definition STARTLONG : Z := 11.
Definition DLAT : Z := 12.
Definition DLONG : Z := 13.

Inductive kind := Currents | Winds.

(** [float] and [int] of a word, and [int] of a float. *)
Definition py_float (w : word) : res num :=
  match w with I z => Ok (Some (inject_Z z)) | D x => Ok x | W _ => Raise ValueErr end.
Definition py_int (w : word) : res Z := match w with I z => Ok z | _ => Raise ValueErr end.
Definition trunc (x : num) : res Z :=
  match x with
  | None => Raise ValueErr
  | Some q => Ok (if Qle_bool 0 q then Qfloor q else Qceiling q)
  end.

Definition nadd (x y : num) : num := match x, y with Some a, Some b => Some (a + b)%Q | _, _ => None end.
Definition nsub (x y : num) : num := match x, y with Some a, Some b => Some (a - b)%Q | _, _ => None end.
Definition nscale (k : Q) (x : num) : num := match x with Some a => Some (k * a)%Q | None => None end.

(** A two-dimensional array. *)
Definition arr := list (list num).
Definition zeros (r c : Z) : arr := repeat (repeat (Some 0%Q) (Z.to_nat c)) (Z.to_nat r).

(** [np.linspace(a, b, n)] for n >= 0. *)
Definition linspace (a b : num) (n : Z) : list num :=
  if n =? 1 then [nadd (nscale 0 (nsub b a)) a]
  else map (fun i => nadd (nscale (inject_Z (Z.of_nat i) / inject_Z (n - 1)) (nsub b a)) a) (seq 0 (Z.to_nat n)).

(** [make_grid_arrays] (lines 240-271): longitudes, latitudes, rows and columns;
    negative numbers of values are refused by numpy. *)
Definition key (info : list (Z * num)) (k : Z) : res num :=
  match dget k info with Some x => Ok x | None => Raise ValueErr end.
Definition make_grid (info : list (Z * num)) : res (list num * list num * Z * Z) :=
  do rows_ <- key info NUMROWS; do nr <- trunc rows_;
  do cols_ <- key info NUMCOLS; do nc <- trunc cols_;
  do ll <- (if dmem LOLAT info then
              do a <- key info LOLAT; do b <- key info HILAT;
              if nc + 1 <? 0 then Raise ValueErr else
              do c <- key info LOLONG; do d <- key info HILONG;
              if nr + 1 <? 0 then Raise ValueErr else
              Ok (linspace c d (nr + 1), linspace a b (nc + 1))
            else if dmem STARTLAT info then
              do a <- key info STARTLAT; do b <- key info STARTLONG;
              do da <- key info DLAT; do db <- key info DLONG;
              if nc <? 0 then Raise ValueErr else
              if nr <? 0 then Raise ValueErr else
              Ok (linspace b (nadd b (nscale (inject_Z (nr - 1)) db)) nr,
                  linspace a (nadd a (nscale (inject_Z (nc - 1)) da)) nc)
            else Raise RuntimeErr);
  if (nr <? 0) || (nc <? 0) then Raise ValueErr
  else Ok (fst ll, snd ll, nr, nc).

(** What is read. *)
Record grd := Grd { g_kind : kind; g_units : word; g_times : list fields; g_lon : list num; g_lat : list num; g_u : list arr; g_v : list arr }.

(** Lines before the header (lines 144-153). *)
Fixpoint read_header (l : list line) : res (kind * word * list line) :=
  match l with
  | [] => Raise ValueErr
  | [] :: _ => Raise IndexErr
  | (w :: ws) :: r =>
      match match w with W z => if z =? GRIDCUR then Some Currents else if z =? GRIDWIND then Some Winds else None | _ => None end with
      | Some k => match ws with u :: _ => Ok (k, u, r) | [] => Raise IndexErr end
      | None => read_header r
      end
  end.

Definition is_time (l : line) : bool := match l with W z :: _ => z =? TIMETAG | _ => false end.

(** The grid (lines 155-159): the entries and the lines from the first time on.
    Without a time the last line is taken for data, and fails.  A key that is
    a number is kept by Python as text nobody asks for. *)
Fixpoint read_grid (l : list line) (info : list (Z * num)) : res (list (Z * num) * list line) :=
  match l with
  | [] => Raise ValueErr
  | x :: r =>
      if is_time x then Ok (info, l)
      else match x with
           | k :: v :: _ => do y <- py_float v; read_grid r (match k with W z => dset z y info | _ => info end)
           | _ => Raise IndexErr
           end
  end.

(** [datetime(time[2], time[1], time[0], time[3], time[4])] (lines 164-165). *)
Definition read_time (l : line) : res fields :=
  do n <- mapM py_int (tl l);
  match n with
  | d :: mo :: y :: h :: mi :: _ =>
      let f := mkFields y mo d h mi 0 0 in if fields_ok f then Ok f else Raise ValueErr
  | _ => Raise IndexErr
  end.

(** [U[row, col] = u]. *)
Definition set2 (a : arr) (r c : Z) (x : num) : res arr :=
  do row <- py_get a r; do row' <- py_set row c x; py_set a r row'.

(** The data (lines 161-183); [cur] is the step being filled. *)
Fixpoint read_steps (nr nc : Z) (l : list line) (done : list (fields * arr * arr)) (cur : fields * arr * arr) : res (list (fields * arr * arr)) :=
  match l with
  | [] => Ok (done ++ [cur])
  | x :: r =>
      if is_time x then do t <- read_time x; read_steps nr nc r (done ++ [cur]) (t, zeros nr nc, zeros nr nc)
      else match x with
           | a :: b :: u :: v :: _ =>
               do row <- py_int a; do col <- py_int b; do u' <- py_float u; do v' <- py_float v;
               let '(t, U, V) := cur in
               do U' <- set2 U (row - 1) (col - 1) u'; do V' <- set2 V (row - 1) (col - 1) v';
               read_steps nr nc r done (t, U', V')
           | _ => Raise IndexErr
           end
  end.

Definition read_lines (l : list line) : res grd :=
  do h <- read_header l;
  let '(k, u, r) := h in
  do g <- read_grid r [];
  let '(info, r2) := g in
  match r2 with
  | [] => Raise ValueErr
  | t0 :: r3 =>
      do t <- read_time t0;
      do m <- make_grid info;
      let '(lon, lat, nr, nc) := m in
      do s <- read_steps nr nc r3 [] (t, zeros nr nc, zeros nr nc);
      Ok (Grd k u (map (fun x => fst (fst x)) s) lon lat (map (fun x => snd (fst x)) s) (map snd s))
  end.
Definition read_file (l : list line) : res grd :=
  match read_lines l with Ok g => Ok g | Raise _ => Raise OSErr end.

(** ** Writing *)

(** Six decimals. *)
Definition six (x : num) : num :=
  match x with Some q => Some (Qfloor (q * inject_Z 1000000 + 1 / 2) # 1000000)%Q | None => None end.

Definition shape (a : arr) : nat * nat := (length a, match a with [] => 0%nat | r :: _ => length r end).

(** Division of a difference by a count, with numpy floats: by 0 it is nan (the
    difference is then that of a number and itself). *)
Definition ndiv (x : num) (n : Z) : num := if n =? 0 then None else nscale (1 / inject_Z n) x.

Definition step_lines (t : fields) (U V : arr) : res (list line) :=
  let '(nr, nc) := shape U in
  do d <- mapM (fun row => mapM (fun col =>
             do ur <- py_get U (Z.of_nat row); do u <- py_get ur (Z.of_nat col);
             do vr <- py_get V (Z.of_nat row); do v <- py_get vr (Z.of_nat col);
             Ok [I (Z.of_nat row + 1); I (Z.of_nat col + 1); D (six u); D (six v)]) (seq 0 nc)) (seq 0 nr);
  Ok ([W TIMETAG; I (f_d t); I (f_mo t); I (f_y t); I (f_h t); I (f_mi t)] :: concat d).

Fixpoint zip3 {A B C : Type} (a : list A) (b : list B) (c : list C) : list (A * B * C) :=
  match a, b, c with x :: a', y :: b', z :: c' => (x, y, z) :: zip3 a' b' c' | _, _, _ => [] end.

(** [write_gridcur] (lines 195-238); the text of the units may have several
    words. *)
Definition write_file (k : kind) (units : list word) (times : list fields) (lon lat : list num) (us vs : list arr) : res (list line) :=
  match us with
  | [] => Raise IndexErr
  | u0 :: _ =>
      let '(r, c) := shape u0 in
      let nodes := Nat.eqb (length lon) r && Nat.eqb (length lat) c in
      let cells := Nat.eqb (length lon) (S r) && Nat.eqb (length lat) (S c) in
      if nodes || cells then
        let head := [W (match k with Currents => GRIDCUR | Winds => GRIDWIND end) :: units;
                     [W NUMROWS; I (Z.of_nat r)]; [W NUMCOLS; I (Z.of_nat c)]] in
        do lat0 <- py_get lat 0; do lat1 <- py_get lat (-1); do lon0 <- py_get lon 0; do lon1 <- py_get lon (-1);
        let grid := if nodes then
            [[W STARTLAT; D lat0]; [W STARTLONG; D lon0];
             [W DLAT; D (ndiv (nsub lat1 lat0) (Z.of_nat (length lat) - 1))];
             [W DLONG; D (ndiv (nsub lon1 lon0) (Z.of_nat (length lon) - 1))]]
          else [[W LOLAT; D lat0]; [W HILAT; D lat1]; [W LOLONG; D lon0]; [W HILONG; D lon1]] in
        do d <- mapM (fun x => let '(t, U, V) := x in step_lines t U V) (zip3 times us vs);
        Ok (head ++ grid ++ concat d)
      else Raise ValueErr
  end.

(** ** Currents from a file *)
Record current := Current { c_name : kind; c_units : word; c_times : list fields; c_lon : list num; c_lat : list num; c_u : list arr; c_v : list arr; c_extrapolate : bool }.

(** [init_from_gridcur] (lines 70-134). *)
Definition init_from (l : list line) (extrapolate : bool) : res current :=
  do g <- read_file l;
  do u0 <- py_get (g_u g) 0; do v0 <- py_get (g_v g) 0;
  let same := let '(a, b) := shape u0 in let '(c, d) := shape v0 in Nat.eqb a c && Nat.eqb b d in
  let '(r, c) := shape u0 in
  if Nat.eqb (length (g_lon g)) r && Nat.eqb (length (g_lat g)) c && same then
    Ok (Current (g_kind g) (g_units g) (g_times g) (g_lon g) (g_lat g) (g_u g) (g_v g) extrapolate)
  else if Nat.eqb (length (g_lon g) - 1) r && Nat.eqb (length (g_lat g) - 1) c && same then Raise RuntimeErr
  else Raise ValueErr.

(** [from_gridcur] (lines 53-67): its argument is not handed on. *)
Definition from_file (l : list line) (extrapolate : bool) : res current := init_from l false.
