(** * The NetCDF file of elements

    Modelled: of [NetCDFOutput] (/repo/py_gnome/gnome/outputters/netcdf.py) the
    arrays that are chosen ([_update_arrays_to_output], lines 499-518), the
    file as [prepare_for_model_run] makes it (lines 520-634), the data that
    [write_output] adds for the forecast and the uncertain elements (lines
    686-765) and what [read_data] returns (lines 837-1023).

    A file is its time stamps, its particle counts, the variables along the
    dimension 'data' and those of the group 'mass_balance'.  Both dimensions
    are unlimited: writing behind the end makes all variables longer, with
    fill values ([None]).

    Not modelled: the attributes of files and variables, the types of the
    numbers, arrays with more than one number for an element (a row is one
    number here), compression and chunks, zipping, when a step is written
    (see OutModel.v) and the surface concentration; arrays whose length is not
    the number of elements are refused (numpy would accept the length 1). *)
From Verif Require Import Py.
Local Open Scope Z_scope.

(** Names, numbered. *)
Definition LON : Z := 0.
Definition LAT : Z := 1.
Definition DEP : Z := 2.
Definition TIME : Z := 3.
Definition COUNT : Z := 4.
Definition POS : Z := 5.
(** [standard_arrays] (lines 237-254): latitude, longitude, depth,
    status_codes, spill_num, id, mass, age, density, viscosity, frac_water,
    surface_concentration. *)
Definition standard : list Z := [LAT; LON; DEP; 10; 11; 12; 13; 14; 15; 16; 17; 18].
(** [special_arrays] (lines 256-260). *)
Definition special : list Z := [LAT; LON; DEP].
(** [usually_skipped_arrays] (lines 265-279). *)
Definition skipped : list Z := [20; 21; 22; 23; 24; 25; 26; 27; 28; 29; 30; 31; 32; 33].
(** The letters of 'most', as names. *)
Definition letters : list Z := [40; 41; 42; 43].

Definition cell := option Z.

(** The elements at one time, as the cache returns them: the time in seconds,
    the positions, the other arrays, the mass balance. *)
Record snap := Snap {
  s_time : Z;
  s_pos : list (Z * Z * Z);
  s_arr : list (Z * list Z);
  s_mb : list (Z * Z) }.

Record file := File {
  f_start : Z;                             (* units: seconds since the start *)
  f_times : list Z;
  f_counts : list nat;
  f_vars : list (Z * list cell);
  f_mb : option (list (Z * list cell)) }.

(** The outputter: [arrays_to_output], [_start_idx] and its two files. *)
Record nco := Nco { n_arrays : list Z; n_start : nat; n_fc : option file; n_unc : option file }.

Inductive which := Standard | Most | All.

(** ** Preparing (lines 499-518, 568-634) *)
Definition add_name (s : list Z) (a : Z) : list Z := if zmem a s then s else s ++ [a].
Definition update_arrays (w : which) (arrays names : list Z) : list Z :=
  let a1 := match w with
            | Standard => arrays
            | _ => fold_left add_name (filter (fun a => negb (a =? POS)) names) arrays
            end in
  let a2 := match w with Most => filter (fun a => negb (zmem a skipped)) a1 | _ => a1 end in
  filter (fun a => zmem a names || zmem a special) a2.

(** The new file for elements with the arrays [names] and the keys [mb] in
    the mass balance. *)
Definition new_file (start : Z) (arrays mb : list Z) : file :=
  File start [] [] (map (fun a => (a, [])) arrays)
    (match mb with [] => None | _ => Some ((TIME, []) :: map (fun k => (k, [])) mb) end).

(** [prepare_for_model_run]: for each of the two containers its arrays are
    chosen and its file is made. *)
Definition prepare (o : nco) (w : which) (start : Z) (names mb : list Z) (unc : option (list Z * list Z)) : nco :=
  let a1 := update_arrays w (n_arrays o) names in
  match unc with
  | None => Nco a1 0 (Some (new_file start a1 mb)) None
  | Some (unames, umb) =>
      let a2 := update_arrays w a1 unames in
      Nco a2 0 (Some (new_file start a1 mb)) (Some (new_file start a2 umb))
  end.

(** ** Writing (lines 704-765) *)

(** [var[a:a+len(d)] = d]. *)
Definition put (l : list cell) (a : nat) (d : list Z) : list cell :=
  firstn a (l ++ repeat None (a - length l)) ++ map Some d ++ skipn (a + length d) l.

(** What is written for a name (lines 733-741). *)
Definition column (s : snap) (a : Z) : res (list Z) :=
  if a =? LON then Ok (map (fun p => fst (fst p)) (s_pos s))
  else if a =? LAT then Ok (map (fun p => snd (fst p)) (s_pos s))
  else if a =? DEP then Ok (map (fun p => snd p) (s_pos s))
  else match dget a (s_arr s) with Some l => Ok l | None => Raise KeyErr end.

Fixpoint write_vars (arrays : list Z) (start : nat) (s : snap) (vars : list (Z * list cell)) : res (list (Z * list cell)) :=
  match arrays with
  | [] => Ok vars
  | a :: r =>
      match dget a vars with
      | None => Raise KeyErr
      | Some l =>
          do d <- column s a;
          if (length d =? length (s_pos s))%nat then write_vars r start s (dset a (put l start d) vars)
          else Raise ValueErr
      end
  end.

Definition write_key (idx : nat) (k v : Z) (g : list (Z * list cell)) : list (Z * list cell) :=
  dset k (put (match dget k g with Some l => l | None => [] end) idx [v]) g.

(** The mass balance (lines 744-757). *)
Definition write_mb (idx : nat) (t : Z) (mb : list (Z * Z)) (g : option (list (Z * list cell))) : res (option (list (Z * list cell))) :=
  match mb with
  | [] => Ok g
  | _ =>
      match g with
      | None => Raise KeyErr
      | Some g =>
          match dget TIME g with
          | None => Raise KeyErr
          | Some _ => Ok (Some (fold_left (fun g kv => write_key idx (fst kv) (snd kv) g) mb (write_key idx TIME t g)))
          end
      end
  end.

(** One container (lines 713-757): the file and [_end_idx]. *)
Definition write_one (arrays : list Z) (start : nat) (s : snap) (f : file) : res (file * nat) :=
  let idx := length (f_times f) in
  let n := length (s_pos s) in
  do vars <- write_vars arrays start s (f_vars f);
  do g <- write_mb idx (s_time s - f_start f) (s_mb s) (f_mb f);
  Ok (File (f_start f) (f_times f ++ [s_time s - f_start f]) (f_counts f ++ [n]) vars g, (start + n)%nat).

(** One step: both containers, with the same start; the end of the last is
    the start of the next step (line 764). *)
Definition write_step (o : nco) (p : snap * option snap) : res nco :=
  match n_fc o with
  | None => Raise KeyErr
  | Some f =>
      do (f', e) <- write_one (n_arrays o) (n_start o) (fst p) f;
      match snd p with
      | None => Ok (Nco (n_arrays o) e (Some f') (n_unc o))
      | Some u =>
          match n_unc o with
          | None => Raise KeyErr
          | Some g =>
              do (g', e') <- write_one (n_arrays o) (n_start o) u g;
              Ok (Nco (n_arrays o) e' (Some f') (Some g'))
          end
      end
  end.
Fixpoint write_all (o : nco) (l : list (snap * option snap)) : res nco :=
  match l with
  | [] => Ok o
  | p :: r => do o' <- write_step o p; write_all o' r
  end.

(** ** Reading (lines 893-1023) *)
Inductive sel := ByTime (t : Z) | ByIndex (i : Z) | Only.
Inductive asked := AStandard | AAll | AMost | AList (l : list Z).
Inductive arr := APos (l : list (cell * cell * cell)) | ACol (l : list cell).

Fixpoint argmin_from (best : nat) (bv : Z) (i : nat) (l : list Z) : nat :=
  match l with
  | [] => best
  | v :: r => if v <? bv then argmin_from i v (S i) r else argmin_from best bv (S i) r
  end.
Definition argmin (l : list Z) : res Z :=
  match l with [] => Raise ValueErr | v :: r => Ok (Z.of_nat (argmin_from 0 v 1 r)) end.

(** Lines 893-923. *)
Definition read_index (f : file) (s : sel) : res Z :=
  match s with
  | Only => if (1 <? length (f_times f))%nat then Raise ValueErr else Ok 0
  | ByTime t =>
      let off := t - f_start f in
      if off <? 0 then Ok 0 else argmin (map (fun x => Z.abs (x - off)) (f_times f))
  | ByIndex i => Ok (if i <? 0 then Z.of_nat (length (f_times f)) + i else i)
  end.

(** Lines 925-926. *)
Fixpoint sum_counts (counts : list nat) (from : Z) (n : nat) : res nat :=
  match n with
  | O => Ok O
  | S n' => do c <- py_get counts from; do r <- sum_counts counts (from + 1) n'; Ok (c + r)%nat
  end.

(** The length of a dimension, [var[a:b]] and [var[i]]. *)
Definition dim (vars : list (Z * list cell)) : nat := fold_right Nat.max O (map (fun kv => length (snd kv)) vars).
Definition slice (d : nat) (l : list cell) (a b : nat) : list cell :=
  map (fun i => nth i l None) (seq a (Nat.min b d - a)).
Definition item (d : nat) (l : list cell) (i : Z) : res cell :=
  match py_pos d i with Some k => Ok (nth k l None) | None => Raise IndexErr end.

(** The arrays to read (lines 937-960; lists that name the time stamps or the
    counts themselves are not modelled); the names of the letters for 'most'. *)
Definition read_names (f : file) (w : asked) : list Z :=
  match w with
  | AStandard => filter (fun a => negb (zmem a special)) standard ++ [POS]
  | AAll => filter (fun a => negb (zmem a special)) (map fst (f_vars f)) ++ [POS]
  | AMost => letters
  | AList l => l
  end.

(** [positions[:, i] = var[a:b]] (lines 966-977) for a table with [n] rows. *)
Definition read_col (f : file) (a : Z) (n lo hi : nat) : res (list cell) :=
  match dget a (f_vars f) with
  | None => Raise KeyErr
  | Some l => let c := slice (dim (f_vars f)) l lo hi in
              if (length c =? n)%nat then Ok c else Raise ValueErr
  end.
Definition read_pos (f : file) (n lo hi : nat) : res arr :=
  do x <- read_col f LON n lo hi;
  do y <- read_col f LAT n lo hi;
  do z <- read_col f DEP n lo hi;
  Ok (APos (combine (combine x y) z)).

Fixpoint read_arrays (f : file) (names : list Z) (n lo hi : nat) (d : list (Z * arr)) : res (list (Z * arr)) :=
  match names with
  | [] => Ok d
  | a :: r =>
      if a =? POS then do p <- read_pos f n lo hi; read_arrays f r n lo hi (dset POS p d)
      else match dget a (f_vars f) with
           | Some l => read_arrays f r n lo hi (dset a (ACol (slice (dim (f_vars f)) l lo hi)) d)
           | None => read_arrays f r n lo hi d
           end
  end.

Definition read_mb (f : file) (i : Z) : res (list (Z * cell)) :=
  match f_mb f with
  | None => Ok []
  | Some g => mapM (fun kv => do c <- item (dim g) (snd kv) i; Ok (fst kv, c)) g
  end.

Definition read_data (f : file) (s : sel) (w : asked) : res (Z * list (Z * arr) * list (Z * cell)) :=
  do i <- read_index f s;
  do lo <- sum_counts (f_counts f) 0 (Z.to_nat i);
  do n <- py_get (f_counts f) i;
  do t <- py_get (f_times f) i;
  do arrays <- read_arrays f (read_names f w) n lo (lo + n) [];
  do mb <- read_mb f i;
  Ok (f_start f + t, arrays, mb).
