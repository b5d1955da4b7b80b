(** * Shapefile output

    Models gnome/outputters/shape.py: ShapeOutput (47-278) and gnome/utilities/shapefile_builder.py: ShapefileBuilder
    (22-75), ParticleShapefileBuilder (78-135) and BoundaryShapefileBuilder (146-216).

    A file name is a list of character codes without a separator of folders; the temporary folder and the folder
    of the output are dictionaries from names to files.  Of an element only an id and a concentration are kept.  Sorting a
    frame by concentration, the union of the hulls (hull.py, see Hul) and the files that a shapefile is made of are
    arbitrary.  Whether a step is written (outputter.py, see Out) is an argument.  Times are seconds.  Names
    with characters that are special for glob, areas, optional columns, schemas and ContourShapefileBuilder are
    not modelled. *)

From Coq Require Import ZArith QArith List Bool Lia String.
From Verif Require Import Py StrModel.
Import ListNotations.
Open Scope list_scope.
Open Scope Z_scope.

Definition zip_ext : str := lit ".zip"%string.
Definition shp_ext : str := lit ".shp"%string.
Definition t_certain : str := lit "_certain"%string.
Definition t_certain_b : str := lit "_certain_boundary"%string.
Definition t_uncertain : str := lit "_uncertain"%string.
Definition t_uncertain_b : str := lit "_uncertain_boundary"%string.
Definition t_boundary : str := lit "_boundary"%string.

(** pathlib: the text before the last dot and the text from it on. *)
Fixpoint last_dot (s : str) : option (str * str) :=
  match s with
  | [] => None
  | c :: t => match last_dot t with
              | Some ab => Some (c :: fst ab, snd ab)
              | None => if c =? 46 then Some ([], s) else None
              end
  end.
(** pathlib: stem and suffix; a dot at the start or at the end is none. *)
Definition parted (s : str) : str * str :=
  match last_dot s with
  | Some (a0 :: a, b0 :: b1 :: b) => (a0 :: a, b0 :: b1 :: b)
  | _ => (s, [])
  end.
Definition stem (s : str) : str := fst (parted s).
Definition suffix (s : str) : str := snd (parted s).
Definition with_suffix (s x : str) : str := stem s ++ x.
(** str.removesuffix *)
Definition removesuffix (x s : str) : str := if endswith x s then firstn (List.length s - List.length x) s else s.

Record el := El { e_id : Z; e_conc : Z }.
Record box := Box { b_unc : bool; b_time : Z; b_els : list el; b_conc : bool }.
Inductive frame := Rows (t : Z) (utc : option Z) (rows : list el) | Bound (t : Z) (utc : option Z) (sep : bool) (g : Z).
Inductive file := Whole (fs : list frame) | Part (ext : str) (fs : list frame) | Bundle (ms : list (str * file)).

(** shape.py:52-113 *)
Record cfg := Cfg { g_name : str; g_zip : bool; g_cb : bool; g_cb_sep : bool; g_ub : bool; g_ub_all : bool; g_ub_sep : bool;
                    g_off : option Q; g_on : bool }.
Record world := World { w_sort : list el -> list el; w_hull : list box -> bool -> option Z; w_parts : list str }.
Record st := St { s_c : list frame; s_cb : list frame; s_u : list frame; s_ub : list frame; s_unc : option bool;
                  s_name : str; s_tmp : list (str * file); s_out : list (str * file) }.

(** shape.py:72-76, 102-113 *)
Definition start (g : cfg) : st :=
  St [] [] [] [] None (with_suffix (g_name g) (if g_zip g || g_cb g || g_ub g then zip_ext else shp_ext)) [] [].

(** shapefile_builder.py:94-97 (and 170-173): datetime.timezone refuses a day or more. *)
Definition utc (off : option Q) (t : Z) : res (option Z) :=
  match off with
  | None => Ok None
  | Some q => let m := Z.quot (Qnum q * 60) (Zpos (Qden q)) in
              if Z.abs m <? 1440 then Ok (Some (t - 60 * m)) else Raise ValueErr
  end.

(** shapefile_builder.py:87-125 *)
Definition particles (w : world) (g : cfg) (b : box) : res frame :=
  do u <- utc (g_off g) (b_time b);
  Ok (Rows (b_time b) u (if b_conc b && negb (b_unc b) then w_sort w (b_els b) else b_els b)).

(** shapefile_builder.py:155-206: the time of several containers is that of the first; nothing without a hull. *)
Definition boundary (w : world) (g : cfg) (bs : list box) (sep : bool) : res (list frame) :=
  match bs with
  | [] => Raise IndexErr
  | b :: _ => do u <- utc (g_off g) (b_time b);
              Ok (match w_hull w bs sep with Some h => [Bound (b_time b) u sep h] | None => [] end)
  end.

Definition set_c s x := St x (s_cb s) (s_u s) (s_ub s) (s_unc s) (s_name s) (s_tmp s) (s_out s).
Definition set_cb s x := St (s_c s) x (s_u s) (s_ub s) (s_unc s) (s_name s) (s_tmp s) (s_out s).
Definition set_u s x := St (s_c s) (s_cb s) x (s_ub s) (s_unc s) (s_name s) (s_tmp s) (s_out s).
Definition set_ub s x := St (s_c s) (s_cb s) (s_u s) x (s_unc s) (s_name s) (s_tmp s) (s_out s).

(** shape.py:152-174 *)
Definition add_box (w : world) (g : cfg) (sp : list box) (s : st) (b : box) : res st :=
  do f <- particles w g b;
  if b_unc b then
    let s1 := set_u s (s_u s ++ [f]) in
    if g_ub g then do h <- boundary w g (if g_ub_all g then sp else [b]) (g_ub_sep g); Ok (set_ub s1 (s_ub s1 ++ h)) else Ok s1
  else
    let s1 := set_c s (s_c s ++ [f]) in
    if g_cb g then do h <- boundary w g [b] (g_cb_sep g); Ok (set_cb s1 (s_cb s1 ++ h)) else Ok s1.

Fixpoint add_all (w : world) (g : cfg) (sp : list box) (s : st) (l : list box) : res st :=
  match l with [] => Ok s | b :: t => do s1 <- add_box w g sp s b; add_all w g sp s1 t end.

(** shape.py:142-181: the frames, and the name of the file that is told. *)
Definition step (w : world) (g : cfg) (write : bool) (sp : list box) (s : st) : res (st * option str) :=
  if negb (g_on g) then Ok (s, None)
  else if write then do s1 <- add_all w g sp s sp; Ok (s1, Some (s_name s1)) else Ok (s, None).

(** shape.py:119-140, 265-277 *)
Definition prepare (g : cfg) (unc : bool) (s : st) : st :=
  if g_on g then St [] [] [] [] (Some unc) (if unc then with_suffix (s_name s) zip_ext else s_name s) (s_tmp s) (s_out s)
  else St [] [] [] [] (s_unc s) (s_name s) (s_tmp s) (s_out s).

(** shape.py:83-87 and shapefile_builder.py:28-35: the name of the file of a builder. *)
Definition built (g : cfg) (tag : str) : str := with_suffix (stem (g_name g) ++ tag) (if g_zip g then zip_ext else shp_ext).

(** shapefile_builder.py:46-68 *)
Fixpoint put_parts (name : str) (fs : list frame) (ps : list str) (d : list (str * file)) : list (str * file) :=
  match ps with [] => d | p :: t => put_parts name fs t (sset (with_suffix name p) (Part p fs) d) end.
Definition write (w : world) (g : cfg) (tag : str) (fs : list frame) (d : list (str * file)) : list (str * file) :=
  if g_zip g then sset (built g tag) (Whole fs) d else put_parts (built g tag) fs (w_parts w) d.

(** shape.py:233-254 *)
Fixpoint members (names : list str) (d : list (str * file)) : res (list (str * file)) :=
  match names with
  | [] => Ok []
  | n :: t => match sget n d with Some f => do r <- members t d; Ok ((n, f) :: r) | None => Raise OSErr end
  end.
Definition bundle (g : cfg) (unc : bool) (d : list (str * file)) : res file :=
  do ms <- members ([built g t_certain] ++ (if g_cb g then [built g t_certain_b] else []) ++
                    (if unc then built g t_uncertain :: (if g_ub g then [built g t_uncertain_b] else []) else [])) d;
  Ok (Bundle ms).

(** shape.py:219-224 (and 225-230): the files whose names start with the stem and a dot. *)
Fixpoint copy_parts (name tag new : str) (d : list (str * file)) (out : list (str * file)) : list (str * file) :=
  match d with
  | [] => out
  | (n, f) :: t => copy_parts name tag new t
      (if startswith (stem name ++ [46]) n then sset (removesuffix tag (stem n) ++ new ++ suffix n) f out else out)
  end.

(** shape.py:183-230 *)
Definition finish (w : world) (g : cfg) (s : st) : res st :=
  match s_unc s with
  | None => Raise AttrErr
  | Some unc =>
      let d1 := write w g t_certain (s_c s) (s_tmp s) in
      let d2 := if g_cb g then write w g t_certain_b (s_cb s) d1 else d1 in
      let d3 := if unc then write w g t_uncertain (s_u s) d2 else d2 in
      let d4 := if unc && g_ub g then write w g t_uncertain_b (s_ub s) d3 else d3 in
      do out <- (if unc then do b <- bundle g true d4; Ok (sset (s_name s) b (s_out s))
                 else if g_zip g then
                   if g_cb g then do b <- bundle g false d4; Ok (sset (s_name s) b (s_out s))
                   else match sget (built g t_certain) d4 with Some f => Ok (sset (s_name s) f (s_out s)) | None => Raise OSErr end
                 else Ok (copy_parts (built g t_certain_b) t_certain_b t_boundary d4
                            (copy_parts (built g t_certain) t_certain [] d4 (s_out s))));
      Ok (St (s_c s) (s_cb s) (s_u s) (s_ub s) (s_unc s) (s_name s) d4 out)
  end.

(** A history of runs. *)
Inductive op := Prepare (unc : bool) | Step (write : bool) (sp : list box) | Finish.
Definition do_op (w : world) (g : cfg) (s : st) (o : op) : res st :=
  match o with
  | Prepare u => Ok (prepare g u s)
  | Step wr sp => do r <- step w g wr sp s; Ok (fst r)
  | Finish => finish w g s
  end.
Fixpoint run (w : world) (g : cfg) (s : st) (l : list op) : res st :=
  match l with [] => Ok s | o :: t => do s1 <- do_op w g s o; run w g s1 t end.
