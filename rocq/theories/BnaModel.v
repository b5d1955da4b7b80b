(** * Reading BNA files

    Models gnome/utilities/file_tools/haz_files.py: GetNextBNAPolygon (16-88) and ReadBNA (112-159).

    A file is the list of its lines, each with its end of line and so not empty; readline returns an empty text at the end
    of the file.  A text is a list of character codes.  int() is modelled for ASCII decimals with white space around
    them (no underscores); what float() returns for a text, or that it raises, is arbitrary.  A list of one number that is
    assigned to a row of an array fills the row, a list of another length than two is a ValueErr (numpy).  Numbers
    are integers here: they are only compared.  Not modelled: the size of the array before it is filled, opening and
    closing of the file, dtype. *)

From Coq Require Import ZArith List Bool Lia.
From Verif Require Import Py StrModel.
Import ListNotations.
Open Scope Z_scope.

Definition quote : Z := 34.
Definition comma : Z := 44.
Definition space (c : Z) : bool := (c =? 32) || ((9 <=? c) && (c <=? 13)).

(** str.strip() *)
Fixpoint lstrip (s : str) : str := match s with c :: t => if space c then lstrip t else s | [] => [] end.
Definition strip (s : str) : str := rev (lstrip (rev (lstrip s))).

(** int(text) *)
Fixpoint dec (acc : Z) (s : str) : option Z :=
  match s with
  | [] => Some acc
  | c :: t => if (48 <=? c) && (c <=? 57) then dec (acc * 10 + (c - 48)) t else None
  end.
Definition decimal (s : str) : option Z := match s with [] => None | _ :: _ => dec 0 s end.
Definition py_int (s : str) : option Z :=
  match strip s with
  | c :: t => if c =? 45 then option_map Z.opp (decimal t) else if c =? 43 then decimal t else decimal (c :: t)
  | [] => None
  end.

Inductive kind := Point | Polyline | Polygon.
Record poly := Poly { p_points : list (Z * Z); p_kind : kind; p_name : str; p_sname : str }.

Definition floats := str -> option Z.

(** haz_files.py:48-55: name, secondary name and number of points. *)
Definition header (h : str) : res (str * str * Z) :=
  match split_on quote h with
  | _ :: name :: _ :: sname :: f4 :: _ =>
      match py_int (tl (strip f4)) with Some n => Ok (name, sname, n) | None => Raise ValueErr end
  | _ => Raise ValueErr
  end.

(** haz_files.py:57-66 *)
Definition kind_of (n : Z) : res (kind * Z) :=
  if (n <? 0) || (n =? 2) then Ok (Polyline, Z.abs n)
  else if n =? 1 then Ok (Point, n)
  else if 2 <? n then Ok (Polygon, n)
  else Raise ValueErr.

Fixpoint floats_of (flt : floats) (l : list str) : option (list Z) :=
  match l with
  | [] => Some []
  | a :: t => match flt a, floats_of flt t with Some x, Some r => Some (x :: r) | _, _ => None end
  end.

(** haz_files.py:75-79 *)
Definition coords (flt : floats) (line : str) : res (Z * Z) :=
  match floats_of flt (split_on comma line) with
  | Some [x] => Ok (x, x)
  | Some [x; y] => Ok (x, y)
  | _ => Raise ValueErr
  end.

(** haz_files.py:69-79 *)
Fixpoint points (flt : floats) (n : nat) (f : list str) : res (list (Z * Z) * list str) :=
  match n with
  | O => Ok ([], f)
  | S m => match f with
           | [] => Raise ValueErr
           | line :: r => do p <- coords flt line; do q <- points flt m r; Ok (p :: fst q, snd q)
           end
  end.

Definition pair_eqb (a b : Z * Z) : bool := (fst a =? fst b) && (snd a =? snd b).
(** haz_files.py:84-86 *)
Definition open_ring (l : list (Z * Z)) : list (Z * Z) :=
  match l with
  | [] => []
  | p :: _ => if pair_eqb p (last l p) then removelast l else l
  end.

(** haz_files.py:39-46 *)
Fixpoint skip_blank (f : list str) : list str :=
  match f with h :: r => match strip h with [] => skip_blank r | _ :: _ => f end | [] => [] end.

(** haz_files.py:16-88: None at the end of the file. *)
Definition next (flt : floats) (f : list str) : res (option (poly * list str)) :=
  match skip_blank f with
  | [] => Ok None
  | h :: r =>
      do nsn <- header h;
      do kn <- kind_of (snd nsn);
      do ps <- points flt (Z.to_nat (snd kn)) r;
      Ok (Some (Poly (match fst kn with Polygon => open_ring (fst ps) | _ => fst ps end)
                  (fst kn) (fst (fst nsn)) (snd (fst nsn)), snd ps))
  end.

(** haz_files.py:137-141, 145-150: a polygon takes a line at least, so that more rounds than lines are never made. *)
Fixpoint loop (flt : floats) (fuel : nat) (f : list str) : res (list poly) :=
  match fuel with
  | O => Raise RuntimeErr
  | S m => do o <- next flt f;
           match o with
           | None => Ok []
           | Some (p, r) => do l <- loop flt m r; Ok (p :: l)
           end
  end.

Inductive polytype := AList | PolygonSet | BNADataClass | OtherType.

(** haz_files.py:112-159: a PolygonSet has the points and (type, name, secondary name) of each. *)
Definition read_bna (flt : floats) (pt : polytype) (f : list str) : res (list poly) :=
  match pt with
  | AList | PolygonSet => loop flt (S (length f)) f
  | BNADataClass => Raise TypeErr
  | OtherType => Raise ValueErr
  end.
