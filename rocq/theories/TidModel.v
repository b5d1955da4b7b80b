(** * Tide files and files from the server

    Models gnome/environment/tide.py: Tide.__init__ (61-103), yeardata (127-140), scale_factor (142-144) and _obj_to_create
    (146-179); and gnome/utilities/remote_data.py: get_datafile (19-107).

    A text is a list of character codes, a file that is read as text the list of its lines, each with its end of line;
    as Python opens text files with universal newlines no line has a carriage return, and splitting at carriage returns
    (at most 4) gives the line itself.  The scale factor in a tide file is arbitrary.  The server is an arbitrary function
    from an address to what its reads give until the first empty one, or a HTTPError (an OSErr).  urljoin is put for
    names without special characters: what follows the last slash of the base is replaced, and the base ends with one.
    Not modelled: the parents
    of a folder, the C++ objects, the data range, the progress bar, buffering (a write is on the disk at once). *)

From Coq Require Import ZArith List Bool Lia String.
From Verif Require Import Py StrModel.
Import ListNotations.
Open Scope list_scope.
Open Scope Z_scope.

Definition comma : Z := 44.

(** tide.py:166 *)
Definition keywords : list str := [lit "[StationInfo]"%string; lit "Type="%string; lit "Name="%string; lit "Latitude="%string].

Inductive kind := Shio | Ossm.

(** tide.py:168: every line starts with its keyword. *)
Fixpoint all_start (ks ls : list str) : res bool :=
  match ks with
  | [] => Ok true
  | k :: kt => match ls with
               | [] => Raise IndexErr
               | l :: lt => do r <- all_start kt lt; Ok (seqb k (firstn (List.length k) l) && r)
               end
  end.

(** tide.py:146-179 *)
Definition obj_to_create (f : list str) : res kind :=
  let lines := [nth 0 f []; nth 1 f []; nth 2 f []; nth 3 f []] in
  let lines := match nth 1 lines [] with [] => [nth 0 f []] | _ :: _ => lines end in
  match nth_error lines 1 with
  | None => Raise IndexErr
  | Some [] => Raise ValueErr
  | Some (_ :: _) =>
      do s <- all_start keywords lines;
      if s then Ok Shio
      else match nth_error lines 3 with
           | None => Raise IndexErr
           | Some l => if (List.length (split_on comma l) =? 7)%nat then Ok Ossm else Raise ValueErr
           end
  end.

Record tide := Tide { t_kind : kind; t_year : option str; t_scale : Z; t_shio_path : option str }.

(** tide.py:127-140 *)
Definition set_yeardata (exists_ : str -> bool) (v : str) (t : tide) : res tide :=
  if negb (exists_ v) then Raise OSErr
  else Ok (Tide (t_kind t) (Some v) (t_scale t) (match t_kind t with Shio => Some v | Ossm => t_shio_path t end)).

(** tide.py:61-103 *)
Definition new_tide (exists_ : str -> bool) (file_scale : Z) (f : list str) (yeardata : str) (scale : option Z) : res tide :=
  do k <- obj_to_create f;
  do t <- set_yeardata exists_ yeardata (Tide k None file_scale None);
  Ok (Tide (t_kind t) (t_year t) (match scale with Some v => if v =? 0 then t_scale t else v | None => t_scale t end) (t_shio_path t)).

Record disk := Disk { d_files : list (str * list Z); d_dirs : list str }.

(** remote_data.py:56-61, 66 *)
Definition address (base subdir file : str) : str :=
  base ++ (match subdir with [] => [] | _ :: _ => if endswith [slash] subdir then subdir else subdir ++ [slash] end) ++ basename file.

(** remote_data.py:94-101: reads until an empty one. *)
Fixpoint until_empty (l : list (list Z)) : list (list Z) :=
  match l with [] => [] | [] :: _ => [] | c :: t => c :: until_empty t end.

(** remote_data.py:87-101: the disk after each write; the first is after the file was opened. *)
Fixpoint writes (file : str) (d : disk) (got : list Z) (l : list (list Z)) : list disk :=
  let d1 := Disk (sset file got (d_files d)) (d_dirs d) in
  match l with [] => [d1] | c :: t => d1 :: writes file d (got ++ c) t end.

(** remote_data.py:19-107: the disks one after the other, and whether it was refused. *)
Definition get_datafile (server : str -> res (list (list Z))) (base : str) (d : disk) (file subdir : str) : list disk * res str :=
  match sget file (d_files d) with
  | Some _ => ([d], Ok file)
  | None =>
      match server (address base subdir file) with
      | Raise e => ([d], Raise e)
      | Ok reads =>
          let p := match dirname file with [] => lit "."%string | c :: t => c :: t end in
          let d1 := if smem p (d_dirs d) then d else Disk (d_files d) (p :: d_dirs d) in
          (d :: d1 :: writes file d1 [] (until_empty reads), Ok file)
      end
  end.
