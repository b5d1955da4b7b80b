(** * Updating a save folder to the newest version

    Models gnome/utilities/save_updater.py: update_savefile (58-90), the five steps v0tov1 (93-192), v1tov2 (195-261),
    v2tov3 (264-328), v3tov4 (331-372), v4tov5 (375-428) and their list (497), called by GnomeObject.load on a folder
    (gnome/gnomeobject.py:932-934), in place.

    A step is a program that reads the folder and makes changes to it one after the other (a file is written, a file is
    removed, version.txt is written) and may end with an exception; the changes made before the exception stay.  An
    interruption is a prefix of these changes; a torn write leaves a file that cannot be read, because a file is
    emptied when it is opened for writing.

    A json file is the value of obj_type, initializers, weatherers, element_type, substance, of windage_range and
    windage_persist together, of id, and a number for everything else.  Initializers are names of files, not objects.
    The order of the files is that of glob.  Whether an oil can still be made, GnomeOil( **json_), is an argument.
    Not modelled: errors of the file system other than a missing file, messages, reading a zip file (component Pers). *)

From Coq Require Import ZArith List Bool String Lia.
From Verif Require Import Py StrModel PersModel.
Import ListNotations.
Open Scope list_scope.
Open Scope Z_scope.

Record file := File {
  f_type : option str;            (* obj_type *)
  f_inits : option (list str);    (* initializers *)
  f_weath : option (list str);    (* weatherers *)
  f_etype : option str;           (* element_type *)
  f_subst : option str;           (* substance *)
  f_wind : option Z;              (* windage_range and windage_persist *)
  f_id : Z;
  f_rest : Z }.

(** version.txt: missing, a number, or something int refuses. *)
Inductive version := NoVersion | Number (v : Z) | Garbage.

(** A folder: its json files (None: not json) and its version. *)
Record folder := Folder { d_files : list (str * option file); d_version : version }.

Inductive effect := Write (n : str) (f : file) | Delete (n : str) | Version (v : Z).

Definition apply (d : folder) (e : effect) : folder :=
  match e with
  | Write n f => Folder (sset n (Some f) (d_files d)) (d_version d)
  | Delete n => Folder (filter (fun p => negb (seqb n (fst p))) (d_files d)) (d_version d)
  | Version v => Folder (d_files d) (Number v)
  end.
Definition apply_all (es : list effect) (d : folder) : folder := fold_left apply es d.

(** The write that is interrupted. *)
Definition tear (d : folder) (e : effect) : folder :=
  match e with
  | Write n f => Folder (sset n None (d_files d)) (d_version d)
  | Delete n => d
  | Version v => Folder (d_files d) Garbage
  end.

(** Programs: the changes made, and how it ended. *)
Definition prog := folder -> list effect * option exc.
Definition ret : prog := fun _ => ([], None).
Definition emit (e : effect) : prog := fun _ => ([e], None).
Definition fail (x : exc) : prog := fun _ => ([], Some x).
Definition seq (p q : prog) : prog := fun d =>
  match p d with
  | (e1, Some x) => (e1, Some x)
  | (e1, None) => let (e2, x2) := q (apply_all e1 d) in (e1 ++ e2, x2)
  end.
Fixpoint each {A} (l : list A) (p : A -> prog) : prog :=
  match l with [] => ret | a :: t => seq (p a) (each t p) end.
Definition look (k : folder -> prog) : prog := fun d => k d d.

(** json.load of a file: a missing file, a file that is not json. *)
Definition read (n : str) (k : file -> prog) : prog := look (fun d =>
  match sget n (d_files d) with
  | None => fail OSErr
  | Some None => fail ValueErr
  | Some (Some f) => k f
  end).

(** All files read before anything is written: the files, if all can be read. *)
Fixpoint read_all (l : list (str * option file)) : option (list (str * file)) :=
  match l with
  | [] => Some []
  | (n, Some f) :: t => match read_all t with Some r => Some ((n, f) :: r) | None => None end
  | (_, None) :: _ => None
  end.
Definition reading (k : list (str * file) -> prog) : prog := look (fun d =>
  match read_all (d_files d) with None => fail ValueErr | Some fs => k fs end).

Definition set_type (t : str) (f : file) : file :=
  File (Some t) (f_inits f) (f_weath f) (f_etype f) (f_subst f) (f_wind f) (f_id f) (f_rest f).
Definition has (p : str) (f : file) : bool := match f_type f with Some t => str_in p t | None => false end.

(** ** Renaming (v2tov3, v4tov5) *)

(** One pass over the files whose obj_type had [p] when they were read: [g] of what the passes before left. *)
Definition rule := (str * (str -> str))%type.
Definition pass (before : str -> str) (r : rule) (fs : list (str * file)) : prog :=
  each fs (fun nf => match f_type (snd nf) with
                     | Some t => if str_in (fst r) t then emit (Write (fst nf) (set_type (snd r (before t)) (snd nf))) else ret
                     | None => ret
                     end).
Definition after_rule (before : str -> str) (r : rule) (t : str) : str := if str_in (fst r) t then snd r (before t) else before t.
Fixpoint passes (before : str -> str) (rs : list rule) (fs : list (str * file)) : prog :=
  match rs with
  | [] => ret
  | r :: t => seq (pass before r fs) (passes (after_rule before r) t fs)
  end.

(** save_updater.py:294-322 *)
Definition rules23 : list rule :=
  [(lit "gnome.spill."%string, py_replace (lit "gnome.spill."%string) (lit "gnome.spills."%string));
   (lit "SpatialRelease"%string, py_replace (lit "SpatialRelease"%string) (lit "PolygonRelease"%string));
   (lit "gnome.movers.current_movers."%string,
      fun t => py_replace (lit "GridCurrentMover"%string) (lit "c_GridCurrentMover"%string)
                 (py_replace (lit "current_movers."%string) (lit "c_current_movers."%string) t));
   (lit "gnome.movers.wind_movers."%string,
      fun t => py_replace (lit "GridWindMover"%string) (lit "c_GridWindMover"%string)
                 (py_replace (lit "wind_movers."%string) (lit "c_wind_movers."%string) t))].

(** save_updater.py:398-421 *)
Definition rules45 : list rule :=
  [(lit "PyCurrentMover"%string, py_replace (lit "PyCurrentMover"%string) (lit "CurrentMover"%string));
   (lit "PyWindMover"%string, py_replace (lit "PyWindMover"%string) (lit "WindMover"%string));
   (lit "c_wind_movers.WindMover"%string, py_replace (lit "WindMover"%string) (lit "PointWindMover"%string))].

Definition rename (rs : list rule) (v : Z) : prog := reading (fun fs => seq (passes (fun t => t) rs fs) (emit (Version v))).

(** save_updater.py:264-328, 375-428 *)
Definition v2tov3 : prog := rename rules23 3.
Definition v4tov5 : prog := rename rules45 5.

(** ** WeatheringData (v3tov4) *)

Definition weathering_data : str := lit "gnome.weatherers.weathering_data.WeatheringData"%string.
Definition is_type (t : str) (f : file) : bool := match f_type f with Some u => seqb u t | None => false end.

(** save_updater.py:358-360: removing from a list while going through it; [i] is the position of the iterator. *)
Fixpoint remove_first (x : str) (l : list str) : list str :=
  match l with [] => [] | y :: t => if seqb x y then t else y :: remove_first x t end.
Fixpoint prune (fuel i : nat) (gone l : list str) : list str :=
  match fuel with
  | O => l
  | S n => match nth_error l i with
           | None => l
           | Some x => prune n (S i) gone (if smem x gone then remove_first x l else l)
           end
  end.
Definition pruned (gone : list str) (f : file) : file :=
  File (f_type f) (f_inits f) (option_map (fun l => prune (List.length l) 0 gone l) (f_weath f)) (f_etype f) (f_subst f) (f_wind f) (f_id f) (f_rest f).

(** save_updater.py:331-372: every file is written again; the version is not. *)
Definition v3tov4 : prog := reading (fun fs =>
  let gone := map fst (filter (fun nf => is_type weathering_data (snd nf)) fs) in
  seq (each fs (fun nf => emit (Write (fst nf) (pruned gone (snd nf)))))
      (each gone (fun n => emit (Delete n)))).

(** ** Oils and windages (v1tov2) *)

Definition old_oil : str := lit "gnome.spill.substance.GnomeOil"%string.
Definition non_weathering : str := lit "gnome.spill.substance.NonWeatheringSubstance"%string.
(** save_updater.py:24-33; the id and the rest are the same for all. *)
Definition dummy_id : Z := -1.
Definition dummy_rest : Z := -1.

(** Path.unlink of a missing file is an error. *)
Definition unlink (n : str) : prog := look (fun d => match sget n (d_files d) with None => fail OSErr | Some _ => emit (Delete n) end).

(** save_updater.py:208-236: an oil that cannot be made any more is replaced. *)
Definition replace_oils (valid : file -> bool) (l : list (str * option file)) : prog :=
  each l (fun nf => match snd nf with
                    | None => fail ValueErr
                    | Some f => if is_type old_oil f && negb (valid f)
                                then match f_inits f with
                                     | None => fail KeyErr
                                     | Some i => emit (Write (fst nf) (File (Some non_weathering) (Some i) None None None None dummy_id dummy_rest))
                                     end
                                else ret
                    end).

(** save_updater.py:239-251: the windages of an initializer go to the file that names it; the file is written, without
    its initializers, for every InitWindages. *)
Definition with_windage (w : Z) (f : file) : file := File (f_type f) None (f_weath f) (f_etype f) (f_subst f) (Some w) (f_id f) (f_rest f).
Definition init_windages : str := lit "InitWindages"%string.
Definition move_windages (n : str) (f : file) (inits : list str) : prog :=
  each inits (fun wi => read wi (fun i =>
    match f_type i with
    | None => fail KeyErr
    | Some t => if str_in init_windages t
                then match f_wind i with None => fail KeyErr | Some w => emit (Write n (with_windage w f)) end
                else ret
    end)).
Definition take_windages (names : list str) : prog :=
  each names (fun n => read n (fun f =>
    match f_type f, f_inits f with Some _, Some l => move_windages n f l | _, _ => ret end)).

(** save_updater.py:251: the initializers to remove, as often as they are named.  Types are not changed by the loop,
    so that they can be collected before it. *)
Definition to_remove (d : folder) : list str :=
  flat_map (fun nf => match snd nf with
                      | Some f => match f_type f, f_inits f with
                                  | Some _, Some l => filter (fun wi => match sget wi (d_files d) with
                                                                        | Some (Some i) => has init_windages i
                                                                        | _ => false
                                                                        end) l
                                  | _, _ => []
                                  end
                      | None => []
                      end) (d_files d).

(** save_updater.py:195-261: the version is written before the initializers are removed. *)
Definition v1tov2 (valid : file -> bool) : prog := look (fun d =>
  seq (replace_oils valid (d_files d)) (look (fun d1 =>
    let gone := to_remove d1 in
    seq (take_windages (map fst (d_files d1))) (seq (emit (Version 2)) (each gone unlink))))).

(** ** Element types (v0tov1) *)

Definition first_type (p : str) (fs : list (str * file)) : option (str * file) := find (fun nf => has p (snd nf)) fs.
Definition new_oil : str := lit "gnome.spills.substance.GnomeOil"%string.

(** save_updater.py:99-128: the substance of an element type, and its name. *)
Definition substance_from (et : file) : str * file :=
  match f_subst et with
  | None => (lit "NonWeatheringSubstance_99"%string,
             File (Some non_weathering) (Some (match f_inits et with Some l => l | None => [] end)) None None None None dummy_id dummy_rest)
  | Some name => (name, File (Some new_oil) (Some (match f_inits et with Some l => l | None => [] end)) None None None None (-2) (f_rest et))
  end.

(** save_updater.py:130-192: the first element type becomes the substance of all the spills.  Without an element type
    the name of its file is not defined (an UnboundLocalError, here AttrErr), after the KeyError of a spill without
    element_type. *)
Definition v0tov1 : prog := reading (fun fs =>
  let et := first_type (lit "element_type.ElementType"%string) fs in
  let spills := filter (fun nf => has (lit "gnome.spills.spill.Spill"%string) (snd nf)) fs in
  let inits := filter (fun nf => has (lit "initializers"%string) (snd nf)) fs in
  let fn := match et with None => None | Some (_, e) => Some (sanitize_filename (fst (substance_from e) ++ lit ".json"%string)) end in
  seq (match et with None => ret | Some (n, _) => emit (Delete n) end)
 (seq (match et, fn with Some (_, e), Some m => emit (Write m (snd (substance_from e))) | _, _ => ret end)
 (seq (each spills (fun nf =>
        match f_etype (snd nf), fn with
        | None, _ => fail KeyErr
        | Some _, None => fail AttrErr
        | Some _, Some m => let f := snd nf in
            emit (Write (fst nf) (File (f_type f) (f_inits f) (f_weath f) None (Some m) (f_wind f) (f_id f) (f_rest f)))
        end))
 (seq (each inits (fun nf =>
        match f_type (snd nf) with
        | Some t => emit (Write (fst nf) (set_type (py_replace (lit ".elements."%string) (lit "."%string) t) (snd nf)))
        | None => ret
        end))
      (emit (Version 1)))))).

(** ** The update *)

(** save_updater.py:497, by a Python index. *)
Definition nth_step (valid : file -> bool) (i : Z) : prog :=
  match py_get [v0tov1; v1tov2 valid; v2tov3; v3tov4; v4tov5] i with Ok p => p | Raise e => fail e end.

(** save_updater.py:58-90 *)
Definition update (valid : file -> bool) : prog := look (fun d =>
  match d_version d with
  | Garbage => fail ValueErr
  | NoVersion => each (zseq 0 5%nat) (nth_step valid)
  | Number v => each (zseq v (Z.to_nat (5 - v))) (nth_step valid)
  end).

Definition updated (valid : file -> bool) (d : folder) : folder := apply_all (fst (update valid d)) d.
