(** * Specification for updating a save folder *)

From Coq Require Import ZArith List Bool String.
From Verif Require Import Py StrModel MigModel.
Import ListNotations.
Open Scope list_scope.
Open Scope Z_scope.

(** All files of the folder can be read, and are these; no name twice. *)
Definition holds (d : folder) (fs : list (str * file)) : Prop :=
  d_files d = map (fun nf => (fst nf, Some (snd nf))) fs /\ NoDup (map fst fs).

(** What a version renames: a name of a class that has the first text has the others replaced in it. *)
Definition table := list (str * list (str * str)).
Definition table23 : table :=
  [(lit "gnome.spill."%string, [(lit "gnome.spill."%string, lit "gnome.spills."%string)]);
   (lit "SpatialRelease"%string, [(lit "SpatialRelease"%string, lit "PolygonRelease"%string)]);
   (lit "gnome.movers.current_movers."%string,
     [(lit "current_movers."%string, lit "c_current_movers."%string); (lit "GridCurrentMover"%string, lit "c_GridCurrentMover"%string)]);
   (lit "gnome.movers.wind_movers."%string,
     [(lit "wind_movers."%string, lit "c_wind_movers."%string); (lit "GridWindMover"%string, lit "c_GridWindMover"%string)])].
Definition table45 : table :=
  [(lit "PyCurrentMover"%string, [(lit "PyCurrentMover"%string, lit "CurrentMover"%string)]);
   (lit "PyWindMover"%string, [(lit "PyWindMover"%string, lit "WindMover"%string)]);
   (lit "c_wind_movers.WindMover"%string, [(lit "WindMover"%string, lit "PointWindMover"%string)])].

Definition replaced (reps : list (str * str)) (t : str) : str := fold_left (fun t kv => py_replace (fst kv) (snd kv) t) reps t.

(** The names a name goes through, the first one first; the last of them. *)
Fixpoint stages (t0 acc : str) (tb : table) : list str :=
  match tb with
  | [] => [acc]
  | (p, reps) :: rest => acc :: stages t0 (if str_in p t0 then replaced reps acc else acc) rest
  end.
Fixpoint new_from (t0 acc : str) (tb : table) : str :=
  match tb with
  | [] => acc
  | (p, reps) :: rest => new_from t0 (if str_in p t0 then replaced reps acc else acc) rest
  end.
Definition new_name (tb : table) (t : str) : str := new_from t t tb.

(** Every name on the way leads to the same name. *)
Definition settled (tb : table) (t : str) : Prop := forall a, In a (stages t t tb) -> new_name tb a = new_name tb t.

(** A file with its class renamed, all else as it was. *)
Definition retyped (t : option str) (f : file) : file :=
  File t (f_inits f) (f_weath f) (f_etype f) (f_subst f) (f_wind f) (f_id f) (f_rest f).
Definition renamed (tb : table) (fs : list (str * file)) : list (str * file) :=
  map (fun nf => (fst nf, retyped (option_map (new_name tb) (f_type (snd nf))) (snd nf))) fs.

(** The folder without its WeatheringData and without the names of their files in the weatherers. *)
Definition weathering (f : file) : Prop := f_type f = Some (lit "gnome.weatherers.weathering_data.WeatheringData"%string).
Definition is_weathering (f : file) : bool :=
  match f_type f with Some t => seqb t (lit "gnome.weatherers.weathering_data.WeatheringData"%string) | None => false end.
Definition gone_names (fs : list (str * file)) : list str := map fst (filter (fun nf => is_weathering (snd nf)) fs).
Definition unnamed (gone : list str) (f : file) : file :=
  File (f_type f) (f_inits f) (option_map (filter (fun x => negb (smem x gone))) (f_weath f)) (f_etype f) (f_subst f) (f_wind f) (f_id f) (f_rest f).
Definition without (fs : list (str * file)) : list (str * file) :=
  map (fun nf => (fst nf, unnamed (gone_names fs) (snd nf))) (filter (fun nf => negb (is_weathering (snd nf))) fs).

(** No two of the names one after the other. *)
Definition spaced (gone l : list str) : Prop := forall a x y b, l = a ++ x :: y :: b -> In x gone -> In y gone -> False.
Definition all_spaced (fs : list (str * file)) : Prop :=
  forall n f l, In (n, f) fs -> f_weath f = Some l -> spaced (gone_names fs) l.

(** The folder after an interruption between two changes, or in the middle of one. *)
Definition interrupted (p : prog) (d : folder) (k : nat) : folder := apply_all (firstn k (fst (p d))) d.
Definition torn (p : prog) (d : folder) (k : nat) : folder :=
  match nth_error (fst (p d)) k with Some e => tear (interrupted p d k) e | None => interrupted p d k end.

(** All the classes are settled; and none of them becomes WeatheringData. *)
Definition all_settled (tb : table) (fs : list (str * file)) : Prop :=
  Forall (fun nf => match f_type (snd nf) with Some t => settled tb t | None => True end) fs.
Definition stays (fs : list (str * file)) : Prop :=
  all_settled table45 fs /\
  (forall n f t, In (n, f) fs -> f_type f = Some t -> new_name table45 t = lit "gnome.weatherers.weathering_data.WeatheringData"%string ->
     is_weathering f = true).

(** Version 1: the windages of a file that names one initializer; the initializers named. *)
Definition windages (fs : list (str * file)) (f : file) : option Z :=
  match f_inits f with Some [wi] => match sget wi fs with Some i => f_wind i | None => None end | _ => None end.
Definition named_inits (fs : list (str * file)) : list str :=
  flat_map (fun nf => match f_inits (snd nf) with Some l => l | None => [] end) fs.

(** Every file has a class, and names no initializers or one InitWindages that no other file names. *)
Definition tidy (fs : list (str * file)) : Prop := NoDup (named_inits fs) /\
  forall n f, In (n, f) fs -> f_type f <> None /\ (f_inits f = None \/ exists wi i t w, f_inits f = Some [wi] /\ In (wi, i) fs /\
    f_type i = Some t /\ str_in (lit "InitWindages"%string) t = true /\ f_wind i = Some w /\ f_inits i = None).

(** The files with the windages in them and without the initializers. *)
Definition with_windages (fs : list (str * file)) : list (str * file) :=
  map (fun nf => (fst nf, match windages fs (snd nf) with
                          | Some w => let f := snd nf in File (f_type f) None (f_weath f) (f_etype f) (f_subst f) (Some w) (f_id f) (f_rest f)
                          | None => snd nf
                          end)) (filter (fun nf => negb (smem (fst nf) (named_inits fs))) fs).

(** An oil of version 1 that cannot be made any more, and what replaces it. *)
Definition lost (valid : file -> bool) (f : file) : bool :=
  match f_type f with Some t => seqb t (lit "gnome.spill.substance.GnomeOil"%string) && negb (valid f) | None => false end.
Definition restored (valid : file -> bool) (f : file) : file :=
  if lost valid f then File (Some (lit "gnome.spill.substance.NonWeatheringSubstance"%string)) (f_inits f) None None None None dummy_id dummy_rest
  else f.
Definition all_restored (valid : file -> bool) (fs : list (str * file)) : list (str * file) :=
  map (fun nf => (fst nf, restored valid (snd nf))) fs.

(** Version 0: the substance of an element type, and the name of its file. *)
Definition substance_name (e : file) : str :=
  match f_subst e with Some s => s | None => lit "NonWeatheringSubstance_99"%string end ++ lit ".json"%string.
Definition made_from (e s : file) : Prop :=
  f_inits s = Some (match f_inits e with Some l => l | None => [] end) /\
  f_type s = Some (match f_subst e with Some _ => lit "gnome.spills.substance.GnomeOil"%string | None => lit "gnome.spill.substance.NonWeatheringSubstance"%string end).
