(** * Environment objects made from a file

    Models gnome/environment/environment.py: Environment._subclasses (35, 44), env_from_netCDF (144-250), its
    attempt_from_netCDF (163-171), ice_env_from_netCDF (253-264) and get_file_analysis (267-278).

    A class is a number.  Which classes are gridded variables, which class is one of which (issubclass), the required
    references of a class (environment_objects.py:806, 916: a dictionary of names and classes) and whether a class can be
    made from the file with a grid and references (from_netCDF returns or raises) are arbitrary.  An object is its class
    and the grid and references it was made with; objects of the list are named by their position in it, which never
    changes.  The grid of the file is arbitrary or cannot be read (ValueError).  The metaclass of line 44 is an ordinary
    attribute in Python 3, so that nothing is ever added to Environment._subclasses.  Not modelled: opening the files
    (179-197), the log, other keywords, the text of reports; the unbound name of line 276 is a RuntimeErr here. *)

From Coq Require Import ZArith List Bool Lia.
From Verif Require Import Py.
Import ListNotations.
Open Scope Z_scope.

(** The value of a keyword: an object of the list, one given by the caller, None. *)
Inductive rv := Made (k : nat) | Given (z : Z) | Nothing.

Record obj := Obj { o_cls : Z; o_grid : option Z; o_refs : list (Z * rv) }.

Record file := File {
  f_grid : option Z;                                  (* PyGrid.from_netCDF (201) *)
  f_make : Z -> option Z -> list (Z * rv) -> bool;    (* does c.from_netCDF return (166) *)
}.

Record classes := Classes {
  k_var : Z -> bool;                 (* issubclass(c, (Variable, VectorVariable)) (210) *)
  k_is : Z -> Z -> bool;             (* issubclass *)
  k_req : Z -> list (Z * Z);         (* c._req_refs.items(), empty without one (215-218) *)
}.

(** environment.py:222-224: the last object of the class stays. *)
Fixpoint link (cs : classes) (ref klass : Z) (i : nat) (env : list obj) (kw : list (Z * rv)) : list (Z * rv) :=
  match env with
  | [] => kw
  | o :: t => link cs ref klass (S i) t (if k_is cs (o_cls o) klass then dset ref (Made i) kw else kw)
  end.

(** environment.py:221-238 *)
Fixpoint refs (cs : classes) (f : file) (c : Z) (g : option Z) (req : list (Z * Z)) (kw : list (Z * rv)) (env : list obj)
  : list (Z * rv) * list obj :=
  match req with
  | [] => (kw, env)
  | (ref, klass) :: t =>
      let kw1 := link cs ref klass 0 env kw in
      if dmem ref kw1 then refs cs f c g t kw1 env
      else if f_make f c g kw1 then refs cs f c g t (dset ref (Made (length env)) kw1) (env ++ [Obj c g kw1])
      else refs cs f c g t (dset ref Nothing kw1) env
  end.

(** environment.py:210-248, one class. *)
Definition one (cs : classes) (f : file) (g : option Z) (kw : list (Z * rv)) (env : list obj) (c : Z) : list obj :=
  if k_var cs c && negb (existsb (fun o => k_is cs (o_cls o) c) env) then
    let (kw1, env1) := refs cs f c g (k_req cs c) kw env in
    if f_make f c g kw1 then env1 ++ [Obj c g kw1] else env1
  else env.

(** environment.py:35: as it stays in Python 3. *)
Definition subclasses : list Z := [].

(** environment.py:199-250.  A grid that is given is taken out of the keywords and not put back. *)
Definition env_from (cs : classes) (f : file) (cls : option (list Z)) (grid : option Z) (kw : list (Z * rv)) : res (list obj) :=
  do g <- (match grid with
           | Some _ => Ok None
           | None => match f_grid f with Some g => Ok (Some g) | None => Raise ValueErr end
           end);
  Ok (fold_left (one cs f g kw) (match cls with Some l => l | None => subclasses end) []).

(** environment.py:253-264, with the classes whose _ref_as has ice_aware. *)
Definition ice_env_from (cs : classes) (ice : Z -> bool) (f : file) (grid : option Z) (kw : list (Z * rv)) : res (list obj) :=
  env_from cs f (Some (filter ice subclasses)) grid kw.

(** environment.py:267-278: the number of objects of the report. *)
Definition file_analysis (cs : classes) (f : file) : res Z :=
  do e <- env_from cs f None None [];
  match e with [] => Raise RuntimeErr | _ :: _ => Ok (Z.of_nat (length e)) end.
