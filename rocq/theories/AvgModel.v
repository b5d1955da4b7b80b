(** * Running averages, and output kept in memory

    Models gnome/environment/running_average.py: RunningAverage.__init__ (81-119), past_hours_to_average (132-142),
    prepare_for_model_run (196-207), prepare_for_model_step (209-219) and create_running_average_timeseries (221-237);
    and gnome/outputters/memory_outputter.py: DataBuffer (12-15), MemoryOutputter.prepare_for_model_run (22-25) and
    write_output (27-87).

    The average of a wind over some hours from a time on and the test whether a time is within a series are C++ code:
    arbitrary functions here (they are modelled in TsModel).  The values of a wind are a value of an arbitrary type; they
    may change between calls, as the average holds a reference to the wind.  ReferencedObjectNotSet, NotImplementedError
    and UnboundLocalError are a RuntimeErr.  Whether a step is written is an argument (it is modelled in OutModel).  Not
    modelled: the conversions of time series, the mass balance (it is printed). *)

From Coq Require Import ZArith List Bool Lia String.
From Verif Require Import Py StrModel.
Import ListNotations.
Open Scope list_scope.
Open Scope Z_scope.

Section Average.
  Context {W S : Type}.
  (** cy_ossm_time.pyx:553-572, 525-551 *)
  Record ext := Ext { average : W -> Z -> Z -> res S; inside : S -> Z -> bool }.
  Record ra := Ra { r_hours : Z; r_wind : option W; r_series : S }.

  (** running_average.py:81-119; [zero] is the series of one zero, [ts] the values of a time series that is given. *)
  Definition new_average (e : ext) (zero : S) (wind ts : option W) (hours : Z) : res ra :=
    match wind, ts with
    | None, None => Ok (Ra hours None zero)
    | Some w, _ => do s <- average e w hours 0; Ok (Ra hours (Some w) s)
    | None, Some w => do s <- average e w hours 0; Ok (Ra hours (Some w) s)
    end.

  (** running_average.py:221-237 *)
  Definition create_average (e : ext) (t : Z) (r : ra) : res ra :=
    match r_wind r with
    | None => Raise AttrErr
    | Some w => do s <- average e w (r_hours r) t; Ok (Ra (r_hours r) (r_wind r) s)
    end.

  (** running_average.py:196-207 *)
  Definition prepare_run (e : ext) (t : Z) (r : ra) : res ra :=
    match r_wind r with None => Raise RuntimeErr | Some _ => create_average e t r end.

  (** running_average.py:209-219 *)
  Definition prepare_step (e : ext) (t : Z) (r : ra) : res ra :=
    if inside e (r_series r) t then Ok r else create_average e t r.

  Inductive op := SetHours (h : Z) | SetWind (w : W) | Run (t : Z) | Step (t : Z).

  (** running_average.py:136-142; the wind is referred to: its values are the new ones. *)
  Definition do_op (e : ext) (o : op) (r : ra) : res ra :=
    match o with
    | SetHours h => Ok (Ra h (r_wind r) (r_series r))
    | SetWind w => Ok (Ra (r_hours r) (Some w) (r_series r))
    | Run t => prepare_run e t r
    | Step t => prepare_step e t r
    end.
  (** One call after the other. *)
  Fixpoint do_ops (e : ext) (l : list op) (r : ra) : res ra :=
    match l with [] => Ok r | o :: t => do x <- do_op e o r; do_ops e t x end.
End Average.
Arguments ext : clear implicits.
Arguments ra : clear implicits.
Arguments op : clear implicits.

(** memory_outputter.py:20 *)
Definition arrays_to_output : list str := [lit "mass"%string; lit "positions"%string; lit "age"%string; lit "status_codes"%string].

Record box := Box { b_unc : bool; b_time : Z; b_arrays : list (str * Z) }.
Record entry := Entry { e_time : Z; e_data : list (str * Z) }.

(** memory_outputter.py:70-71 *)
Fixpoint fill (names : list str) (a got : list (str * Z)) : list (str * Z) * option exc :=
  match names with
  | [] => (got, None)
  | n :: t => match sget n a with None => (got, Some KeyErr) | Some v => fill t a (sset n v got) end
  end.

(** memory_outputter.py:45-71, 86-87: the buffer and the time that is told. *)
Fixpoint store (bs : list box) (buf : list entry) (told : option Z) : list entry * res Z :=
  match bs with
  | [] => (buf, match told with Some t => Ok t | None => Raise RuntimeErr end)
  | b :: r =>
      if b_unc b then (buf, Raise RuntimeErr)
      else let x := fill arrays_to_output (b_arrays b) [] in
           let buf := buf ++ [Entry (b_time b) (fst x)] in
           match snd x with Some k => (buf, Raise k) | None => store r buf (Some (b_time b)) end
  end.

(** memory_outputter.py:27-87 *)
Definition mem_write (on write : bool) (bs : list box) (buf : list entry) : list entry * res (option Z) :=
  if negb on || negb write then (buf, Ok None)
  else let x := store bs buf None in (fst x, do t <- snd x; Ok (Some t)).

(** memory_outputter.py:22-25 *)
Definition mem_prepare (buf : list entry) : list entry := [].

(** A run: the steps one after the other, up to one that fails. *)
Fixpoint mem_steps (l : list (bool * bool * list box)) (buf : list entry) : list entry * option exc :=
  match l with
  | [] => (buf, None)
  | (on, write, bs) :: t => match mem_write on write bs buf with
                            | (b1, Ok _) => mem_steps t b1
                            | (b1, Raise k) => (b1, Some k)
                            end
  end.
