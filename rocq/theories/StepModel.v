(** * The time stepping of the model

    Models gnome/model.py: the constructor's time attributes, their setters,
    rewind, step, full_run, the iterator protocol, the sub-steps of the
    weathering and the callbacks of the collections.

    What the components do inside a step is not modelled here.  A call into
    them is an event; an oracle says, for each event, whether the call raises,
    so that every crash point can be quantified over.  Times and durations are
    in microseconds (see TimeModel); Python computes with floats that hold
    whole seconds exactly. *)
From Verif Require Import Py QLemmas TimeModel.
Open Scope Z_scope.

Inductive coll := Movers | Weatherers | Environment | Outputters.

(** Calls into the components, in the order they are made. *)
Inductive ev :=
| ERewind                       (* spills, cache and outputters rewound: 413-419 *)
| ESetupRun                     (* setup_model_run: 797-941 *)
| ECheck                        (* check_inputs: 1640-1819 *)
| ERelease (a b : Z)            (* release_elements(a, b): 1237-1271 *)
| ESetupStep (now ts : Z)       (* setup_time_step: 960-979 *)
| EMove (now ts : Z)            (* move_elements: 981-1013 *)
| EWeather (w : nat) (now ts : Z)  (* weatherer w's weather_elements: 1074 *)
| EStepDone                     (* step_is_done: 1106-1138 *)
| EOutput (k now : Z) (last : bool) (* output_step: 1228-1235, 1140-1157 *)
| EPost.                        (* post_model_run: 943-958 *)

(** The attributes of Model that stepping uses; [None] is Python's None. *)
Record model := mkModel {
  m_start : Z;            (* _start_time *)
  m_dur : Z;              (* _duration *)
  m_ts : option Z;        (* _time_step *)
  m_nts : option Z;       (* _num_time_steps *)
  m_cur : Z;              (* _current_time_step *)
  m_time : Z;             (* model_time *)
  m_back : bool;          (* _run_backwards *)
  m_unc : bool;           (* uncertain *)
  m_sub : Z }.            (* weathering_substeps *)

(** State, log of events, exceptions. *)
Definition M (A : Type) := model -> (model * list ev) * res A.
Definition ret {A} (a : A) : M A := fun m => ((m, []), Ok a).
Definition fail {A} (e : exc) : M A := fun m => ((m, []), Raise e).
Definition bindM {A B} (x : M A) (f : A -> M B) : M B := fun m =>
  let '((m1, l1), r) := x m in
  match r with
  | Ok a => let '((m2, l2), r2) := f a m1 in ((m2, l1 ++ l2), r2)
  | Raise e => ((m1, l1), Raise e)
  end.
Notation "'let*' x := e 'in' f" := (bindM e (fun x => f))
  (at level 100, x pattern, e at level 99, f at level 100, right associativity).
Notation "e ;;; f" := (bindM e (fun _ => f)) (at level 100, right associativity).
Definition get : M model := fun m => ((m, []), Ok m).
Definition modify (f : model -> model) : M unit := fun m => ((f m, []), Ok tt).

(** [try: x except Exception: h; raise] *)
Definition on_error {A} (x : M A) (h : M unit) : M A := fun m =>
  let '((m1, l1), r) := x m in
  match r with
  | Ok a => ((m1, l1), Ok a)
  | Raise e =>
      let '((m2, l2), r2) := h m1 in
      ((m2, l1 ++ l2), match r2 with Ok _ => Raise e | Raise e' => Raise e' end)
  end.

(** A call into the components. *)
Definition oracle := ev -> option exc.
Definition call (F : oracle) (e : ev) : M unit := fun m =>
  ((m, [e]), match F e with Some x => Raise x | None => Ok tt end).

(** What the collections look like to the stepping: number of weatherers that
    are called, whether a mover is on, whether a weatherer is on, how many
    weatherers setup adds, whether check_inputs finds the model valid. *)
Record config := mkConfig {
  c_weatherers : nat; c_transport : bool; c_weathering : bool; c_adds : nat; c_valid : bool }.

Section with_oracle.
Variable F : oracle.

(** model.py:398-419. *)
Definition rewind : M unit :=
  modify (fun m => mkModel (m_start m) (m_dur m) (m_ts m) (m_nts m) (-1) (m_start m)
                     (m_back m) (m_unc m) (m_sub m)) ;;;
  call F ERewind.

(** model.py:660-671.  Division by a zero step raises. *)
Definition nts_of (dur ts : Z) : Z := 1 + dur / ts.
Definition reset_nts : M unit :=
  let* m := get in
  match m_ts m with
  | Some ts =>
      if ts =? 0 then fail ZeroDivErr
      else modify (fun m => mkModel (m_start m) (m_dur m) (m_ts m) (Some (nts_of (m_dur m) ts))
                              (m_cur m) (m_time m) (m_back m) (m_unc m) (m_sub m))
  | None => modify (fun m => mkModel (m_start m) (m_dur m) (m_ts m) None
                              (m_cur m) (m_time m) (m_back m) (m_unc m) (m_sub m))
  end.

(** model.py:581-584. *)
Definition set_start (t : Z) : M unit :=
  modify (fun m => mkModel t (m_dur m) (m_ts m) (m_nts m) (m_cur m) (m_time m)
                     (m_back m) (m_unc m) (m_sub m)) ;;;
  rewind.

Definition put_ts (ts : option Z) : M unit :=
  modify (fun m => mkModel (m_start m) (m_dur m) ts (m_nts m) (m_cur m) (m_time m)
                     (m_back m) (m_unc m) (m_sub m)).
Definition put_dur (d : Z) : M unit :=
  modify (fun m => mkModel (m_start m) d (m_ts m) (m_nts m) (m_cur m) (m_time m)
                     (m_back m) (m_unc m) (m_sub m)).
Definition put_back (b : bool) : M unit :=
  modify (fun m => mkModel (m_start m) (m_dur m) (m_ts m) (m_nts m) (m_cur m) (m_time m)
                     b (m_unc m) (m_sub m)).

(** model.py:593-607 (time_step setter). *)
Definition set_ts (ts : Z) : M unit := put_ts (Some ts) ;;; reset_nts ;;; rewind.

(** model.py:629-637 (duration setter). *)
Definition set_dur (d : Z) : M unit :=
  let* m := get in
  (if d <? m_dur m then rewind else ret tt) ;;; put_dur d ;;; reset_nts.

(** The sign changes of model.py:319-324 and 535-540; [set_ts] only for a
    positive step. *)
Definition go_backward : M unit :=
  let* m := get in
  (if 0 <? m_dur m then put_dur (- m_dur m) else ret tt) ;;;
  match m_ts m with
  | Some ts => if 0 <? ts then set_ts (- ts) else ret tt
  | None => ret tt
  end.
(** model.py:542-545. *)
Definition go_forward : M unit :=
  let* m := get in
  (if m_dur m <? 0 then put_dur (Z.abs (m_dur m)) else ret tt) ;;;
  match m_ts m with
  | Some ts => if ts <? 0 then set_ts (Z.abs ts) else ret tt
  | None => ret tt
  end.

(** model.py:528-546 (run_backwards setter). *)
Definition set_back (b : bool) : M unit :=
  let* m := get in
  if Bool.eqb (m_back m) b then ret tt
  else put_back b ;;; (if b then go_backward else go_forward) ;;; rewind.

(** model.py:508-515 (uncertain setter). *)
Definition set_unc (b : bool) : M unit :=
  let* m := get in
  if Bool.eqb (m_unc m) b then ret tt
  else modify (fun m => mkModel (m_start m) (m_dur m) (m_ts m) (m_nts m) (m_cur m) (m_time m)
                          (m_back m) b (m_sub m)) ;;; rewind.

(** model.py:646-649 (map setter). *)
Definition set_map : M unit := rewind.

(** model.py:616-620 (current_time_step setter). *)
Definition set_cur (k : Z) : M unit :=
  let* m := get in
  match m_ts m with
  | Some ts => modify (fun m => mkModel (m_start m) (m_dur m) (m_ts m) (m_nts m) k
                                  (m_start m + k * ts) (m_back m) (m_unc m) (m_sub m))
  | None => fail TypeErr
  end.

(** model.py:340-355, 1377-1398 (callbacks). [_callback_add_spill] is
    registered on the movers. Nothing is registered for the spills. *)
Definition on_add (c : coll) : M unit :=
  match c with
  | Movers => rewind ;;; rewind
  | Weatherers | Environment => rewind
  | Outputters => ret tt
  end.
Definition on_replace := on_add.
Definition on_remove (c : coll) : M unit :=
  match c with Movers => rewind | _ => ret tt end.
Definition on_spill_change : M unit := ret tt.

(** ** Sub-steps *)

(** Python's range(a, b, s). *)
Definition py_range (a b s : Z) : res (list Z) :=
  if s =? 0 then Raise ValueErr
  else let n := if 0 <? s then (b - a + s - 1) / s else (a - b - s - 1) / (- s) in
       Ok (map (fun i => a + i * s) (zseq 0 (Z.to_nat n))).

(** zip(l, l[1:]) with differences: model.py:1093-1094. *)
Fixpoint gaps (l : list Z) : list (Z * Z) :=
  match l with
  | a :: r => match r with b :: _ => (a, b - a) :: gaps r | [] => [] end
  | [] => []
  end.

(** model.py:1081-1104, with the time step in microseconds; int() cuts it to
    whole seconds. *)
Definition split_substeps (ts n now : Z) : res (list (Z * Z)) :=
  let time_step := Z.quot ts sec_us in
  if n =? 0 then Raise ZeroDivErr else
  let sub := time_step / n in
  do ix <- py_range 0 (time_step + 1) sub;
  let r := gaps ix in
  match rev r with
  | [] => Raise IndexErr
  | (i, d) :: _ =>
      let r := if i + d <? time_step then r ++ [(i + d, time_step mod sub)] else r in
      Ok (map (fun '(i, d) => (now + i * sec_us, d)) r)
  end.

Definition lift {A} (r : res A) : M A := match r with Ok a => ret a | Raise e => fail e end.

Fixpoint each {A} (f : A -> M unit) (l : list A) : M unit :=
  match l with [] => ret tt | a :: r => f a ;;; each f r end.

(** model.py:1043-1077, for the one container that is not uncertain. *)
Definition weather (cf : config) : M unit :=
  let* m := get in
  match c_weatherers cf, m_ts m with
  | O, _ => ret tt
  | _, None => fail TypeErr
  | n, Some ts =>
      if ts <? 0 then ret tt
      else each (fun w => let* ss := lift (split_substeps ts (m_sub m) (m_time m)) in
                          each (fun '(t, d) => call F (EWeather w t d)) ss) (seq 0 n)
  end.

(** ** Steps *)

Fixpoint times (n : nat) (x : M unit) : M unit :=
  match n with O => ret tt | S n => x ;;; times n x end.

(** model.py:797-941: adding a weatherer goes through the callback (842-851);
    a time step that was never set gets its default (916-928). *)
Definition default_ts (cf : config) : Z :=
  (if c_transport cf then 900 else if c_weathering cf then 3600 else 900) * sec_us.
Definition setup_model_run (cf : config) : M unit :=
  times (c_adds cf) (on_add Weatherers) ;;;
  call F ESetupRun ;;;
  let* m := get in
  match m_ts m with
  | Some _ => ret tt
  | None => put_ts (Some (default_ts cf)) ;;; reset_nts
  end.

(** model.py:943-958. *)
Definition post_model_run : M unit := call F EPost.

(** model.py:1228-1235 and 1140-1157. Returns step_num and step_time. *)
Definition output_step : M (Z * Z) :=
  let* m := get in
  match m_nts m with
  | Some n => call F (EOutput (m_cur m) (m_time m) (m_cur m =? n - 1)) ;;; ret (m_cur m, m_time m)
  | None => fail TypeErr
  end.

(** model.py:1159-1226. *)
Definition step (cf : config) : M (Z * Z) :=
  let* m := get in
  if m_cur m =? -1 then
    setup_model_run cf ;;;
    call F ECheck ;;;
    (if c_valid cf then ret tt else fail RuntimeErr) ;;;
    (let* m := get in set_cur (m_cur m + 1)) ;;;
    let* m := get in
    call F (ERelease (m_time m) (m_time m)) ;;;
    output_step
  else match m_nts m, m_ts m with
  | Some n, Some ts =>
      if n - 1 <=? m_cur m then
        post_model_run ;;; fail StopIter
      else
        on_error
          (let h := half_td ts in
           call F (ERelease (m_time m) (m_time m + h)) ;;;
           call F (ESetupStep (m_time m) ts) ;;;
           call F (EMove (m_time m) ts) ;;;
           weather cf ;;;
           call F EStepDone ;;;
           set_cur (m_cur m + 1) ;;;
           let* m' := get in
           call F (ERelease (m_time m' - h) (m_time m')) ;;;
           output_step)
          post_model_run
  | _, _ => fail TypeErr
  end.

(** model.py:1296-1306 (__next__). *)
Definition next (cf : config) : M (Z * Z) := fun m =>
  let '((m1, l1), r) := step cf m in
  match r with
  | Raise StopIter =>
      let '((m2, l2), r2) := post_model_run m1 in
      ((m2, l1 ++ l2), match r2 with Ok _ => Raise StopIter | Raise e => Raise e end)
  | _ => ((m1, l1), r)
  end.

(** model.py:1310-1335 (full_run).  The loop has no bound in Python; here fuel
    exhaustion is the error [None]. *)
Fixpoint run_loop (fuel : nat) (cf : config) : model -> (model * list ev) * option (res (list (Z * Z))) :=
  fun m =>
  match fuel with
  | O => ((m, []), None)
  | S fuel =>
      let '((m1, l1), r) := step cf m in
      match r with
      | Ok o =>
          let '((m2, l2), r2) := run_loop fuel cf m1 in
          ((m2, l1 ++ l2),
           match r2 with Some (Ok os) => Some (Ok (o :: os)) | other => other end)
      | Raise StopIter =>
          let '((m2, l2), r2) := post_model_run m1 in
          ((m2, l1 ++ l2), match r2 with Ok _ => Some (Ok []) | Raise e => Some (Raise e) end)
      | Raise e => ((m1, l1), Some (Raise e))
      end
  end.
Definition full_run (fuel : nat) (cf : config) (rew : bool) : model -> (model * list ev) * option (res (list (Z * Z))) :=
  fun m =>
  if rew then
    let '((m1, l1), r) := rewind m in
    match r with
    | Ok _ => let '((m2, l2), r2) := run_loop fuel cf m1 in ((m2, l1 ++ l2), r2)
    | Raise e => ((m1, l1), Some (Raise e))
    end
  else run_loop fuel cf m.

(** ** Construction *)

(** model.py:276-324 (__init__): start_time's setter, then the duration, then
    time_step's setter, then the direction. *)
Definition blank : model := mkModel 0 0 None None (-1) 0 false false 1.
Definition construct (start dur : Z) (ts : option Z) (back unc : bool) (sub : Z) : M unit :=
  modify (fun _ => mkModel 0 0 None None (-1) 0 false unc 1) ;;;
  set_start start ;;;
  put_dur dur ;;;
  (if sub =? 1 then ret tt else if 1 <? sub then ret tt else fail ValueErr) ;;;
  modify (fun m => mkModel (m_start m) (m_dur m) None (m_nts m) (-1) (m_time m)
                     (m_back m) (m_unc m) sub) ;;;
  match ts with Some t => set_ts t | None => ret tt end ;;;
  reset_nts ;;;
  put_back back ;;;
  (if back then go_backward else ret tt).

End with_oracle.

(** The things a user can do to a model; a step comes with its configuration
    and its oracle, so that any of its component calls may fail. *)
Inductive op :=
| ORewind
| OStart (t : Z) | OTimeStep (ts : Z) | ODuration (d : Z) | OMap
| OUncertain (b : bool) | OBackwards (b : bool)
| OAdd (c : coll) | OReplace (c : coll) | ORemove (c : coll) | OSpills
| OStep (F : oracle) (cf : config).

Definition no_fault : oracle := fun _ => None.

Definition do_op (o : op) : M unit :=
  match o with
  | ORewind => rewind no_fault
  | OStart t => set_start no_fault t
  | OTimeStep ts => set_ts no_fault ts
  | ODuration d => set_dur no_fault d
  | OMap => set_map no_fault
  | OUncertain b => set_unc no_fault b
  | OBackwards b => set_back no_fault b
  | OAdd c => on_add no_fault c
  | OReplace c => on_replace no_fault c
  | ORemove c => on_remove no_fault c
  | OSpills => on_spill_change
  | OStep F cf => let* _ := step F cf in ret tt
  end.

(** A history: exceptions are reported to the user, who goes on. *)
Definition after_op (m : model) (o : op) : model := fst (fst (do_op o m)).
Definition run_ops (m : model) (os : list op) : model := fold_left after_op os m.

(** Calling step() [n] times, collecting what each call gives. *)
Fixpoint drive (F : oracle) (cf : config) (n : nat) (m : model) : model * list ev * list (res (Z * Z)) :=
  match n with
  | O => (m, [], [])
  | S n =>
      let '((m1, l1), r) := step F cf m in
      let '(m2, l2, rs) := drive F cf n m1 in
      (m2, l1 ++ l2, r :: rs)
  end.
