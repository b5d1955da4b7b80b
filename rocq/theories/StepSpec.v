(** * Specification vocabulary for the time stepping *)
From Verif Require Import Py QLemmas TimeModel StepModel.
Open Scope Z_scope.

(** ** Runs *)

(** The model is at the beginning of a run. *)
Definition at_start (m : model) : Prop := m_cur m = -1 /\ m_time m = m_start m.

(** The model after rewind(). *)
Definition rewound (m : model) : model :=
  mkModel (m_start m) (m_dur m) (m_ts m) (m_nts m) (-1) (m_start m) (m_back m) (m_unc m) (m_sub m).

(** The time step and the number of steps that a run will use: those that are
    set, or the defaults. *)
Definition eff_ts (cf : config) (m : model) : Z :=
  match m_ts m with Some t => t | None => default_ts cf end.
Definition eff_nts (cf : config) (m : model) : Z :=
  match m_ts m with
  | Some _ => match m_nts m with Some n => n | None => 0 end
  | None => 1 + m_dur m / default_ts cf end.

(** What the call number [k] (from 0) of step() gives in a run of [n] steps of
    length [ts] that begins at [start]. *)
Definition expected (start ts n k : Z) : res (Z * Z) :=
  if k <? n then Ok (k, start + k * ts) else Raise StopIter.

(** No component fails, and the sub-steps of the weathering exist: nothing is
    weathered, or the run is backward, or a sub-step is at least a second. *)
Definition clean (F : oracle) (cf : config) (m : model) (ts : Z) : Prop :=
  (forall e, F e = None) /\ c_valid cf = true /\
  (c_weatherers cf = O \/ ts < 0 \/ 1 <= m_sub m <= Z.quot ts sec_us).

(** The release windows, movements and outputs in a log. *)
Fixpoint releases (l : list ev) : list (Z * Z) :=
  match l with
  | ERelease a b :: r => (a, b) :: releases r
  | _ :: r => releases r
  | [] => []
  end.
Fixpoint moves (l : list ev) : list (Z * Z) :=
  match l with
  | EMove t ts :: r => (t, ts) :: moves r
  | _ :: r => moves r
  | [] => []
  end.
Fixpoint outputs (l : list ev) : list (Z * Z * bool) :=
  match l with
  | EOutput k t b :: r => (k, t, b) :: outputs r
  | _ :: r => outputs r
  | [] => []
  end.
Fixpoint posts (l : list ev) : nat :=
  match l with
  | EPost :: r => S (posts r)
  | _ :: r => posts r
  | [] => O
  end.

(** The windows [(a1,b1); (a2,b2); ...] lead from [a] to [b] without gap or
    overlap, forwards or backwards. *)
Fixpoint chain (a : Z) (l : list (Z * Z)) (b : Z) : Prop :=
  match l with
  | [] => a = b
  | (x, y) :: r => x = a /\ chain y r b
  end.

(** The windows of the steps after the first. *)
Fixpoint windows (start ts : Z) (k : Z) (c : nat) : list (Z * Z) :=
  match c with
  | O => []
  | S c => (start + k * ts, start + k * ts + half_td ts)
           :: (start + (k + 1) * ts - half_td ts, start + (k + 1) * ts) :: windows start ts (k + 1) c
  end.

(** ** Number of steps *)

(** [n] steps, the first at 0, cover the duration: the last is at the largest
    multiple of the step that does not exceed the duration in magnitude. *)
Definition covers (dur ts n : Z) : Prop :=
  1 <= n /\ (n - 1) * Z.abs ts <= Z.abs dur < n * Z.abs ts.

(** Signs agree with the direction of the run. *)
Definition signs_ok (m : model) : Prop :=
  exists ts, m_ts m = Some ts /\
    if m_back m then ts < 0 /\ m_dur m <= 0 else 0 < ts /\ 0 <= m_dur m.

(** The user gives time steps and durations with the sign of the direction. *)
Definition sign_respecting (m : model) (o : op) : Prop :=
  match o with
  | OTimeStep ts => if m_back m then ts < 0 else 0 < ts
  | ODuration d => if m_back m then d <= 0 else 0 <= d
  | _ => True
  end.
Fixpoint respecting (m : model) (os : list op) : Prop :=
  match os with
  | [] => True
  | o :: r => sign_respecting m o /\ respecting (after_op m o) r
  end.

(** ** Sub-steps *)

(** The sub-steps [(start, seconds)] are not empty, follow each other without
    gap from [a] and end at [b]. *)
Fixpoint tiles (a : Z) (l : list (Z * Z)) (b : Z) : Prop :=
  match l with
  | [] => a = b
  | (t, d) :: r => t = a /\ 0 < d /\ tiles (a + d * sec_us) r b
  end.

(** Every weatherer, in turn, over all the sub-steps. *)
Definition weathering (n : nat) (ss : list (Z * Z)) : list ev :=
  flat_map (fun w => map (fun x => EWeather w (fst x) (snd x)) ss) (seq 0 n).

(** ** Changes *)

(** Operations after which old results no longer hold. *)
Definition invalidates (m : model) (o : op) : Prop :=
  match o with
  | OStart _ | OMap | ORewind => True
  | OTimeStep ts => ts <> 0
  | ODuration d => d < m_dur m
  | OUncertain b => b <> m_unc m
  | OBackwards b => b <> m_back m
  | OAdd c | OReplace c => c <> Outputters
  | ORemove c => c = Movers
  | OSpills | OStep _ _ => False
  end.

(** The model time is the time of the current step. *)
Definition time_ok (m : model) : Prop :=
  at_start m \/
  (0 <= m_cur m /\ exists ts, m_ts m = Some ts /\ m_time m = m_start m + m_cur m * ts).

Definition no_zero_step (o : op) : Prop := match o with OTimeStep ts => ts <> 0 | _ => True end.

(** The model a user expects from Model(start_time, duration, time_step, ...). *)
Definition built (start dur ts : Z) (back unc : bool) (sub : Z) : model :=
  mkModel start dur (Some ts) (Some (1 + dur / ts)) (-1) start back unc sub.

(** The number of steps is the one of the duration and the time step. *)
Definition counted (m : model) : Prop :=
  forall ts, m_ts m = Some ts -> ts <> 0 /\ m_nts m = Some (1 + m_dur m / ts).

Definition keeps_direction (o : op) : Prop := match o with OBackwards _ => False | _ => True end.

(** The result of a call, mirrored at the start time. *)
Definition mirror (start : Z) (r : res (Z * Z)) : res (Z * Z) :=
  match r with Ok (k, t) => Ok (k, start - (t - start)) | Raise e => Raise e end.
