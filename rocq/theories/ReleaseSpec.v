(** * Specification vocabulary for releases *)
From Verif Require Import Py QLemmas TimeModel ReleaseModel.
Open Scope Z_scope.

(** [k] steps of length [ts] are the least number, at least one, that reaches
    the length [d]. *)
Definition steps_for (d ts k : Z) : Prop :=
  1 <= k /\ (d = 0 /\ k = 1 \/ 0 < d /\ (k - 1) * ts < d <= k * ts).

(** The number of elements that a release is asked for, with a run of time step
    [ts]: num_elements, or num_per_timestep for every step that it lasts. *)
Definition intended (r : release) (ts n : Z) : Prop :=
  match r_per r with
  | Some p => exists k, steps_for (duration r) ts k /\ n = p * k
  | None => r_num r = Some n
  end.

(** The constructor's guarantees. *)
Definition wf (r : release) : Prop :=
  r_time r <= end_time r /\ length (end_pos r) = length (r_start_pos r) /\
  match r_num r, r_per r with
  | Some n, None => 0 <= n
  | None, Some _ => True
  | _, _ => False
  end.

(** The last time at which a spill that was on was asked to release. *)
Fixpoint latest (calls : list (bool * Z * Z)) : option Z :=
  match calls with
  | [] => None
  | (on, _, t) :: r =>
      match latest r with
      | None => if on then Some t else None
      | Some t' => if on then Some (Z.max t t') else Some t'
      end
  end.

Definition masses (l : list elem) : Q := fold_right Qplus 0%Q (map e_init l).

(** A point of the segment from [a] to [b]. *)
Definition on_segment (a b x : list Q) : Prop :=
  exists f, (0 <= f <= 1)%Q /\
    Forall2 (fun ab c => c == fst ab + f * (snd ab - fst ab))%Q (combine a b) x.

(** What a run does to a release. *)
Inductive rop := RPrepare (ts : Z) | RBulk (vols : list Q) (t1 : Z) | RRewind.
Definition do_rop (r : release) (o : rop) : release :=
  match o with
  | RPrepare ts => match prepare r ts with Ok r' => r' | Raise _ => r end
  | RBulk vols t1 => fst (bulk_volume r vols t1)
  | RRewind => rewind_release r
  end.

(** The volume released at the times up to twelve hours after the start. *)
Definition early_volume (r : release) (calls : list (list Q * Z)) : Q :=
  fold_right (fun c acc => if (snd c <=? r_time r + 12 * 3600 * 1000000)%Z
                           then fold_right Qplus 0 (fst c) + acc else acc)%Q 0%Q calls.
