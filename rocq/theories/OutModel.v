(** * When outputters write

    Models the schedule of gnome/outputters/outputter.py and the calls the model
    makes (model.py:933-939, 978-979, 1134-1144).  Subclasses write the step if
    on and _write_step is set after the base class's write_output (e.g.
    oil_budget.py:113-118).  Times are microseconds, time steps whole seconds.
    Warnings, files, the cache and the surface concentration are left out. *)
From Verif Require Import Py TimeModel.
Open Scope Z_scope.

(** Attributes a user sets, outputter.py:67-131. *)
Record cfg := mkCfg {
  c_on : bool;
  c_ts : option Z;            (* _output_timestep, seconds *)
  c_zero : bool;              (* output_zero_step *)
  c_last : bool;              (* output_last_step *)
  c_single : bool;            (* output_single_step *)
  c_start : option Z }.       (* output_start_time *)

(** outputter.py:167-181 (output_timestep setter); [v] microseconds. *)
Definition set_output_timestep (c : cfg) (v : option Z) : res cfg :=
  match v with
  | None => Ok (mkCfg (c_on c) None (c_zero c) (c_last c) (c_single c) (c_start c))
  | Some t =>
      if t <=? 0 then Raise ValueErr
      else Ok (mkCfg (c_on c) (Some (t / sec_us)) (c_zero c) (c_last c) (c_single c) (c_start c))
  end.

(** Attributes that change during a run. *)
Record ost := mkOst {
  o_mstart : option Z;        (* _model_start_time *)
  o_dt : option Z;            (* _dt_since_lastoutput, seconds *)
  o_write : bool;             (* _write_step *)
  o_first : bool;             (* _is_first_output *)
  o_single0 : bool }.         (* _single_output_at_start *)

Definition set_write (s : ost) (b : bool) := mkOst (o_mstart s) (o_dt s) b (o_first s) (o_single0 s).
Definition set_first (s : ost) (b : bool) := mkOst (o_mstart s) (o_dt s) (o_write s) b (o_single0 s).
Definition set_dt (s : ost) (d : option Z) := mkOst (o_mstart s) d (o_write s) (o_first s) (o_single0 s).

(** outputter.py:403-416 (rewind). *)
Definition o_rewind (s : ost) : ost := mkOst None None true true (o_single0 s).

Definition eq_opt (a : option Z) (b : Z) : bool := match a with Some x => x =? b | None => false end.

(** outputter.py:183-266 (prepare_for_model_run). *)
Definition o_prepare_run (c : cfg) (mstart : Z) (s : ost) : ost :=
  mkOst (Some mstart) (Some 0)
        (match c_ts c with None => true | Some _ => o_write s end)
        (o_first s)
        (c_single c && (eq_opt (c_start c) mstart || match c_start c with None => true | Some _ => false end)).

(** outputter.py:312-325: the part after the start time. *)
Definition o_schedule (c : cfg) (ts : Z) (s : ost) : res ost :=
  if c_single c then Ok (set_write s false)
  else match c_ts c with
  | None => Ok s
  | Some T =>
      match o_dt s with
      | None => Raise TypeErr                            (* None += int *)
      | Some d =>
          let d := d + ts in
          if Z.abs T <=? Z.abs d then
            if T =? 0 then Raise ZeroDivErr
            else Ok (set_dt (set_write s true) (Some (d mod T)))
          else Ok (set_dt (set_write s false) (Some d))
      end
  end.

(** outputter.py:268-325 (prepare_for_model_step). *)
Definition o_prepare_step (c : cfg) (ts mt : Z) (s : ost) : res ost :=
  if negb (c_on c) then Ok s
  else match c_start c with
  | None => o_schedule c ts s
  | Some st =>
      if eq_opt (o_mstart s) st then o_schedule c ts s
      else
        let t := mt + ts * sec_us in
        if t <? st then Ok (set_write s false)
        else if t =? st then Ok (set_first (set_write s true) false)
        else if ((st <? t) && (0 <? ts)) || ((t <? st) && (ts <? 0)) then
          if o_first s then Ok (set_first (set_write s true) false) else o_schedule c ts s
        else o_schedule c ts s
  end.

(** outputter.py:342-362 (write_output): the flag afterwards. *)
Definition o_write_output (c : cfg) (k : Z) (islast : bool) (s : ost) : ost :=
  let s := if k =? 0 then set_write s (c_zero c || o_single0 s) else s in
  if islast && c_last c then set_write s true else s.

(** The steps [k], [k+1], ... up to the last, n - 1: model.py:1190-1215, 978-979,
    1134-1144.  Returns the numbers of the steps written. *)
Fixpoint steps (c : cfg) (ts mstart n : Z) (fuel : nat) (k : Z) (s : ost) : res (list Z) :=
  match fuel with
  | O => Ok []
  | S fuel =>
      do s1 <- o_prepare_step c ts (mstart + (k - 1) * ts * sec_us) s;
      let s2 := o_write_output c k (k =? n - 1) s1 in
      do r <- steps c ts mstart n fuel (k + 1) s2;
      Ok (if c_on c && o_write s2 then k :: r else r)
  end.

(** A run of [n] steps from whatever state earlier use left: rewind
    (model.py:418), prepare, step 0 (model.py:1165-1187), the other steps. *)
Definition live_run (c : cfg) (s0 : ost) (mstart ts : Z) (n : nat) : res (list Z) :=
  match n with
  | O => Ok []
  | S m =>
      let s := o_write_output c 0 (0 =? Z.of_nat n - 1) (o_prepare_run c mstart (o_rewind s0)) in
      do r <- steps c ts mstart (Z.of_nat n) m 1 s;
      Ok (if c_on c && o_write s then 0 :: r else r)
  end.

(** ** Writing after the run *)

(** timedelta.seconds of a difference in microseconds. *)
Definition td_seconds (us : Z) : Z := (us mod (86400 * sec_us)) / sec_us.

(** outputter.py:467-483, the loop; [stamp k] is the time stamp of cached step [k]. *)
Fixpoint post_steps (c : cfg) (stamp : Z -> Z) (n : Z) (fuel : nat) (k mt : Z) (s : ost) : res (list Z) :=
  match fuel with
  | O => Ok []
  | S fuel =>
      do s1 <- (if (0 <? k) && (k <? n - 1) then o_prepare_step c (td_seconds (stamp k - mt)) mt s else Ok s);
      let s2 := o_write_output c k (k =? n - 1) s1 in
      do r <- post_steps c stamp n fuel (k + 1) (stamp k) s2;
      Ok (if c_on c && o_write s2 then k :: r else r)
  end.

(** outputter.py:421-483 (write_output_post_run), on a rewound outputter. *)
Definition post_run (c : cfg) (s0 : ost) (mstart : Z) (stamp : Z -> Z) (n : nat) : res (list Z) :=
  post_steps c stamp (Z.of_nat n) n 0 mstart (o_prepare_run c mstart (o_rewind s0)).
