(** * Releases and spills

    Models gnome/spills/release.py (Release, PointLineRelease),
    gnome/environment/timeseries_objects_base.py (TimeseriesData.at,
    TimeseriesVector.at) and the release part of gnome/spills/spill.py.

    Times are microseconds (see TimeModel), floats are rationals without
    rounding.  The time axis comes from the library gridded, which is not part
    of /repo: its constructor refuses times that do not ascend, index_of is
    numpy's searchsorted and interp_alpha the fraction of the interval that has
    passed. *)
From Verif Require Import Py QLemmas TimeModel.
Open Scope Z_scope.

Definition Qceil (q : Q) : Z := - Qfloor (- q).

(** ** Time series *)

(** gridded.time.Time(data=...): strictly ascending or ValueError. *)
Fixpoint ascending (l : list Z) : bool :=
  match l with
  | a :: r => match r with b :: _ => (a <? b) && ascending r | [] => true end
  | [] => true
  end.
Definition mk_time (l : list Z) : res (list Z) :=
  if ascending l then Ok l else Raise ValueErr.

(** numpy.searchsorted(data, t), side 'left', on ascending data. *)
Fixpoint index_of (l : list Z) (t : Z) : nat :=
  match l with
  | [] => O
  | a :: r => if a <? t then S (index_of r t) else O
  end.

(** timeseries_objects_base.py:75-93, 118-135: a series of numbers; data and
    times must have the same length. *)
Definition series := (list Z * list Q)%type.
Definition mk_series (t : list Z) (d : list Q) : res series :=
  if (length t =? length d)%nat then Ok (t, d) else Raise ValueErr.

(** timeseries_objects_base.py:137-186 (TimeseriesData.at), with extrapolate
    true (its default, 44-48) and no points, so that the number is returned. *)
Definition at_time (s : series) (t : Z) : res Q :=
  let '(ts, ds) := s in
  match ts with
  | [_] => py_get ds 0
  | _ =>
      do tmax <- py_get ts (-1);
      do tmin <- py_get ts 0;
      if t <=? tmin then py_get ds 0
      else if tmax <? t then py_get ds (-1)
      else
        let i := Z.of_nat (index_of ts t) in
        do t0 <- py_get ts (i - 1);
        do t1 <- py_get ts i;
        do d0 <- py_get ds (Z.max (i - 1) 0);
        do d1 <- py_get ds i;
        Ok (d0 + (d1 - d0) * (inject_Z (t - t0) / inject_Z (t1 - t0)))%Q
  end.

(** numpy.linspace(a, b, n). *)
Definition linspace (a b : Q) (n : nat) : list Q :=
  match n with
  | O => []
  | S O => [a]
  | _ => map (fun k => a + inject_Z k * ((b - a) / inject_Z (Z.of_nat n - 1)))%Q (zseq 0 n)
  end.

(** ** Releases *)

(** What prepare_for_model_run leaves: the table of the numbers of elements,
    the mass of an element, the table of positions (three coordinates). *)
Record prepared := mkPrep {
  p_table : series;
  p_mass : Q;
  p_pos : list series }.

Record release := mkRel {
  r_line : bool;                 (* a PointLineRelease *)
  r_time : Z;                    (* release_time *)
  r_end : option Z;              (* _end_release_time *)
  r_num : option Z;              (* _num_elements *)
  r_per : option Z;              (* _num_per_timestep *)
  r_mass : Q;                    (* _release_mass *)
  r_start_pos : list Q;          (* _start_position *)
  r_end_pos : option (list Q);   (* _end_position *)
  r_prev : Q;                    (* _previously_released *)
  r_prep : option prepared }.    (* _prepared, _release_ts, _mass_per_le, _pos_ts *)

(** release.py:325-330 (end_release_time) and 315-323 (release_duration). *)
Definition end_time (r : release) : Z := match r_end r with None => r_time r | Some e => e end.
Definition duration (r : release) : Z := end_time r - r_time r.

(** release.py:298-313 (num_elements setter): new values of _num_elements and
    _num_per_timestep. *)
Definition set_num (val per : option Z) : res (option Z * option Z) :=
  match val with
  | None => Ok (None, match per with None => Some 1 | p => p end)
  | Some v => if v <? 0 then Raise ValueErr else Ok (Some v, None)
  end.

(** release.py:332-348 (end_release_time setter). *)
Definition check_end (rt : Z) (e : option Z) : res (option Z) :=
  match e with
  | Some v => if v <? rt then Raise ValueErr else Ok e
  | None => Ok e
  end.

(** release.py:267-271 (release_mass setter). *)
Definition clip_mass (m : Q) : Q := if Qle_bool 0 m then m else 0.

(** release.py:137-213 (Release.__init__), release time given. *)
Definition new_release (line : bool) (rt : Z) (num per e : _) (mass : Q) (sp : list Q) (ep : option (list Q)) : res release :=
  let num := match num, per with None, None => Some 1000 | _, _ => num end in
  match num, per with
  | Some _, Some _ => Raise TypeErr
  | _, _ =>
      do (n, p) <- set_num num per;
      do e <- check_end rt e;
      Ok (mkRel line rt e n p (clip_mass mass) sp ep 0 None)
  end.

(** release.py:528-579 (PointLineRelease.__init__): num_per_timestep is not
    handed to the base class. *)
Definition new_pointline (rt : Z) (num per e : option Z) (mass : Q) (sp : list Q) (ep : option (list Q)) : res release :=
  new_release true rt num None e mass sp ep.

(** release.py:366-373. *)
Definition ceil_div (a b : Z) : Z := - ((- a) / b).
Definition num_steps (r : release) (ts : Z) : res Z :=
  if ts =? 0 then Raise ZeroDivErr
  else let n := ceil_div (duration r) ts in Ok (if n =? 0 then 1 else n).

(** release.py:350-356 (element_timestep_ratio). *)
Definition ratio (r : release) (ts : Z) : res Q :=
  match r_num r, r_per r with
  | None, Some p => Ok (inject_Z p)
  | None, None => Raise TypeErr
  | Some n, _ => do k <- num_steps r ts; Ok (inject_Z n / inject_Z k)%Q
  end.

(** release.py:375-402 (generate_release_timeseries): times and numbers. *)
Definition table (r : release) (n max ts : Z) : res series :=
  do t <- (if n =? 1 then
             mk_time (if duration r =? 0 then [r_time r; end_time r + sec_us] else [r_time r; end_time r])
           else
             do l <- mk_time (map (fun k => r_time r + ts * k) (zseq 0 (Z.to_nat (n + 1))));
             py_set l (-1) (end_time r));
  mk_series t
    (if duration r =? 0 then map (fun _ => inject_Z max) t
     else map (fun q => inject_Z (Qfloor q)) (linspace 0 (inject_Z max) (Z.to_nat (n + 1)))).

(** release.py:648-668 (PointLineRelease.generate_release_timeseries). *)
Definition end_pos (r : release) : list Q := match r_end_pos r with None => r_start_pos r | Some p => p end.
Definition pos_table (r : release) (n : Z) (t : list Z) : res (list series) :=
  if r_line r then
    mapM (fun '(a, b) => mk_series t (linspace a b (Z.to_nat (n + 1))))
         (combine (r_start_pos r) (end_pos r))
  else Ok [].

(** release.py:250-255 (Release.rewind) and 670-674 (PointLineRelease.rewind),
    which leaves [_previously_released] as it is. *)
Definition rewind_release (r : release) : release :=
  mkRel (r_line r) (r_time r) (r_end r) (r_num r) (r_per r) (r_mass r) (r_start_pos r) (r_end_pos r)
    (if r_line r then r_prev r else 0) None.

(** release.py:417-443 and 676-678 (prepare_for_model_run). *)
Definition prepare (r : release) (ts : Z) : res release :=
  let r := match r_prep r with Some _ => rewind_release r | None => r end in
  if (ts <? sec_us) && negb (end_time r =? r_time r) then Raise ValueErr else
  do q <- ratio r ts;
  if negb (Qle_bool 1 q) then Raise ValueErr else
  do n <- num_steps r ts;
  do max <- match r_per r, r_num r with
            | Some p, _ => Ok (p * n)
            | None, Some k => Ok k
            | None, None => Raise TypeErr
            end;
  do tb <- table r n max ts;
  do pt <- pos_table r n (fst tb);
  if max =? 0 then Raise ZeroDivErr else
  Ok (mkRel (r_line r) (r_time r) (r_end r) (r_num r) (r_per r) (r_mass r) (r_start_pos r) (r_end_pos r) (r_prev r)
        (Some (mkPrep tb (r_mass r / inject_Z max)%Q pt))).

(** release.py:404-415 (num_elements_after_time). *)
Definition after_time (r : release) (t : Z) : res Z :=
  match r_prep r with
  | None => Ok 0
  | Some p =>
      if t <? r_time r then Ok 0
      else do q <- at_time (p_table p) t; Ok (Qceil q)
  end.

(** ** Positions and masses of new elements *)

Record elem := mkElem { e_pos : list Q; e_mass : Q; e_init : Q }.

(** numpy.transpose of three coordinate lists of the same length. *)
Fixpoint rows (n : nat) (cols : list (list Q)) : list (list Q) :=
  match n with
  | O => []
  | S n => map (fun c => hd 0%Q c) cols :: rows n (map (@tl Q) cols)
  end.

(** release.py:680-715 (PointLineRelease.initialize_elements). *)
Definition init_pointline (r : release) (n : Z) (t0 t1 : Z) : res (list elem) :=
  match r_prep r with
  | None => Raise AttrErr
  | Some p =>
      let '(t0, t1) :=
        if (duration r =? 0) && negb (t0 =? t1) && (r_time r <=? t1) && (t0 <=? r_time r)
        then (r_time r, r_time r) else (t0, t1) in
      let t1 := if t0 =? t1 then t1 + sec_us else t1 in
      do a <- mapM (fun s => at_time s t0) (p_pos p);
      do b <- mapM (fun s => at_time s t1) (p_pos p);
      let cols := map (fun '(x, y) => linspace x y (Z.to_nat n)) (combine a b) in
      Ok (map (fun x => mkElem x (p_mass p) (p_mass p)) (rows (Z.to_nat n) cols))
  end.

(** release.py:445-472 (Release.initialize_elements) for the given positions;
    [rand] is what numpy.random.randint returns: [n mod len] indices. *)
Definition init_custom (mass : Q) (pos : list (list Q)) (rand : list nat) (n : Z) : res (list elem) :=
  match pos with
  | [] => Raise ValueErr
  | _ =>
      let k := Z.of_nat (length pos) in
      let whole := concat (repeat pos (Z.to_nat (n / k))) in
      do extra <- mapM (fun i => py_get pos (Z.of_nat i)) (firstn (Z.to_nat (n mod k)) rand);
      let all := whole ++ extra in
      if (length all =? Z.to_nat n)%nat
      then Ok (map (fun x => mkElem x mass mass) all) else Raise RuntimeErr
  end.

(** ** Spills *)

(** spill.py: on, release, _num_released. *)
Record spill := mkSpill { s_on : bool; s_rel : release; s_count : Z }.

(** spill.py:431-464 (release_elements): the new count, the elements appended,
    the number returned.  Other data of the elements are in SpillContModel. *)
Definition release_step (s : spill) (t0 t1 : Z) : res (spill * list elem) :=
  if negb (s_on s) then Ok (s, [])
  else
    do e <- after_time (s_rel s) t1;
    let n := e - s_count s in
    if n <=? 0 then Ok (s, [])
    else do new <- init_pointline (s_rel s) n t0 t1;
         Ok (mkSpill (s_on s) (s_rel s) (s_count s + n), new).

(** Several calls; a spill may be switched on or off in between. *)
Fixpoint release_calls (s : spill) (calls : list (bool * Z * Z)) : res (spill * list elem) :=
  match calls with
  | [] => Ok (s, [])
  | (on, t0, t1) :: r =>
      do (s1, l1) <- release_step (mkSpill on (s_rel s) (s_count s)) t0 t1;
      do (s2, l2) <- release_calls s1 r;
      Ok (s2, l1 ++ l2)
  end.

(** spill.py:415-429 (rewind and prepare_for_model_run). *)
Definition spill_rewind (s : spill) : spill := mkSpill (s_on s) (rewind_release (s_rel s)) 0.
Definition spill_prepare (s : spill) (ts : Z) : res spill :=
  do r <- prepare (s_rel s) ts; Ok (mkSpill (s_on s) r (s_count s)).

(** release.py:486-492, 502-514: the volume that has been released within the
    first twelve hours, which every new element of a continuous release gets
    as bulk_init_volume. *)
Definition twelve_hours : Z := 12 * 3600 * sec_us.
Definition bulk_volume (r : release) (vols : list Q) (t1 : Z) : release * Q :=
  let v := fold_right Qplus 0%Q vols in
  let prev := if t1 <=? r_time r + twelve_hours then (r_prev r + v)%Q else r_prev r in
  (mkRel (r_line r) (r_time r) (r_end r) (r_num r) (r_per r) (r_mass r) (r_start_pos r) (r_end_pos r) prev (r_prep r),
   if 0 <? duration r then prev else v).
