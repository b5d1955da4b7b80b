(** * Manual beaching

    Models gnome/weatherers/manual_beaching.py.  Times are microseconds, those of
    the table whole seconds; amounts are rationals (floats without rounding). *)
From Verif Require Import Py QLemmas PipModel PolyModel CleanModel.
Open Scope Q_scope.

(** The active range from [be_a] ([None] is -inf) to [be_b], the times with the
    start in front, the values; [be_unit] is the mass in kg of one unit
    (manual_beaching.py:186-203). *)
Record beach := mkBeach { be_on : bool; be_a : option Z; be_b : Z; be_times : list Z; be_vals : list Q; be_unit : Q }.

(** datetime64[s] from datetime64[us]. *)
Definition floor_sec (t : Z) : Z := (1000000 * (t / 1000000))%Z.

(** manual_beaching.py:114-130 and movers/movers.py:91-104, 116-119: the start is put
    in front (1970 if there is none) and the last time ends the active range. *)
Definition set_timeseries (b : beach) (value : list (Z * Q)) : res beach :=
  let start := match be_a b with Some a => floor_sec a | None => 0%Z end in
  let times := start :: map (fun p => floor_sec (fst p)) value in
  let stop := last times start in
  match be_a b with
  | Some a => if (stop <=? a)%Z then Raise ValueErr
              else Ok (mkBeach (be_on b) (be_a b) stop times (map snd value) (be_unit b))
  | None => Ok (mkBeach (be_on b) (be_a b) stop times (map snd value) (be_unit b))
  end.

(** manual_beaching.py:178-219: rates; [None] is not finite. *)
Fixpoint rates (unit : Q) (times : list Z) (vals : list Q) : list (option Q) :=
  match times, vals with
  | t0 :: ((t1 :: _) as ts), v :: vs =>
      (if (t1 - t0 =? 0)%Z then None else Some (unit * v / sec (t1 - t0))) :: rates unit ts vs
  | _, _ => []
  end.

(** np.where(t >= times)[0][-1]. *)
Fixpoint last_le (i : nat) (t : Z) (times : list Z) : option nat :=
  match times with
  | [] => None
  | x :: r => match last_le (S i) t r with
              | Some k => Some k
              | None => if (x <=? t)%Z then Some i else None
              end
  end.

Definition omul_add (acc : option Q) (r : option Q) (s : Q) : option Q :=
  match acc, r with Some a, Some x => Some (a + x * s) | _, _ => None end.

(** manual_beaching.py:247-262: the loop over the intervals; each turn takes the
    next one, so there are no more turns than times ([fuel]). *)
Fixpoint beach_loop (fuel : nat) (times : list Z) (rs : list (option Q)) (k : nat) (start remain : Z) (acc : option Q) : res (option Q) :=
  if (remain <=? 0)%Z then Ok acc
  else match fuel with
  | O => Raise IndexErr
  | S f =>
      match nth_error times (S k), nth_error rs k with
      | Some t1, Some r =>
          let d := Z.min remain (t1 - start) in
          beach_loop f times rs (S k) t1 (remain - d) (omul_add acc r (sec d))
      | _, _ => Raise IndexErr
      end
  end.

(** manual_beaching.py:167-262 (_remove_mass). *)
Definition remove_mass (b : beach) (ts t : Z) : res (option Q) :=
  match last_le 0 t (be_times b) with
  | None => Raise IndexErr
  | Some k => beach_loop (length (be_times b)) (be_times b) (rates (be_unit b) (be_times b) (be_vals b)) k t ts (Some 0)
  end.

(** cleanup.py:76-89 with an active range that may begin at -inf. *)
Definition beach_active (b : beach) (dt t : Z) : bool :=
  match be_a b with
  | Some a => is_active (be_on b) a (be_b b) dt t
  | None => be_on b && (t <? be_b b)%Z
  end.
Definition beach_time (b : beach) (dt t : Z) : Z :=
  match be_a b with
  | Some a => step_time a (be_b b) dt t
  | None => if (be_b b <? t + dt)%Z then (be_b b - t)%Z else dt
  end.

(** manual_beaching.py:264-291 (weather_elements) after prepare_for_model_step.
    An amount that is not finite is not followed further. *)
Definition beach_weather (b : beach) (dt t : Z) (l : list el) : res (list el * Q) :=
  if negb (beach_active b dt t) || Nat.eqb (length l) 0 then Ok (l, 0)
  else match view f_surf l with
  | [] => Ok (l, 0)
  | data =>
      do rm <- remove_mass b (beach_time b dt t) t;
      match rm with
      | None => Raise ValueErr
      | Some rm =>
          let tot := total data in
          if Qltb 1 (rm / tot) then Ok (remove_frac f_surf 1 l, tot)
          else Ok (remove_frac f_surf (rm / tot) l, rm)
      end
  end.
