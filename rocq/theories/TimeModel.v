(** * Times: infinite times, active windows, rounding, conversions

    Models gnome/utilities/inf_datetime.py, the active window of
    gnome/movers/movers.py (Process), gnome/utilities/time_utils.py,
    gnome/utilities/__init__.py (convert_longitude) and the longitude shifts of
    gnome/maps/map.py.

    A naive Python datetime is the integer number of microseconds since
    1970-01-01T00:00:00; a timedelta is an integer number of microseconds. *)
From Verif Require Import Py QLemmas.
Open Scope Z_scope.

(** ** Infinite times *)

(** utilities/inf_datetime.py:24 (InfTime), 91 (MinusInfTime); [TDate] is any
    datetime.datetime (naive). *)
Inductive ptime := TInf | TMinus | TDate (us : Z).

(** A rich-comparison method returns a boolean or NotImplemented ([None]). *)
Definition meth := ptime -> ptime -> option bool.

Definition is_inf (t : ptime) : bool := match t with TInf => true | _ => false end.
Definition is_minus (t : ptime) : bool := match t with TMinus => true | _ => false end.

(** The comparison methods: inf_datetime.py:40-79 (InfTime),
    inf_datetime.py:105-151 (MinusInfTime), and datetime.datetime, which
    returns NotImplemented for anything that is not a datetime. *)
Definition date_meth (f : Z -> Z -> bool) (a : Z) (o : ptime) : option bool :=
  match o with TDate b => Some (f a b) | _ => None end.

Definition m_lt : meth := fun a o => match a with
  | TInf => Some false                        (* 40-42 *)
  | TMinus => Some (negb (is_minus o))        (* 105-113 *)
  | TDate x => date_meth Z.ltb x o end.
Definition m_le : meth := fun a o => match a with
  | TInf => Some (is_inf o)                   (* 44-53 *)
  | TMinus => Some true                       (* 115-121 *)
  | TDate x => date_meth Z.leb x o end.
Definition m_eq : meth := fun a o => match a with
  | TInf => Some (is_inf o)                   (* 55-60 *)
  | TMinus => Some (is_minus o)               (* 123-129 *)
  | TDate x => date_meth Z.eqb x o end.
Definition m_ne : meth := fun a o => match a with
  | TInf => Some (negb (is_inf o))            (* 62-67 *)
  | TMinus => Some (negb (is_minus o))        (* 131-136 *)
  | TDate x => date_meth (fun a b => negb (a =? b)) x o end.
Definition m_gt : meth := fun a o => match a with
  | TInf => Some (negb (is_inf o))            (* 69-77 *)
  | TMinus => Some false                      (* 138-140 *)
  | TDate x => date_meth Z.gtb x o end.
Definition m_ge : meth := fun a o => match a with
  | TInf => Some true                         (* 79-81 *)
  | TMinus => Some (is_minus o)               (* 142-150 *)
  | TDate x => date_meth Z.geb x o end.

(** Python's dispatch of [a op b]: the left operand's method, then the
    reflected method of the right operand, then TypeError. *)
Definition dispatch (op refl : meth) (a b : ptime) : res bool :=
  match op a b with
  | Some r => Ok r
  | None => match refl b a with Some r => Ok r | None => Raise TypeErr end
  end.
(** For [==] and [!=] the last resort is object identity, never an exception;
    two values of different kinds are different objects. *)
Definition dispatch_eq (op : meth) (dflt : bool) (a b : ptime) : res bool :=
  match op a b with
  | Some r => Ok r
  | None => match op b a with Some r => Ok r | None => Ok dflt end
  end.

Definition py_lt := dispatch m_lt m_gt.
Definition py_le := dispatch m_le m_ge.
Definition py_gt := dispatch m_gt m_lt.
Definition py_ge := dispatch m_ge m_le.
Definition py_eq := dispatch_eq m_eq false.
Definition py_ne := dispatch_eq m_ne true.

(** inf_datetime.py:83-87, 153-157. *)
Definition inf_neg (t : ptime) : res ptime :=
  match t with TInf => Ok TMinus | TMinus => Ok TInf | TDate _ => Raise TypeErr end.
Definition inf_pos (t : ptime) : res ptime :=
  match t with TInf => Ok TInf | TMinus => Ok TMinus | TDate _ => Raise TypeErr end.

(** ** The calendar, from Python's datetime module (not from /repo) *)
Definition leap (y : Z) : bool :=
  (y mod 4 =? 0) && (negb (y mod 100 =? 0) || (y mod 400 =? 0)).
Definition b2z (b : bool) : Z := if b then 1 else 0.
Definition days_before_year (y : Z) : Z :=
  let p := y - 1 in p * 365 + p / 4 - p / 100 + p / 400.
Definition days_before_month (y m : Z) : Z :=
  match m with
  | 1 => 0 | 2 => 31 | 3 => 59 + b2z (leap y) | 4 => 90 + b2z (leap y)
  | 5 => 120 + b2z (leap y) | 6 => 151 + b2z (leap y) | 7 => 181 + b2z (leap y)
  | 8 => 212 + b2z (leap y) | 9 => 243 + b2z (leap y) | 10 => 273 + b2z (leap y)
  | 11 => 304 + b2z (leap y) | _ => 334 + b2z (leap y)
  end.
Definition days_in_month (y m : Z) : Z :=
  match m with
  | 2 => 28 + b2z (leap y) | 4 => 30 | 6 => 30 | 9 => 30 | 11 => 30 | _ => 31
  end.
Definition ymd2ord (y m d : Z) : Z := days_before_year y + days_before_month y m + d.

Definition sec_us : Z := 1000000.
Definition day_us : Z := 86400 * sec_us.

Record fields := mkFields { f_y : Z; f_mo : Z; f_d : Z; f_h : Z; f_mi : Z; f_s : Z; f_us : Z }.

(** datetime.datetime(...): microseconds since 1970-01-01, or ValueError. *)
Definition in_range (lo x hi : Z) : bool := (lo <=? x) && (x <=? hi).
Definition fields_ok (f : fields) : bool :=
  in_range 1 (f_y f) 9999 && in_range 1 (f_mo f) 12
  && in_range 1 (f_d f) (days_in_month (f_y f) (f_mo f))
  && in_range 0 (f_h f) 23 && in_range 0 (f_mi f) 59 && in_range 0 (f_s f) 59
  && in_range 0 (f_us f) 999999.
Definition fields_us (f : fields) : Z :=
  (ymd2ord (f_y f) (f_mo f) (f_d f) - ymd2ord 1970 1 1) * day_us
  + ((f_h f * 60 + f_mi f) * 60 + f_s f) * sec_us + f_us f.
Definition datetime_new (f : fields) : res Z :=
  if fields_ok f then Ok (fields_us f) else Raise ValueErr.

(** inf_datetime.py:20-21. *)
Definition min_datetime : Z := fields_us (mkFields 1970 1 1 0 0 0 0).
Definition max_datetime : Z := fields_us (mkFields 2038 1 19 0 0 0 0).

(** The [year] argument: the two special strings, a string of digits, any other
    string, or an integer. *)
Inductive yarg := YInf | YMinus | YDigits | YText | YInt (y : Z).

(** inf_datetime.py:174-222 (InfDateTime.__new__). [tz] says that tzinfo is
    given, which makes the instance aware and its comparison with the naive
    bounds a TypeError. *)
Definition infdt_new (y : yarg) (mo d : option Z) (h mi s us : Z) (tz : bool) : res ptime :=
  match y with
  | YInf => Ok TInf                                            (* 195-196 *)
  | YMinus => Ok TMinus                                        (* 197-198 *)
  | YText => Raise ValueErr                                    (* 200-203 *)
  | YDigits | YInt _ =>
      match mo with
      | None => Raise TypeErr                                  (* 205-206 *)
      | Some mo =>
          match d with
          | None => Raise TypeErr                              (* 208-209 *)
          | Some d =>
              match y with
              | YInt y =>
                  do t <- datetime_new (mkFields y mo d h mi s us);   (* 211-214 *)
                  if tz then Raise TypeErr
                  else if max_datetime <? t then Raise ValueErr       (* 216-218 *)
                  else if t <? min_datetime then Raise ValueErr       (* 219-221 *)
                  else Ok (TDate t)
              | _ => Raise TypeErr    (* datetime.__new__ refuses a str year *)
              end
          end
      end
  end.

(** ** The active window of a process *)

Record process := mkProc { p_on : bool; p_lo : ptime; p_hi : ptime; p_active : bool }.

Definition is_date (t : ptime) : bool := match t with TDate _ => true | _ => false end.

(** movers/movers.py:88-107 (_check_active_startstop). *)
Definition check_startstop (lo hi : ptime) : res bool :=
  if is_date lo && negb (is_date hi) then
    do b <- py_le hi lo; if b then Raise ValueErr else Ok true
  else
    do b <- py_ge lo hi; if b then Raise ValueErr else Ok true.

(** movers.py:118-121 (active_range setter). *)
Definition set_active_range (p : process) (lo hi : ptime) : process * res unit :=
  match check_startstop lo hi with
  | Ok _ => (mkProc (p_on p) lo hi (p_active p), Ok tt)
  | Raise e => (p, Raise e)
  end.

(** [timedelta(seconds=time_step / 2)] for a step of [ts] microseconds: rounded
    to a microsecond, halves to even. *)
Definition half_td (ts : Z) : Z :=
  if Z.even ts then ts / 2
  else let q := ts / 2 in if Z.even q then q else q + 1.

(** movers.py:137-159 (Process.prepare_for_model_step); Python's [and] stops at
    the first false operand. *)
Definition prepare_step (p : process) (ts now : Z) : res process :=
  let half := TDate (now + half_td ts) in
  do a <- py_le (p_lo p) half;
  do act <- (if a then do b <- py_ge (p_hi p) half; Ok (b && p_on p) else Ok false);
  Ok (mkProc (p_on p) (p_lo p) (p_hi p) act).

(** ** Rounding and conversion of times *)

(** time_utils.py:268-297 (round_time), one element: [dt] in microseconds, cut
    to whole seconds by datetime64[s] (284); [seconds] counts from midnight
    (288); [rounding] (291) uses float halves: [(seconds + r/2) // r * r]. *)
Definition round_one (r : Z) (dt : Z) : res Z :=
  let date := dt / sec_us in
  let seconds := date mod 86400 in
  if r =? 0 then Raise ZeroDivErr else
  let rounding := (2 * seconds + r) / (2 * r) * r in
  Ok ((date + (rounding - seconds)) * sec_us).

(** A function of a scalar or of a sequence. *)
Inductive arg (A : Type) := Scalar (a : A) | Many (l : list A).
Arguments Scalar {A} a.
Arguments Many {A} l.

(** time_utils.py:268-297; 297 gives back a scalar for one element, whether or
    not the input was a sequence. *)
Definition round_time (r : Z) (dt : arg Z) : res (arg Z) :=
  let l := match dt with Scalar a => [a] | Many l => l end in
  do o <- mapM (round_one r) l;
  Ok (match o with [x] => Scalar x | _ => Many o end).

(** The local time zone of the process: a standard offset (seconds) and a
    daylight-saving flag for every instant; daylight saving is one hour. *)
Record zone := mkZone { z_std : Z; z_dst : Z -> bool }.

(** time.mktime with tm_isdst=0: local standard time to the epoch. *)
Definition mktime0 (z : zone) (local_s : Z) : Z := local_s - z_std z.

Definition u32 (x : Z) : Z := x mod 4294967296.

(** time_utils.py:150-195 (date_to_sec). timetuple (191) drops the
    microseconds.  A sequence gives a uint32 array (194); an empty one raises:
    [date_times[0]] is an IndexError, and a list has no astype (175-177). *)
Definition date_to_sec (z : zone) (a : arg Z) : res (arg Z) :=
  match a with
  | Scalar d => Ok (Scalar (mktime0 z (d / sec_us)))
  | Many [] => Raise AttrErr
  | Many l => Ok (Many (map (fun d => u32 (mktime0 z (d / sec_us))) l))
  end.

(** time_utils.py:226-236 (sec_to_datetime). *)
Definition sec_to_datetime (z : zone) (s : Z) : Z :=
  let dt := s + z_std z + (if z_dst z s then 3600 else 0) in
  (if z_dst z s then dt - 3600 else dt) * sec_us.

(** time_utils.py:198-223 (sec_to_date). *)
Definition sec_to_date (z : zone) (a : arg Z) : arg Z :=
  let l := map (fun s => sec_to_datetime z (u32 s))
             (match a with Scalar s => [s] | Many l => l end) in
  match l with [x] => Scalar x | _ => Many l end.

(** ** Time zone offsets *)

(** int(x): truncation toward zero. *)
Definition q_trunc (x : Q) : Z := if Qle_bool 0 x then Qfloor x else - Qfloor (- x)%Q.

(** time_utils.py:70-77 (TZOffset.as_timedelta), in minutes. *)
Definition tz_minutes (off : option Q) : Z :=
  match off with None => 0 | Some o => q_trunc (o * 60)%Q end.

(** time_utils.py:79-96 (as_iso_string): sign, hours, minutes; [None] stands
    for the empty string.  The digits' formatting is not modelled. *)
Definition tz_iso (off : option Q) : option (bool * Z * Z) :=
  match off with
  | None => None
  | Some o =>
      let neg := negb (Qle_bool 0 o) in
      let hours := q_trunc (Qabs o) in
      let minutes := q_trunc ((Qabs o - inject_Z hours) * 60)%Q in
      Some (neg, hours, minutes)
  end.

(** ** Longitudes *)
Open Scope Q_scope.

(** Python's [x % m] on numbers. *)
Definition q_mod (x m : Q) : Q := x - m * inject_Z (Qfloor (x / m)).

Inductive coord_system := Lon180 | Lon360 | LonOther.

(** utilities/__init__.py:23-55 (convert_longitude), on an array. *)
Definition conv180 (lon : Q) : Q :=
  let a := if Qle_bool lon 180 then lon else lon - 360 in
  if Qle_bool a (-180) then a + 360 else a.
Definition convert_longitude (c : coord_system) (lon : list Q) : res (list Q) :=
  match c with
  | LonOther => Raise TypeErr
  | Lon360 => Ok (map (fun x => q_mod (x + 360) 360) lon)
  | Lon180 => Ok (map conv180 lon)
  end.

(** NumPy's [pts[mask, 0] = vals]: raises ValueError unless the number of
    values is the number of selected rows or one (broadcast); values go to the
    selected rows in order. *)
Fixpoint put_masked (mask : list bool) (vals : list Q) (xs : list Q) : list Q :=
  match mask, xs with
  | true :: m, _ :: r =>
      match vals with v :: vs => v :: put_masked m vs r | [] => xs end
  | false :: m, x :: r => x :: put_masked m vals r
  | _, _ => xs
  end.
Definition assign_masked (mask : list bool) (vals xs : list Q) : res (list Q) :=
  let n := length (filter (fun b => b) mask) in
  if Nat.eqb (length vals) n then Ok (put_masked mask vals xs)
  else match vals with
       | [v] => Ok (put_masked mask (repeat v n) xs)
       | _ => Raise ValueErr
       end.

(** map.py:1202-1214 (ShiftLon360, ShiftLon180), on the longitude column; the
    ValueError of the assignment is swallowed. *)
Definition shift_lon (sel : Q -> bool) (by_ : Q) (lons : list Q) : list Q :=
  match assign_masked (map sel lons) (map (fun x => x + by_) lons) lons with
  | Ok r => r
  | Raise _ => lons
  end.
Definition shift_lon_360 : list Q -> list Q := shift_lon (fun x => negb (Qle_bool 0 x)) 360.
Definition shift_lon_180 : list Q -> list Q := shift_lon (fun x => negb (Qle_bool x 180)) (-360).
