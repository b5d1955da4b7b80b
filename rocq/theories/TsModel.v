(** * Time series: the value at a time, the check of the order, the running average

    Models lib_gnome/OSSMTimeValue_c.cpp (GetTimeValue, ClampToTimeRange,
    GetInterpolatedComponent, GetTimeChange, CheckStartTime, CalculateRunningAverage),
    gnome/cy_gnome/cy_ossm_time.pyx (get_time_value, check_time_in_range), the check of
    gnome/utilities/timeseries.py and the part of Wind.at (gnome/environment/wind.py) that
    looks up a time.

    Times are whole seconds; values are rationals (floats without rounding).  An error code of
    the C++ code is [Raise IndexErr], which is what get_time_value makes of it; reading outside
    the table or an uninitialised variable is [Raise AssertErr].  The interpolation type is
    always LINEAR (set by the constructor, cpp:44, and by nothing else), so Hermite is left
    out. *)
From Coq Require Import QArith Qabs Qminmax.
From Verif Require Import Py QLemmas.
Open Scope Z_scope.

Definition vel := (Q * Q)%type.
Definition pt := (Z * vel)%type.
Record series := mkTs { pts : list pt; extrap : bool }.

(** CompFunctions.cpp:21-24. *)
Definition UorV (v : vel) (index : Z) : Q := if index =? 0 then fst v else snd v.
(** TypeDefs.h:27. *)
Definition tolerance : Q := (1 # 100000)%Q.

Definition rd (l : list pt) (i : nat) : res pt :=
  match nth_error l i with Some x => Ok x | None => Raise AssertErr end.

(** cpp:383-425, for the pairs it is called with. *)
Definition get_time_change (l : list pt) (a b : nat) : res Z :=
  do pa <- rd l a; do pb <- rd l b;
  let dt := if (a <? b)%nat then fst pb - fst pa else fst pa - fst pb in
  if dt =? 0 then Raise IndexErr else Ok dt.

(** cpp:262-270: the binary search; [fuel] bounds the rounds.  Only the lower end is used after. *)
Fixpoint narrow (fuel : nat) (l : list pt) (t : Z) (s e : nat) : res nat :=
  if (3 <? e - s)%nat then
    match fuel with
    | O => Raise RuntimeErr
    | S f => let mid := ((s + e) / 2)%nat in
             do p <- rd l mid;
             if t <=? fst p then narrow f l t s mid else narrow f l t mid e
    end
  else Ok s.

(** cpp:272-286: the first index from [i] on whose time is not before [t]; [m] entries remain. *)
Fixpoint scan (m : nat) (l : list pt) (t : Z) (i : nat) : res nat :=
  match m with
  | O => Raise AssertErr
  | S m' => do p <- rd l i; if t <=? fst p then Ok i else scan m' l t (S i)
  end.

(** cpp:240-252 and 309-317. *)
Definition on_line (l : list pt) (t : Z) (index : Z) (a b : nat) : res Q :=
  do dt <- get_time_change l a b;
  do pa <- rd l a; do pb <- rd l b;
  let dv := (UorV (snd pb) index - UorV (snd pa) index)%Q in
  let slope := (dv / inject_Z dt)%Q in
  let intercept := (UorV (snd pa) index - slope * inject_Z (fst pa))%Q in
  Ok (slope * inject_Z t + intercept)%Q.

(** cpp:182-380. *)
Definition get_component (l : list pt) (t : Z) (index : Z) : res Q :=
  let n := length l in
  if (n =? 1)%nat then do p <- rd l 0; Ok (UorV (snd p) index)
  else
    do first <- rd l 0; do last <- rd l (n - 1);
    if t <? fst first then Raise IndexErr
    else if fst last <? t then Raise IndexErr
    else if (n =? 2)%nat then on_line l t index 0 1
    else
      do s <- narrow n l t 0 (n - 1);
      do i <- scan (n - s) l t s;
      do p <- rd l i;
      if Qle_bool (inject_Z (fst p - t)) tolerance then Ok (UorV (snd p) index)
      else
        match i with
        | O => Raise AssertErr
        | S a =>
            do pa <- rd l a;
            let dv := (UorV (snd p) index - UorV (snd pa) index)%Q in
            if negb (Qle_bool tolerance (Qabs dv)) then Ok (UorV (snd p) index)
            else on_line l t index a i
        end.

(** cpp:137-154. *)
Definition clamp (l : list pt) (t : Z) : res Z :=
  do first <- rd l 0; do last <- rd l (length l - 1);
  Ok (if t <? fst first then fst first else if fst last <? t then fst last else t).

(** cpp:107-134: the error, if any, and what [*value] holds afterwards; [old] is what it held
    before.  A failing component is set to 0 (cpp:215-219), the second one is not touched if the
    first fails. *)
Definition get_value (s : series) (t : Z) (old : vel) : option exc * vel :=
  match pts s with
  | [] => (Some IndexErr, (0, 0)%Q)
  | l =>
      match (if extrap s then clamp l t else Ok t) with
      | Raise e => (Some e, old)
      | Ok t' =>
          match get_component l t' 0 with
          | Raise e => (Some e, (0%Q, snd old))
          | Ok u =>
              match get_component l t' 1 with
              | Raise e => (Some e, (u, 0%Q))
              | Ok v => (None, (u, v))
              end
          end
      end
  end.

(** cy_ossm_time.pyx:228-260, for one time and for several. *)
Definition get_time_value (s : series) (t : Z) : res vel :=
  match get_value s t (0, 0)%Q with (None, v) => Ok v | (Some e, _) => Raise e end.
Definition get_time_values (s : series) (ts : list Z) : res (list vel) := mapM (get_time_value s) ts.

(** cpp:461-483 with cy_ossm_time.pyx:516-541. *)
Definition check_time_in_range (s : series) (t : Z) : res bool :=
  match pts s with
  | [] => Raise OSErr
  | l =>
      if (length l =? 1)%nat then Ok true
      else do first <- rd l 0; do last <- rd l (length l - 1);
           Ok (negb ((t <? fst first) || (fst last <? t)))
  end.

(** wind.py:655-674: the look-up of [at] in coordinates uv; the flag is put back whatever
    happens. *)
Definition at_time (s : series) (extrapolate : option bool) (t : Z) : res vel * series :=
  let s' := mkTs (pts s) (match extrapolate with Some b => b | None => extrap s end) in
  let r := match get_time_value s' t with Raise IndexErr => Raise ValueErr | x => x end in
  (r, mkTs (pts s') (extrap s)).

(** timeseries.py:112-141, 175-190: an array is refused unless its times ascend; of a list only
    the form of the entries is looked at, which is taken to be right here.  The exception,
    TimeseriesError, is [ValueErr]. *)
Fixpoint diffs_ok (l : list Z) : bool :=
  match l with
  | a :: r => match r with [] => true | b :: _ => negb (b - a <=? 0) && diffs_ok r end
  | [] => true
  end.
Inductive given := Array (l : list pt) | Lst (l : list pt).
Definition entries (g : given) := match g with Array l => l | Lst l => l end.
Definition check_timeseries (g : given) : bool :=
  match g with
  | Lst _ => true
  | Array l => if (length l =? 1)%nat then true else diffs_ok (map fst l)
  end.
(** timeseries.py:97-105, given in coordinates uv: the series that is stored. *)
Definition make_series (g : given) (allow : bool) : res series :=
  if check_timeseries g then Ok (mkTs (entries g) allow) else Raise ValueErr.

(** ** The running average (cpp:1390-1516)

    The magnitude of a velocity is a parameter. *)
Section Average.
  Variable mag : vel -> Q.

  (** cpp:1447-1452. *)
  Fixpoint avg_step (l : list pt) (step : Z) : Z :=
    match l with
    | p :: r => match r with
                | [] => step
                | q :: _ => let d := fst q - fst p in avg_step r (if (d <? step) && (0 <? step) then d else step)
                end
    | [] => step
    end.

  (** cpp:1475-1504: [m] more rounds of the inner loop, the next number being [j]; what has been
      added up, the previous speed, and the velocity variable. *)
  Fixpoint avg_loop (m : nat) (s : series) (model_time cur : Z) (j : Z) (acc : Q * Q * vel) : res (Q * Q * vel) :=
    match m with
    | O => Ok acc
    | S m' =>
        let '(speed, speed1, velocity) := acc in
        let x := get_value s (cur - j * 3600) velocity in
        do v <- match fst x with
                | None => Ok (snd x)
                | Some IndexErr =>
                    do first <- rd (pts s) 0; do last <- rd (pts s) (length (pts s) - 1);
                    let y := if model_time <? fst first then get_value s (fst first) (snd x) else (None, snd x) in
                    match fst y with
                    | Some e => Raise e
                    | None => let z := if fst last <? model_time then get_value s (fst last) (snd y) else (None, snd y) in
                              match fst z with Some e => Raise e | None => Ok (snd z) end
                    end
                | Some e => Raise e
                end;
        let speed2 := mag v in
        avg_loop m' s model_time cur (j + 1)
          ((if 0 <? j then (speed + (speed1 + speed2) / 2)%Q else speed), speed2, v)
    end.

  (** cpp:1470-1512: [m] more values, the next number being [i]. *)
  Fixpoint avg_values (m : nat) (s : series) (past : Z) (model_time start step : Z) (i : Z) (velocity : vel) : res (list pt) :=
    match m with
    | O => Ok []
    | S m' =>
        let cur := start + i * step in
        do x <- avg_loop (Z.to_nat (past + 1)) s model_time cur 0 (0%Q, 0%Q, velocity);
        do r <- avg_values m' s past model_time start step (i + 1) (snd x);
        Ok ((cur, ((fst (fst x) / inject_Z past)%Q, 0%Q)) :: r)
    end.

  (** cpp:1415-1516; a division by 0 (step, hours) is [Raise ZeroDivErr].  A number of values
      that is not positive is [Raise AssertErr] (memory). *)
  Definition running_average (s : series) (past model_time : Z) : res (list pt) :=
    match pts s with
    | [] => Raise AssertErr
    | l =>
        do first <- rd l 0; do last <- rd l (length l - 1);
        let all := fst last - fst first <=? 48 * 3600 in
        let start := if all then fst first else if model_time =? 0 then fst first else model_time in
        let e := if all then fst last else
                 if model_time =? 0 then start + 48 * 3600 else Z.min (start + 48 * 3600) (fst last) in
        let step := avg_step l 3600 in
        if (step =? 0) || (past =? 0) then Raise ZeroDivErr else
        let num := if e =? start then 1 else (e - start) ÷ step + 1 in
        if num <=? 0 then Raise AssertErr else
        avg_values (Z.to_nat num) s past model_time start step 0 (0, 0)%Q
    end.
End Average.
