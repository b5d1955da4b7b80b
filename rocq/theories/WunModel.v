(** * The uncertain move of a wind mover

    Models gnome/movers/py_wind_movers.py:226-410 over the reals: the growth of
    the two spreads, the draw of a record and what a record does to the wind.
    The bookkeeping of the records is in UncModel.v.  Random numbers are
    arguments. *)
From Verif Require Import Py WxModel.
From Coq Require Import Reals.
Open Scope R_scope.

(** np.sqrt: a negative argument gives NaN, here an error. *)
Definition nsqrt (x : R) : res R := if Rltb x 0 then Raise ValueErr else Ok (sqrt x).
(** np.power(x, .147) for x >= 0. *)
Definition npow (x y : R) : R := if Rltb 0 x then Rpower x y else 0.

(** py_wind_movers.py:306-311; [since] is elapsed_time - uncertain_time_delay. *)
Definition sigma2 (speed_scale since : R) : R :=
  let s := speed_scale * (315 / 1000) * npow since (147 / 1000) in s * s / 2.
Definition sigma_theta (angle_scale since : R) : R := angle_scale * (273 / 100) * sqrt (sqrt since).

(** py_wind_movers.py:281-304, 334-355: a record from uniform numbers: [c] in
    [0, 1], [s] in [0.001, 0.999]; it is drawn again, at most ten times, while it
    turns the wind by more than 60 degrees. *)
Definition record (d : R * R) : R * R :=
  let a := 2 * PI * fst d in let s := sqrt (-2 * ln (snd d)) in (s * cos a, s * sin a).
Definition too_far (sth : R) (r : R * R) : bool := Rltb 60 (Rabs (sth * snd r)).
Definition pick (sth : R) (first : R * R) (retries : list (R * R)) : R * R :=
  if too_far sth (record first) then
    match find (fun d => negb (too_far sth (record d))) (firstn 10 retries) with
    | Some d => record d | None => record first end
  else record first.

(** py_wind_movers.py:364-410 (add_uncertainty) for one element: the move [d] in
    metres, the record [r], two numbers [rnd] in [-1, 1]. *)
Definition disturb_wind (s2 sth diff dt : R) (r rnd d : R * R) : res (R * R) :=
  let u := fst d / dt in let v := snd d / dt in
  let norm := sqrt (u * u + v * v) in
  let sqs := sqrt (Rmax (norm * norm - s2) 0) in
  let m := sqrt sqs in
  do q <- nsqrt (norm - sqs);
  let x := fst r * q + m in
  let dth := snd r * sth * PI / 180 in
  let w := x * x / Rmax (cos dth) (1 / 1000) in
  let t := w / Rmax norm (1 / 1000) in
  let u := u * t in let v := v * t in
  if Rltb norm 1 then Ok (u * diff * fst rnd, v * diff * snd rnd)
  else Ok ((u * cos dth - v * sin dth) * dt, (v * cos dth + u * sin dth) * dt).

(** py_wind_movers.py:201: uncertain_diffusion, eddy diffusion 1000000. *)
Definition diffusion (dt : R) : R := sqrt (6 * (1000000 / 10000) / Rabs dt).
