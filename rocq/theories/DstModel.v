(** * Distributions of droplet sizes and of winds

    Models, from gnome/utilities/distributions.py, WeibullDistribution (188-260) and
    the density and distribution function of RayleighDistribution (263-275), and
    gnome/utilities/compute_fraction.py.  Not modelled: the uniform, normal and
    lognormal distributions, which hand their parameters to numpy.

    The sizes that are drawn and the limits are rational numbers, as floats are; the
    draws of numpy.random.weibull are an arbitrary sequence.  The fractions of the
    distributions are real numbers, and there lambda_ and alpha are positive, as the
    functions are not defined otherwise. *)
From Coq Require Import QArith Qreals Reals.
From Verif Require Import Py.

(** ** Weibull distribution *)

(** The attributes; alpha is a real number, used only for the fractions. *)
Record weibull := Weibull { w_alpha : option R; w_lambda : Q; w_min : option Q; w_max : option Q }.

(** compute_fraction.py:15-18: fraction_below_d for positive lambda_ and alpha: zero to
    a positive power is zero. *)
Definition power (x a : R) : R := if Rlt_dec 0 x then Rpower x a else 0%R.
Definition fraction_below (d alpha lambda : R) : R := (1 - exp (- power (d / lambda) alpha))%R.

(** distributions.py:196-240: __init__ and _check_weibull_args; each line is one test,
    and the first that holds is the error. *)
Definition check_min (alpha lambda : R) (m : Q) : option exc :=
  if Rlt_dec (Q2R m) 0 then Some ValueErr
  else if Rlt_dec (999 / 1000) (fraction_below (Q2R m) alpha lambda) then Some ValueErr
  else None.
Definition check_max (alpha lambda : R) (mn : option Q) (m : Q) : option exc :=
  if Rle_dec (Q2R m) 0 then Some ValueErr
  else if Rlt_dec (fraction_below (Q2R m) alpha lambda) (1 / 1000) then Some ValueErr
  else match mn with
       | Some x => if Rlt_dec (Q2R m) (Q2R x) then Some ValueErr
                   else if Rlt_dec (Q2R m) (5 / 100000) then Some ValueErr else None
       | None => if Rlt_dec (Q2R m) (5 / 100000) then Some ValueErr else None
       end.
Definition new_weibull (alpha : option R) (lambda : Q) (mn mx : option Q) : res weibull :=
  match alpha with
  | None => Raise TypeErr
  | Some a =>
      match (match mn with Some m => check_min a (Q2R lambda) m | None => None end) with
      | Some e => Raise e
      | None =>
          match (match mx with Some m => check_max a (Q2R lambda) mn m | None => None end) with
          | Some e => Raise e
          | None => Ok (Weibull alpha lambda mn mx)
          end
      end
  end.

(** distributions.py:246-257: the numbers that are drawn again *)
Definition Qltb (a b : Q) : bool := negb (Qle_bool b a).
Definition again (w : weibull) (x : Q) : bool :=
  match w_min w, w_max w with
  | Some a, Some b => Qltb x a || Qltb b x
  | Some a, None => Qltb x a
  | None, Some b => Qltb b x
  | None, None => false
  end.

(** distributions.py:246-257: the while loop for one number; [draws k] is the number
    that is drawn at the k-th call, [k] the next call.  The result has the number and the next call; [None]: the
    loop goes on after [fuel] rounds. *)
Fixpoint redraw (fuel : nat) (w : weibull) (draws : nat -> Q) (k : nat) (x : Q) : option (Q * nat) :=
  if again w x then
    match fuel with
    | O => None
    | S n => redraw n w draws (S k) (w_lambda w * draws k)%Q
    end
  else Some (x, k).
(** distributions.py:246-257: the for loop over the array *)
Fixpoint redraw_all (fuel : nat) (w : weibull) (draws : nat -> Q) (k : nat) (l : list Q) : option (list Q * nat) :=
  match l with
  | [] => Some ([], k)
  | x :: r =>
      match redraw fuel w draws k x with
      | None => None
      | Some (y, k') =>
          match redraw_all fuel w draws k' r with
          | None => None
          | Some (ys, k'') => Some (y :: ys, k'')
          end
      end
  end.
(** distributions.py:242-260: _weibull on an array of [n] numbers: first all of them are
    drawn in one call, which is taken to be [n] draws. *)
Definition set_values (fuel : nat) (w : weibull) (draws : nat -> Q) (n : nat) : option (list Q * nat) :=
  redraw_all fuel w draws n (map (fun k => (w_lambda w * draws k)%Q) (seq 0 n)).

(** ** Rayleigh distribution; sigma_from_wind and quantile are in WindModel.v *)

(** distributions.py:268-271: pdf *)
Definition pdf (x sigma : R) : R := (x / (sigma * sigma) * exp (- 1 / 2 * ((x * x) / (sigma * sigma))))%R.
(** distributions.py:273-275: cdf *)
Definition cdf (x sigma : R) : R := (1 - exp (- 1 / 2 * ((x * x) / (sigma * sigma))))%R.
