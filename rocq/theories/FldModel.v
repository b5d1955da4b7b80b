(** * What the save files write for numbers, times, durations and file names

    Models [persist/extend_colander.py] ([LocalDateTime] 23-55, the deserializers of the two kinds of
    time series 145-153, 169-178, [TimeDelta] 181-198, [FilenameSchema] 220-245, [NumpyArraySchema]
    253-292), [persist/validators.py] ([no_duplicate_datetime] 36-52, [ascending_datetime] 55-66),
    the rounding to significant figures of [utilities/__init__.py] 169-218, and of
    [spills/gnome_oil.py] the copy of an oil (315-318), the check of its component arrays (364-373)
    and the share of an element's mass in each component (359-360).

    Numbers are exact rationals; [fl] is the conversion of a decimal number to a double
    ([float(text)]), an argument of every function that uses it.  Arrays have one dimension, as all
    that the schemas of the package declare.  The texts of dates are not modelled: a text is the wall
    clock it shows and the offset it shows, if any. *)
From Coq Require Import QArith Qround Qabs Qpower.
From Verif Require Import Py StrModel PipModel PolyModel TimeModel.
Open Scope Z_scope.

(** ** Rounding to significant figures *)

Definition p10 (k : Z) : Q := Qpower (10 # 1) k.

(** The place of the first digit of a positive number: the largest [k] with [10^k <= x], looked for
    from a power of ten that is not larger than [x]. *)
Fixpoint find_mag (n : nat) (k : Z) (x : Q) : Z :=
  match n with
  | O => k
  | S m => if Qle_bool (p10 (k + 1)) x then find_mag m (k + 1) x else k
  end.
Definition mag (x : Q) : Z :=
  let ld := Z.log2 (Z.pos (Qden x)) in
  find_mag (Z.to_nat (Z.log2 (Qnum x) + ld + 3)) (- (ld + 1)) x.

(** The number shown by the format [.n] of a float (utilities/__init__.py 187-188): [n] significant
    digits, correctly rounded, ties to the even digit. *)
Definition dec_pos (n : Z) (x : Q) : Q :=
  let e := mag x - (n - 1) in (inject_Z (np_round (x / p10 e)) * p10 e)%Q.
Definition dec_round (n : Z) (x : Q) : Q :=
  match (x ?= 0)%Q with
  | Eq => 0%Q
  | Gt => dec_pos n x
  | Lt => (- dec_pos n (- x))%Q
  end.

(** A double: a number, not a number, or an infinity. *)
Inductive fval := Fin (q : Q) | NaN | Inf (positive : bool).

(** utilities/__init__.py 169-189: the text is read back with [float]; the texts nan, inf and -inf
    are read back as they were.  A precision of zero is taken as one digit; a negative one makes an
    invalid format. *)
Definition round_sf_float (fl : Q -> Q) (n : Z) (v : fval) : res fval :=
  if n <? 0 then Raise ValueErr
  else match v with
       | Fin q => Ok (Fin (fl (dec_round (Z.max n 1) q)))
       | _ => Ok v
       end.

(** utilities/__init__.py 198-218. *)
Definition round_sf_array (fl : Q -> Q) (n : Z) (a : list fval) : res (list fval) :=
  mapM (round_sf_float fl n) a.

(** What may be given to be written: an array, a list or a tuple of numbers, or something else. *)
Inductive given := Seq (l : list fval) | Other.

(** extend_colander.py 271, 275-284: eight digits unless the schema says otherwise (none does). *)
Definition ser_array (fl : Q -> Q) (g : given) : res (list fval) :=
  match g with
  | Seq l => round_sf_array fl 8 l
  | Other => Raise ValueErr
  end.

(** extend_colander.py 286-292: the doubles of the json are read as they were written. *)
Definition deser_array (l : list fval) : list fval := l.

(** ** The copy of an oil *)

(** gnome_oil.py 104-114: the arrays of the schema. *)
Record oil := mkOil {
  o_densities : list fval; o_density_temps : list fval; o_density_weathering : list fval;
  o_kvis : list fval; o_kvis_temps : list fval; o_kvis_weathering : list fval;
  o_fraction : list fval; o_boiling : list fval; o_weight : list fval; o_comp_density : list fval }.

(** gnome_oil.py 364-373. *)
Definition set_pc (nc : nat) (l : list fval) : res (list fval) :=
  if Nat.eqb (length l) nc then Ok l else Raise ValueErr.

(** gnome_oil.py 258-292: the number of components is that of the fractions; zero is not a number of
    components given, and then it is again that of the fractions. *)
Definition new_oil (o : oil) : res oil :=
  let nc := length (o_fraction o) in
  do f <- set_pc nc (o_fraction o);
  do w <- set_pc nc (o_weight o);
  do b <- set_pc nc (o_boiling o);
  do c <- set_pc nc (o_comp_density o);
  Ok (mkOil (o_densities o) (o_density_temps o) (o_density_weathering o)
            (o_kvis o) (o_kvis_temps o) (o_kvis_weathering o) f b w c).

(** The json of the arrays (gnome_oil.py 104-113; base_schema.py 120-140). *)
Definition ser_oil (fl : Q -> Q) (o : oil) : res oil :=
  let s l := ser_array fl (Seq l) in
  do d <- s (o_densities o); do dt <- s (o_density_temps o); do dw <- s (o_density_weathering o);
  do k <- s (o_kvis o); do kt <- s (o_kvis_temps o); do kw <- s (o_kvis_weathering o);
  do f <- s (o_fraction o); do b <- s (o_boiling o); do w <- s (o_weight o);
  do c <- s (o_comp_density o);
  Ok (mkOil d dt dw k kt kw f b w c).

(** gnome_oil.py 315-318: the copy for the uncertain spill (spill.py 363-387) and any other deep
    copy is made from the json. *)
Definition copy_oil (fl : Q -> Q) (o : oil) : res oil := do j <- ser_oil fl o; new_oil j.

(** gnome_oil.py 359-360: the mass of each component of an element of mass [m]; a fraction that is
    not a number gives a mass that is not one. *)
Definition times (m : Q) (v : fval) : fval :=
  match v with
  | Fin q => Fin (q * m)%Q
  | NaN => NaN
  | Inf b => match (m ?= 0)%Q with Eq => NaN | Gt => Inf b | Lt => Inf (negb b) end
  end.
Definition components (o : oil) (m : Q) : list fval := map (times m) (o_fraction o).

(** ** Time series *)

(** extend_colander.py 145-153, 169-178: the times of the array count whole seconds
    (basic_types.py 64-71); what is below a second is dropped.  The values are kept. *)
Definition to_seconds {V : Type} (l : list (Z * V)) : list (Z * V) :=
  map (fun p => (fst p / sec_us, snd p)) l.

(** validators.py 36-52: the number of times less the number of different times. *)
Definition no_duplicates (ts : list Z) : bool :=
  Z.of_nat (length ts) - Z.of_nat (length (nodup Z.eq_dec ts)) =? 0.

(** validators.py 55-66: the sorted times are the times, one by one. *)
Fixpoint all_eq (a b : list Z) : bool :=
  match a, b with
  | x :: r, y :: s => (x =? y) && all_eq r s
  | _, _ => true
  end.
Definition ascending_times (ts : list Z) : bool := all_eq (zsort ts) ts.

(** wind.py 75-80, running_average.py 54-59, manual_beaching.py 49-54, after the deserializer: the
    series, or [None] for [Invalid]. *)
Definition deser_series {V : Type} (l : list (Z * V)) : option (list (Z * V)) :=
  let a := to_seconds l in
  if negb (no_duplicates (map fst a)) then None
  else if negb (ascending_times (map fst a)) then None
  else Some a.

(** extend_colander.py 130-142, 161-167: the times as datetimes (in microseconds). *)
Definition ser_series {V : Type} (l : list (Z * V)) : list (Z * V) :=
  map (fun p => (fst p * sec_us, snd p)) l.

(** ** Times *)

(** A datetime: its wall clock and, if it has a time zone, the offset of it (microseconds). *)
Record dt := mkDt { wall : Z; offset : option Z }.

(** What an attribute may hold: a datetime, one of the two infinite times, or anything else (a date,
    None, colander's null). *)
Inductive app := ADt (d : dt) | AInf | AMinus | AOther.

(** The json: the text of a datetime, the two texts of 50, or nothing. *)
Inductive text := XDt (d : dt) | XInf | XMinus | XNone.

(** extend_colander.py 28-33. *)
Definition strip (d : dt) : dt := mkDt (wall d) None.

(** extend_colander.py 35-47: for anything else the method ends without a result. *)
Definition ser_dt (a : app) : text :=
  match a with
  | ADt d => XDt (strip d)
  | AInf => XInf
  | AMinus => XMinus
  | AOther => XNone
  end.

(** extend_colander.py 49-55; inf_datetime.py 174-198. *)
Definition deser_dt (x : text) : app :=
  match x with
  | XInf => AInf
  | XMinus => AMinus
  | XDt d => ADt (strip d)
  | XNone => AOther
  end.

(** ** Durations *)

(** extend_colander.py 185-190: [total_seconds] of a timedelta of [us] microseconds. *)
Definition ser_delta (fl : Q -> Q) (us : Z) : Q := fl (inject_Z us / inject_Z sec_us)%Q.

(** extend_colander.py 192-198: [timedelta(seconds=s)], to the nearest microsecond, ties to the even
    one.  The limit of a timedelta is not modelled. *)
Definition deser_delta (s : Q) : Z := np_round (s * inject_Z sec_us)%Q.

(** ** File names *)

(** A file name attribute, or its json: none, one name, several names. *)
Inductive fname := FNone | FOne (s : str) | FMany (l : list str).

(** colander's sequence that accepts a scalar (extend_colander.py 221-223). *)
Definition as_list (f : fname) : list str :=
  match f with FNone => [] | FOne s => [s] | FMany l => l end.
Definition of_list (l : list str) : fname :=
  match l with [s] => FOne s | _ => FMany l end.

(** extend_colander.py 225-233.  [None] is not given to this method but dropped before
    (base_schema.py 80-85). *)
Definition ser_fname (raw_paths : bool) (f : fname) : fname :=
  match f with
  | FNone => FNone
  | _ => of_list (if raw_paths then as_list f else map basename (as_list f))
  end.

(** extend_colander.py 235-245. *)
Definition deser_fname (f : fname) : fname :=
  match f with
  | FNone => FNone
  | _ => of_list (as_list f)
  end.
