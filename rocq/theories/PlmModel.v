(** * Plumes and splots

    Models gnome/utilities/plume.py (Plume and PlumeGenerator) and, from
    gnome/spills/release.py, VerticalPlumeRelease (1478-1556) and
    release_from_splot_data (1639-1661).

    Times are whole microseconds, as in datetime, and the time step of the generator
    is a whole number of microseconds (a float of seconds in the code).  Depths, mass
    fluxes and masses are rational numbers: rounding of floats is left out.  [None]
    stands for numbers that NumPy cannot turn into a 32-bit integer (a division by
    zero, infinity, an overflow), which gives arbitrary integers and a warning. *)
From Coq Require Import QArith Qround.
From Verif Require Import Py ReleaseModel.
Open Scope Z_scope.

(** world_point: longitude, latitude, depth *)
Definition point := (Q * Q * Q)%type.

(** plume.py:37-61: Plume(position, plume_data) with plume_data a list of
    (depth, mass flux).  The depth of the position is not used. *)
Record plume := Plume { pl_flux : list Q; pl_coords : list point }.
Definition new_plume (position : point) (data : list (Q * Q)) : plume :=
  let '(lon, lat, _) := position in
  Plume (map snd data) (map (fun d => (lon, lat, fst d)) data).

(** ndarray.sum and ndarray.mean; the mean of no numbers is not a number *)
Fixpoint qsum (l : list Q) : Q := match l with [] => 0%Q | x :: r => (x + qsum r)%Q end.
Definition qmean (l : list Q) : option Q :=
  match l with [] => None | _ => Some (qsum l / inject_Z (Z.of_nat (length l)))%Q end.

(** timedelta.total_seconds *)
Definition secs (us : Z) : Q := (inject_Z us / inject_Z 1000000)%Q.

(** plume.py:64-84: the attributes of PlumeGenerator; [g_mass] is mass_of_an_le. *)
Record gen := Gen { g_rel : Z; g_end : option Z; g_dt : Z; g_plume : plume; g_mass : option Q; g_steps : option Z }.

(** plume.py:90-106: the setter of time_step_delta: 0 is refused, time_steps is the
    duration over the time step.  Only int(time_steps) is used (163). *)
Definition time_steps (rel : Z) (end_ : option Z) (dt : Z) : option Z :=
  match end_ with Some e => Some (Z.quot (e - rel) dt) | None => None end.

(** plume.py:69-84: PlumeGenerator.__init__ *)
Definition new_gen (rel : Z) (end_ : option Z) (dt : Z) (p : plume) : res gen :=
  if dt =? 0 then Raise ValueErr
  else Ok (Gen rel end_ dt p
             (match qmean (pl_flux p) with Some m => Some (m * secs dt)%Q | None => None end)
             (time_steps rel end_ dt)).

(** plume.py:108-119: _seconds_from_beginning *)
Definition clamp (g : gen) (t : Z) : Z :=
  if t <? g_rel g then g_rel g
  else match g_end g with
       | Some e => if e <? t then e else t
       | None => t
       end.
Definition seconds (g : gen) (t : Z) : Q := secs (clamp g t - g_rel g).

(** plume.py:121-131: set_le_mass_from_total_le_count.  A count of 0 gives an
    infinite mass, or nan: [None]. *)
Definition set_count (g : gen) (n : Z) : res gen :=
  match g_end g with
  | None => Raise OverflowErr
  | Some e =>
      let total := (qsum (pl_flux (g_plume g)) * secs (e - g_rel g))%Q in
      Ok (Gen (g_rel g) (g_end g) (g_dt g) (g_plume g)
            (if n =? 0 then None else Some (total / inject_Z n)%Q) (g_steps g))
  end.

(** astype(np.int32): towards zero *)
Definition to_int32 (q : Q) : option Z :=
  let z := Z.quot (Qnum q) (Zpos (Qden q)) in
  if (- 2 ^ 31 <=? z) && (z <? 2 ^ 31) then Some z else None.

Fixpoint mapO {A B} (f : A -> option B) (l : list A) : option (list B) :=
  match l with
  | [] => Some []
  | x :: r => match f x, mapO f r with Some y, Some ys => Some (y :: ys) | _, _ => None end
  end.

(** plume.py:133-138: _mass_to_elems *)
Definition mass_to_elems (g : gen) (mass : list Q) : option (list Z) :=
  match g_mass g with
  | None => None
  | Some m => if Qeq_bool m 0 then None else mapO (fun x => to_int32 (x / m)%Q) mass
  end.

(** plume.py:140-144: _elems_to_mass *)
Definition elems_to_mass (g : gen) (elems : list Z) : option (list Q) :=
  match g_mass g with
  | None => None
  | Some m => Some (map (fun n => (inject_Z n * m)%Q) elems)
  end.

(** plume.py:146-152: elems_from_beginning *)
Definition elems_from (g : gen) (t : Z) : option (list Z) :=
  mass_to_elems g (map (fun f => (f * seconds g t)%Q) (pl_flux (g_plume g))).

(** plume.py:154-156: elems_in_range.  The difference of two counts is taken not to
    overflow. *)
Fixpoint sub2 (a b : list Z) : list Z :=
  match a, b with x :: a', y :: b' => (x - y) :: sub2 a' b' | _, _ => [] end.
Definition elems_in (g : gen) (b e : Z) : option (list Z) :=
  match elems_from g e, elems_from g b with
  | Some y, Some x => Some (sub2 y x)
  | _, _ => None
  end.

(** plume.py:158-180: one round of __iter__, the number [k] *)
Definition item (g : gen) (k : Z) : Z * option (list (point * Z)) :=
  let cur := g_rel g + g_dt g * k in
  let nxt := cur + g_dt g in
  (cur, match elems_in g cur nxt with Some n => Some (combine (pl_coords (g_plume g)) n) | None => None end).
(** The first [n] rounds; a generator with an end stops after range(int(time_steps)). *)
Definition iterate (g : gen) (n : nat) : list (Z * option (list (point * Z))) :=
  let n := match g_steps g with Some s => Nat.min n (Z.to_nat s) | None => n end in
  map (fun k => item g (Z.of_nat k)) (seq 0 n).
(** The whole loop over a generator with an end *)
Definition run (g : gen) : option (list (Z * option (list (point * Z)))) :=
  match g_steps g with
  | Some s => Some (map (fun k => item g (Z.of_nat k)) (seq 0 (Z.to_nat s)))
  | None => None
  end.

(** ** VerticalPlumeRelease *)

(** release.py:1486-1519 and 182-190: num_elements is 1000 if neither it nor
    num_per_timestep is given; the generator has time steps of an hour. *)
Definition plume_release (rel : Z) (position : point) (data : list (Q * Q)) (end_ : option Z)
    (num_elements num_per_timestep : option Z) : res gen :=
  do num <- match num_elements, num_per_timestep with
            | None, None => Ok (Some 1000)
            | Some _, Some _ => Raise TypeErr
            | n, _ => Ok n
            end;
  do g <- new_gen rel end_ (3600 * 1000000) (new_plume position data);
  match num with
  | None => Ok g
  | Some n => if n =? 0 then Ok g else set_count g n
  end.

(** release.py:1521-1531: _plume_elem_coords; a tuple times a negative number is empty. *)
Definition coords_of (l : list (point * Z)) : list point :=
  concat (map (fun x => repeat (fst x) (Z.to_nat (snd x))) l).
Definition elem_coords (g : gen) (cur step : Z) : option (list point) :=
  match elems_in g cur (cur + step) with
  | Some n => Some (coords_of (combine (pl_coords (g_plume g)) n))
  | None => None
  end.

(** release.py:1533-1538: num_elements_to_release *)
Definition num_to_release (g : gen) (cur step : Z) : option nat :=
  match elem_coords g cur step with Some l => Some (length l) | None => None end.

(** release.py:1540-1555: set_newparticle_positions on the array of positions;
    [counted] is the attribute num_released, which no class of the module sets (1554).
    With no new elements the slice [-0:] is the whole array. *)
Definition set_positions (g : gen) (counted : option Z) (num : nat) (cur step : Z) (positions : list point) : option (res (Z * list point)) :=
  match elem_coords g cur step with
  | None => None
  | Some cs => Some
      (if negb (Nat.eqb (length cs) num) then Raise RuntimeErr
       else match counted with
            | None => Raise AttrErr
            | Some c =>
              match cs with
              | [] => match positions with [] => Ok (c, []) | _ => Raise ValueErr end
              | _ => if Nat.ltb (length positions) (length cs) then Raise ValueErr
                     else Ok (c + Z.of_nat num, firstn (length positions - length cs) positions ++ cs)
              end
            end)
  end.

(** spill.py:431-464 for a release that has the initialize_elements of its base class
    (release.py:445-472) and no custom positions, as VerticalPlumeRelease (1506) and
    InitElemsFromFile (1595-1596): what a spill calls in a run.  num_elements_to_release
    and set_newparticle_positions are not called by it. *)
Definition base_step (s : spill) (t0 t1 : Z) : res (spill * list ReleaseModel.elem) :=
  if negb (s_on s) then Ok (s, [])
  else
    do e <- after_time (s_rel s) t1;
    let n := e - s_count s in
    if n <=? 0 then Ok (s, [])
    else do new <- init_custom (match r_prep (s_rel s) with Some p => p_mass p | None => 0%Q end) [] [] n;
         Ok (mkSpill (s_on s) (s_rel s) (s_count s + n), new).

(** ** Splots *)

(** release.py:1639-1661: release_from_splot_data: the third column, cut to an integer,
    is the number of elements (numpy.repeat refuses negative numbers); the custom
    positions are at the surface. *)
Definition splot (rows : list (Q * Q * Q)) : res (list point) :=
  let n := map (fun r => Z.quot (Qnum (snd r)) (Zpos (Qden (snd r)))) rows in
  if existsb (fun k => k <? 0) n then Raise ValueErr
  else Ok (concat (map (fun x => repeat (fst (fst (fst x)), snd (fst (fst x)), 0%Q) (Z.to_nat (snd x))) (combine rows n))).
