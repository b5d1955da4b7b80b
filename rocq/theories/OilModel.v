(** * The properties of an oil: density, the arrays of new elements, the mass balance

    Models, over the rationals:
    - [GnomeOil.get_densities], [bounding_temperatures], [_get_reference_densities],
      [_vol_expansion_coeff], [density_at_temp] (one temperature at a time), with
      the functions [density_at_temp] and [vol_expansion_coeff], from
      py_gnome/gnome/spills/gnome_oil.py;
    - [_pick_water] and [initialize_elements] of [Substance], [NonWeatheringSubstance]
      (spills/substance.py) and [GnomeOil] (spills/gnome_oil.py), with [init_density]
      (ops/density.py) and [init_viscosity] (ops/viscosity.py);
    - [recalc_density] (ops/density.py) and [aggregate] (ops/aggregated_data.py).

    Not modelled: temperatures given as arrays (clipped at 1000 K as well), the
    reading of oil files, windages of new elements (see Rnd), containers with more
    than one substance.  The viscosity of the oil at a temperature is a parameter
    here (see Vis).  Floating point is replaced by rational arithmetic; a division
    by zero, where numpy writes an infinity or NaN with a warning, is
    [Raise ZeroDivErr] or [None]. *)

From Coq Require Import ZArith QArith Qminmax List Bool Lia Lqa.
From Verif Require Import Py.
Import ListNotations.
Open Scope Q_scope.

Definition Qltb (a b : Q) : bool := negb (Qle_bool b a).

(** gnome_oil.py 22-32, [Density]; the weathering, 0 in every object made, is left out. *)
Record dens := D { d_rho : Q; d_t : Q }.

(** gnome_oil.py 444-472, [get_densities]: the loop over the three parallel lists.
    A list that is too short raises IndexError; temperatures are only looked up
    for measurements of fresh oil. *)
Fixpoint fresh (ds ts ws : list Q) {struct ds} : res (list dens) :=
  match ds with
  | [] => Ok []
  | d :: ds' =>
      match ws with
      | [] => Raise IndexErr
      | w :: ws' =>
          if Qeq_bool w 0 then
            match ts with
            | [] => Raise IndexErr
            | t :: ts' => do r <- fresh ds' ts' ws'; Ok (D d t :: r)
            end
          else fresh ds' (tl ts) ws'
      end
  end.

(** Python's [sorted(..., key=ref_temp_k)], which is stable. *)
Fixpoint tinsert (x : dens) (l : list dens) : list dens :=
  match l with
  | [] => [x]
  | y :: r => if Qle_bool (d_t x) (d_t y) then x :: l else y :: tinsert x r
  end.
Fixpoint tsort (l : list dens) : list dens :=
  match l with
  | [] => []
  | x :: r => tinsert x (tsort r)
  end.

(** [np.argmin] of a list of truth values: the first False, 0 if there is none. *)
Fixpoint first_false (l : list bool) : option nat :=
  match l with
  | [] => None
  | b :: r => if b then match first_false r with Some i => Some (S i) | None => None end
              else Some 0%nat
  end.
Definition argmin (l : list bool) : nat :=
  match first_false l with Some i => i | None => 0%nat end.

(** gnome_oil.py 400-442, [bounding_temperatures], for one temperature.  A list of
    one is doubled in place, which the second call then finds with two entries; an
    empty list makes argmin raise ValueError. *)
Definition bounding (l : list dens) (T : Q) : res (dens * dens) :=
  let l := if (length l <=? 1)%nat then l ++ l else l in
  let geq := map (fun d => Qle_bool (d_t d) T) l in
  match geq with
  | [] => Raise ValueErr
  | _ =>
      let hi := forallb (fun b => b) geq in
      let lo := forallb negb geq in
      let i0 := argmin geq in
      let i0 := if (0 <? i0)%nat then (i0 - 1)%nat else i0 in
      let i0 := if hi then (length l - 1)%nat else i0 in
      let i1 := Nat.min (i0 + 1) (length l - 1) in
      let i1 := if lo then 0%nat else i1 in
      match nth_error l i0, nth_error l i1 with
      | Some a, Some b => Ok (a, b)
      | _, _ => Raise IndexErr
      end
  end.

(** gnome_oil.py 550-582, [_get_reference_densities], for one temperature. *)
Definition reference (l : list dens) (T : Q) : res dens :=
  do ab <- bounding l T;
  let (a, b) := ab in
  Ok (if Qltb (d_t a) T && Qltb (d_t b) T then b else a).

(** gnome_oil.py 48-58, [vol_expansion_coeff]. *)
Definition vol_expansion (a b : dens) : res Q :=
  if Qeq_bool (d_t a) (d_t b) then Ok 0
  else if Qeq_bool (d_rho a) 0 then Raise ZeroDivErr
  else Ok ((d_rho a - d_rho b) / (d_rho a * (d_t b - d_t a))).

(** gnome_oil.py 584-612, [_vol_expansion_coeff], for one temperature. *)
Definition expansion (api : Q) (l : list dens) (T : Q) : res Q :=
  do ab <- bounding l T;
  let (a, b) := ab in
  do k <- vol_expansion a b;
  let gt := Qltb (d_t a) T && Qltb (d_t b) T in
  let lt := Qltb T (d_t a) && Qltb T (d_t b) in
  let k0 := if Qltb 30 api then 9 # 10000 else 8 # 10000 in
  Ok (if gt || lt then k0 else k).

(** gnome_oil.py 35-45, the function [density_at_temp]. *)
Definition expand (ref reft T k : Q) : res Q :=
  let d := 1 - k * (reft - T) in
  if Qeq_bool d 0 then Raise ZeroDivErr else Ok (ref / d).

(** The attributes of a [GnomeOil] (gnome_oil.py 228-304) the model reads:
    api, pour point, the three lists of density measurements, the mass fraction
    and the density of each pseudo-component, the (deprecated) water of the oil
    and [is_weatherable] (substance.py 131-139). *)
Record oil := Oil {
  o_api : Q; o_pour : Q;
  o_dens : list Q; o_temps : list Q; o_weath : list Q;
  o_frac : list Q; o_cdens : list Q;
  o_water : option (Q * Q);
  o_weatherable : bool
}.

(** [np.min] of a list that is not empty. *)
Fixpoint qmin (x : Q) (l : list Q) : Q :=
  match l with [] => x | y :: r => Qmin x (qmin y r) end.

(** gnome_oil.py 474-538, [GnomeOil.density_at_temp], for one temperature. *)
Definition density_at_temp (o : oil) (T : Q) : res Q :=
  do l0 <- fresh (o_dens o) (o_temps o) (o_weath o);
  let l := tsort l0 in
  let min_temp := qmin (o_pour o) (map d_t l) in
  let T := if Qltb T min_temp then min_temp else T in
  do r <- reference l T;
  do k <- expansion (o_api o) l T;
  expand (d_rho r) (d_t r) T k.

(** ** Elements and the container *)

(** The arrays of an element the operations below read or write; [None] is NaN. *)
Record elem := Elem {
  e_mass : Q; e_comps : list Q; e_z : Q; e_status : Z;
  e_fate : Z; e_density : option Q; e_visc : option Q;
  e_oil_density : option Q; e_fw : Q
}.

(** basic_types.py 49-63 and 89-100, [oil_status.in_water] and [fate]. *)
Definition in_water : Z := 2.
Definition non_weather : Z := 1.
Definition surface_weather : Z := 2.
Definition subsurf_weather : Z := 4.

Definition set_density (d : option Q) (e : elem) : elem :=
  Elem (e_mass e) (e_comps e) (e_z e) (e_status e) (e_fate e) d (e_visc e)
       (e_oil_density e) (e_fw e).
Definition set_visc (v : option Q) (e : elem) : elem :=
  Elem (e_mass e) (e_comps e) (e_z e) (e_status e) (e_fate e) (e_density e) v
       (e_oil_density e) (e_fw e).
Definition set_fate (f : Z) (e : elem) : elem :=
  Elem (e_mass e) (e_comps e) (e_z e) (e_status e) f (e_density e) (e_visc e)
       (e_oil_density e) (e_fw e).
Definition set_comps (c : list Q) (e : elem) : elem :=
  Elem (e_mass e) c (e_z e) (e_status e) (e_fate e) (e_density e) (e_visc e)
       (e_oil_density e) (e_fw e).
Definition set_rho (d o : option Q) (e : elem) : elem :=
  Elem (e_mass e) (e_comps e) (e_z e) (e_status e) (e_fate e) d (e_visc e) o (e_fw e).

(** Python's [slice(-n, None, 1)] of an array of length [len]: where it starts.
    [-0] is 0, so the slice of "the last 0" is the whole array. *)
Definition slice_from (n len : nat) : nat := if (n =? 0)%nat then 0%nat else (len - n)%nat.
Definition on_slice (f : elem -> elem) (n : nat) (l : list elem) : list elem :=
  let k := slice_from n (length l) in firstn k l ++ map f (skipn k l).

(** A water: temperature in K and density in kg/m3 ([Water.get]). *)
Definition water := (Q * Q)%type.
(** ops/default_constants.py 6-7. *)
Definition default_water : water := (28815 # 100, 1025).
Definition water_or_default (w : option water) : water :=
  match w with Some w => w | None => default_water end.

(** substance.py 215-217, [_pick_water]: [env] is the dictionary of the environment
    ([None] if it is not passed; then the water under the key 'water', which may be
    None); [w300] is a new [Water()], with its own default temperature. *)
Definition pick_water (w300 : water) (own : option water) (env : option (option water))
  : option water :=
  match env with
  | Some w => w
  | None => match own with Some w => Some w | None => Some w300 end
  end.

(** ops/density.py 9-47, [init_density] with [aggregate=False]; [dat] is the
    [density_at_temp] of the substance. *)
Definition init_density (dat : Q -> res Q) (n : nat) (w : option water) (l : list elem)
  : res (list elem) :=
  let (wt, wr) := water_or_default w in
  do d <- dat wt;
  Ok (on_slice (set_density (Some (if Qltb wr d then wr else d))) n l).

(** ops/viscosity.py 9-33, [init_viscosity] with [aggregate=False]; [kv] is the
    [kvis_at_temp] of the substance. *)
Definition init_viscosity (weatherable : bool) (kv : Q -> Q) (n : nat) (w : option water)
    (l : list elem) : list elem :=
  if weatherable
  then let (wt, _) := water_or_default w in on_slice (set_visc (Some (kv wt))) n l
  else l.

(** gnome_oil.py 334-362, [GnomeOil.initialize_elements].  The last line calls
    the method of [Substance] (substance.py 204-213) without the environment. *)
Definition init_oil (w300 : water) (kv : Q -> Q) (o : oil) (env : option (option water))
    (n : nat) (l : list elem) : res (list elem) :=
  let w := pick_water w300 (o_water o) env in
  let l := init_viscosity (o_weatherable o) kv n w l in
  let l := on_slice (fun e =>
             set_fate (if Qeq_bool (e_z e) 0 && (e_status e =? in_water)%Z
                       then surface_weather else subsurf_weather) e) n l in
  let l := on_slice (fun e => set_comps (map (fun f => f * e_mass e) (o_frac o)) e) n l in
  init_density (density_at_temp o) n (pick_water w300 (o_water o) None) l.

(** substance.py 271-279, [NonWeatheringSubstance.initialize_elements], and 219-223,
    the density of such a substance. *)
Definition init_non (w300 : water) (std : Q) (env : option (option water)) (n : nat)
    (l : list elem) : res (list elem) :=
  let l := on_slice (set_fate non_weather) n l in
  init_density (fun _ => Ok std) n (pick_water w300 None env) l.

(** ** Density during a run *)

(** ops/density.py 113-130, [_get_k_rho_weathering_dens_update]. *)
Fixpoint dot (a b : list Q) : Q :=
  match a, b with
  | x :: a', y :: b' => x * y + dot a' b'
  | _, _ => 0
  end.
Definition k_rho (o : oil) (T : Q) : res Q :=
  do r <- density_at_temp o T;
  let s := dot (o_cdens o) (o_frac o) in
  if Qeq_bool s 0 then Raise ZeroDivErr else Ok (r / s).

(** ops/density.py 81-106, one element: an element without mass gets NaN. *)
Definition recalc1 (k wr : Q) (cd : list Q) (e : elem) : elem :=
  if Qeq_bool (e_mass e) 0 then set_rho None None e
  else
    let orho := k * dot cd (map (fun c => c / e_mass e) (e_comps e)) in
    let rho := e_fw e * wr + (1 - e_fw e) * orho in
    set_rho (Some (if Qltb wr rho then wr else rho)) (Some orho) e.

(** ops/density.py 49-111, [recalc_density] with one substance, before [aggregate].
    The new values go to the view of the floating elements, and the view of all
    elements is written back: they reach the container only when the view is the
    container itself, that is when every element floats (see Rvw, C115).  Nothing is
    computed when none does. *)
Definition recalc_density (o : oil) (w : option water) (l : list elem) : res (list elem) :=
  if o_weatherable o then
    match filter (fun e => (e_fate e =? surface_weather)%Z) l with
    | [] => Ok l
    | v =>
        let (wt, wr) := water_or_default w in
        do k <- k_rho o wt;
        if (length v =? length l)%nat then Ok (map (recalc1 k wr (o_cdens o)) l) else Ok l
    end
  else Ok l.

(** ** The mass balance *)

(** The entries of [sc.mass_balance] that [aggregate] writes; the outer [option] of
    the averages and of amount_released is a missing key, the inner one NaN. *)
Record balance := Bal {
  b_rho : option (option Q); b_visc : option (option Q);
  b_floating : Q; b_nonweather : Q; b_released : option Q
}.

Fixpoint total (l : list elem) : Q :=
  match l with [] => 0 | e :: r => e_mass e + total r end.

(** [np.sum(mass / total * x)]: NaN as soon as one [x] is. *)
Fixpoint wsum (x : elem -> option Q) (tot : Q) (l : list elem) : option Q :=
  match l with
  | [] => Some 0
  | e :: r =>
      match x e, wsum x tot r with
      | Some v, Some s => Some (e_mass e / tot * v + s)
      | _, _ => None
      end
  end.

(** ops/aggregated_data.py 8-40, [aggregate]. *)
Definition aggregate (n : nat) (l : list elem) (b : balance) : balance :=
  let t := total l in
  let (br, bv) := if Qltb 0 t
                  then (Some (wsum e_density t l), Some (wsum e_visc t l))
                  else (b_rho b, b_visc b) in
  let fl := total (filter (fun e => (e_status e =? in_water)%Z && Qeq_bool (e_z e) 0) l) in
  let nw := total (filter (fun e => (e_fate e =? non_weather)%Z) l) in
  let rel := if (0 <? n)%nat then
               let a := total (skipn (slice_from n (length l)) l) in
               Some (match b_released b with Some r => r + a | None => a end)
             else b_released b in
  Bal br bv fl nw rel.

(** What happens to a container in a run, as far as the mass balance goes: elements
    are appended by a release and [aggregate] is called with their number
    (model.py 1237-1271); everything else of a step (movers, weatherers, removal)
    replaces the elements by others ([Others]) and [aggregate] is called with 0
    (model.py 1115-1119). *)
Inductive event :=
| Release (new : list elem)
| Others (l : list elem).
Definition event1 (s : list elem * balance) (ev : event) : list elem * balance :=
  match ev with
  | Release new => let l := fst s ++ new in (l, aggregate (length new) l (snd s))
  | Others l => (l, aggregate 0 l (snd s))
  end.
Definition history (evs : list event) (s : list elem * balance) : list elem * balance :=
  fold_left event1 evs s.
