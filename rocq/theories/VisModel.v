(** * The viscosity of an oil and the vapour pressures of its components

    Models, over the reals:
    - [GnomeOil.determine_visc_constants] and [kvis_at_temp], with the constants
      kept from the first call on, and [GnomeOil.vapor_pressure] with its
      [lru_cache(2)], from py_gnome/gnome/spills/gnome_oil.py;
    - [recalc_viscosity] and [_get_kv1_weathering_visc_update] from
      py_gnome/gnome/ops/viscosity.py.

    Not modelled: floating point, temperatures given as arrays, logarithms of
    viscosities that are not positive.  [np.linalg.lstsq] is a parameter; what numpy
    documents of it (a least squares solution, of smallest norm if there are several)
    is a hypothesis of the theorems. *)

From Coq Require Import ZArith QArith Reals List Bool Lia Lra.
From Verif Require Import Py.
Import ListNotations.
Open Scope R_scope.

(** The attributes of a [GnomeOil] read here (gnome_oil.py 228-304): the three lists
    of viscosity measurements and the constants [_visc_A], [_k_v2], None at first. *)
Record voil := VOil {
  v_kvis : list R; v_temps : list R; v_weath : list Q;
  v_const : option (R * R)
}.

(** gnome_oil.py 709-711: [zip] with the weathering list, keeping fresh oil. *)
Fixpoint fresh_of (l : list R) (ws : list Q) : list R :=
  match l, ws with
  | x :: l', w :: ws' => if Qeq_bool w 0 then x :: fresh_of l' ws' else fresh_of l' ws'
  | _, _ => []
  end.

(** gnome_oil.py 686-732, [determine_visc_constants]: [(A, k)].  [lsq] gives the
    intercept and the slope of ln(kvis) against 1/T. *)
Definition determine (lsq : list (R * R) -> R * R) (o : voil) : res (R * R) :=
  let ks := fresh_of (v_kvis o) (v_weath o) in
  let ts := fresh_of (v_temps o) (v_weath o) in
  match ks with
  | [k] => match ts with
           | [] => Raise IndexErr
           | t :: _ => Ok (k * exp (- 2100 / t), 2100)
           end
  | _ => if (length ks =? length ts)%nat
         then let (b, s) := lsq (combine (map (fun t => 1 / t) ts) (map ln ks)) in
              Ok (exp b, s)
         else Raise ValueErr
  end.

(** gnome_oil.py 661-684, [kvis_at_temp]: the value and the oil with its constants. *)
Definition kvis_at_temp (lsq : list (R * R) -> R * R) (o : voil) (T : R) : res (R * voil) :=
  do c <- match v_const o with Some c => Ok c | None => determine lsq o end;
  let (A, k) := c in
  Ok (A * exp (k / T), VOil (v_kvis o) (v_temps o) (v_weath o) (Some c)).

(** ** Viscosity during a run *)

(** ops/default_constants.py 9-10. *)
Definition visc_curvfit_param : R := 1500.
Definition visc_f_ref : R := 84 / 100.

(** ops/viscosity.py 75-97. *)
Definition kv1 (v0 : R) : R :=
  let k := sqrt v0 * visc_curvfit_param in
  if Rlt_dec k 1 then 1 else if Rlt_dec 10 k then 10 else k.

(** ops/viscosity.py 67-71, one element: emulsion and oil.  A negative number to the
    power 2.49 is NaN, a division by zero an infinity: [None]. *)
Definition recalc_visc1 (v0 fe fw : R) : option R * R :=
  let w := fw / visc_f_ref in
  let d := 1187 / 1000 - w in
  let oil := v0 * exp (kv1 v0 * fe) in
  (if Rle_dec d 0 then None else Some (oil * Rpower (1 + w / d) (249 / 100)), oil).

(** ops/viscosity.py 35-73, [recalc_viscosity] before [aggregate], for elements given
    by frac_evap and frac_water, with their viscosities and oil viscosities. *)
Record velem := VElem { ve_fe : R; ve_fw : R; ve_visc : option R; ve_oil : R }.
Definition recalc_viscosity (lsq : list (R * R) -> R * R) (weatherable : bool) (o : voil) (T : R)
    (l : list velem) : res (list velem) :=
  if weatherable then
    match l with
    | [] => Ok []
    | _ => do p <- kvis_at_temp lsq o T;
           let (v0, _) := p in
           Ok (map (fun e => let (v, vo) := recalc_visc1 v0 (ve_fe e) (ve_fw e) in
                             VElem (ve_fe e) (ve_fw e) v vo) l)
    end
  else Ok l.

(** ** Vapour pressure *)

(** gnome_oil.py 376-398, [vapor_pressure], one component with boiling point [bp]. *)
Definition vapor1 (bp T : R) : R :=
  let D_S := 875 / 100 + 1987 / 1000 * ln bp in
  let C2 := 19 / 100 * bp - 18 in
  let var := 1 / (bp - C2) - 1 / (T - C2) in
  let lnP := D_S * (bp - C2) ^ 2 / (97 / 100 * (1987 / 1000) * bp) * var in
  exp lnP * 101325.

(** [functools.lru_cache(2)], as the least recently used cache of the method, which
    all oils share: keys are the oil (it hashes by identity, gnome_oil.py 306-313)
    and the temperature; the most recent entry comes first. *)
Definition key := (Z * Q)%type.
Definition key_eqb (a b : key) : bool := Z.eqb (fst a) (fst b) && Qeq_bool (snd a) (snd b).
Definition lru := list (key * list R).
Fixpoint lfind (k : key) (c : lru) : option (list R) :=
  match c with [] => None | (k', v) :: r => if key_eqb k k' then Some v else lfind k r end.
Fixpoint lremove (k : key) (c : lru) : lru :=
  match c with [] => [] | (k', v) :: r => if key_eqb k k' then r else (k', v) :: lremove k r end.

(** The boiling points of every oil, and the cache. *)
Record vstate := VS { s_bp : Z -> list R; s_cache : lru }.
Definition pressure (bps : list R) (T : Q) : list R := map (fun b => vapor1 b (Q2R T)) bps.

Inductive vop := Pressure (o : Z) (T : Q) | SetBoiling (o : Z) (bps : list R).
(** One operation; a call returns what the cache holds, if it holds something. *)
Definition vop1 (s : vstate) (op : vop) : vstate * option (list R) :=
  match op with
  | Pressure o T =>
      match lfind (o, T) (s_cache s) with
      | Some v => (VS (s_bp s) (((o, T), v) :: lremove (o, T) (s_cache s)), Some v)
      | None => let v := pressure (s_bp s o) T in
                (VS (s_bp s) (firstn 2 (((o, T), v) :: s_cache s)), Some v)
      end
  | SetBoiling o bps => (VS (fun x => if Z.eqb x o then bps else s_bp s x) (s_cache s), None)
  end.
Fixpoint vrun (s : vstate) (ops : list vop) : list (option (list R)) :=
  match ops with
  | [] => []
  | op :: r => let (s', x) := vop1 s op in x :: vrun s' r
  end.
