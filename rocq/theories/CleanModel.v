(** * Cleanup options: skimming, burning, chemical dispersion

    Models gnome/weatherers/cleanup.py and the update of fates in gnome/model.py.
    Times are microseconds; masses, areas and rates are rationals (floats without
    rounding or NaN).  Of the elements only what cleanup reads and writes is kept.
    The views of the container through which the code works (ScModel.v) are
    replaced by what they stand for: the elements with the flag and some mass. *)
From Verif Require Import Py QLemmas PipModel PolyModel.
Open Scope Q_scope.

(** basic_types.py:88-100: flags of fate_status; oil_status codes. *)
Definition f_nonw : Z := 1.
Definition f_surf : Z := 2.
Definition f_subs : Z := 4.
Definition f_skim : Z := 8.
Definition f_burn : Z := 16.
Definition f_disp : Z := 32.
Definition s_in_water : Z := 2.
Definition s_on_land : Z := 3.

(** An element: fate_status, status_codes, depth, mass, frac_water,
    mass_components, and whether its spill has a NonWeatheringSubstance. *)
Record el := mkEl { e_fate : Z; e_status : Z; e_z : Q; e_mass : Q; e_fw : Q; e_comps : list Q; e_nonw : bool }.
Definition set_fate (e : el) (f : Z) : el :=
  mkEl f (e_status e) (e_z e) (e_mass e) (e_fw e) (e_comps e) (e_nonw e).

Definition has_flag (f flag : Z) : bool := (Z.land f flag =? flag)%Z.

(** spill_container.py:42-53 (_get_fate_mask). *)
Definition in_view (flag : Z) (e : el) : bool := has_flag (e_fate e) flag && Qltb 0 (e_mass e).
Definition view (flag : Z) (l : list el) : list el := filter (in_view flag) l.

(** model.py:1015-1041 (_update_fate_status), of one element. *)
Definition update_fate (e : el) : el :=
  let e1 := if (e_status e =? s_on_land)%Z then set_fate e f_nonw else e in
  let w := (e_status e =? s_in_water)%Z && negb (has_flag (e_fate e1) f_skim) &&
           negb (has_flag (e_fate e1) f_burn) && negb (has_flag (e_fate e1) f_disp) in
  let e2 := if w && Qeq_bool (e_z e) 0 then set_fate e1 f_surf else e1 in
  let e3 := if w && Qltb 0 (e_z e) then set_fate e2 f_subs else e2 in
  if e_nonw e then set_fate e3 f_nonw else e3.

(** ** Operating time *)

(** cleanup.py:79-87: on, and the step overlaps the active range from [a] to [b]. *)
Definition is_active (on : bool) (a b dt t : Z) : bool := on && (a <? t + dt)%Z && (t <? b)%Z.

(** cleanup.py:52-73 (_set__timestep) of an active option. *)
Definition step_time (a b dt t : Z) : Z :=
  let ts := if (t <? a)%Z then (dt - (a - t))%Z else dt in
  if (b <? t + dt)%Z then (b - t)%Z else ts.

(** ** Efficiency *)

(** cleanup.py:117-131: no number, a number, not a number.  np.where turns a
    refused number into the old efficiency, and None into NaN. *)
Inductive eff := ENone | ENum (q : Q) | ENan.
Definition set_eff (old : eff) (value : option Q) : eff :=
  match value with
  | None => ENone
  | Some v => if Qle_bool 0 v && Qle_bool v 1 then ENum v
              else match old with ENone => ENan | _ => old end
  end.
(** cleanup.py:97-101: the constructor. *)
Definition new_eff (value : option Q) : eff := set_eff ENone value.

(** ** Marking *)

(** Sums and cumulative sums of masses; [None] is infinity, from a division by 0. *)
Definition oplus (a b : option Q) : option Q :=
  match a, b with Some x, Some y => Some (x + y) | _, _ => None end.
Definition oge (a : option Q) (q : Q) : bool := match a with Some x => Qle_bool q x | None => true end.
Fixpoint cumsum (acc : option Q) (l : list (option Q)) : list (option Q) :=
  match l with [] => [] | x :: r => let s := oplus acc x in s :: cumsum s r end.
Definition osum (l : list (option Q)) : option Q := fold_left oplus l (Some 0).

(** cleanup.py:172-177. *)
Definition cur_mass (mix : bool) (e : el) : option Q :=
  if mix then (if Qeq_bool (1 - e_fw e) 0 then None else Some (e_mass e / (1 - e_fw e)))
  else Some (e_mass e).

(** np.where(l)[0][0]. *)
Fixpoint first_true (i : nat) (l : list bool) : res nat :=
  match l with [] => Raise IndexErr | b :: r => if b then Ok i else first_true (S i) r end.

(** cleanup.py:179-194: how many elements of the view are marked. *)
Definition n_marked (mix : bool) (m : Q) (data : list el) : res nat :=
  let cur := map (cur_mass mix) data in
  match osum cur with
  | Some s => if Qle_bool s m then Ok (length data)
              else do ix <- first_true 0 (map (fun c => oge c m) (cumsum (Some 0) cur)); Ok (S ix)
  | None => do ix <- first_true 0 (map (fun c => oge c m) (cumsum (Some 0) cur)); Ok (S ix)
  end.

(** The first [k] elements of the view get the new fate. *)
Fixpoint mark (flag new : Z) (k : nat) (l : list el) : list el :=
  match l, k with
  | [], _ => []
  | _, O => l
  | e :: r, S k' => if in_view flag e then set_fate e new :: mark flag new k' r else e :: mark flag new k r
  end.

(** cleanup.py:133-199 (_update_LE_status_codes). *)
Definition update_status (new : Z) (m : Q) (mix : bool) (l : list el) : res (list el) :=
  do k <- n_marked mix m (view f_surf l); Ok (mark f_surf new k l).

Definition count_fate (f : Z) (l : list el) : nat := length (filter (fun e => (e_fate e =? f)%Z) l).

(** ** Removing mass *)

Definition total (l : list el) : Q := fold_right (fun e s => e_mass e + s) 0 l.
Definition sumq (l : list Q) : Q := fold_right Qplus 0 l.

(** cleanup.py:371-373, 716-718, 874-876: the elements of the view lose a fraction. *)
Definition lose (frac : Q) (e : el) : el :=
  let mc := map (Qmult (1 - frac)) (e_comps e) in
  mkEl (e_fate e) (e_status e) (e_z e) (sumq mc) (e_fw e) mc (e_nonw e).
Definition remove_frac (flag : Z) (frac : Q) (l : list el) : list el :=
  map (fun e => if in_view flag e then lose frac e else e) l.

(** cleanup.py:201-217 (_avg_frac_oil). *)
Definition avg_frac_oil (data : list el) : Q :=
  let t := total data in
  1 - (if Qltb 0 t then fold_right (fun e s => e_mass e * e_fw e + s) 0 data / t else 0).

Definition sec (us : Z) : Q := inject_Z us / inject_Z 1000000.

(** ** The skimmer *)

(** [k_unit] is the mass in kg of one unit of the amount (cleanup.py:38-50). *)
Record skimmer := mkSkim { k_on : bool; k_a : Z; k_b : Z; k_amount : Q; k_unit : Q; k_eff : option Q }.

(** cleanup.py:295-303: the rate. *)
Definition skim_rate (c : skimmer) : res Q :=
  if (k_b c - k_a c =? 0)%Z then Raise ZeroDivErr else Ok (k_amount c / sec (k_b c - k_a c)).

(** cleanup.py:305-331 (prepare_for_model_step): active, operating time, elements. *)
Definition skim_prepare (c : skimmer) (dt t : Z) (l : list el) : res (bool * Z * list el) :=
  if is_active (k_on c) (k_a c) (k_b c) dt t then
    do l' <- (if Nat.eqb (count_fate f_skim l) 0 then
                match k_eff c with
                | Some ef => update_status (Z.lor f_skim f_surf) (k_amount c * k_unit c * ef) true l
                | None => Raise TypeErr
                end
              else Ok l);
    Ok (true, step_time (k_a c) (k_b c) dt t, l')
  else Ok (false, 0%Z, l).

(** cleanup.py:343-379 (weather_elements), with the rate of prepare_for_model_run
    and the operating time [ts]: the elements and what is added to the balance. *)
Definition skim_weather (c : skimmer) (rate : Q) (active weatherable : bool) (ts : Z) (l : list el) : res (list el * Q) :=
  if negb active || Nat.eqb (length l) 0 || negb weatherable then Ok (l, 0)
  else match view f_skim l with
  | [] => Ok (l, 0)
  | data =>
      match k_eff c with
      | None => Raise TypeErr
      | Some ef =>
          let rm := rate * avg_frac_oil data * sec ts * k_unit c * ef in
          let tot := total data in
          let frac := if Qltb 1 (rm / tot) then 1 else rm / tot in
          Ok (remove_frac f_skim frac l, frac * tot)
      end
  end.

(** ** The burn *)

(** Area and thickness in SI units; [b_rho] is the standard density. *)
Record burn := mkBurn { b_on : bool; b_start : Z; b_area : Q; b_thick : Q; b_rho : Q; b_eff : option Q }.
(** What changes: the end of the active range and the burn rate of oil. *)
Record bstate := mkBst { bs_end : Z; bs_rate : Q }.
Definition min_thick : Q := 2 # 1000.
Definition burn_constant : Q := 58 # 1000000.

(** cleanup.py:617-643 (_init_rate_duration); the duration is rounded by timedelta.
    An average fraction of 0 gives no finite duration. *)
Definition burn_duration (c : burn) (f : Q) : Q := (b_thick c - min_thick) / (burn_constant * f).
Definition burn_init (c : burn) (f : Q) : res bstate :=
  if Qeq_bool f 0 then Raise ValueErr
  else Ok (mkBst (b_start c + np_round (burn_duration c f * inject_Z 1000000))
                 (burn_constant * (f * f) * b_area c)).

(** cleanup.py:576-615 (prepare_for_model_step). *)
Definition burn_prepare (c : burn) (s : bstate) (dt t : Z) (l : list el) : res (bool * Z * bstate * list el) :=
  if is_active (b_on c) (b_start c) (bs_end s) dt t then
    if Qle_bool (b_thick c) min_thick then Ok (false, 0%Z, s, l)
    else if Nat.eqb (count_fate f_burn l) 0 then
      match b_eff c with
      | None => Raise TypeErr
      | Some ef =>
          do l' <- update_status f_burn (ef * (b_rho c * (b_area c * b_thick c))) true l;
          do s' <- burn_init c (avg_frac_oil (view f_burn l'));
          Ok (true, step_time (b_start c) (bs_end s') dt t, s', l')
      end
    else Ok (true, step_time (b_start c) (bs_end s) dt t, s, l)
  else Ok (false, 0%Z, s, l).

(** cleanup.py:684-729 (weather_elements) for a given efficiency. *)
Definition burn_weather (c : burn) (s : bstate) (active weatherable : bool) (ts : Z) (l : list el) : res (list el * Q) :=
  if negb active || Nat.eqb (length l) 0 || negb weatherable then Ok (l, 0)
  else match view f_burn l with
  | [] => Ok (l, 0)
  | data =>
      match b_eff c with
      | None => Raise TypeErr
      | Some ef =>
          let tot := total data in
          let rm := b_rho c * (bs_rate s * ef * sec ts) in
          let rm := if Qltb tot rm then tot else rm in
          Ok (remove_frac f_burn (rm / tot) l, rm)
      end
  end.

(** ** Chemical dispersion *)

(** [d_spilled] is the mass of the spills that are on. *)
Record chem := mkChem { d_on : bool; d_a : Z; d_b : Z; d_frac : Q; d_eff : option Q; d_spilled : Q }.

(** cleanup.py:807-841 (prepare_for_model_step); the rate is [None] until it is set.
    If the interval is empty the rate is not finite. *)
Definition chem_prepare (c : chem) (rate : option Q) (dt t : Z) (l : list el) : res (bool * Z * option Q * list el) :=
  if is_active (d_on c) (d_a c) (d_b c) dt t then
    let ts := step_time (d_a c) (d_b c) dt t in
    if Nat.eqb (count_fate f_disp l) 0 then
      match d_eff c with
      | None => Raise TypeErr
      | Some ef =>
          let rm := d_spilled c * d_frac c * ef in
          do l' <- update_status f_disp rm false l;
          if (d_b c - d_a c =? 0)%Z then Raise ZeroDivErr
          else Ok (true, ts, Some (rm / sec (d_b c - d_a c)), l')
      end
    else Ok (true, ts, rate, l)
  else Ok (false, 0%Z, rate, l).

(** cleanup.py:855-883 (weather_elements). *)
Definition chem_weather (rate : option Q) (active weatherable : bool) (ts : Z) (l : list el) : res (list el * Q) :=
  if negb active || Nat.eqb (length l) 0 || negb weatherable then Ok (l, 0)
  else match view f_disp l with
  | [] => Ok (l, 0)
  | data =>
      match rate with
      | None => Raise TypeErr                                     (* None * float *)
      | Some r =>
          let rm := r * sec ts in
          let tot := total data in
          let frac := if Qltb 1 (rm / tot) then 1 else rm / tot in
          Ok (remove_frac f_disp frac l, frac * tot)
      end
  end.

(** model.py:1070-1073: with [n] substeps an option weathers [n] times, each time
    for the operating time of the whole step. *)
Fixpoint chem_substeps (rate : option Q) (active weatherable : bool) (ts : Z) (n : nat) (l : list el) : res (list el * Q) :=
  match n with
  | O => Ok (l, 0)
  | S n' =>
      do p <- chem_weather rate active weatherable ts l;
      do q <- chem_substeps rate active weatherable ts n' (fst p);
      Ok (fst q, snd p + snd q)
  end.
