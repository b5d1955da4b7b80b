(** * Response options: the plans of a burn and of a skimming system

    Models gnome/weatherers/roc.py: Response (the time series of an operation),
    Burn (prepare_for_model_run, prepare_for_model_step, _collect, _transit,
    _burn, _clean, and the accounts of weather_elements) and Skim
    (prepare_for_model_step, _collect, _transit, _offload).

    Times are rational seconds, volumes rational numbers; floats are rationals
    without rounding.  The thickness of the slick, the mean water content and
    whether the operation is scheduled are those of the time step (the code
    reads them again, unchanged, in every round).  The unit conversions of the
    library are factors: [gal] gallons in a cubic foot, and multiplication and
    division by it are inverse.  What the elements really lose
    (_remove_mass_simple, RvwModel.v) is a parameter.  Not modelled: Disperse's
    missions (simulate_boat, simulate_plane), Platform, the barge cycle of Skim,
    reports, areas covered, and the counters of burns. *)
From Verif Require Import Py QLemmas.
Open Scope Q_scope.

(** ** The time series of an operation *)

(** roc.py:130-136 (_is_active); times in seconds. *)
Definition is_active (ts : list (Z * Z)) (now step : Z) : bool :=
  existsb (fun '(a, b) => ((a <=? now) && (2 * now + step <=? 2 * b))%Z) ts.

(** roc.py:183-192 (index_of), from entry [i] on. *)
Fixpoint index_from (i : Z) (ts : list (Z * Z)) (t : Z) : Z :=
  match ts with
  | [] => (-1)%Z
  | (a, b) :: r => if ((a <=? t) && (t <? b))%Z then i else index_from (i + 1)%Z r t
  end.
Definition index_of (ts : list (Z * Z)) (t : Z) : Z := index_from 0 ts t.

(** roc.py:211-217: the gap that [t] is in. *)
Fixpoint gap_from (i : Z) (ts : list (Z * Z)) (t : Z) : option Z :=
  match ts with
  | (_, b) :: r =>
      match r with
      | (a2, _) :: _ => if ((b <=? t) && (t <? a2))%Z then Some (i + 1)%Z else gap_from (i + 1)%Z r t
      | [] => None
      end
  | [] => None
  end.

(** roc.py:194-217 (next_interval_index); without entries it is an IndexError. *)
Definition next_interval_index (ts : list (Z * Z)) (t : Z) : res (option Z) :=
  match ts with
  | [] => Raise IndexErr
  | (a0, _) :: _ =>
      if (snd (last ts (0, 0)) <=? t)%Z then Ok None
      else if (t <? a0)%Z then Ok (Some 0%Z)
      else let idx := index_of ts t in
           if (-1 <? idx)%Z then Ok (if (idx + 1 =? Z.of_nat (length ts))%Z then None else Some (idx + 1)%Z)
           else Ok (gap_from 0 ts t)
  end.

(** roc.py:219-234 (time_to_next_interval). *)
Definition time_to_next (ts : list (Z * Z)) (t : Z) : res (option Z) :=
  let cur := index_of ts t in
  if (cur =? -1)%Z then
    do n <- next_interval_index ts t;
    match n with
    | None => Ok None
    | Some i => do e <- py_get ts i; Ok (Some (fst e - t)%Z)
    end
  else do e <- py_get ts cur; Ok (Some (snd e - t)%Z).

(** ** Burn *)

Inductive act := Collect | Transit | BurnA | Clean | SkimA | Offload.

Record bpar := mkBP {
  p_swath : Q; p_speed : Q; p_throughput : Q; p_draft : Q;
  p_capmax : Q;           (* _boom_capacity_max, ft^3 *)
  p_offset : Q;           (* _offset_time, s *)
  p_gal : Q }.            (* gallons in a cubic foot *)

(** roc.py:1737-1756, with lengths in feet, the draft in inches, the speed in
    knots. *)
Definition burn_setup (boom_length draft speed throughput offset gal : Q) : bpar :=
  let swath := (3 # 10) * boom_length in
  let area := swath * ((4125 # 10000) * boom_length / 3) * 2 / 3 in
  mkBP swath speed throughput draft (draft / 36 * area) (offset * (987 # 100000) / speed * 60) gal.

Record bst := mkBS {
  s_coll : bool; s_tran : bool; s_burn : bool; s_clean : bool; s_full : bool;
  s_cap : Q;              (* _boom_capacity: what still fits in *)
  s_off : Q; s_brem : Q; s_crem : Q;      (* remaining times *)
  s_btime : option Q; s_brate : option Q;
  s_t : Q;                (* _time_remaining *)
  s_tcol : Q; s_tbur : Q; (* _ts_collected, _ts_burned *)
  s_burning : Q;          (* _time_burning *)
  s_log : list (act * Q) }.

Record benv := mkBE { e_thick : Q; e_fw : Q; e_active : bool }.

(** roc.py:1784-1785 and __init__ (1722-1735): a new option, and what
    prepare_for_model_run sets again (1776-1785): the flags, the capacity and
    the time spent burning. *)
Definition burn_new (p : bpar) : bst :=
  mkBS true false false false false (p_capmax p) 0 0 0 None None 0 0 0 0 [].
Definition burn_again (p : bpar) (s : bst) : bst :=
  mkBS true false false false false (p_capmax p) (s_off s) (s_brem s) (s_crem s) (s_btime s) (s_brate s)
       (s_t s) (s_tcol s) (s_tbur s) 0 (s_log s).

Definition Qltb (a b : Q) : bool := negb (Qle_bool b a).

(** roc.py:1835-1890 (_collect).  A rate of 0 with a slick that has a thickness
    never fills the boom (float division: inf), and with a full boom nothing
    can be said (nan). *)
Definition collect (p : bpar) (e : benv) (s : bst) : res bst :=
  let brate := match s_brate s with None => Some ((14 # 100) * (1 - e_fw e)) | r => r end in
  let encounter := (6313 # 100) * p_swath p * e_thick e * p_speed p in
  let rr := encounter * p_throughput p in
  do fill <- (if Qltb 0 (e_thick e) then
                if Qeq_bool rr 0 then if Qeq_bool (s_cap s) 0 then Raise ZeroDivErr else Ok None
                else Ok (Some (s_cap s * p_gal p / rr))
              else Ok (Some (s_t s)));
  let never := mkBS (s_coll s) (s_tran s) (s_burn s) (s_clean s) (s_full s)
                    (s_cap s - rr * s_t s / p_gal p) (s_off s) (s_brem s) (s_crem s) (s_btime s) brate
                    0 (rr * s_t s / p_gal p) (s_tbur s) (s_burning s) (s_log s ++ [(Collect, s_t s)]) in
  match fill with
  | None => Ok never
  | Some f =>
      if Qle_bool (s_t s) f then Ok never
      else if Qltb 0 (s_t s) then
        Ok (mkBS false true (s_burn s) (s_clean s) true
                 (s_cap s - rr * f / p_gal p) (p_offset p) (s_brem s) (s_crem s) (s_btime s) brate
                 (s_t s - f) (rr * f / p_gal p) (s_tbur s) (s_burning s) (s_log s ++ [(Collect, f)]))
      else Ok (mkBS (s_coll s) (s_tran s) (s_burn s) (s_clean s) (s_full s) (s_cap s) (s_off s) (s_brem s) (s_crem s)
                    (s_btime s) brate (s_t s) (s_tcol s) (s_tbur s) (s_burning s) (s_log s))
  end.

(** roc.py:1892-1913 (_transit). *)
Definition transit (s : bst) : bst :=
  if Qltb (s_t s) (s_off s) then
    mkBS (s_coll s) (s_tran s) (s_burn s) (s_clean s) (s_full s) (s_cap s) (s_off s - s_t s) (s_brem s) (s_crem s)
         (s_btime s) (s_brate s) 0 (s_tcol s) (s_tbur s) (s_burning s) (s_log s ++ [(Transit, s_t s)])
  else if Qltb 0 (s_t s) then
    mkBS (if s_full s then s_coll s else true) false (if s_full s then true else s_burn s) (s_clean s) (s_full s)
         (s_cap s) 0 (s_brem s) (s_crem s)
         (s_btime s) (s_brate s) (s_t s - s_off s) (s_tcol s) (s_tbur s) (s_burning s) (s_log s ++ [(Transit, s_off s)])
  else s.

(** roc.py:1915-1962 (_burn).  np.isclose(x, 0) is |x| <= 1e-8. *)
Definition burn (p : bpar) (s : bst) : res bst :=
  do bt <- match s_btime s with
           | Some b => Ok (b, s_brem s)
           | None => match s_brate s with
                     | None => Raise TypeErr
                     | Some r => if Qeq_bool r 0 then Raise ZeroDivErr else
                         let b := (33 # 100) * p_draft p / r * 60 in
                         Ok (b, if Qle_bool (Qabs (s_cap s)) (1 # 100000000) then b
                                else b * (1 - s_cap s) / p_capmax p)
                     end
           end;
  let '(b, brem) := bt in
  if Qltb (s_t s) brem then
    Ok (mkBS (s_coll s) (s_tran s) (s_burn s) (s_clean s) false (s_cap s) (s_off s) (brem - s_t s) (s_crem s)
             (Some b) (s_brate s) 0 (s_tcol s) (s_tbur s) (s_burning s + (brem - s_t s)) (s_log s ++ [(BurnA, s_t s)]))
  else if Qltb 0 (s_t s) then
    let burned := p_capmax p - s_cap s in
    Ok (mkBS (s_coll s) (s_tran s) false true false (s_cap s + burned) (s_off s) 0 3600
             (Some b) (s_brate s) (s_t s - brem) (s_tcol s) burned (s_burning s + brem) (s_log s ++ [(BurnA, brem)]))
  else Ok (mkBS (s_coll s) (s_tran s) (s_burn s) (s_clean s) false (s_cap s) (s_off s) brem (s_crem s)
                (Some b) (s_brate s) (s_t s) (s_tcol s) (s_tbur s) (s_burning s) (s_log s)).

(** roc.py:1964-1987 (_clean). *)
Definition clean (p : bpar) (e : benv) (s : bst) : bst :=
  if Qltb (s_t s) (s_crem s) then
    mkBS (s_coll s) (s_tran s) (s_burn s) (s_clean s) (s_full s) (s_cap s) (s_off s) (s_brem s) (s_crem s - s_t s)
         None None 0 (s_tcol s) (s_tbur s) (s_burning s) (s_log s ++ [(Clean, s_t s)])
  else if Qltb 0 (s_t s) then
    if e_active e then
      mkBS (s_coll s) true (s_burn s) false (s_full s) (s_cap s) (p_offset p) (s_brem s) 0
           None None (s_t s - s_crem s) (s_tcol s) (s_tbur s) (s_burning s) (s_log s ++ [(Clean, s_crem s)])
    else
      mkBS (s_coll s) (s_tran s) (s_burn s) false (s_full s) (s_cap s) (s_off s) (s_brem s) 0
           None None 0 (s_tcol s) (s_tbur s) (s_burning s) (s_log s ++ [(Clean, s_crem s)])
  else mkBS (s_coll s) (s_tran s) (s_burn s) (s_clean s) (s_full s) (s_cap s) (s_off s) (s_brem s) (s_crem s)
            None None (s_t s) (s_tcol s) (s_tbur s) (s_burning s) (s_log s).

Definition set_coll (s : bst) : bst :=
  mkBS true (s_tran s) (s_burn s) (s_clean s) (s_full s) (s_cap s) (s_off s) (s_brem s) (s_crem s)
       (s_btime s) (s_brate s) (s_t s) (s_tcol s) (s_tbur s) (s_burning s) (s_log s).

(** roc.py:1816-1833: one round. *)
Definition round (p : bpar) (e : benv) (s : bst) : res bst :=
  let s0 := if negb (s_coll s) && negb (s_tran s) && negb (s_burn s) && negb (s_clean s) && e_active e
            then set_coll s else s in
  do s1 <- (if s_coll s0 then collect p e s0 else Ok s0);
  let s2 := if s_tran s1 then transit s1 else s1 in
  do s3 <- (if s_burn s2 then burn p s2 else Ok s2);
  Ok (if s_clean s3 then clean p e s3 else s3).

(** The loop (1815), with a bound on the rounds: RecursionError stands for a
    loop that does not come to an end within it. *)
Fixpoint rounds (n : nat) (p : bpar) (e : benv) (s : bst) : option (res bst) :=
  if Qltb 0 (s_t s) then
    match n with
    | O => None
    | S k => match round p e s with
             | Ok s' => rounds k p e s'
             | Raise x => Some (Raise x)
             end
    end
  else Some (Ok s).

(** roc.py:1787-1833 (prepare_for_model_step); the flag: the option is active. *)
Definition start_step (dt : Q) (s : bst) : bst :=
  mkBS (s_coll s) (s_tran s) (s_burn s) (s_clean s) (s_full s) (s_cap s) (s_off s) (s_brem s) (s_crem s)
       (s_btime s) (s_brate s) dt 0 0 (s_burning s) [].
Definition step_active (e : benv) (s : bst) : bool := e_active e || s_burn s || s_clean s.
Definition burn_step (n : nat) (p : bpar) (e : benv) (dt : Q) (s : bst) : option (res bst) :=
  if step_active e s then rounds n p e (start_step dt s)
  else Some (Ok (mkBS (s_coll s) (s_tran s) (s_burn s) (s_clean s) (s_full s) (s_cap s) (s_off s) (s_brem s) (s_crem s)
                      (s_btime s) (s_brate s) (s_t s) 0 0 (s_burning s) [])).

(** ** The accounts of a burn (roc.py:2007-2045) *)

(** 'boomed' and 'burned' of the mass balance, and the two of each system. *)
Record books := mkBk { k_boomed : Q; k_burned : Q; k_sys : dict (Q * Q) }.

Definition sys_of (k : books) (id : Z) : Q * Q := match dget id (k_sys k) with Some x => x | None => (0, 0) end.

(** [collected] and [burned] are the planned masses, [actual] is what the
    elements lost; the last result is what the boom's capacity is raised by. *)
Definition book (k : books) (id : Z) (collected actual burned : Q) : books * Q :=
  let '(k1, back) :=
    if Qltb 0 collected then
      let '(a, b) := sys_of k id in
      (mkBk (k_boomed k + actual) (k_burned k) (dset id (a + actual, b) (k_sys k)),
       if Qeq_bool actual collected then 0 else collected - actual)
    else (k, 0) in
  if Qltb 0 burned then
    let boomed := k_boomed k1 - burned in
    let '(a, b) := sys_of k1 id in
    if Qltb boomed 0 then
      (mkBk 0 (k_burned k1 + burned + boomed) (dset id (a, b + burned + boomed) (k_sys k1)), back)
    else (mkBk boomed (k_burned k1 + burned) (dset id (a, b + burned) (k_sys k1)), back)
  else (k1, back).

(** roc.py:2009-2022: the masses are the volumes times the density of the oil;
    the difference, a mass, is given back to the boom as a volume. *)
Definition burn_weather (s : bst) (m3 density actual : Q) (k : books) (id : Z) : books * bst :=
  let '(k', back) := book k id (s_tcol s * m3 * density) actual (s_tbur s * m3 * density) in
  (k', mkBS (s_coll s) (s_tran s) (s_burn s) (s_clean s) (s_full s) (s_cap s + back) (s_off s) (s_brem s) (s_crem s)
            (s_btime s) (s_brate s) (s_t s) (s_tcol s) (s_tbur s) (s_burning s) (s_log s)).

(** ** Skim *)

Record kpar := mkKP {
  q_swath : Q; q_speed : Q; q_throughput : Q; q_pump : Q;    (* nameplate_pump *)
  q_recovery : Q; q_decant : Q; q_dpump : Q; q_storage : Q;  (* storage in gallons *)
  q_transit : Q; q_offload : Q }.        (* transit_time * 60; offload + rig_time * 60 *)

Record kst := mkKS {
  w_coll : bool; w_tran : bool; w_offl : bool;
  w_storage : Q;                           (* _storage_remaining *)
  w_trem : Q; w_orem : Q; w_t : Q;
  w_fills : Q; w_time : Q; w_fluid : Q; w_emul : Q; w_oil : Q; w_water : Q; w_decanted : Q; w_retained : Q;
  w_log : list (act * Q) }.

Definition skim_new (q : kpar) : kst := mkKS true false false (q_storage q) 0 0 0 0 0 0 0 0 0 0 0 [].
(** roc.py:2153-2183: another run; two of the three flags stay as they are. *)
Definition skim_again (q : kpar) (s : kst) : kst :=
  mkKS true (w_tran s) (w_offl s) (q_storage q) (w_trem s) (w_orem s) (w_t s) (w_fills s) (w_time s) (w_fluid s)
       (w_emul s) (w_oil s) (w_water s) (w_decanted s) (w_retained s) (w_log s).

(** roc.py:2235-2247: the swath that the pump can serve. *)
Definition swath (q : kpar) (e : benv) : Q :=
  let most := if Qltb 0 (q_recovery q) && Qltb 0 (q_throughput q) && Qltb 0 (e_thick e)
              then q_pump q * q_recovery q / ((6313 # 100) * q_speed q * e_thick e * q_throughput q) else 0 in
  if Qltb most (q_swath q) then most else q_swath q.
Definition encounter (q : kpar) (e : benv) : Q := e_thick e * q_speed q * swath q e * (6313 # 100).

(** roc.py:2256-2316: the rates; None if the pump has nothing to do. *)
Record rates := mkRt { r_total : Q; r_emul : Q; r_retain : Q; r_oil : Q; r_water : Q; r_decant : Q; r_kept : Q }.
Definition skim_rates (q : kpar) (e : benv) : option rates :=
  let er := encounter q e in
  if Qltb 0 (q_recovery q) then
    let total0 := er * q_throughput q / q_recovery q in
    let thr := if Qltb (q_pump q) total0 then q_pump q * q_recovery q / er else q_throughput q in
    let total := if Qltb (q_pump q) total0 then er * thr / q_recovery q else total0 in
    if Qltb 0 thr then
      let emul := er * thr in
      let water := (1 - q_recovery q) * total in
      let kept := water * (1 - q_decant q) in
      let computed := q_decant q * (total - emul) in
      let extra := if Qltb (q_dpump q) computed then computed - q_dpump q else 0 in
      let recov := emul + water in
      let retain := emul + kept + extra in
      let fwater := recov - emul in
      let fkept := retain - emul in
      Some (mkRt total emul retain (emul * (1 - e_fw e)) fwater (fwater - fkept) fkept)
    else None
  else None.

Definition no_op (s : kst) : kst :=
  mkKS (w_coll s) (w_tran s) (w_offl s) (w_storage s) (w_trem s) (w_orem s) 0 (w_fills s) (w_time s) (w_fluid s)
       (w_emul s) (w_oil s) (w_water s) (w_decanted s) (w_retained s) (w_log s).

(** roc.py:2233-2372 (_collect of Skim). *)
Definition skim_collect (q : kpar) (e : benv) (s : kst) : kst :=
  if Qltb 0 (encounter q e) then
    match skim_rates q e with
    | None => no_op s
    | Some r =>
        let fill := (7 # 10) * w_storage s / r_retain r * 60 * 60 in
        let more := Qltb (w_t s) fill in
        let tc := if more then w_t s else fill in
        let fluid := r_retain r * (tc / 60) in
        mkKS (if more then w_coll s else false) (if more then w_tran s else true) (w_offl s)
             (if Qltb (w_storage s) fluid then 0 else w_storage s - fluid)
             (if more then w_trem s else q_transit q) (w_orem s) (if more then 0 else w_t s - fill)
             (w_fills s + (if Qltb 0 fluid && Qle_bool fluid (w_storage s) then fluid / q_storage q
                           else if Qltb 0 (w_storage s) then w_storage s / q_storage q else 0))
             (w_time s + tc) (w_fluid s + fluid) (w_emul s + r_emul r * tc / 60) (w_oil s + r_oil r * tc / 60)
             (w_water s + r_water r * tc / 60) (w_decanted s + r_decant r * tc / 60) (w_retained s + r_kept r * tc / 60)
             (w_log s ++ [(SkimA, tc)])
    end
  else no_op (mkKS (w_coll s) (w_tran s) (w_offl s) (w_storage s) (w_trem s) (w_orem s) (w_t s) (w_fills s) (w_time s)
                   (w_fluid s) (w_emul s) (w_oil s) (w_water s) (w_decanted s) (w_retained s) (w_log s ++ [(SkimA, w_t s)])).

(** roc.py:2374-2395 (_transit of Skim). *)
Definition skim_transit (q : kpar) (s : kst) : kst :=
  if Qle_bool (w_trem s) (w_t s) then
    let empty := Qeq_bool (w_storage s) 0 in
    mkKS (if empty then w_coll s else true) false (if empty then true else w_offl s) (w_storage s) 0
         (if empty then q_offload q else w_orem s) (w_t s - w_trem s) (w_fills s) (w_time s) (w_fluid s)
         (w_emul s) (w_oil s) (w_water s) (w_decanted s) (w_retained s) (w_log s ++ [(Transit, w_trem s)])
  else mkKS (w_coll s) (w_tran s) (w_offl s) (w_storage s) (w_trem s - w_t s) (w_orem s) 0 (w_fills s) (w_time s)
            (w_fluid s) (w_emul s) (w_oil s) (w_water s) (w_decanted s) (w_retained s) (w_log s ++ [(Transit, w_t s)]).

(** roc.py:2397-2413 (_offload). *)
Definition offload (q : kpar) (s : kst) : kst :=
  if Qle_bool (w_orem s) (w_t s) then
    mkKS (w_coll s) true false (q_storage q) (q_transit q) 0 (w_t s - w_orem s) (w_fills s) (w_time s) (w_fluid s)
         (w_emul s) (w_oil s) (w_water s) (w_decanted s) (w_retained s) (w_log s ++ [(Offload, w_orem s)])
  else mkKS (w_coll s) (w_tran s) (w_offl s) (w_storage s) (w_trem s) (w_orem s - w_t s) 0 (w_fills s) (w_time s)
            (w_fluid s) (w_emul s) (w_oil s) (w_water s) (w_decanted s) (w_retained s) (w_log s ++ [(Offload, w_t s)]).

(** roc.py:2217-2231: one round, and the loop. *)
Definition skim_round (q : kpar) (e : benv) (s : kst) : kst :=
  let s1 := if w_coll s then skim_collect q e s else s in
  let s2 := if w_tran s1 then skim_transit q s1 else s1 in
  if w_offl s2 then offload q s2 else s2.

Definition skim_goes (e : benv) (s : kst) : bool :=
  Qltb 0 (w_t s) && (e_active e || w_tran s || w_offl s).

Fixpoint skim_rounds (n : nat) (q : kpar) (e : benv) (s : kst) : option kst :=
  if skim_goes e s then match n with O => None | S k => skim_rounds k q e (skim_round q e s) end
  else Some s.

(** roc.py:2185-2231 (prepare_for_model_step); None of the inner option: not
    active, nothing changes. *)
Definition skim_start (dt : Q) (s : kst) : kst :=
  mkKS (w_coll s) (w_tran s) (w_offl s) (w_storage s) (w_trem s) (w_orem s) dt 0 0 0 0 0 0 0 0 [].
Definition skim_step (n : nat) (q : kpar) (e : benv) (dt : Q) (s : kst) : option kst :=
  if e_active e || w_tran s || w_offl s then skim_rounds n q e (skim_start dt s) else Some s.
