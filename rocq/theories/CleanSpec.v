(** * Vocabulary for cleanup options *)
From Verif Require Import Py QLemmas PipModel PolyModel CleanModel.
Open Scope Q_scope.

(** ** Operating time *)

(** How long the intervals from [a] to [b] and from [s] to [e] overlap. *)
Definition overlap (a b s e : Z) : Z := Z.max 0 (Z.min b e - Z.max a s).

(** The window from [a] to [b] begins and ends within the step from [t]. *)
Definition within_step (a b dt t : Z) : Prop := (t < a)%Z /\ (b < t + dt)%Z.

(** The operating time of a skimmer, of a dispersion in the steps from [t];
    the elements at each step may be any. *)
Fixpoint skim_time (c : skimmer) (dt t : Z) (ls : list (list el)) : res Z :=
  match ls with
  | [] => Ok 0%Z
  | l :: r => do p <- skim_prepare c dt t l; do x <- skim_time c dt (t + dt) r; Ok (snd (fst p) + x)%Z
  end.
Fixpoint chem_time (c : chem) (rate : option Q) (dt t : Z) (ls : list (list el)) : res Z :=
  match ls with
  | [] => Ok 0%Z
  | l :: r =>
      do p <- chem_prepare c rate dt t l;
      do x <- chem_time c (snd (fst p)) dt (t + dt) r;
      Ok (snd (fst (fst p)) + x)%Z
  end.

(** ** Elements *)

Definition sane (e : el) : Prop :=
  Forall (fun x => 0 <= x) (e_comps e) /\ e_mass e == sumq (e_comps e) /\ 0 <= e_fw e <= 1.
Definition all_sane (l : list el) : Prop := forall e, In e l -> sane e.

(** To be marked: on the surface, with mass. *)
Definition eligible (e : el) : Prop := Z.land (e_fate e) f_surf = f_surf /\ 0 < e_mass e.
(** The mass that counts: of oil and water, or of oil. *)
Definition counted (mix : bool) (e : el) : Q := if mix then e_mass e / (1 - e_fw e) else e_mass e.
Definition sum_of (f : el -> Q) (l : list el) : Q := fold_right (fun e s => f e + s) 0 l.

(** [v] are the eligible ones of [l], in order. *)
Inductive eligibles : list el -> list el -> Prop :=
| el_nil : eligibles [] []
| el_yes e l v : eligible e -> eligibles l v -> eligibles (e :: l) (e :: v)
| el_no e l v : ~ eligible e -> eligibles l v -> eligibles (e :: l) v.

(** [l'] is [l] with the fate of the first [k] eligible elements set to [new]. *)
Inductive marked (new : Z) : nat -> list el -> list el -> Prop :=
| mk_done l : marked new 0 l l
| mk_yes k e l l' : eligible e -> marked new k l l' -> marked new (S k) (e :: l) (set_fate e new :: l')
| mk_no k e l l' : ~ eligible e -> marked new k l l' -> marked new k (e :: l) (e :: l').

(** The elements after a removal: those with the flag and some mass lose the same
    fraction of each component, the others nothing. *)
Definition lost (flag : Z) (frac : Q) (e e' : el) : Prop :=
  e_fate e' = e_fate e /\ e_status e' = e_status e /\ e_z e' = e_z e /\ e_fw e' = e_fw e /\ e_nonw e' = e_nonw e /\
  (Z.land (e_fate e) flag = flag /\ 0 < e_mass e ->
     Forall2 (fun x y => y == (1 - frac) * x) (e_comps e) (e_comps e') /\ e_mass e' == sumq (e_comps e')) /\
  (~ (Z.land (e_fate e) flag = flag /\ 0 < e_mass e) -> e' = e).

(** What there is to remove. *)
Definition available (flag : Z) (l : list el) : Q :=
  sum_of (fun e => if (Z.land (e_fate e) flag =? flag)%Z && Qltb 0 (e_mass e) then e_mass e else 0) l.

(** The oil without the water in it that counts for the rate. *)
Definition dry (flag : Z) (e : el) : Q :=
  if (Z.land (e_fate e) flag =? flag)%Z && Qltb 0 (e_mass e) then e_mass e * (1 - e_fw e) else 0.

(** A removal of [d], or of all that there is. *)
Definition removes (flag : Z) (d : Q) (l l' : list el) (booked : Q) : Prop :=
  (d <= available flag l -> booked == d) /\ (available flag l <= d -> booked == available flag l) /\
  sum_of e_mass l == sum_of e_mass l' + booked /\ 0 <= booked /\ all_sane l' /\
  exists frac, 0 <= frac <= 1 /\ Forall2 (lost flag frac) l l'.

(** ** Runs *)

(** A step: the elements when it is prepared, and when it is weathered. *)
Fixpoint skim_run (c : skimmer) (rate : Q) (dt t : Z) (ls : list (list el * list el)) : res Q :=
  match ls with
  | [] => Ok 0
  | (l, m) :: r =>
      do p <- skim_prepare c dt t l;
      do w <- skim_weather c rate (fst (fst p)) true (snd (fst p)) m;
      do x <- skim_run c rate dt (t + dt) r;
      Ok (snd w + x)
  end.
Fixpoint chem_run (c : chem) (rate : option Q) (dt t : Z) (ls : list (list el * list el)) : res Q :=
  match ls with
  | [] => Ok 0
  | (l, m) :: r =>
      do p <- chem_prepare c rate dt t l;
      do w <- chem_weather (snd (fst p)) (fst (fst (fst p))) true (snd (fst (fst p))) m;
      do x <- chem_run c (snd (fst p)) dt (t + dt) r;
      Ok (snd w + x)
  end.
Fixpoint burn_run (c : burn) (s : bstate) (dt t : Z) (ls : list (list el * list el)) : res Q :=
  match ls with
  | [] => Ok 0
  | (l, m) :: r =>
      do p <- burn_prepare c s dt t l;
      do w <- burn_weather c (snd (fst p)) (fst (fst (fst p))) true (snd (fst (fst p))) m;
      do x <- burn_run c (snd (fst p)) dt (t + dt) r;
      Ok (snd w + x)
  end.

(** ** Histories of an efficiency *)
Definition eff_run (first : option Q) (vs : list (option Q)) : eff := fold_left set_eff vs (new_eff first).
(** The last value that was accepted: a number between 0 and 1, or none. *)
Definition acceptable (v : option Q) : Prop := match v with Some x => 0 <= x <= 1 | None => False end.

(** ** Fates *)
Definition cleaned (e : el) : Prop :=
  Z.land (e_fate e) f_skim = f_skim \/ Z.land (e_fate e) f_burn = f_burn \/ Z.land (e_fate e) f_disp = f_disp.
Inductive fate_of (e : el) : Z -> Prop :=
| ft_tracer : e_nonw e = true -> fate_of e f_nonw
| ft_land : e_nonw e = false -> e_status e = s_on_land -> fate_of e f_nonw
| ft_cleaned : e_nonw e = false -> e_status e = s_in_water -> cleaned e -> fate_of e (e_fate e)
| ft_surface : e_nonw e = false -> e_status e = s_in_water -> ~ cleaned e -> e_z e == 0 -> fate_of e f_surf
| ft_below : e_nonw e = false -> e_status e = s_in_water -> ~ cleaned e -> 0 < e_z e -> fate_of e f_subs
| ft_above : e_nonw e = false -> e_status e = s_in_water -> ~ cleaned e -> e_z e < 0 -> fate_of e (e_fate e)
| ft_other : e_nonw e = false -> e_status e <> s_in_water -> e_status e <> s_on_land -> fate_of e (e_fate e).
