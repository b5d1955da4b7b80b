(** * Spills: the amount, its units, the substance, the number of elements and the windages

    Models the part of a spill a script sets: Spill.__init__ (gnome/spills/spill.py:117-190), the setters of the
    substance (208-235), the number of elements (257-263), the amount (284-307) and the units (317-355),
    Spill.set_amount_uncertainty (389-413), the helper functions that make a spill and give its substance a windage
    (492-522, called by 524-957), the setters of a release's mass, rate and number of elements
    (gnome/spills/release.py:263-313) and of a substance's windages (gnome/spills/substance.py:138-182).

    A script is a list of operations on a world of substances, releases and spills.  Substances and releases are
    objects: a spill refers to them, and several spills may refer to the same one.  An operation that raises leaves
    what it changed before raising.

    Simplifications.  Numbers are exact rationals.  nucos is outside the repository: a unit is what nucos finds under
    the name given, that is a mass of so many kilograms, a volume of so many cubic metres, or something else; and a
    conversion between a mass and a volume raises nucos.InvalidUnitError, which is how spill.py uses it.
    Not modelled: units of None, the warnings, the substances given by the name of an oil (208-235 tries to make a
    GnomeOil), the density of an oil (taken as a number; see the component on oils), the positions and times of the
    release, GridRelease, which computes its own number of elements. *)

From Coq Require Import ZArith List Bool Lia QArith.
From Verif Require Import Py.
Import ListNotations.
Open Scope Z_scope.

(** ** Units *)

(** What nucos.get_abbreviation and nucos.get_supported_names (gnome/__init__.py:148-159) say of a name: a unit of
    mass of so many kilograms, a unit of volume of so many cubic metres, a unit of another kind. *)
Inductive unit :=
| Mass (kilograms : Q)
| Volume (cubic_metres : Q)
| OtherUnit.

(** spill.py:317-331 (_check_units): only masses and volumes; anything else is a ValueError. *)
Definition check_units (u : unit) : res unit :=
  match u with
  | Mass _ | Volume _ => Ok u
  | OtherUnit => Raise ValueErr
  end.

(** ** Substances *)

(** A persistence of the windage: a number of seconds or infinity. *)
Inductive persistence := Seconds (n : Z) | Infinite.

Record substance := mkSub {
  s_density : Q;               (* standard_density *)
  s_range : list Q;            (* windage_range *)
  s_persist : Z }.             (* windage_persist *)

(** substance.py:147-160 (windage_range setter): the default when None; two numbers, neither negative. *)
Definition check_range (rg : option (list Q)) : res (list Q) :=
  let rg := match rg with None => [(1 # 100)%Q; (4 # 100)%Q] | Some l => l end in
  if existsb (fun x => negb (Qle_bool 0 x)) rg || negb (Nat.eqb (length rg) 2) then Raise ValueErr else Ok rg.

(** substance.py:170-182 (windage_persist setter): the default when None; infinity is -1; not 0. *)
Definition check_persist (p : option persistence) : res Z :=
  let n := match p with None => 900 | Some Infinite => -1 | Some (Seconds n) => n end in
  if n =? 0 then Raise ValueErr else Ok n.

(** substance.py:67-115 (Substance.__init__): the range, then the persistence, then the density. *)
Definition new_substance (density : Q) (rg : option (list Q)) (p : option persistence) : res substance :=
  do r <- check_range rg;
  do n <- check_persist p;
  Ok (mkSub density r n).

(** ** Releases *)

Record release := mkRel {
  l_num : option Z;            (* _num_elements *)
  l_per : option Z;            (* _num_per_timestep *)
  l_mass : Q }.                (* _release_mass, kilograms *)

(** release.py:263-271 (release_mass setter): a negative mass is 0. *)
Definition set_mass (m : Q) (r : release) : release :=
  mkRel (l_num r) (l_per r) (if Qle_bool 0 m then m else 0%Q).

(** release.py:294-313 (num_elements setter). *)
Definition set_num (v : option Z) (r : release) : res release :=
  match v with
  | None => Ok (mkRel None (match l_per r with None => Some 1 | p => p end) (l_mass r))
  | Some n => if n <? 0 then Raise ValueErr else Ok (mkRel (Some n) None (l_mass r))
  end.

(** release.py:273-292 (num_per_timestep setter): the rate is stored first; the test [val is not None or val < 0]
    raises a TypeError for None, after the rate has been dropped. *)
Definition set_per (v : option Z) (r : release) : release * option exc :=
  match v with
  | Some n => (mkRel None (Some n) (l_mass r), None)
  | None => (mkRel (l_num r) None (l_mass r), Some TypeErr)
  end.

(** release.py:137-213 (Release.__init__): 1000 elements when neither is given; not both. *)
Definition new_release (num per : option Z) (mass : Q) : res release :=
  match num, per with
  | None, None => set_num (Some 1000) (mkRel None None (if Qle_bool 0 mass then mass else 0%Q))
  | Some _, Some _ => Raise TypeErr
  | _, _ => set_num num (mkRel None per (if Qle_bool 0 mass then mass else 0%Q))
  end.

(** ** Spills *)

Record spill := mkSpill {
  p_release : nat;             (* which release *)
  p_sub : nat;                 (* which substance *)
  p_units : unit;              (* _units *)
  p_scale : Q }.               (* amount_uncertainty_scale *)

Record world := mkWorld {
  w_subs : list substance;
  w_rels : list release;
  w_spills : list spill }.

Definition start : world := mkWorld [] [] [].

(** Replacing an entry of a list. *)
Fixpoint upd {A} (l : list A) (i : nat) (x : A) : list A :=
  match l, i with
  | [], _ => []
  | _ :: t, O => x :: t
  | y :: t, S j => y :: upd t j x
  end.

(** spill.py:283-293 (amount getter): kilograms into the units; when those are a volume, through the density. *)
Definition from_mass (u : unit) (density mass : Q) : res Q :=
  match u with
  | Mass k => Ok (mass / k)%Q
  | Volume v => if Qeq_bool density 0 then Raise ZeroDivErr else Ok (mass / density / v)%Q
  | OtherUnit => Raise ValueErr
  end.

(** spill.py:295-307 (amount setter): what is stored as the mass of the release. *)
Definition to_mass (u : unit) (density a : Q) : res Q :=
  if negb (Qle_bool 0 a) then Raise ValueErr else
  match u with
  | Mass k => Ok (a * k)%Q
  | Volume v => Ok (a * v * density)%Q
  | OtherUnit => Raise ValueErr
  end.

(** The amount a spill reports. *)
Definition amount (w : world) (i : nat) : res Q :=
  match nth_error (w_spills w) i with
  | None => Raise IndexErr
  | Some p =>
      match nth_error (w_rels w) (p_release p), nth_error (w_subs w) (p_sub p) with
      | Some r, Some s => from_mass (p_units p) (s_density s) (l_mass r)
      | _, _ => Raise AttrErr
      end
  end.

Definition put_rel (w : world) (j : nat) (r : release) : world := mkWorld (w_subs w) (upd (w_rels w) j r) (w_spills w).
Definition put_sub (w : world) (j : nat) (s : substance) : world := mkWorld (upd (w_subs w) j s) (w_rels w) (w_spills w).
Definition put_spill (w : world) (j : nat) (p : spill) : world := mkWorld (w_subs w) (w_rels w) (upd (w_spills w) j p).

(** Setting the amount of a spill with this release, substance and units. *)
Definition give_amount (w : world) (p : spill) (a : Q) : world * option exc :=
  match nth_error (w_rels w) (p_release p), nth_error (w_subs w) (p_sub p) with
  | Some r, Some s =>
      match to_mass (p_units p) (s_density s) a with
      | Raise e => (w, Some e)
      | Ok m => (put_rel w (p_release p) (set_mass m r), None)
      end
  | _, _ => (w, Some AttrErr)
  end.

(** spill.py:212-219 (substance setter): None is a new NonWeatheringSubstance of density 1000; otherwise the object
    given.  Gives the world and the substance used. *)
Definition pick_sub (w : world) (o : option nat) : world * nat :=
  match o with
  | Some k => (w, k)
  | None => (mkWorld (w_subs w ++ [mkSub 1000 [(1 # 100)%Q; (4 # 100)%Q] 900]) (w_rels w) (w_spills w), length (w_subs w))
  end.

(** spill.py:161-184 (Spill.__init__ from [self.on = on]): the substance, the release (a new PointLineRelease of so
    many elements, or the one given, whose own number of elements is set again), the units, the amount, the scale.
    Gives the world and the spill, or the error; what was done to the release and the substances stays. *)
Definition make_spill (w : world) (sub rel : option nat) (num : option Z) (a : Q) (u : unit) (scale : Q) : world * res spill :=
  let (w1, k) := pick_sub w sub in
  let placed :=
    match rel with
    | Some j => match nth_error (w_rels w1) j with
                | Some r => match set_num (l_num r) r with
                            | Ok r' => (put_rel w1 j r', Ok j)
                            | Raise e => (w1, Raise e)
                            end
                | None => (w1, Raise AttrErr)
                end
    | None => match new_release num None 0 with
              | Ok r => match set_num num r with
                        | Ok r' => (mkWorld (w_subs w1) (w_rels w1 ++ [r']) (w_spills w1), Ok (length (w_rels w1)))
                        | Raise e => (w1, Raise e)
                        end
              | Raise e => (w1, Raise e)
              end
    end in
  match placed with
  | (w2, Raise e) => (w2, Raise e)
  | (w2, Ok j) =>
      match check_units u with
      | Raise e => (w2, Raise e)
      | Ok u' =>
          let p := mkSpill j k u' scale in
          match give_amount w2 p a with
          | (w3, Some e) => (w3, Raise e)
          | (w3, None) => (w3, Ok p)
          end
      end
  end.

(** Setting the windage range and the persistence of a substance (substance.py:147-160, 170-182). *)
Definition set_range (w : world) (k : nat) (rg : option (list Q)) : world * option exc :=
  match nth_error (w_subs w) k with
  | None => (w, Some AttrErr)
  | Some s => match check_range rg with
              | Ok l => (put_sub w k (mkSub (s_density s) l (s_persist s)), None)
              | Raise e => (w, Some e)
              end
  end.
Definition set_persist (w : world) (k : nat) (p : option persistence) : world * option exc :=
  match nth_error (w_subs w) k with
  | None => (w, Some AttrErr)
  | Some s => match check_persist p with
              | Ok n => (put_sub w k (mkSub (s_density s) (s_range s) n), None)
              | Raise e => (w, Some e)
              end
  end.

(** spill.py:492-522 (_setup_spill) after the release of the helper has been made: the spill, then the windages on
    its substance when they are given. *)
Definition setup_spill (w : world) (sub : option nat) (rel : nat) (a : Q) (u : unit)
    (rg : option (list Q)) (per : option persistence) : world * res spill :=
  match make_spill w sub (Some rel) (Some 1000) a u 0 with
  | (w1, Raise e) => (w1, Raise e)
  | (w1, Ok p) =>
      match (match rg with None => (w1, None) | Some _ => set_range w1 (p_sub p) rg end) with
      | (w2, Some e) => (w2, Raise e)
      | (w2, None) =>
          match (match per with None => (w2, None) | Some _ => set_persist w2 (p_sub p) per end) with
          | (w3, Some e) => (w3, Raise e)
          | (w3, None) => (w3, Ok p)
          end
      end
  end.

(** spill.py:524-608 (point_line_spill), 610-693 and 764-852 as well: a release of so many elements, then
    _setup_spill. *)
Definition helper_spill (w : world) (sub : option nat) (num : option Z) (a : Q) (u : unit)
    (rg : option (list Q)) (per : option persistence) : world * res spill :=
  match new_release num None 0 with
  | Raise e => (w, Raise e)
  | Ok r =>
      let w1 := mkWorld (w_subs w) (w_rels w ++ [r]) (w_spills w) in
      setup_spill w1 sub (length (w_rels w)) a u rg per
  end.

(** spill.py:389-413 (set_amount_uncertainty), [Some true] up, [Some false] down, [None] anything else: the amount is
    read, scaled and set again.  The result is whether it was done. *)
Definition shift_amount (w : world) (i : nat) (dir : option bool) : world * res bool :=
  match nth_error (w_spills w) i with
  | None => (w, Raise IndexErr)
  | Some p =>
      if Qle_bool (p_scale p) 0 || negb (Qle_bool (p_scale p) 1) then (w, Ok false) else
      match dir with
      | None => (w, Ok false)
      | Some up =>
          let f := (if up then 1 + (2 # 3) * p_scale p else 1 - (2 # 3) * p_scale p)%Q in
          match amount w i with
          | Raise e => (w, Raise e)
          | Ok a => match give_amount w p (a * f)%Q with
                    | (w1, Some e) => (w1, Raise e)
                    | (w1, None) => (w1, Ok true)
                    end
          end
      end
  end.

(** ** Scripts *)

Inductive op :=
| NewSub (density : Q) (rg : option (list Q)) (p : option persistence)
| NewRel (num per : option Z) (mass : Q)
| NewSpill (sub rel : option nat) (num : option Z) (a : Q) (u : unit) (scale : Q)
| Helper (sub : option nat) (num : option Z) (a : Q) (u : unit) (rg : option (list Q)) (p : option persistence)
| SetAmount (i : nat) (a : Q)
| SetUnits (i : nat) (u : unit)
| SetSub (i : nat) (sub : option nat)
| SetScale (i : nat) (scale : Q)
| SetNum (j : nat) (v : option Z)            (* on the release j *)
| SetPer (j : nat) (v : option Z)
| SetMass (j : nat) (m : Q)
| SetRange (k : nat) (rg : option (list Q))  (* on the substance k *)
| SetPersist (k : nat) (p : option persistence)
| Shift (i : nat) (dir : option bool).

Definition add_spill (r : world * res spill) : world * option exc :=
  match r with
  | (w, Ok p) => (mkWorld (w_subs w) (w_rels w) (w_spills w ++ [p]), None)
  | (w, Raise e) => (w, Some e)
  end.

(** Substances and releases that do not exist cannot be given. *)
Definition step (w : world) (o : op) : world * option exc :=
  match o with
  | NewSub d rg p => match new_substance d rg p with
                     | Ok s => (mkWorld (w_subs w ++ [s]) (w_rels w) (w_spills w), None)
                     | Raise e => (w, Some e)
                     end
  | NewRel num per m => match new_release num per m with
                        | Ok r => (mkWorld (w_subs w) (w_rels w ++ [r]) (w_spills w), None)
                        | Raise e => (w, Some e)
                        end
  | NewSpill sub rel num a u scale => add_spill (make_spill w sub rel num a u scale)
  | Helper sub num a u rg p => add_spill (helper_spill w sub num a u rg p)
  | SetAmount i a => match nth_error (w_spills w) i with
                     | None => (w, Some IndexErr)
                     | Some p => give_amount w p a
                     end
  | SetUnits i u => match nth_error (w_spills w) i with
                    | None => (w, Some IndexErr)
                    | Some p => match check_units u with
                                | Raise e => (w, Some e)
                                | Ok u' => (put_spill w i (mkSpill (p_release p) (p_sub p) u' (p_scale p)), None)
                                end
                    end
  | SetSub i sub => match nth_error (w_spills w) i with
                    | None => (w, Some IndexErr)
                    | Some p =>
                        let (w1, k) := pick_sub w sub in
                        if Nat.ltb k (length (w_subs w1))
                        then (put_spill w1 i (mkSpill (p_release p) k (p_units p) (p_scale p)), None)
                        else (w, Some AttrErr)
                    end
  | SetScale i q => match nth_error (w_spills w) i with
                    | None => (w, Some IndexErr)
                    | Some p => (put_spill w i (mkSpill (p_release p) (p_sub p) (p_units p) q), None)
                    end
  | SetNum j v => match nth_error (w_rels w) j with
                  | None => (w, Some IndexErr)
                  | Some r => match set_num v r with
                              | Ok r' => (put_rel w j r', None)
                              | Raise e => (w, Some e)
                              end
                  end
  | SetPer j v => match nth_error (w_rels w) j with
                  | None => (w, Some IndexErr)
                  | Some r => let (r', e) := set_per v r in (put_rel w j r', e)
                  end
  | SetMass j m => match nth_error (w_rels w) j with
                   | None => (w, Some IndexErr)
                   | Some r => (put_rel w j (set_mass m r), None)
                   end
  | SetRange k rg => set_range w k rg
  | SetPersist k p => set_persist w k p
  | Shift i dir => match shift_amount w i dir with
                   | (w1, Ok _) => (w1, None)
                   | (w1, Raise e) => (w1, Some e)
                   end
  end.

Fixpoint run (w : world) (ops : list op) : world :=
  match ops with
  | [] => w
  | o :: t => run (fst (step w o)) t
  end.
