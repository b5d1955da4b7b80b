(** * What the NetCDF file should hold

    The vocabulary of the properties C146 to C149. *)
From Verif Require Import Py NcModel.
Local Open Scope Z_scope.

(** The documentation's lists, written out: the standard arrays, the three that
    come from the positions, those that are usually left out. *)
Definition usual : list Z := [1; 0; 2; 10; 11; 12; 13; 14; 15; 16; 17; 18].
Definition rare : list Z := [20; 21; 22; 23; 24; 25; 26; 27; 28; 29; 30; 31; 32; 33].
Definition from_positions : list Z := [1; 0; 2].

(** The arrays that a run should write: those of the standard list, and with
    'all' every array there is, with 'most' without those that are usually
    skipped; only arrays that the elements have. *)
Definition wanted (w : which) (names : list Z) (a : Z) : Prop :=
  (In a names \/ In a from_positions) /\
  match w with
  | Standard => In a usual
  | Most => (In a usual \/ (In a names /\ a <> POS)) /\ ~ In a rare
  | All => In a usual \/ (In a names /\ a <> POS)
  end.

(** The numbers of the elements that go under a name. *)
Inductive holds (s : snap) : Z -> list Z -> Prop :=
| holds_lon : holds s LON (map (fun p => fst (fst p)) (s_pos s))
| holds_lat : holds s LAT (map (fun p => snd (fst p)) (s_pos s))
| holds_dep : holds s DEP (map (fun p => snd p) (s_pos s))
| holds_arr : forall a l, ~ In a from_positions -> dget a (s_arr s) = Some l -> holds s a l.

(** The elements have all the arrays [names], one number each. *)
Definition complete (names : list Z) (s : snap) : Prop :=
  forall a, In a names -> a <> POS -> ~ In a from_positions -> exists l, dget a (s_arr s) = Some l /\ length l = length (s_pos s).
(** The mass balance is there in every step if it was at the start; keys are
    unique and none is called 'time'. *)
Definition balanced (mb : list Z) (s : snap) : Prop :=
  (s_mb s = [] <-> mb = []) /\ NoDup (map fst (s_mb s)) /\ ~ In TIME (map fst (s_mb s)).

(** The arrays that a reader asks for. *)
Definition requested (w : asked) (a : Z) : Prop :=
  match w with
  | AStandard | AMost => a = POS \/ (In a usual /\ ~ In a from_positions)
  | AAll => ~ In a from_positions
  | AList l => In a l
  end.

(** [reads_as written s w r]: the reader got the elements [s]: the time, the
    positions, each array that was asked for and is [written], no others, and
    the mass balance. *)
Definition reads_as (written : Z -> Prop) (s : snap) (w : asked) (r : Z * list (Z * arr) * list (Z * cell)) : Prop :=
  let '(t, arrays, mb) := r in
  t = s_time s /\
  (requested w POS -> dget POS arrays = Some (APos (map (fun p => (Some (fst (fst p)), Some (snd (fst p)), Some (snd p))) (s_pos s)))) /\
  (forall a l, a <> POS -> requested w a -> written a -> holds s a l -> dget a arrays = Some (ACol (map Some l))) /\
  (forall a, ~ requested w a \/ (a <> POS /\ ~ written a) -> dget a arrays = None) /\
  (forall k v, dget k (s_mb s) = Some v -> dget k mb = Some (Some v)).

(** [k] is the first of the places where [t] is nearest. *)
Definition nearest (times : list Z) (t : Z) (k : nat) : Prop :=
  exists x, nth_error times k = Some x /\
    (forall j y, nth_error times j = Some y -> Z.abs (x - t) <= Z.abs (y - t)) /\
    (forall j y, (j < k)%nat -> nth_error times j = Some y -> Z.abs (x - t) < Z.abs (y - t)).
