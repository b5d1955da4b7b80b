(** * The element cache

    Models gnome/utilities/cache.py (ElementCache).  NumPy arrays live in a
    store and are shared by reference, so that copying matters; what a file
    holds are values.  Names of arrays and of mass-balance entries are integers.
    The directory of the cache is a map from file names to contents; '%06i' makes
    different names of different integers (cache.py:103-116). *)
From Verif Require Import Py PyLemmas.
Open Scope Z_scope.

Section cache.
Variables V S T : Type.   (* contents of an array, a mass-balance number, a time *)

(** What the dictionaries built by the cache hold; [A] is an address in the
    store or, in a file, the contents. *)
Inductive item (A : Type) := Arr (a : A) | Scal (s : S) | Names (l : list Z) | Stamp (t : T).
Arguments Arr {A}. Arguments Scal {A}. Arguments Names {A}. Arguments Stamp {A}.

Definition mb_key : Z := -1.   (* 'mass_balance' *)
Definition ts_key : Z := -2.   (* 'current_time_stamp' *)

(** A spill container, or what load_timestep makes: its arrays (by reference),
    mass_balance, current_time_stamp and uncertain. *)
Record container := mkC { c_arrays : list (Z * nat); c_mb : list (Z * S); c_stamp : option T; c_unc : bool }.

(** [c_recent] is the only entry of the dictionary [recent]; [c_dir] is None
    when the directory does not exist. *)
Record cache := mkCache { c_recent : option (Z * (dict (item nat) * option (dict (item nat))));
                          c_dir : option (list ((Z * bool) * dict (item V))); c_enabled : bool }.

(** ** The store *)

(** copy.deepcopy of a dictionary of arrays: each array is copied. *)
Fixpoint copy (h : list V) (d : dict (item nat)) : res (list V * dict (item nat)) :=
  match d with
  | [] => Ok (h, [])
  | (n, Arr a) :: r =>
      match nth_error h a with
      | None => Raise AttrErr
      | Some v => do x <- copy (h ++ [v]) r; Ok (fst x, (n, Arr (length h)) :: snd x)
      end
  | (n, it) :: r => do x <- copy h r; Ok (fst x, (n, it) :: snd x)
  end.

(** np.savez: the contents of the arrays. *)
Fixpoint freeze (h : list V) (d : dict (item nat)) : res (dict (item V)) :=
  match d with
  | [] => Ok []
  | (n, it) :: r =>
      do i <- match it with
              | Arr a => match nth_error h a with Some v => Ok (Arr v) | None => Raise AttrErr end
              | Scal s => Ok (Scal s) | Names l => Ok (Names l) | Stamp t => Ok (Stamp t)
              end;
      do r' <- freeze h r; Ok ((n, i) :: r')
  end.

(** dict(np.load(...)): new arrays. *)
Fixpoint thaw (h : list V) (d : dict (item V)) : list V * dict (item nat) :=
  match d with
  | [] => (h, [])
  | (n, Arr v) :: r => let x := thaw (h ++ [v]) r in (fst x, (n, Arr (length h)) :: snd x)
  | (n, Scal s) :: r => let x := thaw h r in (fst x, (n, Scal s) :: snd x)
  | (n, Names l) :: r => let x := thaw h r in (fst x, (n, Names l) :: snd x)
  | (n, Stamp t) :: r => let x := thaw h r in (fst x, (n, Stamp t) :: snd x)
  end.

(** ** Saving *)

(** cache.py:228-236 (_set_weathering_data). *)
Definition set_weathering (mb : list (Z * S)) (d : dict (item nat)) : dict (item nat) :=
  match mb with
  | [] => d
  | _ => fold_left (fun d kv => dset (fst kv) (Scal (snd kv)) d) mb (dset mb_key (Names (map fst mb)) d)
  end.

(** cache.py:134-140: the dictionary that is saved. *)
Definition build (h : list V) (c : container) : res (list V * dict (item nat)) :=
  do x <- copy h (map (fun na => (fst na, Arr (snd na))) (c_arrays c));
  let d := set_weathering (c_mb c) (snd x) in
  Ok (fst x, match c_stamp c with Some t => dset ts_key (Stamp t) d | None => d end).

(** Writing a file. *)
Definition key_eqb (a b : Z * bool) : bool := (fst a =? fst b) && Bool.eqb (snd a) (snd b).
Definition write (k : Z * bool) (d : dict (item V)) (dir : list ((Z * bool) * dict (item V))) :=
  (k, d) :: filter (fun e => negb (key_eqb k (fst e))) dir.
Definition read (k : Z * bool) (dir : list ((Z * bool) * dict (item V))) : option (dict (item V)) :=
  match find (fun e => key_eqb k (fst e)) dir with Some e => Some (snd e) | None => None end.

(** cache.py:127-155 (save_timestep), one container. *)
Definition save_one (k : Z) (c : container) (hc : list V * cache) : res (list V * cache) :=
  do x <- build (fst hc) c;
  let ca := snd hc in
  do rec <- (if c_unc c
             then match c_recent ca with
                  | Some (k', (d, _)) => if k =? k' then Ok (Some (k, (d, Some (snd x)))) else Raise KeyErr
                  | None => Raise KeyErr
                  end
             else Ok (Some (k, (snd x, None))));
  if c_enabled ca then
    match c_dir ca with
    | None => Raise OSErr
    | Some dir => do f <- freeze (fst x) (snd x);
                  Ok (fst x, mkCache rec (Some (write (k, c_unc c) f dir)) true)
    end
  else Ok (fst x, mkCache rec (c_dir ca) false).

(** spill_container.py: a pair holds the certain container and, perhaps, the
    uncertain one; items() gives them in this order. *)
Definition pair := (container * option container)%type.
Definition save (k : Z) (p : pair) (hc : list V * cache) : res (list V * cache) :=
  do x <- save_one k (fst p) hc;
  match snd p with Some u => save_one k u x | None => Ok x end.

(** ** Loading *)

(** cache.py:238-245 (_get_weathering_data): [d.pop(name).item()]. *)
Definition pop (k : Z) (d : dict (item nat)) : res (item nat * dict (item nat)) :=
  match dget k d with Some i => Ok (i, ddel k d) | None => Raise KeyErr end.
Fixpoint pop_names (l : list Z) (d : dict (item nat)) : res (list (Z * S) * dict (item nat)) :=
  match l with
  | [] => Ok ([], d)
  | n :: r => do x <- pop n d;
              do s <- match fst x with Scal s => Ok s | _ => Raise ValueErr end;
              do y <- pop_names r (snd x); Ok ((n, s) :: fst y, snd y)
  end.
Definition get_weathering (d : dict (item nat)) : res (list (Z * S) * dict (item nat)) :=
  match dget mb_key d with
  | None => Ok ([], d)
  | Some (Names l) => pop_names l (ddel mb_key d)
  | Some _ => Raise TypeErr
  end.

(** The arrays left in the dictionary. *)
Definition arrays_of (d : dict (item nat)) : res (list (Z * nat)) :=
  mapM (fun ni => match snd ni with Arr a => Ok (fst ni, a) | _ => Raise TypeErr end) d.

(** cache.py:196-222: the container made of a dictionary. *)
Definition unpack (unc : bool) (d : dict (item nat)) : res container :=
  do st <- match dget ts_key d with
           | None => Ok None | Some (Stamp t) => Ok (Some t) | Some _ => Raise AttrErr end;
  do x <- get_weathering (ddel ts_key d);
  do a <- arrays_of (snd x);
  Ok (mkC a (fst x) st unc).

(** cache.py:157-226 (load_timestep). *)
Definition fetch (k : Z) (hc : list V * cache) : res (list V * (dict (item nat) * option (dict (item nat)))) :=
  let from_disk :=
    match c_dir (snd hc) with
    | None => Raise CacheErr
    | Some dir =>
        match read (k, false) dir with
        | None => Raise CacheErr
        | Some d =>
            let x := thaw (fst hc) d in
            match read (k, true) dir with
            | None => Ok (fst x, (snd x, None))
            | Some u => let y := thaw (fst x) u in Ok (fst y, (snd x, Some (snd y)))
            end
        end
    end in
  match c_recent (snd hc) with
  | Some (k', (d, u)) =>
      if k =? k' then
        do x <- copy (fst hc) d;
        match u with
        | None => Ok (fst x, (snd x, None))
        | Some u => do y <- copy (fst x) u; Ok (fst y, (snd x, Some (snd y)))
        end
      else from_disk
  | None => from_disk
  end.
Definition load (k : Z) (hc : list V * cache) : res (list V * pair) :=
  do x <- fetch k hc;
  do c <- unpack false (fst (snd x));
  do u <- match snd (snd x) with None => Ok None | Some d => do c <- unpack true d; Ok (Some c) end;
  Ok (fst x, (c, u)).

(** cache.py:247-256 (rewind): memory and directory are cleared; a new
    directory is made in the temporary one. *)
Definition rewind (ca : cache) : cache := mkCache None (Some []) (c_enabled ca).

(** cache.py:75-87: a new cache; [None] stands for a directory named by the user
    that does not exist (it is not made). *)
Definition new_cache (dir : option (list ((Z * bool) * dict (item V)))) (enabled : bool) : cache := mkCache None dir enabled.
End cache.
Arguments Arr {S T A}. Arguments Scal {S T A}. Arguments Names {S T A}. Arguments Stamp {S T A}.
Arguments mkC {S T}. Arguments c_arrays {S T}. Arguments c_mb {S T}. Arguments c_stamp {S T}. Arguments c_unc {S T}.
Arguments mkCache {V S T}. Arguments c_recent {V S T}. Arguments c_dir {V S T}. Arguments c_enabled {V S T}.
Arguments copy {V S T}. Arguments freeze {V S T}. Arguments thaw {V S T}. Arguments set_weathering {S T}.
Arguments build {V S T}. Arguments write {V S T}. Arguments read {V S T}. Arguments save_one {V S T}. Arguments save {V S T}.
Arguments pop {S T}. Arguments pop_names {S T}. Arguments get_weathering {S T}. Arguments arrays_of {S T}. Arguments unpack {S T}.
Arguments fetch {V S T}. Arguments load {V S T}. Arguments rewind {V S T}. Arguments new_cache {V S T}.
