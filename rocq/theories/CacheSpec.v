(** * What a cache should do: it remembers, for each step, what the containers held *)
From Verif Require Import Py CacheModel.
Open Scope Z_scope.

Section S.
  Context {V S T : Type}.
  (** What a container holds at a moment: the contents of its arrays, its mass balance, its
      time and whether it is uncertain. *)
  Record shot := mkShot { sh_arrays : list (Z * option V); sh_mb : list (Z * S); sh_stamp : option T; sh_unc : bool }.
  Definition shot_of (h : list V) (c : container S T) : shot :=
    mkShot (map (fun na => (fst na, nth_error h (snd na))) (c_arrays c)) (c_mb c) (c_stamp c) (c_unc c).
  Definition shots_of (h : list V) (p : pair S T) : shot * option shot :=
    (shot_of h (fst p), match snd p with Some u => Some (shot_of h u) | None => None end).

  (** The arrays of a container; a container a user can hold: its arrays exist, names are
      distinct, and neither reserved nor shared between arrays and mass balance. *)
  Definition refs (c : container S T) : list nat := map snd (c_arrays c).
  Definition pair_refs (p : pair S T) : list nat := refs (fst p) ++ match snd p with Some u => refs u | None => [] end.
  Definition proper (c : container S T) : Prop :=
    NoDup (map fst (c_arrays c) ++ map fst (c_mb c) ++ [mb_key; ts_key]).

  (** A world: the store, the arrays in the user's hands, the cache. *)
  Record world := mkWorld { w_heap : list V; w_user : list nat; w_cache : cache V S T }.
  Definition memory := Z -> option (shot * option shot).
  Definition remember (k : Z) (x : shot * option shot) (m : memory) : memory := fun j => if j =? k then Some x else m j.

  (** A pair that may be saved as step [k]: proper containers of the user, the first certain
      and the second, if any, uncertain; an uncertain container is not dropped from a step. *)
  Definition savable (w : world) (m : memory) (k : Z) (p : pair S T) : Prop :=
    (forall a, In a (pair_refs p) -> In a (w_user w)) /\
    proper (fst p) /\ c_unc (fst p) = false /\
    (forall u, snd p = Some u -> proper u /\ c_unc u = true) /\
    (forall x y, m k = Some (x, Some y) -> snd p <> None).

  (** The worlds that can be reached with a cache that stays enabled, and what should be
      remembered.  The user makes arrays, changes them, saves, loads, rewinds. *)
  Inductive reach : world -> memory -> Prop :=
  | r_start : reach (mkWorld [] [] (new_cache (Some []) true)) (fun _ => None)
  | r_new w m v : reach w m ->
      reach (mkWorld (w_heap w ++ [v]) (length (w_heap w) :: w_user w) (w_cache w)) m
  | r_change w m a v : reach w m -> In a (w_user w) ->
      reach (mkWorld (set_nth a v (w_heap w)) (w_user w) (w_cache w)) m
  | r_save w m k p h c : reach w m -> savable w m k p -> save k p (w_heap w, w_cache w) = Ok (h, c) ->
      reach (mkWorld h (w_user w) c) (remember k (shots_of (w_heap w) p) m)
  | r_load w m k h p : reach w m -> load k (w_heap w, w_cache w) = Ok (h, p) ->
      reach (mkWorld h (pair_refs p ++ w_user w) (w_cache w)) m
  | r_rewind w m : reach w m -> reach (mkWorld (w_heap w) (w_user w) (rewind (w_cache w))) (fun _ => None).
End S.
Arguments shot : clear implicits. Arguments world : clear implicits. Arguments memory : clear implicits.
