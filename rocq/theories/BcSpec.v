(** * What a broadcaster should do: each variation is a model of its own *)
From Verif Require Import Py BcModel.

Section S.
  Context {T V : Type}.
  Variable handle : T -> command -> T * option V.
  (** A model that gets commands one after another. *)
  Definition alone (t : T) (cs : list command) : T := fold_left (fun t c => fst (handle t c)) cs t.
  (** How the model of a pair is prepared. *)
  Definition prepared (k : Z * Z) : list command :=
    [SetContainer false; SetWind (fst k); SetSpill (snd k); NewCache; CacheEnabled false; WeatheringOnly].
  (** Is a call for the model with the pair [k], the [p]-th of [n]? *)
  Definition is_for (n : Z) (p : Z) (k : Z * Z) (c : call) : bool :=
    match snd c with
    | Some i => (i =? p) || (i =? p - n)
    | None => match snd (fst c) with Some k' => pair_eqb k k' | None => true end
    end.
  Definition commands_for (n p : Z) (k : Z * Z) (h : list call) : list command := map (fun c => fst (fst c)) (filter (is_for n p k) h).
End S.
