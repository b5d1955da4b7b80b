(** * What is asked of dissolution: C175 to C177 *)
From Coq Require Import Reals.
From Verif Require Import Py WxModel DisModel.
Open Scope R_scope.

(** Components that can be: positive molecular weights and densities. *)
Definition sound_comps (cs : list comp) : Prop := forall c, In c cs -> 0 < molwt c /\ 0 < rho c.
(** Elements that can be: a mass that is not negative for each component; sizes, areas
    and wave heights are not negative. *)
Definition sound (cs : list comp) (e : elem) : Prop :=
  length (masses e) = length cs /\ Forall (fun m => 0 <= m) (masses e) /\ 0 <= drop e /\ 0 <= area e /\ 0 <= height e.

(** What becomes of the mass of one component. *)
Definition shrinks (c : comp) (old new : R) : Prop := 0 <= new <= old /\ (arom c = false -> new = old).

(** What becomes of an element: every component shrinks. *)
Definition elem_shrinks (cs : list comp) (e : elem) (new : list R) : Prop :=
  Forall2 (fun cm n => shrinks (fst cm) (snd cm) n) (combine cs (masses e)) new.

(** Total mass *)
Definition total (ls : list (list R)) : R := sumr (map sumr ls).

(** The density of the oil of an element: the mean of those of its components, by mass. *)
Definition oil_density (cs : list comp) (ms : list R) : R :=
  if Req_EM_T (sumr ms) 0 then 0 else sumr (map (fun mc => fst mc * rho (snd mc)) (combine ms cs)) / sumr ms.
(** Waterlogged and still: no waves, and droplets of no size or as dense as the water. *)
Definition stuck (cs : list comp) (water : R) (e : elem) : Prop :=
  height e = 0 /\ (drop e = 0 \/ water = oil_density cs (masses e)).
