(** * Vocabulary for weathering *)
From Verif Require Import Py WxModel.
From Coq Require Import Reals.
Open Scope R_scope.

(** At the surface, with mass. *)
Definition at_surface (e : wel) : Prop := Z.land (w_fate e) 2 = 2%Z /\ 0 < w_mass e.

(** Components are not negative and make up the mass. *)
Definition wsane (e : wel) : Prop := Forall (fun x => 0 <= x) (w_comps e) /\ w_mass e = sumr (w_comps e).
(** What the other arrays hold. *)
Definition physical (e : wel) : Prop :=
  wsane e /\ 0 <= w_fw e <= 1 /\ 0 <= w_area e /\ 0 < w_vf e /\ 0 < w_init e /\ 0 <= w_visc e /\ 0 < w_rho e.

(** [e'] is [e] with components that are lower, or as before. *)
Definition lowered (e e' : wel) : Prop :=
  w_fate e' = w_fate e /\ w_fw e' = w_fw e /\ w_area e' = w_area e /\ w_vf e' = w_vf e /\ w_init e' = w_init e /\
  w_visc e' = w_visc e /\ w_rho e' = w_rho e /\
  Forall2 (fun x x' => 0 <= x' <= x) (w_comps e) (w_comps e') /\ w_mass e' = sumr (w_comps e').
Definition mass_of (l : list wel) : R := sumr (map w_mass l).

(** Elements at the surface are lowered, the others stay; [booked] is the difference. *)
Definition conserves (l l' : list wel) (booked : R) : Prop :=
  Forall2 (fun e e' => (at_surface e -> lowered e e') /\ (~ at_surface e -> e' = e)) l l' /\
  mass_of l = mass_of l' + booked /\ 0 <= booked.

(** A substance with positive molecular weights. *)
Definition volatile (cs : list pseudo) : Prop := Forall (fun c => 0 <= fst c /\ 0 < snd c) cs.
Definition fits {A} (cs : list A) (l : list wel) : Prop := forall e, In e l -> length (w_comps e) = length cs.

Definition waves_ok (v : wave) : Prop := 0 <= v_h v /\ 0 <= v_f v /\ 0 <= v_e v.

(** The element that is [s] times as much. *)
Definition times (s : R) (e : wel) : wel :=
  mkW (w_fate e) (s * w_mass e) (map (Rmult s) (w_comps e)) (w_fw e) (s * w_area e) (s * w_vf e)
      (s * w_init e) (w_fevap e) (w_flost e) (w_visc e) (w_rho e).

(** Decay in [n] steps. *)
Fixpoint half_steps (hs : list R) (t : R) (n : nat) (l : list wel) : res (list wel) :=
  match n with O => Ok l | S n' => do l1 <- half_weather hs t l; half_steps hs t n' l1 end.

(** Every element cut into two parts. *)
Definition cut (s : R) (l : list wel) : list wel := flat_map (fun e => [times s e; times (1 - s) e]) l.
(** Oil that floats, with what dispersion looks at. *)
Definition floats (w : water) (e : wel) : Prop := 0 <= w_area e /\ 0 <= w_fw e <= 1 /\ 0 < w_rho e < wt_rho w.
(** [e'] has at most the components of [e]. *)
Definition no_more (e' e : wel) : Prop := Forall2 Rle (w_comps e') (w_comps e) /\ w_mass e' <= w_mass e.
