(** * What a tide flat should do *)
From Verif Require Import Py QLemmas LandModel ProjModel PipModel MapModel MapSpec TfModel.
Open Scope Q_scope.

(** Movers move elements in the water and no others, and look at where an element is. *)
Definition moves_floating (m : elem -> pos3) : Prop :=
  ignores_next m /\ forall e, e_stat e <> IN_WATER -> m e = ((0, 0), 0).

(** A position, raised to the surface if it is above it. *)
Definition surfaced (p : pos3) : pos3 := (fst p, qmax (snd p) 0).

(** What one step that begins at [t] does to an element on a map without land: a stranded one
    stays as it is while the flat is dry where it is.  Any other moves with the movers, and is
    stranded exactly if the flat is dry where it comes to.  Elements that leave the map are gone. *)
Definition life1 (dry : flat) (on_map : ProjModel.pt -> bool) (t : Z) (movers : list (elem -> pos3)) (e : elem) : option elem :=
  if (e_stat e =? ON_TIDEFLAT)%Z && dry (e_pos e) t then Some e
  else
    let p := surfaced (target movers (mkElem (e_pos e) (e_next e) IN_WATER (e_lastw e) (e_mass e))) in
    if on_map (fst p) then Some (mkElem p p (if dry p t then ON_TIDEFLAT else IN_WATER) (e_lastw e) (e_mass e))
    else None.
Fixpoint life (dry : flat) (on_map : ProjModel.pt -> bool) (steps : list (Z * list (elem -> pos3))) (e : elem) : option elem :=
  match steps with
  | [] => Some e
  | (t, movers) :: r => match life1 dry on_map t movers e with Some e' => life dry on_map r e' | None => None end
  end.
Definition survivors {A B} (f : A -> option B) (l : list A) : list B :=
  flat_map (fun a => match f a with Some b => [b] | None => [] end) l.

(** A run of the model with a tide flat around a map without land. *)
Fixpoint tf_run (dry : flat) (on_map : ProjModel.pt -> bool) (steps : list (Z * list (elem -> pos3)))
    (sc : list elem * balance) : res (list elem * balance) :=
  match steps with
  | [] => Ok sc
  | (t, movers) :: r => do sc' <- tf_move (gnome_beach on_map) (fun l => l) dry t movers sc; tf_run dry on_map r sc'
  end.

(** The elements of a run: in the water, or stranded at a place on the map. *)
Definition afloat_or_stranded (on_map : ProjModel.pt -> bool) (e : elem) : Prop :=
  e_stat e = IN_WATER \/
  (e_stat e = ON_TIDEFLAT /\ e_next e = e_pos e /\ surfaced (e_pos e) = e_pos e /\ on_map (fst (e_pos e)) = true).

(** The same steps with a tide flat around any map, and without. *)
Fixpoint tf_run_steps (dry : flat) (times : list Z) (ss : list step_in) (sc : list elem * balance) {struct ss} : res (list elem * balance) :=
  match ss, times with
  | s :: r, t :: ts =>
      do sc' <- tf_move (beach_of (s_map s)) (refloat (s_hl s) (s_prob s) (s_rnd s)) dry t (s_movers s) sc;
      tf_run_steps dry ts r sc'
  | _, _ => Ok sc
  end.
