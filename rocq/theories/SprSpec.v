(** * Vocabulary for spreading and emulsification *)
From Verif Require Import Py WxModel SprModel.
From Coq Require Import Reals.
Open Scope R_scope.

(** What the arrays of an element hold. *)
Definition spreadable (e : sel) : Prop := 0 <= p_age e /\ 0 < p_bulk e /\ 0 <= p_fay e /\ 0 < p_vf e /\ 0 < p_init e /\ 0 < p_rho e.

(** A run: before each spreading step of a given length the elements may change in any
    way that leaves their Fay areas alone. *)
Fixpoint fay_run (nu b limit : R) (h : list (R * (sel -> sel))) (l : list sel) : res (list sel) :=
  match h with
  | [] => Ok l
  | (dt, f) :: r => do l1 <- fay_weather nu b limit dt (map f l); fay_run nu b limit r l1
  end.
Definition keeps_fay (f : sel -> sel) : Prop := forall e, spreadable e -> p_fay (f e) = p_fay e /\ spreadable (f e).

(** The part [s] of an element. *)
Definition stimes (s : R) (e : sel) : sel :=
  mkS (p_in e) (p_spill e) (p_age e) (p_bulk e) (s * p_fay e) (s * p_area e) (s * p_vf e) (s * p_init e) (p_rho e) (s * p_max e) (p_cov e).
Definition scut (s : R) (l : list sel) : list sel := flat_map (fun e => [stimes s e; stimes (1 - s) e]) l.

(** Water: within bounds. *)
Definition wet (ymax : R) (e : mel) : Prop := 0 <= m_y e <= ymax.
(** What the arrays for emulsification hold: the fraction of water is that of the
    interfacial area. *)
Definition emulsion (ymax : R) (e : mel) : Prop :=
  0 <= m_s e <= 6 / drop_min * (ymax / (1 - ymax)) /\ 0 <= m_k e /\ 0 <= m_age e /\
  m_y e = Rmin (m_s e * drop_max / (6 + m_s e * drop_max)) ymax.
(** Later: older, no less evaporated, any rate. *)
Definition later (e e' : mel) : Prop :=
  m_y e' = m_y e /\ m_s e' = m_s e /\ m_bull e' = m_bull e /\ m_evap e <= m_evap e' /\ m_age e <= m_age e' /\ 0 <= m_k e'.
Fixpoint emul_run (hours c ymax : R) (h : list (R * (mel -> mel))) (l : list mel) : res (list mel) :=
  match h with
  | [] => Ok l
  | (dt, f) :: r => do p <- emul_weather dt hours c ymax (map f l); emul_run hours c ymax r (fst p)
  end.
