(** * Vocabulary for the statements about response options *)
From Verif Require Import Py QLemmas RocModel.
Open Scope Q_scope.

(** ** Schedules *)

(** Entries that begin before they end, one after the other. *)
Fixpoint orderly (ts : list (Z * Z)) : Prop :=
  match ts with
  | [] => True
  | (a, b) :: r => (a < b)%Z /\ match r with (a2, _) :: _ => (b <= a2)%Z | [] => True end /\ orderly r
  end.
Definition within (e : Z * Z) (t : Z) : Prop := (fst e <= t < snd e)%Z.

(** ** Plans *)

(** The time that the entries of a log take together; no entry takes negative
    time. *)
Definition spent (log : list (act * Q)) : Q := fold_right (fun e acc => snd e + acc) 0 log.
Definition no_negative (log : list (act * Q)) : Prop := Forall (fun e => 0 <= snd e) log.

Definition good_burn (p : bpar) : Prop :=
  0 < p_swath p /\ 0 < p_speed p /\ 0 < p_throughput p /\ 0 < p_draft p /\ 0 < p_capmax p /\ 0 <= p_offset p /\ 0 < p_gal p.
Definition good_slick (e : benv) : Prop := 0 <= e_thick e /\ e_fw e < 1.

(** The states that a burn can be in after a number of steps of any lengths, in
    which the elements always lost what was planned. *)
Inductive burn_reach (p : bpar) : bst -> Prop :=
| br_new : burn_reach p (burn_new p)
| br_step s s' n e dt : burn_reach p s -> good_slick e -> 0 < dt ->
    burn_step n p e dt s = Some (Ok s') -> burn_reach p s'.

(** What is in the boom. *)
Definition in_boom (p : bpar) (s : bst) : Q := p_capmax p - s_cap s.

(** ** Accounts *)

(** One call of weather_elements: the system, the planned mass, the real one
    (not negative), and the mass that burns. *)
Definition entry := (Z * Q * Q * Q)%type.
Definition fair (x : entry) : Prop := let '(_, _, a, _) := x in 0 <= a.
Definition book_all (k : books) (h : list entry) : books :=
  fold_left (fun k x => let '(i, c, a, b) := x in fst (book k i c a b)) h k.
Definition taken (h : list entry) : Q :=
  fold_right (fun x acc => let '(_, c, a, _) := x in (if Qltb 0 c then a else 0) + acc) 0 h.
Definition no_books : books := mkBk 0 0 [].
Definition sum_sys (k : books) : Q * Q :=
  fold_right (fun e acc => (fst (snd e) + fst acc, snd (snd e) + snd acc)) (0, 0) (k_sys k).

(** ** Skimming *)

Definition good_skim (q : kpar) : Prop :=
  0 <= q_swath q /\ 0 < q_speed q /\ 0 < q_pump q /\ 0 <= q_decant q <= 1 /\ 0 <= q_dpump q /\ 0 < q_storage q /\
  0 <= q_transit q /\ 0 <= q_offload q /\ q_recovery q <= 1.

Inductive skim_reach (q : kpar) : kst -> Prop :=
| sr_new : skim_reach q (skim_new q)
| sr_step s s' n e dt : skim_reach q s -> good_slick e -> 0 < dt ->
    skim_step n q e dt s = Some s' -> skim_reach q s'.

(** ** A second run *)

(** What a burn plans in a series of steps: the log, the room left in the boom,
    what is collected and what is burned; the series ends with an error or with
    a step that does not come to an end. *)
Fixpoint burn_plans (n : nat) (p : bpar) (ins : list (benv * Q)) (s : bst)
  : list (option (res (list (act * Q) * Q * Q * Q))) :=
  match ins with
  | [] => []
  | (e, dt) :: r =>
      match burn_step n p e dt s with
      | Some (Ok s') => Some (Ok (s_log s', s_cap s', s_tcol s', s_tbur s')) :: burn_plans n p r s'
      | Some (Raise x) => [Some (Raise x)]
      | None => [None]
      end
  end.

(** The same of a skimming system; nothing is said of a step in which it does
    not operate. *)
Fixpoint skim_plans (n : nat) (q : kpar) (ins : list (benv * Q)) (s : kst)
  : list (option (option (list (act * Q) * Q * Q * Q * Q * Q))) :=
  match ins with
  | [] => []
  | (e, dt) :: r =>
      match skim_step n q e dt s with
      | Some s' =>
          (if e_active e || w_tran s || w_offl s
           then Some (Some (w_log s', w_fluid s', w_emul s', w_oil s', w_water s', w_decanted s')) else Some None)
          :: skim_plans n q r s'
      | None => [None]
      end
  end.
