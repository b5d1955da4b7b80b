(** * Vocabulary for the files of outputters *)
From Coq Require Import QArith Sorted.
From Verif Require Import Py TimeModel OutModel OutSpec FilModel.
Open Scope Z_scope.

Section Files.
Variable C : Type.

(** The containers of a step: the forecast, and the uncertain one in an uncertain run. *)
Definition shaped (unc : bool) (scs : list (bool * C)) : Prop :=
  map fst scs = if unc then [false; true] else [false].

(** The contents of the steps that are due, in order. *)
Definition due_steps (l : list (bool * list (bool * C))) : list (list (bool * C)) :=
  map snd (filter fst l).

(** They are numbered from [i] on without gaps. *)
Fixpoint members (i : Z) (l : list (list (bool * C))) : list (bool * Z * C) :=
  match l with
  | [] => []
  | scs :: r => map (fun uc => (fst uc, i, snd uc)) scs ++ members (i + 1) r
  end.

(** The same as loose files of an outputter. *)
Definition loose (b : bin) (m : list (bool * Z * C)) : list (path * C) :=
  map (fun x => (Path (b_dir b) (b_stem b) (fst (fst x)) (snd (fst x)), snd x)) m.

(** The archive of a directory and stem. *)
Definition archive (dir stem : Z) (w : world C) : option (list (bool * Z * C)) :=
  option_map snd (find (fun kv => (fst (fst kv) =? dir) && (snd (fst kv) =? stem)) (w_zip w)).

(** No loose file has the directory and the stem of the outputter. *)
Definition free (b : bin) (w : world C) : Prop :=
  forall p c, In (p, c) (w_loose w) -> ~ (p_dir p = b_dir b /\ p_stem p = b_stem b).

(** Loose files in other directories; all of them if the outputter names none. *)
Definition elsewhere (b : bin) (w : world C) : list (path * C) :=
  filter (fun kv => (b_dir b =? 0) || negb (p_dir (fst kv) =? b_dir b)) (w_loose w).

(** Archives but that of the outputter are as they were. *)
Definition others_same (b : bin) (w w' : world C) : Prop :=
  forall d s, (d, s) <> (b_dir b, b_stem b) -> archive d s w' = archive d s w.
End Files.
Arguments shaped {C}. Arguments due_steps {C}. Arguments members {C}. Arguments loose {C}.
Arguments archive {C}. Arguments free {C}. Arguments elsewhere {C}. Arguments others_same {C}.

(** What a reader of a binary file takes from it: position, age in seconds, beached. *)
Definition decode_elem (h : header) (e : le) : Q * Q * Q * bool :=
  ((- e_lon e)%Q, e_lat e, ((h_time h - e_rel e) * 3600)%Q, Qeq_bool (e_beach e) (-50)).
Definition same_elem (a : Q * Q * Q * bool) (x : elem) : Prop :=
  (fst (fst (fst a)) == x_lon x /\ snd (fst (fst a)) == x_lat x /\
   snd (fst a) == inject_Z (x_age x))%Q /\ (snd a = true <-> x_status x = 3).

(** The first instant of the leap cycle of a year, in microseconds. *)
Definition cycle_start (y : Z) : Z := fields_us (mkFields (4 * (y / 4)) 1 1 0 0 0 0).

(** The steps an oil budget has rows for. *)
Definition budget_due (T : option Z) (ts n k : Z) : Prop :=
  0 <= k < n /\ (k = 0 \/ k = n - 1 \/ match T with None => True | Some T => crosses T ((k - 1) * ts) (k * ts) end).

(** [k2] follows [k1] in the list of steps written. *)
Definition next_in (l : list Z) (k1 k2 : Z) : Prop :=
  In k1 l /\ In k2 l /\ k1 < k2 /\ forall j, In j l -> ~ (k1 < j < k2).

(** The layers of the steps that are due, from step [k] on. *)
Fixpoint klayers (T : option Z) (dt mstart k : Z) (l : list (bool * list (bool * list elem))) : list layer :=
  match l with
  | [] => []
  | (flag, scs) :: r =>
      (if flag then step_layers T dt (mstart + k * dt * sec_us) scs else []) ++ klayers T dt mstart (k + 1) r
  end.
