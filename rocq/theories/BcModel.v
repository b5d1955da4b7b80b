(** * The broadcaster of commands to model variations

    Models gnome/multi_model_broadcast.py, class ModelBroadcaster.  Each task is a
    process with its own copy of the model; here a state and a function that handles a
    command.  Sockets, time-outs and pickling are outside: a command that is sent is
    received and answered. *)
From Verif Require Import Py.

(** The commands sent by the constructor and any other. *)
Inductive command :=
| SetContainer (b : bool) | SetWind (w : Z) | SetSpill (s : Z)
| NewCache | CacheEnabled (b : bool) | WeatheringOnly | Call (c : Z).

Section Bc.
  Context {T V : Type}.
  (** ModelConsumer.handle_cmd (97-112): the new state and the answer, [None] for an exception. *)
  Variable handle : T -> command -> T * option V.

  (** self.tasks and self.lookup. *)
  Record bc := mkB { tasks : list T; lookup : list ((Z * Z) * Z) }.

  Definition pair_eqb (a b : Z * Z) : bool := (fst a =? fst b) && (snd a =? snd b).
  Fixpoint lget (k : Z * Z) (d : list ((Z * Z) * Z)) : option Z :=
    match d with [] => None | (k', v) :: r => if pair_eqb k k' then Some v else lget k r end.
  Fixpoint lset (k : Z * Z) (v : Z) (d : list ((Z * Z) * Z)) : list ((Z * Z) * Z) :=
    match d with [] => [(k, v)] | (k', v') :: r => if pair_eqb k k' then (k, v) :: r else (k', v') :: lset k v r end.

  (** The pairs in the order of the nested loops (379-386). *)
  Definition pairs (ws ss : list Z) : list (Z * Z) := flat_map (fun w => map (fun s => (w, s)) ss) ws.
  (** _get_available_ports (373-386). *)
  Definition ports (ws ss : list Z) : list ((Z * Z) * Z) :=
    fold_left (fun d ik => lset (snd ik) (fst ik) d) (combine (zseq 0 (length (pairs ws ss))) (pairs ws ss)) [].

  Inductive outcome := ONone | OOne (v : V) | OAll (l : list V).
  (** stop (344-364), of a broadcaster with tasks. *)
  Definition stop : bc := mkB [] [].
  (** handle_child_exception (335-342): stops; [with_traceback] without an argument raises TypeError. *)
  Definition child_error : bc * res outcome := (stop, Raise TypeErr).
  (** cmd with an index (271-277). *)
  Definition send (b : bc) (i : Z) (c : command) : bc * res outcome :=
    match py_get (tasks b) i with
    | Raise e => (b, Raise e)
    | Ok t => let (t', r) := handle t c in
              match r, py_set (tasks b) i t' with
              | Some v, Ok ts => (mkB ts (lookup b), Ok (OOne v))
              | _, _ => child_error
              end
    end.
  (** cmd (234-330). *)
  Definition cmd (b : bc) (c : command) (uv : option (Z * Z)) (idx : option Z) : bc * res outcome :=
    match tasks b with
    | [] => (b, Ok ONone)
    | _ =>
        match idx, uv with
        | Some i, _ => send b i c
        | None, Some k => match lget k (lookup b) with Some i => send b i c | None => (b, Raise KeyErr) end
        | None, None =>
            let rs := map (fun t => handle t c) (tasks b) in
            match mapM (fun r => match snd r with Some v => Ok v | None => Raise TypeErr end) rs with
            | Ok vs => (mkB (map fst rs) (lookup b), Ok (OAll vs))
            | Raise _ => child_error
            end
        end
    end.

  (** _set_uncertainty (410-425) and 428-435: what the constructor (219-227) sends. *)
  Definition set_uncertainty (lk : list ((Z * Z) * Z)) (k : Z * Z) : res (list (Z * command)) :=
    match lget k lk with
    | None => Raise KeyErr
    | Some i => Ok [(i, SetContainer false); (i, SetWind (fst k)); (i, SetSpill (snd k))]
    end.
  Definition finish (i : Z) : list (Z * command) := [(i, NewCache); (i, CacheEnabled false); (i, WeatheringOnly)].
  Fixpoint send_all (b : bc) (l : list (Z * command)) : res bc :=
    match l with
    | [] => Ok b
    | (i, c) :: r => match cmd b c None (Some i) with (b', Ok _) => send_all b' r | (_, Raise e) => Raise e end
    end.
  (** The constructor (200-227). *)
  Definition make (t0 : T) (ws ss : list Z) : res bc :=
    let lk := ports ws ss in
    let b := mkB (map (fun _ => t0) (pairs ws ss)) lk in
    do l1 <- mapM (set_uncertainty lk) (pairs ws ss);
    do b1 <- send_all b (concat l1);
    send_all b1 (flat_map finish (zseq 0 (length (tasks b1)))).

  (** Calls of cmd by a user, one after another. *)
  Definition call := (command * option (Z * Z) * option Z)%type.
  Fixpoint calls (b : bc) (h : list call) : bc * list (res outcome) :=
    match h with
    | [] => (b, [])
    | (c, uv, idx) :: r => let '(b1, o) := cmd b c uv idx in let '(b2, os) := calls b1 r in (b2, o :: os)
    end.
End Bc.
Arguments bc : clear implicits.
Arguments outcome : clear implicits.
