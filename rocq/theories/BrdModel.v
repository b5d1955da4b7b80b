(** * Broadcasting commands to copies of a model

    Models gnome/multi_model_broadcast.py: ModelBroadcaster.__init__ (210-234), cmd (239-330), handle_child_exception
    (335-341), stop (343-364), _get_available_ports (378-388), _spawn_tasks (396-409), _set_uncertainty (411-425),
    _set_new_cache_dir, _disable_cache, _set_weathering_output_only (427-434), and ModelConsumer.handle_cmd (97-113).

    A child is the list of the commands it has run: what it answers is an arbitrary function of its number, of that list
    and of the command, a value or an exception.  Whether its answer comes in time is an arbitrary function of its number.
    A socket of kind REQ does not send while an answer is awaited (ZMQError, here RuntimeErr); an answer that does not
    come in time is zmq.Again, here OSErr.  with_traceback() without an argument is a TypeError.  Values are integers.
    Not modelled: how answers are sent (send_unicode of bytes), files of sockets, the log, errors of pickle, stopping
    errors, the death of a process. *)

From Coq Require Import ZArith List Bool Lia.
From Verif Require Import Py.
Import ListNotations.
Open Scope Z_scope.

Inductive cmd := SetContainer | SetWind (d : Z) | SetAmount (d : Z) | NewCache | NoCache | OnlyWeathering | Other (z : Z).
Inductive answer := Out (v : Z) | Exc (e : exc).

(** A socket and the process behind it: commands run, an answer awaited, RCVTIMEO. *)
Record task := Task { t_log : list cmd; t_wait : bool; t_timeout : Z }.

(** multi_model_broadcast.py:214-220 *)
Record bc := Bc { b_tasks : list task; b_lookup : list ((Z * Z) * Z) }.
Definition answers := nat -> list cmd -> cmd -> answer.
Definition times := nat -> bool.

Definition key_eqb (a b : Z * Z) : bool := (fst a =? fst b) && (snd a =? snd b).
Fixpoint kget (k : Z * Z) (l : list ((Z * Z) * Z)) : option Z :=
  match l with [] => None | (k', v) :: t => if key_eqb k k' then Some v else kget k t end.
Fixpoint kset (k : Z * Z) (v : Z) (l : list ((Z * Z) * Z)) : list ((Z * Z) * Z) :=
  match l with [] => [(k, v)] | (k', v') :: t => if key_eqb k k' then (k, v) :: t else (k', v') :: kset k v t end.

(** multi_model_broadcast.py:343-364 *)
Definition stop (b : bc) : bc := match b_tasks b with [] => b | _ :: _ => Bc [] [] end.

Definition send (c : cmd) (t : task) : res task :=
  if t_wait t then Raise RuntimeErr else Ok (Task (t_log t ++ [c]) true (t_timeout t)).
Definition received (t : task) : task := Task (t_log t) false (t_timeout t).
Definition timed (z : Z) (t : task) : task := Task (t_log t) (t_wait t) z.

Fixpoint put (k : nat) (t : task) (l : list task) {struct l} : list task :=
  match l with [] => [] | x :: r => match k with O => t :: r | S n => x :: put n t r end end.

(** What cmd returns: None, or the answers (of one child: the only one). *)
Definition outcome := (res (option (list Z)) * bc)%type.

(** multi_model_broadcast.py:335-341: every exception of a child is a TypeError, after a stop. *)
Fixpoint values (l : list answer) : option (list Z) :=
  match l with
  | [] => Some []
  | Out v :: t => match values t with Some r => Some (v :: r) | None => None end
  | Exc _ :: _ => None
  end.
Definition handled (out : list answer) (b : bc) : outcome :=
  match values out with Some vs => (Ok (Some vs), b) | None => (Raise TypeErr, stop b) end.

(** multi_model_broadcast.py:279-285, 287-294: to one child. *)
Definition to_one (ans : answers) (late : times) (i : Z) (c : cmd) (b : bc) : outcome :=
  match py_pos (List.length (b_tasks b)) i with
  | None => (Raise IndexErr, b)
  | Some k =>
    match nth_error (b_tasks b) k with
    | None => (Raise IndexErr, b)
    | Some t => match send c t with
                | Raise e => (Raise e, b)
                | Ok t1 => if late k then (Raise OSErr, Bc (put k t1 (b_tasks b)) (b_lookup b))
                           else handled [ans k (t_log t) c] (Bc (put k (received t1) (b_tasks b)) (b_lookup b))
                end
    end
  end.

(** multi_model_broadcast.py:303-316: to all; the sends are not in the try. *)
Fixpoint send_all (c : cmd) (l : list task) : list task * bool :=
  match l with
  | [] => ([], true)
  | t :: r => match send c t with
              | Raise _ => (t :: r, false)
              | Ok t1 => let (r1, ok) := send_all c r in (t1 :: r1, ok)
              end
  end.
Fixpoint recv_all (ans : answers) (late : times) (k : nat) (c : cmd) (l : list task) : option (list answer) :=
  match l with
  | [] => Some []
  | t :: r => if late k then None
              else match recv_all ans late (S k) c r with Some o => Some (ans k (t_log t) c :: o) | None => None end
  end.

(** multi_model_broadcast.py:317-320: one after the other; no try. *)
Fixpoint in_turn (ans : answers) (late : times) (k : nat) (c : cmd) (l : list task) : list task * res (list answer) :=
  match l with
  | [] => ([], Ok [])
  | t :: r => match send c t with
              | Raise e => (t :: r, Raise e)
              | Ok t1 => if late k then (t1 :: r, Raise OSErr)
                         else let (r1, o) := in_turn ans late (S k) c r in
                              (received t1 :: r1, match o with Ok os => Ok (ans k (t_log t) c :: os) | Raise e => Raise e end)
              end
  end.

(** multi_model_broadcast.py:322-324 *)
Fixpoint restore (old l : list task) : list task :=
  match old, l with o :: os, t :: ts => timed (t_timeout o) t :: restore os ts | _, _ => l end.

(** multi_model_broadcast.py:295-330 *)
Definition to_all (ans : answers) (late : times) (in_parallel : bool) (timeout : option Z) (c : cmd) (b : bc) : outcome :=
  let old := b_tasks b in
  let l0 := match timeout with Some z => map (timed (z * 1000)) old | None => old end in
  let back l := match timeout with Some _ => restore old l | None => l end in
  if in_parallel then
    match send_all c l0 with
    | (l1, false) => (Raise RuntimeErr, Bc l1 (b_lookup b))
    | (l1, true) => match recv_all ans late 0 c old with
                    | None => (Ok None, stop (Bc l1 (b_lookup b)))
                    | Some out => handled out (Bc (back (map received l1)) (b_lookup b))
                    end
    end
  else
    match in_turn ans late 0 c l0 with
    | (l1, Raise e) => (Raise e, Bc l1 (b_lookup b))
    | (l1, Ok out) => handled out (Bc (back l1) (b_lookup b))
    end.

Inductive target := Index (i : Z) | Values (k : Z * Z) | All (in_parallel : bool) (timeout : option Z).

(** multi_model_broadcast.py:239-330 *)
Definition command (ans : answers) (late : times) (w : target) (c : cmd) (b : bc) : outcome :=
  match b_tasks b with
  | [] => (Ok None, b)
  | _ :: _ => match w with
              | Index i => to_one ans late i c b
              | Values k => match kget k (b_lookup b) with None => (Raise KeyErr, b) | Some i => to_one ans late i c b end
              | All p z => to_all ans late p z c b
              end
  end.

(** Commands one after the other; the first exception ends it. *)
Fixpoint commands (ans : answers) (late : nat -> times) (n : nat) (l : list (target * cmd)) (b : bc) : res bc :=
  match l with
  | [] => Ok b
  | (w, c) :: t => match command ans (late n) w c b with (Raise e, _) => Raise e | (Ok _, b1) => commands ans late (S n) t b1 end
  end.

(** multi_model_broadcast.py:378-388 *)
Definition pairs (ws ss : list Z) : list (Z * Z) := list_prod ws ss.
Fixpoint lookups (n : Z) (ks : list (Z * Z)) (d : list ((Z * Z) * Z)) : list ((Z * Z) * Z) :=
  match ks with [] => d | k :: t => lookups (n + 1) t (kset k n d) end.

(** multi_model_broadcast.py:227-234, 411-434: the commands of the constructor; the index of a pair is looked up. *)
Definition uncertain (k : Z * Z) : list (target * cmd) :=
  [(Values k, SetContainer); (Values k, SetWind (fst k)); (Values k, SetAmount (snd k))].
Definition settle (i : Z) : list (target * cmd) := [(Index i, NewCache); (Index i, NoCache); (Index i, OnlyWeathering)].

(** multi_model_broadcast.py:210-234, 396-409 *)
Definition broadcaster (ans : answers) (late : nat -> times) (ws ss : list Z) : res bc :=
  let ks := pairs ws ss in
  commands ans late 0 (flat_map uncertain ks ++ flat_map settle (zseq 0 (List.length ks)))
    (Bc (map (fun _ => Task [] false 10000) ks) (lookups 0 ks [])).
