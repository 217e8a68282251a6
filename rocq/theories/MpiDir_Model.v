(** Directories made while micro-kinetic models are built in an MPI run
    (scaks/models/kinetic_model.py 188-201, micro_kinetic_model.py 126-138, mpicommons.py
    28-31): two or more ranks run the same program, which builds a number of models one after
    the other.

    Simplifications.  Nobody else touches the directories ./log and ./data, which all ranks
    share; looking for a directory, making one and opening a file happen in one step each; all
    that the constructor does besides succeeds and calls no barrier.  A barrier of
    COMM_WORLD lets the ranks go when every rank has called one; barriers have no names, so
    that different calls may meet.  A rank whose constructor raises stops. *)
From Coq Require Import List Bool Arith.
Import ListNotations.
From Verif Require Import PyBase.
Local Open Scope list_scope.
Local Open Scope nat_scope.

(** Where a rank is in the constructor; [Done]: all models are built.
    The lines (micro_kinetic_model.py, kinetic_model.py) are given with the constructors. *)
Inductive place :=
| Bar1                  (* kinetic_model.py 195: mpi.barrier() *)
| Decide                (* 196: not os.path.exists("./log") and mpi.is_master *)
| MkLog                 (* 197: os.mkdir("./log") *)
| Open                  (* 201: logging.FileHandler(filename) *)
| Check                 (* micro_kinetic_model.py 130: not os.path.exists("./data") *)
| Bar2                  (* 131: mpi.barrier() *)
| MkData                (* 133: os.mkdir("./data") *)
| Done
| Failed (e : exn).

(** The directories ./log and ./data: kinetic_model.py 196, micro_kinetic_model.py 130. *)
Record dirs := { log_dir : bool; data_dir : bool }.

(** A rank: the number of models that it still has to build, the current one included.
    kinetic_model.py 188-201. *)
Definition rank := (nat * place)%type.

(** Ready to build the next of [c] models. kinetic_model.py 195. *)
Definition ready (c : nat) : rank := match c with O => (0, Done) | S _ => (c, Bar1) end.

(** A rank moves by itself. kinetic_model.py 196-201, micro_kinetic_model.py 130-133. *)
Definition move (master : bool) (d : dirs) (s : rank) : option (dirs * rank) :=
  let '(c, p) := s in
  match p with
  | Decide => Some (d, (c, if negb (log_dir d) && master then MkLog else Open))
  | MkLog =>
      if log_dir d then Some (d, (c, Failed IOError))
      else Some ({| log_dir := true; data_dir := data_dir d |}, (c, Open))
  | Open => Some (d, (c, if log_dir d then Check else Failed IOError))
  | Check => Some (d, if data_dir d then ready (pred c) else (c, Bar2))
  | MkData =>
      if data_dir d then Some (d, (c, Failed IOError))
      else Some ({| log_dir := log_dir d; data_dir := true |}, ready (pred c))
  | Bar1 | Bar2 | Done | Failed _ => None
  end.

(** A rank has called a barrier. mpicommons.py 33-36. *)
Definition waiting (s : rank) : bool := match snd s with Bar1 | Bar2 => true | _ => false end.

(** A rank leaves the barrier. mpicommons.py 33-36. *)
Definition release (master : bool) (s : rank) : rank :=
  let '(c, p) := s in
  match p with
  | Bar1 => (c, Decide)
  | Bar2 => if master then (c, MkData) else ready (pred c)
  | _ => s
  end.

(** All ranks: the directories, rank 0, the other ranks. *)
Definition state := (dirs * rank * list rank)%type.

(** One rank moves, or all leave their barriers: kinetic_model.py 195-201, micro_kinetic_model.py
    130-133. *)
Inductive step : state -> state -> Prop :=
| step_master d m ws d' m' : move true d m = Some (d', m') -> step (d, m, ws) (d', m', ws)
| step_worker d m a s b d' s' : move false d s = Some (d', s') ->
    step (d, m, a ++ s :: b) (d', m, a ++ s' :: b)
| step_barrier d m ws : forallb waiting (m :: ws) = true ->
    step (d, m, ws) (d, release true m, map (release false) ws).

(** The beginning: [workers] other ranks, [models] models to build. kinetic_model.py 188. *)
Definition init (d : dirs) (workers models : nat) : state :=
  (d, ready models, repeat (ready models) workers).

(** Any number of steps (kinetic_model.py 195-201, micro_kinetic_model.py 130-133). *)
Inductive steps : nat -> state -> state -> Prop :=
| steps_none x : steps 0 x x
| steps_more n x y z : step x y -> steps n y z -> steps (S n) x z.
