(** Logging: the logger that all models of a process share (scaks/models/kinetic_model.py
    158-250, micro_kinetic_model.py 140-144, kmc_model.py 139-140) and what Python's [logging]
    does with a message.

    Simplifications.  [logging] is used by nobody else: the root logger has its level WARNING
    and no handlers, nothing was disabled.  Levels are integers (the setup admits 0, 10, ..,
    50 only).  Whether the log file can be opened is an argument.  The directory for the log
    files of an MPI run is the subject of MpiDir_Model.  The messages of [_load] are ordinary
    messages and not listed. *)
From Coq Require Import String Ascii List ZArith Bool Arith.
Import ListNotations.
From Verif Require Import PyBase.
Local Open Scope list_scope.
Local Open Scope nat_scope.

(** Where a handler writes. kinetic_model.py 201-213. *)
Inductive sink := ToFile (name : str) | ToConsole.

(** A handler: [__class__.__name__], [level], its stream. kinetic_model.py 201-213. *)
Record handler := { h_class : str; h_level : Z; h_sink : sink }.

(** [logging.getLogger('model')]: level and handlers, and the lines written so far.
    kinetic_model.py 186-187. *)
Record world := { w_level : Z; w_handlers : list handler; w_out : list (sink * str) }.

(** A process before the first model: [Logger.level] is NOTSET. (before kinetic_model.py 158) *)
Definition fresh : world := {| w_level := 0; w_handlers := []; w_out := [] |}.

(** The classes of kinetic_model.py, micro_kinetic_model.py and kmc_model.py, by their
    [_set_logger] (183-216, 140-144, 139-140). *)
Inductive family := Base | Micro | Kmc.

(** kinetic_model.py 190-198; kmc_model.py 139-140 *)
Definition log_file (k : family) (size rank : nat) : str :=
  match k with
  | Kmc => L "out.log"
  | _ => if Nat.eqb size 1 then L "out.log"
         else L "./log/out_" ++ str_of_Z (Z.of_nat rank) ++ L ".log"
  end.

(** kinetic_model.py 231-244: the first handler of that class. *)
Fixpoint set_first (ty : str) (level : Z) (l : list handler) : option (Z * list handler) :=
  match l with
  | [] => None
  | h :: t =>
      if str_eqb (h_class h) ty
      then Some (h_level h,
                 {| h_class := h_class h; h_level := level; h_sink := h_sink h |} :: t)
      else match set_first ty level t with
           | Some (old, t') => Some (old, h :: t')
           | None => None
           end
  end.

(** kinetic_model.py 219-246, [set_logger_level]. *)
Definition set_logger_level (ty : str) (level : Z) (w : world) : world * res Z :=
  match set_first ty level (w_handlers w) with
  | None => (w, Err ValueError)
  | Some (old, l) =>
      ({| w_level := w_level w; w_handlers := l; w_out := w_out w |}, Ok old)
  end.

(** kinetic_model.py 248-251, [clear_handlers]. *)
Definition clear_handlers (w : world) : world :=
  {| w_level := w_level w; w_handlers := []; w_out := w_out w |}.

(** [logging.getLevelName] (for [levelname] of kinetic_model.py 207) *)
Definition level_name (level : Z) : str :=
  if Z.eqb level 10 then L "DEBUG" else if Z.eqb level 20 then L "INFO"
  else if Z.eqb level 30 then L "WARNING" else if Z.eqb level 40 then L "ERROR"
  else if Z.eqb level 50 then L "CRITICAL" else if Z.eqb level 0 then L "NOTSET"
  else L "Level " ++ str_of_Z level.

(** [%-8s] *)
Definition pad8 (s : str) : str := s ++ repeat (ch " ") (8 - length s).

(** kinetic_model.py 207: ['%(name)s   %(levelname)-8s %(message)s'] *)
Definition format (name : str) (level : Z) (msg : str) : str :=
  name ++ L "   " ++ pad8 (level_name level) ++ L " " ++ msg.

(** [Logger.isEnabledFor]: nothing is logged at level 0 or below
    ([manager.disable >= level]); a logger without level takes that of the root. *)
Definition enabled (level : Z) (w : world) : bool :=
  negb (Z.leb level 0) &&
  Z.leb (if Z.eqb (w_level w) 0 then 30 else w_level w) level.

(** [Logger.log] of the logger 'model' or of one below it ('model.solvers...'), [name] its
    name: [callHandlers], with [lastResort] if there is no handler.
    As used by all calls such as kinetic_model.py 216. *)
Definition log (name : str) (level : Z) (msg : str) (w : world) : world :=
  if enabled level w then
    {| w_level := w_level w; w_handlers := w_handlers w;
       w_out := w_out w ++
         match w_handlers w with
         | [] => if Z.leb 30 level then [(ToConsole, msg)] else []
         | l => map (fun h => (h_sink h, format name level msg))
                    (filter (fun h => Z.leb (h_level h) level) l)
         end |}
  else w.

(** kinetic_model.py 183-216, [_set_logger]; micro_kinetic_model.py 140-144;
    [opened]: [FileHandler(filename)] could open the file. *)
Definition set_logger (k : family) (size rank : nat) (opened : bool)
    (logger_level file_level console_level : Z) (w : world) : world * res unit :=
  let w1 := {| w_level := logger_level; w_handlers := w_handlers w; w_out := w_out w |} in
  if negb opened then (w1, Err IOError)
  else
    let w2 := {| w_level := w_level w1;
                 w_handlers := w_handlers w1 ++
                   [ {| h_class := L "FileHandler"; h_level := file_level;
                        h_sink := ToFile (log_file k size rank) |};
                     {| h_class := L "StreamHandler"; h_level := console_level;
                        h_sink := ToConsole |} ];
                 w_out := w_out w1 |} in
    match k with
    | Micro =>
        if Nat.eqb rank 0 then (w2, Ok tt)
        else match set_logger_level (L "StreamHandler") 30 w2 with
             | (w3, Ok _) => (w3, Ok tt)
             | (w3, Err e) => (w3, Err e)
             end
    | _ => (w2, Ok tt)
    end.

(** [log_allowed]: kinetic_model.py 416-422, micro_kinetic_model.py 336-342,
    kmc_model.py 161-167. *)
Definition log_allowed (k : family) (rank : nat) : bool :=
  match k with Base => false | Micro => true | Kmc => Nat.eqb rank 0 end.

(** kinetic_model.py 164-170 *)
Definition banner (size : nat) : list str :=
  [ L "------------------------------------"; L " Model is runing in MPI Environment ";
    L " Number of process: " ++ str_of_Z (Z.of_nat size);
    L "------------------------------------"; L " " ].

(** kinetic_model.py 161-170: the part of [__init__] that makes the logger. *)
Definition start (k : family) (size rank : nat) (opened : bool)
    (logger_level file_level console_level : Z) (w : world) : world * res unit :=
  match set_logger k size rank opened logger_level file_level console_level w with
  | (w1, Err e) => (w1, Err e)
  | (w1, Ok _) =>
      (if log_allowed k rank
       then fold_left (fun w m => log (L "model") 20 m w) (banner size) w1 else w1, Ok tt)
  end.

(** A program's dealings with the logger. kinetic_model.py 183-250. *)
Inductive op :=
| OStart (k : family) (size rank : nat) (opened : bool) (logger file console : Z)
| OSetLevel (ty : str) (level : Z)
| OClear
| OLog (name : str) (level : Z) (msg : str).

(** One of them: kinetic_model.py 183-250. *)
Definition step (w : world) (o : op) : world :=
  match o with
  | OStart k size rank opened l f c => fst (start k size rank opened l f c w)
  | OSetLevel ty level => fst (set_logger_level ty level w)
  | OClear => clear_handlers w
  | OLog name level msg => log name level msg w
  end.

(** The program carries on after an exception. kinetic_model.py 183-250. *)
Definition after (h : list op) : world := fold_left step h fresh.
