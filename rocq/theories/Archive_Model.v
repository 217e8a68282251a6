(** Model of the data archive: [ModelShell.archive_data], scaks/__init__.py 33-49, and the property
    [data_file] of the model, scaks/models/micro_kinetic_model.py 327-334.

    Outside the model: [pickle.dump] and [pickle.load], functions given from outside.  [dump d] is
    the list of bytes that reach the file and the exception if the dictionary cannot be pickled.
    The names to archive ([self._owner.archived_variables], a setup attribute, see C46) and the name
    of the file do not change during a history. *)
From Coq Require Import String Ascii List Arith NArith Bool.
From Verif Require Import PyBase.
Import ListNotations.
Local Open Scope list_scope.
Local Open Scope nat_scope.

(** micro_kinetic_model.py 327-334. *)
Definition data_file (size rank : nat) : str :=
  if Nat.eqb size 1 then L "data.pkl"
  else L "./data/data_" ++ dec (N.of_nat rank) ++ L ".pkl".

Section Archive.
  Context {V B : Type}.
  Variable dump : dict V -> list B * option exn.
  (** Of the tools (solvers, parsers, ...), by number: is the name in the owner's
      [archived_variables], the owner's [data_file], can it be opened for writing. *)
  Variable selected : nat -> str -> bool.
  Variable path : nat -> str.
  Variable opens : str -> bool.

  (** The dictionaries [_archived_data_dict] of the tools, and the files.
      scaks/__init__.py 33-49. *)
  Record state := { dicts : nat -> dict V; disk : str -> option (list B) }.

  (** [self._archived_data_dict[...] = ...], scaks/__init__.py 45. *)
  Definition set_dict (s : state) (t : nat) (d : dict V) : state :=
    {| dicts := fun u => if Nat.eqb u t then d else dicts s u; disk := disk s |}.
  (** The write of the dump, scaks/__init__.py 48-49. *)
  Definition set_file (s : state) (p : str) (c : list B) : state :=
    {| dicts := dicts s; disk := fun q => if str_eqb q p then Some c else disk s q |}.

  (** scaks/__init__.py 33-49.  The dictionary is never empty at line 46. *)
  Definition archive (s : state) (t : nat) (name : str) (v : V) : res unit * state :=
    if selected t name then
      let d := dset (dicts s t) name v in
      let s1 := set_dict s t d in
      match d with
      | [] => (Ok tt, s1)
      | _ =>
          if opens (path t) then
            let (bytes, failure) := dump d in
            let s2 := set_file s1 (path t) bytes in
            (match failure with None => Ok tt | Some e => Err e end, s2)
          else (Err IOError, s1)
      end
    else (Ok tt, s).

  (** A new process: every tool starts with an empty dictionary (31), the files are still there. *)
  Definition restart (s : state) : state := {| dicts := fun _ => []; disk := disk s |}.

  (** A call of [archive_data], scaks/__init__.py 33-49, or a new process. *)
  Inductive op := Archive (t : nat) (name : str) (v : V) | Restart.

  (** One operation: scaks/__init__.py 33-49 for a call. *)
  Definition step (s : state) (x : op) : res unit * state :=
    match x with
    | Archive t name v => archive s t name v
    | Restart => (Ok tt, restart s)
    end.

  (** A sequence of operations, in order (callers of scaks/__init__.py 33). *)
  Fixpoint run (s : state) (ops : list op) : list (res unit) * state :=
    match ops with
    | [] => ([], s)
    | x :: l => let (r, s1) := step s x in let (rs, s2) := run s1 l in (r :: rs, s2)
    end.

  (** The process dies inside the call: the file was emptied when it was opened (47) and has
      received the first [k] bytes. *)
  Definition crash (s : state) (t : nat) (name : str) (v : V) (k : nat) : state :=
    if selected t name && opens (path t) then
      set_file (restart s) (path t) (firstn k (fst (dump (dset (dicts s t) name v))))
    else restart s.
End Archive.
Arguments op : clear implicits.
Arguments state : clear implicits.
