(** What continuing a run should do to the setup file, and what it does. *)
From Coq Require Import String Ascii List ZArith Bool Arith.
Import ListNotations.
From Verif Require Import PyBase PyData_Model.
Local Open Scope list_scope.

(** The lines of a text, each with its end; the last may have none. *)
Inductive lines_of : list str -> str -> Prop :=
| lo_nil : lines_of [] []
| lo_last w : w <> [] -> ~ In nl w -> lines_of [w] w
| lo_more w l s : ~ In nl w -> lines_of l s -> lines_of ((w ++ [nl]) :: l) (w ++ nl :: s).

(** The last of the times that a trajectory file records. *)
Definition recorded (trajectory : str) (v : val) : Prop :=
  exists g l, exec_file trajectory = Ok g /\
    (dget g (L "times") = Some (OVal (VList (l ++ [v]))) \/
     dget g (L "times") = Some (OVal (VTuple (l ++ [v])))).

(** The text of a time. *)
Definition shows (show : str -> str) (v : val) (t : str) : Prop :=
  (exists s, v = VNum s /\ t = show s) \/ v = VStr t.

Definition start_line (w : str) : Prop := exists r, w = L "start_time" ++ r.

(** A line as the script leaves it: without its end. *)
Definition left (t w w' : str) : Prop :=
  (start_line w /\ w' = L "start_time = " ++ t) \/ (~ start_line w /\ w' = w).

(** A line as it should be: with the end it had. *)
Definition renewed (t w w' : str) : Prop :=
  (~ start_line w /\ w' = w) \/
  (exists r, w = L "start_time" ++ r ++ [nl] /\ w' = L "start_time = " ++ t ++ [nl]) \/
  (exists r, w = L "start_time" ++ r /\ ~ In nl r /\ w' = L "start_time = " ++ t).

(** The setup with only the start time changed. *)
Definition intended (t old new : str) : Prop :=
  exists l l', lines_of l old /\ Forall2 (renewed t) l l' /\ new = concat l'.
