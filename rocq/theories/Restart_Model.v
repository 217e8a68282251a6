(** Continuing a kinetic Monte Carlo run: /repo/scripts/kmc_run/change_start_time.py *)
From Coq Require Import String Ascii List ZArith Bool Arith.
Import ListNotations.
From Verif Require Import PyBase PyData_Model.
From Verif Require Attr_Model.
Local Open Scope list_scope.

(** [f.readlines()]: the lines of a text with their ends.  (Files with other ends of lines than
    LF are not modelled.) change_start_time.py 11. *)
Fixpoint read_lines (s : str) : list str :=
  match s with
  | [] => []
  | c :: t => if Ascii.eqb c nl then [nl] :: read_lines t
              else match read_lines t with
                   | [] => [[c]]
                   | w :: ws => (c :: w) :: ws
                   end
  end.

Section Restart.
(** ["{}".format(x)] for the number written as the given text. *)
Variable show : str -> str.

(** ["{}".format(v)], change_start_time.py 16.  Lists of numbers are not modelled. *)
Definition format_value (v : val) : res str :=
  match v with
  | VNum s => Ok (show s)
  | VStr s => Ok s
  | _ => Err Unsupported
  end.

(** change_start_time.py 5-8: the last of the recorded times.  A text or a dictionary of that
    name is not modelled. *)
Definition last_time (trajectory : str) : res val :=
  do g <- exec_file trajectory;
  match dget g (L "times") with
  | None => Err KeyError
  | Some (OVal (VList l)) | Some (OVal (VTuple l)) => llast l
  | Some (OVal (VNum _)) => Err TypeError
  | Some _ => Err Unsupported
  end.

(** [line.startswith], change_start_time.py 15. *)
Definition is_start (line : str) : bool := Attr_Model.str_prefix (L "start_time") line.

(** change_start_time.py 13-21; the replaced line has no end of line *)
Definition change_line (t : str) (line : str) : str :=
  if is_start line then L "start_time = " ++ t else line.
(** Same lines: change_start_time.py 13-21. *)
Definition change_lines (t : str) (content : list str) : list str :=
  if existsb is_start content then map (change_line t) content
  else content ++ [L "start_time = 0.0" ++ [nl]].

(** change_start_time.py 3-24: the new text of the setup file.  (The text of the time is only
    made if a line is replaced.) *)
Definition change_start_time (trajectory setup : str) : res str :=
  do v <- last_time trajectory;
  let content := read_lines setup in
  if existsb is_start content
  then do t <- format_value v; Ok (concat (change_lines t content))
  else Ok (concat (change_lines [] content)).
End Restart.
