(** Texts written to data files (scaks/utilities/format_utilities.py). *)
From Coq Require Import String Ascii List ZArith NArith Bool Arith QArith Qround.
Import ListNotations.
From Verif Require Import PyBase PyData_Model.
Local Open Scope list_scope.

(** [isinstance(elem, str)] does not hold and [elem] has [__iter__]: lists and tuples.
    scaks/utilities/format_utilities.py 32. *)
Definition is_iterable (v : val) : bool :=
  match v with VList _ | VTuple _ => true | _ => false end.

(** scaks/utilities/format_utilities.py 30-43: the loop over the elements, from position
    [idx] on. *)
Fixpoint list_data (ncols : Z) (idx : Z) (l : list val) : res str :=
  match l with
  | [] => Ok []
  | elem :: t =>
      do data <-
        (if is_iterable elem then
           do s <- repr_val elem; Ok ([nl] ++ L "    " ++ s ++ L ",")
         else
           do m <- (if (ncols =? 0)%Z then Err ZeroDivisionError else Ok (idx mod ncols)%Z);
           let br := if (m =? 0)%Z then [nl] ++ L "    " else [] in
           match elem with
           | VStr s => Ok (br ++ L "'" ++ s ++ L "', ")
           | _ => do s <- repr_val elem; Ok (br ++ s ++ L ", ")
           end);
      do rest <- list_data ncols (idx + 1)%Z t;
      Ok (data ++ rest)
  end.

(** scaks/utilities/format_utilities.py 10-48, [get_list_string]. *)
Definition get_list_string (var_name : str) (list_obj : list val) (ncols : Z) : res str :=
  do data <- list_data ncols 0 list_obj;
  Ok (var_name ++ L " = [" ++ data ++ [nl] ++ L "]" ++ [nl] ++ [nl]).

(** [sorted(d)] for the distinct keys of a dictionary: insertion of each key.
    scaks/utilities/format_utilities.py 61. *)
Definition sorted_keys (d : dict str) : list str := sorted_set (map fst d).

(** scaks/utilities/format_utilities.py 50-68, [get_dict_string]; the values are given by
    the text [str(value)]. *)
Definition get_dict_string (var_name : str) (d : dict str) : res str :=
  do lines <- mapM (fun key => do value <- dindex d key;
                    Ok (L "    '" ++ key ++ L "': " ++ value ++ L "," ++ [nl])) (sorted_keys d);
  Ok (var_name ++ L " = {" ++ [nl] ++ concat lines ++ L "}" ++ [nl] ++ [nl]).

(** [int(q)]: truncation towards zero. scaks/utilities/format_utilities.py 77-78. *)
Definition py_int (q : Q) : Z := Z.quot (Qnum q) (Zpos (Qden q)).

(** scaks/utilities/format_utilities.py 71-82, [convert_time], on exact rationals. *)
Definition convert_time (sec : Q) : Z * Z * Q :=
  let hours := py_int (sec / 3600)%Q in
  let minutes := py_int ((sec - inject_Z hours * 3600) / 60)%Q in
  let seconds := (sec - inject_Z hours * 3600 - inject_Z minutes * 60)%Q in
  (hours, minutes, seconds).
