(** Jobs for many pressures: /repo/scripts/kmc_run/1d-run/create_jobs.py and 2d-run/create_jobs.py *)
From Coq Require Import String Ascii List ZArith Bool Arith.
Import ListNotations.
From Verif Require Import PyBase PyData_Model.
Local Open Scope list_scope.

(** Values of a setup file.  Numbers are kept as the text their [repr] gives.
    scripts/kmc_run/1d-run/create_jobs.py 28. *)
Inductive sval :=
| WNum (s : str)
| WStr (s : str)
| WWord (s : str)                       (** True, False, None *)
| WList (l : list sval)
| WTuple (l : list sval)
| WDict (d : list (str * sval)).

(** [repr]; the entries of a dictionary in the order in which they are kept.  Texts with quotes,
    backslashes or characters that are not printable are not modelled here. create_jobs.py 13-14. *)
Definition repr_text (s : str) : res str :=
  if plain s then Ok (L "'" ++ s ++ L "'") else Err Unsupported.
(** create_jobs.py 13-14. *)
Fixpoint repr_sval (v : sval) : res str :=
  match v with
  | WNum s => Ok s
  | WStr s => repr_text s
  | WWord s => Ok s
  | WList l =>
      do ts <- (fix go l := match l with
                            | [] => Ok []
                            | x :: t => do y <- repr_sval x; do ys <- go t; Ok (y :: ys)
                            end) l;
      Ok (L "[" ++ join (L ", ") ts ++ L "]")
  | WTuple l =>
      do ts <- (fix go l := match l with
                            | [] => Ok []
                            | x :: t => do y <- repr_sval x; do ys <- go t; Ok (y :: ys)
                            end) l;
      match ts with
      | [x] => Ok (L "(" ++ x ++ L ",)")
      | _ => Ok (L "(" ++ join (L ", ") ts ++ L ")")
      end
  | WDict d =>
      do ts <- (fix go d := match d with
                            | [] => Ok []
                            | (k, x) :: t =>
                                do a <- repr_text k; do b <- repr_sval x; do ys <- go t;
                                Ok ((a ++ L ": " ++ b) :: ys)
                            end) d;
      Ok (L "{" ++ join (L ", ") ts ++ L "}")
  end.

(** 1d-run/create_jobs.py 13: a text is put between quotes as it is *)
Definition setup_value (v : sval) : res str :=
  match v with
  | WStr s => Ok (L "'" ++ s ++ L "'")
  | _ => repr_sval v
  end.

(** [dict2setup], 1d-run/create_jobs.py 10-16, the same in 2d-run *)
Fixpoint dict2setup (d : dict sval) : res str :=
  match d with
  | [] => Ok []
  | (k, v) :: t =>
      do s <- setup_value v; do rest <- dict2setup t;
      Ok (k ++ L " = " ++ s ++ [nl] ++ rest)
  end.

(** Item access and assignment with a text as key; anything but a dictionary raises a TypeError.
    1d-run/create_jobs.py 41, 2d-run/create_jobs.py 46-47. *)
Definition item (v : sval) (k : str) : res sval :=
  match v with
  | WDict d => dindex d k
  | _ => Err TypeError
  end.
(** 1d-run/create_jobs.py 41, 2d-run/create_jobs.py 46-47. *)
Definition set_item (v : sval) (k : str) (x : sval) : res sval :=
  match v with
  | WDict d => Ok (WDict (dset d k x))
  | _ => Err TypeError
  end.

(** [locs['species_definitions'][species]['pressure'] = p], 1d-run/create_jobs.py 41,
    2d-run/create_jobs.py 46-47.  The change is made in place: [locs] keeps it. *)
Definition set_pressure (locs : dict sval) (species : str) (p : str) : res (dict sval) :=
  do defs <- dindex locs (L "species_definitions");
  do one <- item defs species;
  do one' <- set_item one (L "pressure") (WNum p);
  do defs' <- set_item defs species one';
  Ok (dset locs (L "species_definitions") defs').

(** The files of a directory, and the directories with their files. 1d-run/create_jobs.py 36-46. *)
Definition files := dict str.
(** Directories by name, 1d-run/create_jobs.py 36-40. *)
Definition disk := dict files.

Section Jobs.
Context {P : Type}.
(** [str(p)] names the directory, [repr(p)] is written in the setup. *)
Variables shown written : P -> str.
(** The files in ./template without the setup (copied with [cp -r]) and the name of the setup file. *)
Variable template : files.
(** 1d-run/create_jobs.py 18, 2d-run/create_jobs.py 22. *)
Definition filename : str := L "pt-100.mkm".

(** The settings of one job; without the file in ./template the name [locs] is not defined.
    1d-run/create_jobs.py 25-28, 41. *)
Definition settings (change : dict sval -> res (dict sval)) (locs : option (dict sval))
    : res (dict sval * str) :=
  match locs with
  | None => Err NameError
  | Some l => do l' <- change l; do content <- dict2setup l'; Ok (l', content)
  end.

(** 1d-run/create_jobs.py 36-46, 2d-run/create_jobs.py 41-52: the directory is removed if it is
    there, made again and filled with the files of the template; then the setup is written. *)
Definition one_job (dir : str) (change : dict sval -> res (dict sval)) (locs : option (dict sval))
    (d : disk) : disk * res (dict sval) :=
  match settings change locs with
  | Err e => (dset d dir template, Err e)
  | Ok (l', content) => (dset d dir (dset template filename content), Ok l')
  end.

(** The loop over jobs, each a directory with the change that is made: the directories and the
    text of job_dirs.txt. 1d-run/create_jobs.py 30-50, 2d-run/create_jobs.py 30-55. *)
Fixpoint run_jobs (js : list (str * (dict sval -> res (dict sval)))) (locs : option (dict sval))
    (d : disk) : disk * res str :=
  match js with
  | [] => (d, Ok [])
  | (dir, change) :: t =>
      match one_job dir change locs d with
      | (d', Err e) => (d', Err e)
      | (d', Ok l') =>
          let (d'', r) := run_jobs t (Some l') d' in
          (d'', do s <- r; Ok (dir ++ [nl] ++ s))
      end
  end.

(** 1d-run/create_jobs.py 30-50 *)
Definition jobs_1d (species : str) (ps : list P) : list (str * (dict sval -> res (dict sval))) :=
  map (fun p => (shown p, fun l => set_pressure l species (written p))) ps.
(** 1d-run/create_jobs.py 30-50 *)
Definition create_jobs_1d (species : str) (ps : list P) (locs : option (dict sval)) (d : disk)
    : disk * res str :=
  run_jobs (jobs_1d species ps) locs d.

(** 2d-run/create_jobs.py 30-55.  (The directory of the oxygen pressure alone is only the start of
    the path.) *)
Definition jobs_2d (pO2s pCOs : list P) : list (str * (dict sval -> res (dict sval))) :=
  flat_map (fun o =>
    map (fun c => (L "pO2-" ++ shown o ++ L "/pCO-" ++ shown c,
                   fun l => do l1 <- set_pressure l (L "CO_g") (written c);
                            set_pressure l1 (L "O2_g") (written o))) pCOs) pO2s.
(** 2d-run/create_jobs.py 30-55 *)
Definition create_jobs_2d (pO2s pCOs : list P) (locs : option (dict sval)) (d : disk)
    : disk * res str :=
  run_jobs (jobs_2d pO2s pCOs) locs d.
End Jobs.
