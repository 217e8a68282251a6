(** Energy profiles (scaks/plotters/energy_profile_plotter.py 23-68).

    Drawing is done by another package ([catplot]); it is the argument [draw], which gets the
    energies of the states, the reaction and the further keyword arguments, and gives a
    picture or raises.  Whether a picture can be saved under a name is the argument
    [savable]. *)
From Coq Require Import String Ascii List ZArith Reals Bool.
Import ListNotations.
From Verif Require Import PyBase PyReal.
Local Open Scope list_scope.
Local Open Scope nat_scope.

Section Plot.
Context {value picture : Type}.
(** lines 63-65: EPCanvas(), ElementaryLine(energies, rxn_equation=rxn, **kwargs), draw() *)
Variable draw : list R -> str -> dict value -> res picture.
(** line 67: canvas.figure.savefig(image_name) *)
Variable savable : str -> bool.

(** line 62 *)
Definition states (Ga dG : R) : list R :=
  if Rltb (Rabs Ga) (/ 100000) then [0%R; dG] else [0%R; Ga; dG].

(** line 66 *)
Definition image_name (idx : nat) (rxn : str) : str :=
  L "energy_profile/" ++ str_of_Z (Z.of_nat idx) ++ L "_" ++ rxn ++ L ".png".

(** Pictures on disk. energy_profile_plotter.py 23-68. *)
Definition album := dict picture.

(** [zip] of three lists (energy_profile_plotter.py 23-68) *)
Fixpoint zip3 {A B C} (a : list A) (b : list B) (c : list C) : list (A * B * C) :=
  match a, b, c with
  | x :: a', y :: b', z :: c' => (x, y, z) :: zip3 a' b' c'
  | _, _, _ => []
  end.

(** lines 59-68; a keyword given twice is a TypeError of the call in line 64. *)
Fixpoint plot_loop (kwargs : dict value) (idx : nat) (l : list (str * R * R)) (a : album)
  : album * res unit :=
  match l with
  | [] => (a, Ok tt)
  | (rxn, Ga, dG) :: t =>
      if dmem kwargs (L "rxn_equation") then (a, Err TypeError)
      else match draw (states Ga dG) rxn kwargs with
           | Err e => (a, Err e)
           | Ok pic =>
               if savable (image_name idx rxn)
               then plot_loop kwargs (S idx) t (dset a (image_name idx rxn) pic)
               else (a, Err IOError)
           end
  end.

(** [plot_all]: the owner's reactions and relative energies, whether the directory exists and
    the pictures on disk.  Result: the directory, the pictures, the outcome.
    energy_profile_plotter.py 23-68. *)
Definition plot_all (kwargs : dict value) (rxns : list str) (energies : dict (list R))
    (dir : bool) (a : album) : bool * album * res unit :=
  (* lines 56-57: the directory is there afterwards in either case *)
  match dindex energies (L "Gaf"), dindex energies (L "dG") with
  | Ok gaf, Ok dg => let '(a', r) := plot_loop kwargs 0 (zip3 rxns gaf dg) a in (true, a', r)
  | Err e, _ => (true, a, Err e)
  | _, Err e => (true, a, Err e)
  end.
End Plot.
