(** A lattice in equilibrium: averages over its configurations with their weights (C113). *)
From Coq Require Import String Ascii List ZArith Reals.
Import ListNotations.
From Verif Require Import PyBase KmcLat_Spec KmcMean_Spec.

(** The average of a quantity over all configurations of n sites. *)
Definition average (E : str -> R) (types : list str) (n : nat) (v : config -> R) : R :=
  (sum (map (fun X => weight E X * v X) (configs types n)) / sum (map (weight E) (configs types n)))%R.

(** Boltzmann's share of an element. *)
Definition boltzmann (E : str -> R) (types : list str) (e : str) : R :=
  (exp (- E e) / sum (map (fun x => exp (- E x)) types))%R.
