(** What the pictures of the energy profiles should be. *)
From Coq Require Import String Ascii List ZArith Reals Bool.
Import ListNotations.
From Verif Require Import PyBase.
Local Open Scope list_scope.
Local Open Scope nat_scope.

(** The states of a reaction: a barrier of less than 0.00001 eV is left out. *)
Inductive states_of (Ga dG : R) : list R -> Prop :=
| two_states : (Rabs Ga < / 100000)%R -> states_of Ga dG [0%R; dG]
| three_states : (/ 100000 <= Rabs Ga)%R -> states_of Ga dG [0%R; Ga; dG].

(** The file of the reaction with number [i]. *)
Definition file_of (i : nat) (rxn : str) : str :=
  L "energy_profile/" ++ str_of_Z (Z.of_nat i) ++ L "_" ++ rxn ++ L ".png".

(** The reaction with number [i], with its energies. *)
Definition reaction (rxns : list str) (gaf dg : list R) (i : nat) (rxn : str) (Ga dG : R) : Prop :=
  nth_error rxns i = Some rxn /\ nth_error gaf i = Some Ga /\ nth_error dg i = Some dG.
