(** The mean field on a lattice: every site is occupied independently of the others, by elements with the given
    probabilities. *)
From Coq Require Import String Ascii List ZArith Bool Arith QArith Reals.
Import ListNotations.
From Verif Require Import PyBase Kmc_Model Kmc_Spec KmcLat_Spec.
From Verif Require Rxn_Model MF_Model MF_Spec.
Local Open Scope list_scope.
Local Open Scope nat_scope.

(** All configurations of n sites. *)
Fixpoint configs (types : list str) (n : nat) : list config :=
  match n with
  | O => [[]]
  | S k => flat_map (fun t => map (cons t) (configs types k)) types
  end.

Definition product (l : list R) : R := fold_right Rmult 1%R l.

(** Expected rate of a process at one place. *)
Definition expected_rate (neighbour : nat -> list Q -> nat) (basis : nat -> Z) (n : nat)
    (types : list str) (theta : str -> R) (p : kmc_process R) (a : nat) : R :=
  sum (map (fun X => product (map theta X) * match event neighbour basis p a X with Some _ => p_rate p | None => 0 end)%R
    (configs types n)).

(** The species on the surface in a state, each as often as its number says. *)
Definition on_surface (st : list Rxn_Model.formula) : list str :=
  flat_map (fun f => if str_eqb (Rxn_Model.f_site f) (L "g") then []
                     else repeat (Rxn_Model.f_species_site f) (Z.to_nat (Rxn_Model.f_stoich f))) st.
(** No liquids. *)
Definition no_liquid (st : list Rxn_Model.formula) : Prop :=
  forall f, In f st -> Rxn_Model.f_site f <> L "l".
