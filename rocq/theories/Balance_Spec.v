(** Specification vocabulary for the balances of reported steady states and for the free energy of a
    mechanism at work (C93, C94). *)
From Coq Require Import String Ascii List ZArith Bool Reals.
Import ListNotations.
From Verif Require Import PyBase Rxn_Model Rxn_Spec Species_Model Species_Spec PyReal Energy_Model Energy_Spec
  Rate_Spec MF_Model MF_Spec Whole_Spec.
Local Open Scope list_scope.
Local Open Scope R_scope.

(** The species outside the surface, in the order of the turnover frequencies. *)
Definition outside (s : setup) : list str := l_gas (s_lists s) ++ l_liq (s_lists s).

(** Atoms of one of each adsorbate together. *)
Definition atoms_adsorbed (s : setup) (x : ascii) : R := IZR (sum_Z (map (name_atoms x) (ads s))).

(** How much there is of a species: pressure, concentration or coverage. *)
Definition amount (s : setup) (cvgs : list R) (n : str) : R :=
  if in_dec (list_eq_dec ascii_dec) n (l_gas (s_lists s)) then value (s_pressure s) n
  else if in_dec (list_eq_dec ascii_dec) n (l_liq (s_lists s)) then value (s_conc s) n
  else coverage s cvgs n.

(** Chemical potential of a species: its energy in the table (an empty site, if the name has a star)
    and the mixing entropy of an ideal gas, solution or lattice. *)
Definition table_name (n : str) : str := if in_dec ascii_dec "*"%char n then site_tag n else n.
Definition potential (s : setup) (cvgs : list R) (T : R) (ed : dict R) (n : str) : R :=
  value ed (table_name n) + kT T * ln (amount s cvgs n).
(** Of an adsorbate in exchange for the sites it takes. *)
Definition in_exchange (s : setup) (cvgs : list R) (T : R) (ed : dict R) (n : str) : R :=
  potential s cvgs T ed n
  - IZR (leading_number (after_last_underscore n)) * potential s cvgs T ed (site_tag n).

(** Free energies of all the reactions. *)
Definition free_energies (s : setup) (cvgs : list R) (T : R) (dGs : list R) : list R :=
  map (fun p => free_energy s cvgs T (snd p) (fst p)) (combine (l_rxns (s_lists s)) dGs).

(** Everything that reacts is there. *)
Definition all_present (s : setup) (cvgs : list R) : Prop :=
  forall st f, end_state s st -> In f st -> 0 < activity s cvgs f.
