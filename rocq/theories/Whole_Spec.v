(** Specification vocabulary for consequences for a mechanism as a whole (C77-C80). *)
From Coq Require Import String Ascii List ZArith Bool Reals.
Import ListNotations.
From Verif Require Import PyBase Rxn_Model Rxn_Spec Species_Model Species_Spec PyReal Energy_Model
  Energy_Spec Rate_Spec MF_Model MF_Spec.
Local Open Scope list_scope.
Local Open Scope R_scope.

(** First and last state of a reaction. *)
Definition begins (fls : list (list formula)) : list formula := hd [] fls.
Definition ends (fls : list (list formula)) : list formula := last fls [].

(** ** Cycles (C77) *)

(** The name under which the energy of a formula is tabulated: any star is an empty site. *)
Definition energy_name (f : formula) : str :=
  if in_dec ascii_dec "*"%char (f_species_site f) then L "*_" ++ f_site f else f_species_site f.
(** How many of it there are in a state, and how many more in the last state of a reaction than
    in the first. *)
Definition molecules (name : str) (fs : list formula) : Z :=
  sum_Z (map (fun f => if str_eqb (energy_name f) name then f_stoich f else 0%Z) fs).
Definition produced (name : str) (fls : list (list formula)) : Z :=
  (molecules name (ends fls) - molecules name (begins fls))%Z.

(** Sum over the positions of two lists. *)
Definition dot (c x : list R) : R := Rsum (map (fun p => fst p * snd p) (combine c x)).

(** Reference energies: so much for each atom of the elements [xs] and each occupied site. *)
Definition reference (xs : list ascii) (atom : ascii -> R) (site : str -> R) (f : formula) : R :=
  Rsum (map (fun x => atom x * IZR (atoms_in_species x (f_species f))) xs)
  + (if str_eqb (f_site f) (L "g") then 0 else if str_eqb (f_site f) (L "l") then 0
     else site (f_site f) * IZR (f_nsite f)).

(** The table [ed'] is the table [ed] with other reference energies, as far as the formulas of the
    reactions go. *)
Definition rereferenced (ref : formula -> R) (rxns : list (list (list formula))) (ed ed' : dict R) : Prop :=
  forall f x, occurs f rxns -> dget ed (energy_name f) = Some x ->
    dget ed' (energy_name f) = Some (x + ref f).

(** ** Equilibrium (C78) *)

(** A first or last state of a reaction of the mechanism. *)
Definition end_state (s : setup) (st : list formula) : Prop :=
  exists fls, In fls (l_rxns (s_lists s)) /\ (st = begins fls \/ st = ends fls).

(** Product of the activities of a state. *)
Definition activities (s : setup) (cvgs : list R) (st : list formula) : R := mass_action s cvgs 1 st.

(** Free energy of a reaction with reaction energy [dg] at given coverages, pressures and
    concentrations. *)
Definition free_energy (s : setup) (cvgs : list R) (T dg : R) (fls : list (list formula)) : R :=
  dg + kT T * ln (activities s cvgs (ends fls) / activities s cvgs (begins fls)).

(** Barriers and reaction energies belong together. *)
Definition consistent (r : rel_energies) (n : nat) : Prop :=
  entries r n /\ forall i gaf gar dg, entry r i gaf gar dg -> gaf - gar = dg.

(** ** Physical coverages (C79) *)

(** Nothing negative: pressures, concentrations, coverages, free sites. *)
Definition nothing_negative (s : setup) (cvgs : list R) : Prop :=
  (forall g x, dget (s_pressure s) g = Some x -> 0 <= x) /\
  (forall l x, dget (s_conc s) l = Some x -> 0 <= x) /\
  (forall x, In x cvgs -> 0 <= x) /\
  (forall site, In site (sites s) -> covered site (ads s) cvgs <= total s site).

(** ** Writing (C80) *)

(** The same mechanism: equal but for the reactions, which are accepted. *)
Definition same_but_reactions (s s' : setup) : Prop :=
  parse_rxns (s_exprs s') = Ok (s_lists s') /\
  s_total s' = s_total s /\ s_pressure s' = s_pressure s /\ s_conc s' = s_conc s.

(** A reaction with its rate constants, as it is or reverted. *)
Definition turned (x y : str * (R * R)) : Prop :=
  x = y \/ (rxn_revert (fst x) = Ok (fst y) /\ snd y = (snd (snd x), fst (snd x))).
