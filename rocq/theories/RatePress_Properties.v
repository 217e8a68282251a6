(** Theorems of C111: the pressure in the rates of collision theory. *)
From Coq Require Import String Ascii List ZArith QArith Qreals Bool Arith Reals Lra Lia.
Import ListNotations.
From Verif Require Import PyBase PyBaseFacts Rxn_Model Rxn_Spec Mol_Model PyReal Energy_Model Energy_Spec
  Thermo_Model Rate_Model Rate_Spec Rate_Witness Rate_Temp Thermo_Spec RatePress_Spec RatePress_Proofs.
Open Scope list_scope.
Open Scope R_scope.

(** C111.  Full statement: under collision theory the pressure of a gas multiplies the rate constant of the
    direction that takes it up, and does not touch the rate constant of the direction that releases it.
    Proved for the gas that comes first in its reaction, without a number, in the tables of the entropy
    correction, from 300 K on.  Adsorption, whether or not the reverse rate is at its limit kT/h: *)
Theorem C111_adsorption_partial : forall o P1 P2 e r fls first last g g' m p1 p2 gaf gar dg,
  300 <= o_T o -> 0 < o_Auc o -> o_corrector_str o = false -> 0 < o_act_ratio o <= 1 ->
  energies_of o r e gaf gar dg ->
  rxn_formula_list e = Ok fls -> lfirst fls = Ok first -> llast fls = Ok last ->
  first_gas first = Some g -> f_stoich g = 1%Z -> molecular_mass (f_species g) true = Ok m -> 0 < Q2R m ->
  parse_formula (f_text g) = Ok g' -> f_site g' = L "g" -> In (f_species_site g') entropy_gases ->
  dget P1 (f_text g) = Some (Some p1) -> dget P2 (f_text g) = Some (Some p2) -> 0 < p1 -> 0 < p2 ->
  exists f1 b1 f2 b2, rates_CT ec_tables (pressed o P1) e r true = Ok (f1, b1) /\
    rates_CT ec_tables (pressed o P2) e r true = Ok (f2, b2) /\ 0 < f1 /\ 0 < b1 /\ f2 / f1 = p2 / p1 /\ b2 = b1.
Proof. exact ct_ads. Qed.
Print Assumptions C111_adsorption_partial.

(** Desorption, a gas among the products only. *)
Theorem C111_desorption_partial : forall o P1 P2 e r fls first last g g' m p1 p2 gaf gar dg,
  300 <= o_T o -> 0 < o_Auc o -> o_corrector_str o = false ->
  energies_of o r e gaf gar dg ->
  rxn_formula_list e = Ok fls -> lfirst fls = Ok first -> llast fls = Ok last ->
  first_gas first = None -> first_gas last = Some g -> f_stoich g = 1%Z ->
  molecular_mass (f_species g) true = Ok m -> 0 < Q2R m ->
  parse_formula (f_text g) = Ok g' -> f_site g' = L "g" -> In (f_species_site g') entropy_gases ->
  dget P1 (f_text g) = Some (Some p1) -> dget P2 (f_text g) = Some (Some p2) -> 0 < p1 -> 0 < p2 ->
  exists f1 b1 f2 b2, rates_CT ec_tables (pressed o P1) e r true = Ok (f1, b1) /\
    rates_CT ec_tables (pressed o P2) e r true = Ok (f2, b2) /\ 0 < f1 /\ 0 < b1 /\ f2 = f1 /\ b2 / b1 = p2 / p1.
Proof. exact ct_des. Qed.
Print Assumptions C111_desorption_partial.

(** Only the first gas counts: first among the reactants, or among the products if no reactant is a gas. *)
Theorem C111_first_gas : forall ec o P1 P2 e r fls first last,
  rxn_formula_list e = Ok fls -> lfirst fls = Ok first -> llast fls = Ok last ->
  (forall g, first_gas first = Some g \/ (first_gas first = None /\ first_gas last = Some g) ->
     dget P1 (f_text g) = dget P2 (f_text g)) ->
  forall incl, rates_CT ec (pressed o P1) e r incl = rates_CT ec (pressed o P2) e r incl.
Proof. exact ct_other. Qed.
Print Assumptions C111_first_gas.

(** So the pressure of a product gas is lost if there is a gas among the reactants. *)
Theorem C111_second_gas_refuted : exists o e r f b, e = L "CO_g + O_s -> CO2_g + *_s" /\ 0 < f /\ 0 < b /\
  rates_CT ec_tables (pressed o [(L "CO_g", Some 1); (L "CO2_g", Some 1)]) e r true = Ok (f, b) /\
  rates_CT ec_tables (pressed o [(L "CO_g", Some 1); (L "CO2_g", Some 100)]) e r true = Ok (f, b).
Proof. exact er_refuted. Qed.
Print Assumptions C111_second_gas_refuted.

(** Gases missing in the tables: the reverse rate is that of the collisions times a constant, up to the limit. *)
Theorem C111_untabulated : forall o P e r fls first last g g' m p gaf gar dg,
  0 < o_T o -> 0 < o_Auc o -> o_corrector_str o = false -> 0 < o_act_ratio o <= 1 ->
  energies_of o r e gaf gar dg ->
  rxn_formula_list e = Ok fls -> lfirst fls = Ok first -> llast fls = Ok last ->
  first_gas first = Some g -> molecular_mass (f_species g) true = Ok m -> 0 < Q2R m ->
  parse_formula (f_text g) = Ok g' -> f_site g' = L "g" -> ~ In (f_species_site g') entropy_gases ->
  dget P (f_text g) = Some (Some p) -> 0 < p ->
  exists f b, rates_CT ec_tables (pressed o P) e r true = Ok (f, b) /\
    kCT gaf (o_Auc o) (o_act_ratio o) (Q2R m) (o_T o) (P0 * p) 1 = Ok f /\
    b = Rmin (frequency (o_T o)) (f * exp (dg / kT (o_T o))).
Proof. exact ct_ads_untabulated. Qed.
Print Assumptions C111_untabulated.

(** So the desorption of methanol doubles with its pressure, and the equilibrium does not move. *)
Theorem C111_untabulated_refuted : exists o e r f1 b1 f2 b2, e = L "CH3OH_g + *_s -> CH3OH_s" /\
  rates_CT ec_tables (pressed o [(L "CH3OH_g", Some 1)]) e r true = Ok (f1, b1) /\
  rates_CT ec_tables (pressed o [(L "CH3OH_g", Some 2)]) e r true = Ok (f2, b2) /\
  0 < f1 /\ 0 < b1 /\ f2 = 2 * f1 /\ b2 = 2 * b1.
Proof. exact met_refuted. Qed.
Print Assumptions C111_untabulated_refuted.

(** The hypotheses of both directions. *)
Example C111_hypotheses : exists a b c m,
  rxn_formula_list (L "CO_g + *_s -> CO_s") = Ok [[a; b]; [c]] /\ rxn_formula_list (L "CO_s -> CO_g + *_s") = Ok [[c]; [a; b]] /\
  first_gas [a; b] = Some a /\ first_gas [c] = None /\ f_stoich a = 1%Z /\ f_text a = L "CO_g" /\
  molecular_mass (f_species a) true = Ok m /\ 0 < Q2R m /\
  parse_formula (f_text a) = Ok a /\ f_site a = L "g" /\ In (f_species_site a) entropy_gases.
Proof. exact co_tabulated. Qed.

Example C111_example : exists f1 b1 f2 b2,
  rates_CT ec_tables (pressed two_owner [(L "CO_g", Some 1)]) (L "CO_g + *_s -> CO_s") (two_energies 1) true = Ok (f1, b1) /\
  rates_CT ec_tables (pressed two_owner [(L "CO_g", Some 3)]) (L "CO_g + *_s -> CO_s") (two_energies 1) true = Ok (f2, b2) /\
  f2 / f1 = 3 /\ b2 = b1.
Proof. exact co_pressure_example. Qed.
