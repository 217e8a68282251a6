(** Property C110: the mean field on a lattice.  Vocabulary: KmcMean_Spec.v, KmcLat_Spec.v, Kmc_Spec.v, Rate_Spec.v,
    MF_Spec.v. *)
From Coq Require Import String Ascii List ZArith QArith Reals Permutation.
Import ListNotations.
From Verif Require Import PyBase Kmc_Model Kmc_Spec Kmc_Witness KmcLat_Spec KmcLat_Witness KmcMean_Spec KmcMean_Proofs KmcMean_Witness.
From Verif Require Rxn_Model Species_Model MF_Model MF_Spec Rate_Model Rate_Spec Rate_Witness.
Local Open Scope list_scope.
Local Open Scope nat_scope.

(** Expected rate of every generated process, on lattices of any size: its rate constant times the
    probabilities of the elements that it needs; and nothing at sites of another kind. *)
Theorem C110_expected_rate : forall neighbour basis n theta (o : owner R) mapping ds ps m p a,
  get_processes o mapping ds = (Ok ps, m) -> In p ps ->
  (forall d q, In d ds -> describes d q -> roomy neighbour n q) ->
  NoDup (possible_element_types o) -> sum (map theta (possible_element_types o)) = 1%R ->
  a < n -> number (p_site p) = Some (basis a) ->
  expected_rate neighbour basis n (possible_element_types o) theta p a
  = (p_rate p * product (map theta (named (texts (p_before p)))))%R.
Proof. exact expected_value. Qed.
Print Assumptions C110_expected_rate.

Theorem C110_elsewhere : forall neighbour basis n types theta (p : kmc_process R) a,
  number (p_site p) <> Some (basis a) -> expected_rate neighbour basis n types theta p a = 0%R.
Proof. exact expected_elsewhere. Qed.
Print Assumptions C110_elsewhere.

(** A reaction whose elements [occ] takes to its species on the surface: the forward and reverse rates that the
    mean-field solver computes from coverages and pressures are the expected rates of the processes that
    the kinetic Monte Carlo solver generates.  (Gases with numbers: see C24.) *)
Theorem C110_same_rates : forall neighbour basis n theta (o : owner R) mapping ds ps m d pd ro r fls f0 f1 P kf kr s cvgs
    (occ : str -> str) (site : pv) cs a kfs krs i,
  get_processes o mapping ds = (Ok ps, m) -> In d ds -> describes d pd -> flag d "redist" false ->
  (forall d q, In d ds -> describes d q -> roomy neighbour n q) ->
  NoDup (possible_element_types o) -> sum (map theta (possible_element_types o)) = 1%R ->
  rate_algo o = L "TST" -> rates_TST o (d_reaction pd) = Rate_Model.rates_TST ro (d_reaction pd) r true ->
  Rate_Model.rates_TST ro (d_reaction pd) r false = Ok (kf, kr) ->
  Rxn_Model.rxn_formula_list (d_reaction pd) = Ok fls -> lfirst fls = Ok f0 -> llast fls = Ok f1 ->
  Forall Rate_Spec.unnumbered (Rate_Spec.gases f0 ++ Rate_Spec.gases f1) -> Rate_Spec.knows_pressures ro P [f0; f1] ->
  no_liquid f0 -> no_liquid f1 ->
  (forall f, In f (Rate_Spec.gases f0 ++ Rate_Spec.gases f1) ->
     MF_Spec.value (MF_Model.s_pressure s) (Rxn_Model.f_species_site f) = P (Rxn_Model.f_species_site f)) ->
  (forall e, In e (named (d_before pd)) \/ In e (named (d_after pd)) -> theta e = MF_Spec.coverage s cvgs (occ e)) ->
  Permutation (map occ (named (d_before pd))) (on_surface f0) ->
  Permutation (map occ (named (d_after pd))) (on_surface f1) ->
  In site (d_sites pd) -> In cs (d_group pd) -> a < n -> number site = Some (basis a) ->
  MF_Spec.usable_setup s -> NoDup (MF_Model.s_exprs s) -> length cvgs = length (MF_Spec.ads s) ->
  length kfs = length (MF_Model.s_exprs s) -> length krs = length (MF_Model.s_exprs s) ->
  nth_error (Species_Model.l_rxns (MF_Model.s_lists s)) i = Some fls ->
  nth_error kfs i = Some kf -> nth_error krs i = Some kr ->
  exists data rfs rrs p q, MF_Model.get_data s = Ok data /\
    MF_Model.rates s (Ok (kfs, krs)) (Some data) cvgs = Ok (rfs, rrs) /\
    In p ps /\ In q ps /\ p_coordinates p = cs /\ p_site p = site /\ p_coordinates q = cs /\ p_site q = site /\
    texts (p_before p) = d_before pd /\ texts (p_after p) = d_after pd /\
    texts (p_before q) = d_after pd /\ texts (p_after q) = d_before pd /\
    nth_error rfs i = Some (expected_rate neighbour basis n (possible_element_types o) theta p a) /\
    nth_error rrs i = Some (expected_rate neighbour basis n (possible_element_types o) theta q a).
Proof. exact same_rates. Qed.
Print Assumptions C110_same_rates.

(** CO adsorbing at any coverage t. *)
Example C110_example : forall t, exists kf kr ps m data p q,
  Rate_Model.rates_TST (Rate_Witness.co_owner 300 1) a_rxn Rate_Witness.co_energies false = Ok (kf, kr) /\
  Rate_Model.rates_TST (Rate_Witness.co_owner 300 1) a_rxn Rate_Witness.co_energies true = rates_TST (a_owner kf kr) a_rxn /\
  get_processes (a_owner kf kr) [] [a_def] = (Ok ps, m) /\ In p ps /\ In q ps /\
  MF_Model.get_data a_setup = Ok data /\
  MF_Model.rates a_setup (Ok ([kf], [kr])) (Some data) [t]
  = Ok ([expected_rate l_neighbour l_basis 2 [L "V"; L "CO"] (a_theta t) p 0],
        [expected_rate l_neighbour l_basis 2 [L "V"; L "CO"] (a_theta t) q 0]) /\
  MF_Model.rates a_setup (Ok ([kf], [kr])) (Some data) [t] = Ok ([kf * (1 - t)]%R, [kr * t]%R).
Proof. exact a_case. Qed.
