(** Property C112: the mean drift of a lattice.  Vocabulary: KmcDrift_Spec.v, KmcMean_Spec.v, KmcLat_Spec.v, MF_Spec.v. *)
From Coq Require Import String Ascii List ZArith QArith Reals.
Import ListNotations.
From Verif Require Import PyBase Kmc_Model Kmc_Spec KmcLat_Spec KmcLat_Witness KmcMean_Spec KmcMean_Witness
  KmcDrift_Spec KmcDrift_Proofs KmcDrift_Witness.
From Verif Require Species_Model MF_Model MF_Spec Rate_Witness.
Local Open Scope list_scope.
Local Open Scope nat_scope.

(** The expected change per time of any sum over the elements of the lattice (for instance the number of one of
    them) by all generated processes: definition by definition the number of its places, times its change, times the
    net rate at the given probabilities. *)
Theorem C112_drift : forall neighbour basis n theta q (o : owner R) mapping ds ps m,
  get_processes o mapping ds = (Ok ps, m) ->
  (forall d, In d ds -> flag d "redist" false /\ forall p, describes d p -> same_wildcards p /\ roomy neighbour n p) ->
  NoDup (possible_element_types o) -> sum (map theta (possible_element_types o)) = 1%R ->
  exists xs, Forall2 (share basis n theta q o) ds xs /\
    drift neighbour basis n (possible_element_types o) theta q ps = sum xs.
Proof. exact total_drift. Qed.
Print Assumptions C112_drift.

(** If the definitions stand for the reactions of the model, each with the same number k of places, the number of an
    element drifts with k times the time derivative that the steady-state solver uses for its species
    (for species that C28 counts right). *)
Theorem C112_same_equations : forall neighbour basis n k theta (o : owner R) mapping ds ps m ro r s cvgs (occ : str -> str)
    kfs krs i name x,
  get_processes o mapping ds = (Ok ps, m) -> rate_algo o = L "TST" ->
  NoDup (possible_element_types o) -> sum (map theta (possible_element_types o)) = 1%R ->
  MF_Spec.usable_setup s -> NoDup (MF_Model.s_exprs s) -> length cvgs = length (MF_Spec.ads s) ->
  length kfs = length (MF_Model.s_exprs s) -> length krs = length (MF_Model.s_exprs s) -> length ds = length (MF_Model.s_exprs s) ->
  (forall j d, nth_error ds j = Some d -> exists pd fls f0 f1 kf kr,
     nth_error (Species_Model.l_rxns (MF_Model.s_lists s)) j = Some fls /\ nth_error kfs j = Some kf /\ nth_error krs j = Some kr /\
     stands_for neighbour basis n k o ro r s cvgs theta occ d pd fls f0 f1 kf kr) ->
  nth_error (MF_Spec.ads s) i = Some name ->
  (forall fls, In fls (Species_Model.l_rxns (MF_Model.s_lists s)) -> MF_Spec.plain_in name fls) ->
  (forall e, In e (possible_element_types o) -> (occ e = name <-> e = x)) ->
  exists data F y, MF_Model.get_data s = Ok data /\
    MF_Model.steady_state_function s (Ok (kfs, krs)) (Some data) cvgs = Ok F /\ nth_error F i = Some y /\
    drift neighbour basis n (possible_element_types o) theta (is x) ps = (INR k * y)%R.
Proof. exact same_equations. Qed.
Print Assumptions C112_same_equations.

(** CO adsorbing on two sites, at any coverage t. *)
Example C112_example : forall t, exists kf kr ps m fls f0 f1 data F,
  get_processes (a_owner kf kr) [] [a_def] = (Ok ps, m) /\
  nth_error (Species_Model.l_rxns (MF_Model.s_lists a_setup)) 0 = Some fls /\
  stands_for l_neighbour l_basis 2 2 (a_owner kf kr) (Rate_Witness.co_owner 300 1) Rate_Witness.co_energies a_setup [t]
    (a_theta t) a_occ a_def a_pdef fls f0 f1 kf kr /\
  MF_Spec.ads a_setup = [L "CO_s"] /\
  (forall fls, In fls (Species_Model.l_rxns (MF_Model.s_lists a_setup)) -> MF_Spec.plain_in (L "CO_s") fls) /\
  (forall e, In e [L "V"; L "CO"] -> (a_occ e = L "CO_s" <-> e = L "CO")) /\
  MF_Model.get_data a_setup = Ok data /\
  MF_Model.steady_state_function a_setup (Ok ([kf], [kr])) (Some data) [t] = Ok F /\
  nth_error F 0 = Some (kf * (1 - t) - kr * t)%R /\
  drift l_neighbour l_basis 2 [L "V"; L "CO"] (a_theta t) (is (L "CO")) ps = (2 * (kf * (1 - t) - kr * t))%R.
Proof. exact a_drift. Qed.
