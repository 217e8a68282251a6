(** Property C113: equilibrium on a lattice and in the steady-state solver.  Vocabulary: KmcEq_Spec.v, KmcDrift_Spec.v,
    KmcLat_Spec.v, KCov_Spec.v. *)
From Coq Require Import String Ascii List ZArith QArith Qreals Reals.
Import ListNotations.
From Verif Require Import PyBase Kmc_Model Kmc_Spec KmcLat_Spec KmcLat_Witness KmcMean_Spec KmcMean_Witness
  KmcDrift_Spec KmcEq_Spec KmcEq_Proofs KmcEq_Witness.
From Verif Require Species_Model MF_Model MF_Spec Rate_Witness KCov_Model KCov_Spec.
Local Open Scope list_scope.
Local Open Scope nat_scope.

(** Averaged over the distribution that C108 shows to be stationary, the coverages that the plugin records
    are Boltzmann's shares, whatever the number of unit cells and the ratios of their sites. *)
Theorem C113_recorded : forall E types, types <> [] -> NoDup types ->
  forall empty ratios n k j t, In empty types -> ratios <> [] -> n = k * length ratios -> 0 < k ->
  (KCov_Spec.total ratios == 1)%Q -> nth_error types j = Some t ->
  average E types n (fun X => match KCov_Model.step_coverages types empty ratios X with
                              | Ok v => Q2R (nth j v 0%Q) | Err _ => 0%R end) = boltzmann E types t.
Proof. exact recorded_average. Qed.
Print Assumptions C113_recorded.

(** At these coverages nothing drifts: neither the number of any element nor any other sum over the lattice. *)
Theorem C113_no_drift : forall neighbour basis n E q (o : owner R) mapping ds ps m,
  get_processes o mapping ds = (Ok ps, m) ->
  (forall d, In d ds -> flag d "redist" false /\ forall p, describes d p -> same_wildcards p /\ roomy neighbour n p) ->
  (forall d p rf rr, In d ds -> describes d p -> rate_pair o (d_reaction p) rf rr -> balanced E p rf rr) ->
  NoDup (possible_element_types o) -> possible_element_types o <> [] ->
  drift neighbour basis n (possible_element_types o) (boltzmann E (possible_element_types o)) q ps = 0%R.
Proof. exact no_drift. Qed.
Print Assumptions C113_no_drift.

(** And they are a steady state of the other solver: the time derivative of the species vanishes. *)
Theorem C113_steady_state : forall neighbour basis n k E (o : owner R) mapping ds ps m ro r s cvgs (occ : str -> str)
    kfs krs i name x,
  get_processes o mapping ds = (Ok ps, m) -> rate_algo o = L "TST" ->
  NoDup (possible_element_types o) -> possible_element_types o <> [] -> 0 < k ->
  MF_Spec.usable_setup s -> NoDup (MF_Model.s_exprs s) -> length cvgs = length (MF_Spec.ads s) ->
  length kfs = length (MF_Model.s_exprs s) -> length krs = length (MF_Model.s_exprs s) -> length ds = length (MF_Model.s_exprs s) ->
  (forall j d, nth_error ds j = Some d -> exists pd fls f0 f1 kf kr,
     nth_error (Species_Model.l_rxns (MF_Model.s_lists s)) j = Some fls /\ nth_error kfs j = Some kf /\ nth_error krs j = Some kr /\
     stands_for neighbour basis n k o ro r s cvgs (boltzmann E (possible_element_types o)) occ d pd fls f0 f1 kf kr) ->
  (forall d p rf rr, In d ds -> describes d p -> rate_pair o (d_reaction p) rf rr -> balanced E p rf rr) ->
  nth_error (MF_Spec.ads s) i = Some name ->
  (forall fls, In fls (Species_Model.l_rxns (MF_Model.s_lists s)) -> MF_Spec.plain_in name fls) ->
  (forall e, In e (possible_element_types o) -> (occ e = name <-> e = x)) ->
  exists data F, MF_Model.get_data s = Ok data /\
    MF_Model.steady_state_function s (Ok (kfs, krs)) (Some data) cvgs = Ok F /\ nth_error F i = Some 0%R.
Proof. exact equilibrium_steady. Qed.
Print Assumptions C113_steady_state.

(** CO adsorbing on two sites covers kf/(kf+kr) of them. *)
Example C113_example : exists kf kr ps m fls f0 f1 data F, (0 < kf)%R /\ (0 < kr)%R /\
  get_processes (a_owner kf kr) [] [a_def] = (Ok ps, m) /\
  nth_error (Species_Model.l_rxns (MF_Model.s_lists a_setup)) 0 = Some fls /\
  stands_for l_neighbour l_basis 2 2 (a_owner kf kr) (Rate_Witness.co_owner 300 1) Rate_Witness.co_energies a_setup
    [kf / (kf + kr)]%R (boltzmann (e_energy kf kr) [L "V"; L "CO"]) a_occ a_def a_pdef fls f0 f1 kf kr /\
  (forall d p rf rr, In d [a_def] -> describes d p -> rate_pair (a_owner kf kr) (d_reaction p) rf rr ->
     balanced (e_energy kf kr) p rf rr) /\
  MF_Model.get_data a_setup = Ok data /\
  MF_Model.steady_state_function a_setup (Ok ([kf], [kr])) (Some data) [kf / (kf + kr)]%R = Ok F /\
  nth_error F 0 = Some 0%R.
Proof. exact e_case. Qed.

Example C113_example_shares : forall kf kr, (0 < kf)%R -> (0 < kr)%R ->
  boltzmann (e_energy kf kr) [L "V"; L "CO"] (L "CO") = (kf / (kf + kr))%R /\
  boltzmann (e_energy kf kr) [L "V"; L "CO"] (L "V") = (1 - kf / (kf + kr))%R.
Proof. exact e_boltzmann. Qed.
