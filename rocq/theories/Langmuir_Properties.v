(** Property theorems: competing adsorption (C97). *)
From Coq Require Import String Ascii List ZArith Bool Reals Lra.
Import ListNotations.
From Verif Require Import PyBase Rxn_Model Rxn_Spec Species_Model Species_Spec PyReal Energy_Model Energy_Spec
  Thermo_Model Rate_Model Rate_Spec MF_Model MF_Spec Steady_Model Steady_Spec Whole_Spec
  Langmuir_Spec Langmuir_Proofs Langmuir_Witness.
Local Open Scope list_scope.
Local Open Scope R_scope.

(** C97: the steady states are those of Langmuir's isotherm. *)
Theorem C97_langmuir : forall s l kf kr cvgs, usable_setup s -> only_adsorption s l ->
  length kf = length (s_exprs s) -> length kr = length (s_exprs s) ->
  (forall a, In a kf -> 0 <= a) -> (forall b, In b kr -> 0 < b) ->
  (forall gas name, In (gas, name) l -> 0 <= value (s_pressure s) gas) ->
  length cvgs = length (ads s) ->
  exists data F, get_data s = Ok data /\ steady_state_function s (Ok (kf, kr)) (Some data) cvgs = Ok F /\
    length F = length (ads s) /\ ((forall y, In y F -> y = 0) <-> langmuir s l (quotients kf kr) cvgs).
Proof. exact (fun s l kf kr cvgs U OA H1 H2 H3 H4 H5 => langmuir_steady s U l OA kf kr H1 H2 H3 H4 H5 cvgs). Qed.
Print Assumptions C97_langmuir.

(** There is exactly one steady state and it is a possible one. *)
Theorem C97_exactly_one : forall s l kf kr, usable_setup s -> only_adsorption s l ->
  length kf = length (s_exprs s) -> length kr = length (s_exprs s) ->
  (forall a, In a kf -> 0 <= a) -> (forall b, In b kr -> 0 < b) ->
  (forall gas name, In (gas, name) l -> 0 <= value (s_pressure s) gas) ->
  (forall site, In site (sites s) -> 0 <= total s site <= 1) ->
  exists data c, get_data s = Ok data /\ feasible s c /\
    forall c', length c' = length (ads s) ->
      (exists F, steady_state_function s (Ok (kf, kr)) (Some data) c' = Ok F /\ forall y, In y F -> y = 0) <-> c' = c.
Proof. exact (fun s l kf kr U OA => exactly_one s U l OA kf kr). Qed.
Print Assumptions C97_exactly_one.

(** With rate constants from energies, the barriers do not matter. *)
Theorem C97_energies : forall ec o own s l r, usable_setup s -> only_adsorption s l ->
  o_rxns o = s_exprs s -> 0 < o_T o -> consistent r (length (s_exprs s)) ->
  (forall gas name, In (gas, name) l -> 0 <= value (s_pressure s) gas) ->
  exists data kf kr, get_data s = Ok data /\ rate_constants ec o (L "TST") (Some r) own = Ok (kf, kr) /\
  forall cvgs, length cvgs = length (ads s) ->
    exists F, steady_state_function s (Ok (kf, kr)) (Some data) cvgs = Ok F /\ length F = length (ads s) /\
      ((forall y, In y F -> y = 0) <-> langmuir s l (map (fun d => exp (- d / (kB_eV * o_T o))) (r_dG r)) cvgs).
Proof. exact langmuir_TST. Qed.
Print Assumptions C97_energies.

(** What a search reports is as near to the isotherm as its tolerance tells. *)
Theorem C97_reported : forall I (q : search I) s l kf kr data fuel c0 a st, usable_setup s -> only_adsorption s l ->
  length kf = length (s_exprs s) -> length kr = length (s_exprs s) ->
  (forall x, In x kf -> 0 <= x) -> (forall x, In x kr -> 0 < x) ->
  (forall gas name, In (gas, name) l -> 0 <= value (s_pressure s) gas) ->
  get_data s = Ok data -> (forall c, q_f q c = steady_state_function s (Ok (kf, kr)) (Some data) c) ->
  get_steady_state_cvgs q fuel c0 = (Ok (Some a), st) ->
  exists cvgs, a_coverages a = Some cvgs /\ (length cvgs = length (ads s) ->
    forall i gas name K b, nth_error l i = Some (gas, name) -> nth_error (quotients kf kr) i = Some K ->
    nth_error kr i = Some b ->
    Rabs (coverage s cvgs name - isotherm s l (quotients kf kr) gas name K)
    <= q_tolerance q * (delays l kr (site_tag name) + / b)).
Proof.
  exact (fun I q s l kf kr data fuel c0 a st U OA H1 H2 H3 H4 H5 =>
    reported_langmuir s U l OA kf kr H1 H2 H3 H4 H5 I q data fuel c0 a st).
Qed.
Print Assumptions C97_reported.

(** Two gases on one kind of site, one of them on a second kind as well. *)
Example C97_example : usable_setup compete_setup /\ only_adsorption compete_setup compete_pairs /\
  (forall a, In a compete_kf -> 0 <= a) /\ (forall b, In b compete_kr -> 0 < b) /\
  (forall gas name, In (gas, name) compete_pairs -> 0 <= value (s_pressure compete_setup) gas) /\
  (forall site, In site (sites compete_setup) -> 0 <= total compete_setup site <= 1) /\
  exists data, get_data compete_setup = Ok data /\
    ads compete_setup = [L "CO_s"; L "CO_t"; L "H2O_s"] /\
    steady_state_function compete_setup (Ok (compete_kf, compete_kr)) (Some data) [/ 4; / 15; / 2] = Ok [0; 0; 0].
Proof.
  split; [exact compete_usable|]. split; [exact compete_only|]. destruct compete_constants as (H1 & H2 & H3 & H4).
  split; [exact H1|]. split; [exact H2|]. split; [exact H3|]. split; [exact H4|]. exact compete_langmuir.
Qed.
