(** Property theorems: balances of reported steady states and the free energy of a mechanism at work
    (C93, C94). *)
From Coq Require Import String Ascii List ZArith Bool Reals Lra.
Import ListNotations.
From Verif Require Import PyBase Rxn_Model Rxn_Spec Species_Model Species_Spec PyReal Energy_Model Energy_Spec
  Thermo_Model Rate_Model Rate_Spec MF_Model MF_Spec Steady_Model Steady_Spec Steady_Witness Whole_Spec Whole_Witness
  Balance_Spec Balance_Proofs Balance_Witness.
Local Open Scope list_scope.
Local Open Scope R_scope.

(** C93 *)
Theorem C93_reported_balance : forall I (q : search I) s kf kr data x fuel c0 a st, usable_setup s ->
  length kf = length (s_exprs s) -> length kr = length (s_exprs s) ->
  (forall name fls, In name (ads s) -> In fls (l_rxns (s_lists s)) -> plain_in name fls) ->
  get_data s = Ok data -> (forall c, q_f q c = steady_state_function s (Ok (kf, kr)) (Some data) c) ->
  get_steady_state_cvgs q fuel c0 = (Ok (Some a), st) ->
  exists cvgs, a_coverages a = Some cvgs /\ (length cvgs = length (ads s) ->
    exists tof, tofs s (Ok (kf, kr)) (Some data) cvgs = Ok tof /\ length tof = length (outside s) /\
      Rabs (weighted_sum (name_atoms x) (outside s) tof) <= q_tolerance q * atoms_adsorbed s x).
Proof. exact @reported_balance. Qed.
Print Assumptions C93_reported_balance.

(** An adsorbate on both sides of a reaction: at the steady state CO is consumed and nothing is made. *)
Theorem C93_both_sides_refuted : exists I (q : search I) s kf kr data fuel c0 a st cvgs tof x,
  usable_setup s /\ NoDup (s_exprs s) /\ get_data s = Ok data /\
  (forall c, q_f q c = steady_state_function s (Ok (kf, kr)) (Some data) c) /\
  get_steady_state_cvgs q fuel (Some c0) = (Ok (Some a), st) /\ feasible s c0 /\
  a_coverages a = Some cvgs /\ steady_state_function s (Ok (kf, kr)) (Some data) cvgs = Ok [0] /\
  tofs s (Ok (kf, kr)) (Some data) cvgs = Ok tof /\
  q_tolerance q * atoms_adsorbed s x < Rabs (weighted_sum (name_atoms x) (outside s) tof).
Proof. exact vanishing. Qed.
Print Assumptions C93_both_sides_refuted.

(** A search that stops within the tolerance. *)
Example C93_near : exists a st, get_steady_state_cvgs near_search 1 (Some [5001 / 10000]) = (Ok (Some a), st) /\
  a_coverages a = Some [5001 / 10000] /\ length [5001 / 10000] = length (ads ds_setup) /\
  q_f near_search [5001 / 10000]
    = Ok [2 * (1 * (1 - 5001 / 10000) * (1 - 5001 / 10000) - 1 * (5001 / 10000) * (5001 / 10000))] /\
  atoms_adsorbed ds_setup "O" = 1.
Proof.
  destruct near_returned as (a & st & H1 & H2). exists a, st. split; [exact H1|]. split; [exact H2|].
  split; [reflexivity|]. split; [exact (ds_rate_is 1 1 (5001 / 10000))|]. lazy -[IZR]. reflexivity.
Qed.

(** C94 *)
Theorem C94_dissipation : forall ec o own s r cvgs, usable_setup s -> NoDup (s_exprs s) -> o_rxns o = s_exprs s ->
  0 < o_T o -> consistent r (length (s_exprs s)) -> length cvgs = length (ads s) -> all_present s cvgs ->
  exists data kf kr nets, get_data s = Ok data /\ rate_constants ec o (L "TST") (Some r) own = Ok (kf, kr) /\
    net_rates s (Ok (kf, kr)) (Some data) cvgs = Ok nets /\ length nets = length (s_exprs s) /\
    let G := free_energies s cvgs (o_T o) (r_dG r) in
    dot nets G <= 0 /\ (dot nets G = 0 <-> forall y, In y nets -> y = 0).
Proof. exact dissipation. Qed.
Print Assumptions C94_dissipation.

Theorem C94_free_energy_falls : forall ec o own s ed r cvgs,
  usable_setup s -> NoDup (s_exprs s) -> o_rxns o = s_exprs s -> 0 < o_T o ->
  relative_from_absolute true ed (s_exprs s) = Ok r -> length cvgs = length (ads s) -> all_present s cvgs ->
  (forall name fls, In name (ads s) -> In fls (l_rxns (s_lists s)) -> plain_in name fls) ->
  exists data kf kr nets F tof, get_data s = Ok data /\ rate_constants ec o (L "TST") (Some r) own = Ok (kf, kr) /\
    net_rates s (Ok (kf, kr)) (Some data) cvgs = Ok nets /\
    steady_state_function s (Ok (kf, kr)) (Some data) cvgs = Ok F /\ length F = length (ads s) /\
    tofs s (Ok (kf, kr)) (Some data) cvgs = Ok tof /\ length tof = length (outside s) /\
    let work := dot (map (potential s cvgs (o_T o) ed) (outside s)) tof
                + dot (map (in_exchange s cvgs (o_T o) ed) (ads s)) F in
    work = dot nets (free_energies s cvgs (o_T o) (r_dG r)) /\ work <= 0 /\
    (work = 0 <-> forall y, In y nets -> y = 0).
Proof. exact free_energy_falls. Qed.
Print Assumptions C94_free_energy_falls.

Theorem C94_second_law : forall ec o own s ed r cvgs,
  usable_setup s -> NoDup (s_exprs s) -> o_rxns o = s_exprs s -> 0 < o_T o ->
  relative_from_absolute true ed (s_exprs s) = Ok r -> length cvgs = length (ads s) -> all_present s cvgs ->
  (forall name fls, In name (ads s) -> In fls (l_rxns (s_lists s)) -> plain_in name fls) ->
  forall data kf kr F, get_data s = Ok data -> rate_constants ec o (L "TST") (Some r) own = Ok (kf, kr) ->
  steady_state_function s (Ok (kf, kr)) (Some data) cvgs = Ok F -> (forall y, In y F -> y = 0) ->
  exists nets tof, net_rates s (Ok (kf, kr)) (Some data) cvgs = Ok nets /\
    tofs s (Ok (kf, kr)) (Some data) cvgs = Ok tof /\
    let work := dot (map (potential s cvgs (o_T o) ed) (outside s)) tof in
    work <= 0 /\ (work = 0 <-> forall y, In y nets -> y = 0).
Proof. exact second_law. Qed.
Print Assumptions C94_second_law.

Theorem C94_reported_second_law : forall I (q : search I) ec o own s ed r fuel c0 a st,
  usable_setup s -> NoDup (s_exprs s) -> o_rxns o = s_exprs s -> 0 < o_T o ->
  relative_from_absolute true ed (s_exprs s) = Ok r ->
  (forall name fls, In name (ads s) -> In fls (l_rxns (s_lists s)) -> plain_in name fls) ->
  forall data kf kr, get_data s = Ok data -> rate_constants ec o (L "TST") (Some r) own = Ok (kf, kr) ->
  (forall c, q_f q c = steady_state_function s (Ok (kf, kr)) (Some data) c) ->
  get_steady_state_cvgs q fuel c0 = (Ok (Some a), st) ->
  exists cvgs, a_coverages a = Some cvgs /\ (length cvgs = length (ads s) -> all_present s cvgs ->
    exists tof, tofs s (Ok (kf, kr)) (Some data) cvgs = Ok tof /\ length tof = length (outside s) /\
      dot (map (potential s cvgs (o_T o) ed) (outside s)) tof
      <= q_tolerance q * Rsum (map Rabs (map (in_exchange s cvgs (o_T o) ed) (ads s)))).
Proof. exact @reported_second_law. Qed.
Print Assumptions C94_reported_second_law.

(** Reaction energies given as such need not close cycles: a wheel that turns for ever at a steady
    state at which nothing is consumed or produced. *)
Theorem C94_supplied_refuted : forall ec own, exists s r o cvgs data kf kr nets F tof,
  usable_setup s /\ NoDup (s_exprs s) /\ o_rxns o = s_exprs s /\ 0 < o_T o /\ consistent r (length (s_exprs s)) /\
  (forall name fls, In name (ads s) -> In fls (l_rxns (s_lists s)) -> plain_in name fls) /\
  length cvgs = length (ads s) /\ all_present s cvgs /\ get_data s = Ok data /\
  rate_constants ec o (L "TST") (Some r) own = Ok (kf, kr) /\
  net_rates s (Ok (kf, kr)) (Some data) cvgs = Ok nets /\
  steady_state_function s (Ok (kf, kr)) (Some data) cvgs = Ok F /\ (forall y, In y F -> y = 0) /\
  tofs s (Ok (kf, kr)) (Some data) cvgs = Ok tof /\ (forall y, In y tof -> y = 0) /\
  exists y, In y nets /\ y <> 0.
Proof.
  intros ec own. destruct (wheel_turns ec own) as (cvgs & data & kf & kr & nets & F & tof & H).
  exists tw_setup, tw_relative, tw_owner, cvgs, data, kf, kr, nets, F, tof.
  split; [exact tw_usable|]. split; [exact tw_distinct|]. split; [reflexivity|]. split; [cbn; lra|].
  split; [exact tw_consistent|]. split; [exact tw_plain|]. exact H.
Qed.
Print Assumptions C94_supplied_refuted.

(** A catalyst at work: CO_g is turned into OC_g, which is lower by one eV. *)
Example C94_flow : forall ec own, usable_setup flow_setup /\ NoDup (s_exprs flow_setup) /\
  o_rxns flow_owner = s_exprs flow_setup /\ 0 < o_T flow_owner /\
  relative_from_absolute true flow_table (s_exprs flow_setup) = Ok flow_relative /\
  length [flow_cover] = length (ads flow_setup) /\ all_present flow_setup [flow_cover] /\
  (forall name fls, In name (ads flow_setup) -> In fls (l_rxns (s_lists flow_setup)) -> plain_in name fls) /\
  exists data kf kr, get_data flow_setup = Ok data /\
    rate_constants ec flow_owner (L "TST") (Some flow_relative) own = Ok (kf, kr) /\
    steady_state_function flow_setup (Ok (kf, kr)) (Some data) [flow_cover] = Ok [0] /\
    exists a b, tofs flow_setup (Ok (kf, kr)) (Some data) [flow_cover] = Ok [a; b] /\ a < 0 /\ b = - a.
Proof.
  intros ec own. split; [exact flow_usable|]. split; [exact flow_distinct|]. split; [reflexivity|]. split; [cbn; lra|].
  split; [exact flow_energies|]. split; [reflexivity|]. split; [apply flow_present, flow_cover_range|].
  split; [exact flow_plain|]. apply flow_works.
Qed.
