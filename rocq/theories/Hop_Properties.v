(** Property theorems: mechanisms of single-site steps (C115). *)
From Coq Require Import String Ascii List ZArith Bool Reals.
Import ListNotations.
From Verif Require Import PyBase Rxn_Model Rxn_Spec Species_Model Species_Spec PyReal Energy_Model Energy_Spec
  Thermo_Model Rate_Model Rate_Spec MF_Model MF_Spec Whole_Spec Hop_Spec Hop_Proofs Hop_Witness.
Local Open Scope list_scope.
Local Open Scope R_scope.

(** C115: there is a physical steady state, whatever the rate constants and pressures are (zero
    included, for steps that do not happen). *)
Theorem C115_exists : forall s l kf kr, usable_setup s -> only_hops s l ->
  length kf = length (s_exprs s) -> length kr = length (s_exprs s) ->
  (forall site, In site (sites s) -> 0 <= total s site <= 1) ->
  (forall a, In a kf -> 0 <= a) -> (forall b, In b kr -> 0 <= b) -> supplied (Rle 0) s ->
  exists data c F, get_data s = Ok data /\ feasible s c /\
    steady_state_function s (Ok (kf, kr)) (Some data) c = Ok F /\ forall y, In y F -> y = 0.
Proof. exact (fun s l kf kr U OH => steady_exists s U l OH kf kr). Qed.
Print Assumptions C115_exists.

(** If all steps happen and every adsorbate can be reached, there is exactly one steady state among
    all vectors of numbers, and nothing is empty in it. *)
Theorem C115_exactly_one : forall s l kf kr, usable_setup s -> only_hops s l ->
  length kf = length (s_exprs s) -> length kr = length (s_exprs s) ->
  (forall site, In site (sites s) -> 0 <= total s site <= 1) ->
  (forall a, In a kf -> 0 < a) -> (forall b, In b kr -> 0 < b) -> supplied (Rlt 0) s -> linked s l ->
  exists data c, get_data s = Ok data /\ feasible s c /\
    ((forall site, In site (sites s) -> 0 < total s site) ->
       forall x, In x (ads s) \/ In x (sites s) -> 0 < coverage s c x) /\
    forall c', length c' = length (ads s) ->
      (exists F, steady_state_function s (Ok (kf, kr)) (Some data) c' = Ok F /\ forall y, In y F -> y = 0) <-> c' = c.
Proof. exact (fun s l kf kr U OH => exactly_one s U l OH kf kr). Qed.
Print Assumptions C115_exactly_one.

(** The same with rate constants from energies. *)
Theorem C115_energies : forall ec o own s l r, usable_setup s -> only_hops s l -> linked s l -> supplied (Rlt 0) s ->
  (forall site, In site (sites s) -> 0 <= total s site <= 1) ->
  o_rxns o = s_exprs s -> 0 < o_T o -> consistent r (length (s_exprs s)) ->
  exists data kf kr c, get_data s = Ok data /\ rate_constants ec o (L "TST") (Some r) own = Ok (kf, kr) /\ feasible s c /\
    forall c', length c' = length (ads s) ->
      (exists F, steady_state_function s (Ok (kf, kr)) (Some data) c' = Ok F /\ forall y, In y F -> y = 0) <-> c' = c.
Proof. exact exactly_one_TST. Qed.
Print Assumptions C115_energies.

(** The links are needed: without adsorption there are several. *)
Theorem C115_links_needed : exists s l kf kr data c c', usable_setup s /\ only_hops s l /\
  (forall a, In a kf -> 0 < a) /\ (forall b, In b kr -> 0 < b) /\ supplied (Rlt 0) s /\
  (forall site, In site (sites s) -> 0 <= total s site <= 1) /\
  get_data s = Ok data /\ feasible s c /\ feasible s c' /\ c <> c' /\
  (exists F, steady_state_function s (Ok (kf, kr)) (Some data) c = Ok F /\ forall y, In y F -> y = 0) /\
  (exists F, steady_state_function s (Ok (kf, kr)) (Some data) c' = Ok F /\ forall y, In y F -> y = 0).
Proof. exact links_needed. Qed.
Print Assumptions C115_links_needed.

(** A cycle of three steps that turns over, and a reaction of an adsorbate with a gas. *)
Example C115_example : usable_setup turn_setup /\ only_hops turn_setup turn_steps /\ linked turn_setup turn_steps /\
  supplied (Rlt 0) turn_setup /\
  (forall a, In a turn_kf -> 0 < a) /\ (forall b, In b turn_kr -> 0 < b) /\
  (forall site, In site (sites turn_setup) -> 0 <= total turn_setup site <= 1) /\
  exists data, get_data turn_setup = Ok data /\
    ads turn_setup = [L "CO_t"; L "H2CO_t"; L "HCN_s"; L "HNC_s"] /\
    steady_state_function turn_setup (Ok (turn_kf, turn_kr)) (Some data) [/ 50; 3 / 50; 9 / 31; 8 / 31] = Ok [0; 0; 0; 0].
Proof.
  split; [exact turn_usable|]. split; [exact turn_only|]. split; [exact turn_linked|]. split; [exact turn_supplied|].
  destruct turn_constants as (H1 & H2 & H3). split; [exact H1|]. split; [exact H2|]. split; [exact H3|]. exact turn_steady.
Qed.
