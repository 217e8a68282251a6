(** Property theorems: dissociative adsorption (C114). *)
From Coq Require Import String Ascii List ZArith Bool Reals Lra.
Import ListNotations.
From Verif Require Import PyBase Rxn_Model Rxn_Spec Species_Model Species_Spec PyReal Energy_Model Energy_Spec
  Thermo_Model Rate_Model Rate_Spec MF_Model MF_Spec Steady_Model Steady_Spec Whole_Spec
  Langmuir_Spec Dissoc_Spec Dissoc_Proofs Dissoc_Witness.
Local Open Scope list_scope.
Local Open Scope R_scope.

(** C114: the steady states without negative coverages are those of the isotherm with roots. *)
Theorem C114_isotherm_partial : forall s l kf kr cvgs, usable_setup s -> only_dissociation s l ->
  length kf = length (s_exprs s) -> length kr = length (s_exprs s) ->
  (forall a, In a kf -> 0 <= a) -> (forall b, In b kr -> 0 < b) ->
  (forall gas name n, In (gas, name, n) l -> 0 <= value (s_pressure s) gas) ->
  (forall site, In site (sites s) -> 0 <= total s site) ->
  length cvgs = length (ads s) ->
  exists data F, get_data s = Ok data /\ steady_state_function s (Ok (kf, kr)) (Some data) cvgs = Ok F /\
    length F = length (ads s) /\
    ((forall y, In y F -> y = 0) /\ nothing_negative s cvgs <-> isotherms s l (quotients kf kr) cvgs).
Proof. exact (fun s l kf kr cvgs U OA H1 H2 H3 H4 H5 H6 => isotherm_steady s U l OA kf kr H1 H2 H3 H4 H5 H6 cvgs). Qed.
Print Assumptions C114_isotherm_partial.

(** There is exactly one such steady state and it is a possible one. *)
Theorem C114_exactly_one_partial : forall s l kf kr, usable_setup s -> only_dissociation s l ->
  length kf = length (s_exprs s) -> length kr = length (s_exprs s) ->
  (forall a, In a kf -> 0 <= a) -> (forall b, In b kr -> 0 < b) ->
  (forall gas name n, In (gas, name, n) l -> 0 <= value (s_pressure s) gas) ->
  (forall site, In site (sites s) -> 0 <= total s site) ->
  (forall site, In site (sites s) -> total s site <= 1) ->
  exists data c, get_data s = Ok data /\ feasible s c /\
    forall c', length c' = length (ads s) ->
      (exists F, steady_state_function s (Ok (kf, kr)) (Some data) c' = Ok F /\ forall y, In y F -> y = 0) /\
      nothing_negative s c' <-> c' = c.
Proof. exact (fun s l kf kr U OA => exactly_one s U l OA kf kr). Qed.
Print Assumptions C114_exactly_one_partial.

(** With rate constants from energies, the barriers do not matter. *)
Theorem C114_energies_partial : forall ec o own s l r, usable_setup s -> only_dissociation s l ->
  o_rxns o = s_exprs s -> 0 < o_T o -> consistent r (length (s_exprs s)) ->
  (forall gas name n, In (gas, name, n) l -> 0 <= value (s_pressure s) gas) ->
  (forall site, In site (sites s) -> 0 <= total s site) ->
  exists data kf kr, get_data s = Ok data /\ rate_constants ec o (L "TST") (Some r) own = Ok (kf, kr) /\
  forall cvgs, length cvgs = length (ads s) ->
    exists F, steady_state_function s (Ok (kf, kr)) (Some data) cvgs = Ok F /\ length F = length (ads s) /\
      ((forall y, In y F -> y = 0) /\ nothing_negative s cvgs
       <-> isotherms s l (map (fun d => exp (- d / (kB_eV * o_T o))) (r_dG r)) cvgs).
Proof. exact isotherm_TST. Qed.
Print Assumptions C114_energies_partial.

(** What is meant by a root. *)
Theorem C114_root : forall n y x, (1 <= n)%nat -> 0 <= y -> 0 <= x -> x = root n y <-> x ^ n = y.
Proof. exact root_iff. Qed.
Print Assumptions C114_root.

(** Without the condition on the sign there are more: here with coverages between 0 and 1 of all
    adsorbates, but more nitrogen than there are sites for it. *)
Theorem C114_spurious_refuted : exists s l kf kr data c, usable_setup s /\ only_dissociation s l /\
  length kf = length (s_exprs s) /\ length kr = length (s_exprs s) /\
  (forall a, In a kf -> 0 <= a) /\ (forall b, In b kr -> 0 < b) /\
  (forall gas name n, In (gas, name, n) l -> 0 <= value (s_pressure s) gas) /\
  (forall site, In site (sites s) -> 0 <= total s site <= 1) /\
  get_data s = Ok data /\ length c = length (ads s) /\ (forall x, In x c -> 0 <= x <= 1) /\
  (exists F, steady_state_function s (Ok (kf, kr)) (Some data) c = Ok F /\ forall y, In y F -> y = 0) /\
  ~ isotherms s l (quotients kf kr) c.
Proof. exact split_spurious. Qed.
Print Assumptions C114_spurious_refuted.

(** Two gases on one kind of site, one of which dissociates; a third that dissociates on another. *)
Example C114_example : usable_setup split_setup /\ only_dissociation split_setup split_items /\
  (forall a, In a split_kf -> 0 <= a) /\ (forall b, In b split_kr -> 0 < b) /\
  (forall gas name n, In (gas, name, n) split_items -> 0 <= value (s_pressure split_setup) gas) /\
  (forall site, In site (sites split_setup) -> 0 <= total split_setup site <= 1) /\
  exists data, get_data split_setup = Ok data /\
    ads split_setup = [L "CO_s"; L "N_t"; L "O_s"] /\
    steady_state_function split_setup (Ok (split_kf, split_kr)) (Some data) [/ 4; 3 / 40; / 2] = Ok [0; 0; 0].
Proof.
  split; [exact split_usable|]. split; [exact split_only|]. destruct split_constants as (H1 & H2 & H3 & H4).
  split; [exact H1|]. split; [exact H2|]. split; [exact H3|]. split; [exact H4|]. exact split_steady.
Qed.
