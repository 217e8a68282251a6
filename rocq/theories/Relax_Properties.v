(** Property theorems: single-site mechanisms in the course of time (C116). *)
From Coq Require Import String Ascii List ZArith Bool Reals Lra.
Import ListNotations.
From Verif Require Import PyBase Rxn_Model Rxn_Spec Species_Model Species_Spec PyReal Energy_Model Energy_Spec
  Thermo_Model Rate_Model Rate_Spec MF_Model MF_Spec Whole_Spec Flow_Spec Hop_Spec
  Langmuir_Witness Flow_Witness Relax_Proofs Relax_Witness.
Local Open Scope list_scope.
Local Open Scope R_scope.

(** C116: every solution of the rate equations, from whatever coverages to begin with, approaches the
    steady state exponentially fast, at a pace that the mechanism and the constants determine. *)
Theorem C116_approach : forall s l kf kr, usable_setup s -> only_hops s l ->
  length kf = length (s_exprs s) -> length kr = length (s_exprs s) ->
  (forall site, In site (sites s) -> 0 <= total s site <= 1) ->
  (forall a, In a kf -> 0 < a) -> (forall b, In b kr -> 0 < b) -> supplied (Rlt 0) s -> linked s l ->
  exists data c r, get_data s = Ok data /\ feasible s c /\
    (exists F, steady_state_function s (Ok (kf, kr)) (Some data) c = Ok F /\ forall y, In y F -> y = 0) /\ 0 < r /\
    forall th, (forall T, solution s kf kr T th) -> exists C, forall n t, In n (ads s) \/ In n (sites s) -> 0 <= t ->
      Rabs (coverage s (th t) n - coverage s c n) <= C * exp (- r * t).
Proof. exact approach. Qed.
Print Assumptions C116_approach.

(** So whoever waits long enough reads off the steady state, to any accuracy. *)
Theorem C116_limit : forall s l kf kr, usable_setup s -> only_hops s l ->
  length kf = length (s_exprs s) -> length kr = length (s_exprs s) ->
  (forall site, In site (sites s) -> 0 <= total s site <= 1) ->
  (forall a, In a kf -> 0 < a) -> (forall b, In b kr -> 0 < b) -> supplied (Rlt 0) s -> linked s l ->
  forall data c F, get_data s = Ok data -> length c = length (ads s) ->
    steady_state_function s (Ok (kf, kr)) (Some data) c = Ok F -> (forall y, In y F -> y = 0) ->
    forall th, (forall T, solution s kf kr T th) ->
    forall eps, 0 < eps -> exists t0, 0 <= t0 /\ forall t i x y, t0 <= t ->
      nth_error (th t) i = Some x -> nth_error c i = Some y -> Rabs (x - y) < eps.
Proof. exact limit. Qed.
Print Assumptions C116_limit.

(** The same with rate constants from energies. *)
Theorem C116_energies : forall ec o own s l r, usable_setup s -> only_hops s l -> linked s l -> supplied (Rlt 0) s ->
  (forall site, In site (sites s) -> 0 <= total s site <= 1) ->
  o_rxns o = s_exprs s -> 0 < o_T o -> consistent r (length (s_exprs s)) ->
  exists data kf kr c rho, get_data s = Ok data /\ rate_constants ec o (L "TST") (Some r) own = Ok (kf, kr) /\ feasible s c /\
    (exists F, steady_state_function s (Ok (kf, kr)) (Some data) c = Ok F /\ forall y, In y F -> y = 0) /\ 0 < rho /\
    forall th, (forall T, solution s kf kr T th) -> exists C, forall n t, In n (ads s) \/ In n (sites s) -> 0 <= t ->
      Rabs (coverage s (th t) n - coverage s c n) <= C * exp (- rho * t).
Proof. exact approach_TST. Qed.
Print Assumptions C116_energies.

(** The links are needed: without adsorption two solutions stay apart for ever. *)
Theorem C116_links_needed : exists s l kf kr th th' d, usable_setup s /\ only_hops s l /\
  (forall a, In a kf -> 0 < a) /\ (forall b, In b kr -> 0 < b) /\ supplied (Rlt 0) s /\
  (forall site, In site (sites s) -> 0 <= total s site <= 1) /\
  (forall T, solution s kf kr T th) /\ (forall T, solution s kf kr T th') /\ feasible s (th 0) /\ feasible s (th' 0) /\
  0 < d /\ forall t, exists i x y, nth_error (th t) i = Some x /\ nth_error (th' t) i = Some y /\ d <= Rabs (x - y).
Proof. exact stay_apart. Qed.
Print Assumptions C116_links_needed.

(** An empty surface that two gases fill. *)
Example C116_example : usable_setup compete_setup /\ only_hops compete_setup compete_steps /\
  linked compete_setup compete_steps /\ supplied (Rlt 0) compete_setup /\
  (forall a, In a compete_kf -> 0 < a) /\ (forall b, In b compete_kr -> 0 < b) /\
  (forall site, In site (sites compete_setup) -> 0 <= total compete_setup site <= 1) /\
  (forall T, solution compete_setup compete_kf compete_kr T filling) /\ filling 0 = [0; 0; 0] /\
  exists data, get_data compete_setup = Ok data /\
    steady_state_function compete_setup (Ok (compete_kf, compete_kr)) (Some data) [/ 4; / 15; / 2] = Ok [0; 0; 0].
Proof.
  split; [exact compete_usable|]. split; [exact compete_hops|]. split; [exact compete_linked|]. split; [exact compete_supplied|].
  split; [intros k [<-|[<-|[<-|[]]]]; lra|]. split; [intros k [<-|[<-|[<-|[]]]]; lra|].
  split; [exact (proj2 (proj2 (proj2 compete_constants)))|]. split; [exact filling_solves|]. split; [exact filling_empty|].
  destruct compete_langmuir as (data & D & _ & E). exists data. auto.
Qed.
