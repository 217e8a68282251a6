(** C119: how far accepted coverages are from the steady state (steady_state_solver.py 758-963,
    get_steady_state_cvgs, with mean_field_solver.py's net rates and turnover frequencies), for mechanisms
    in which every step moves one species on one kind of site. *)
From Coq Require Import String Ascii List ZArith Bool Arith Reals Lra.
Import ListNotations.
From Verif Require Import PyBase Rxn_Model Rxn_Spec Species_Model Species_Spec PyReal MF_Model MF_Spec MF_Witness Hop_Spec
  Steady_Model Steady_Spec Control_Witness Accuracy_Spec Accuracy_Proofs Accuracy_Agree Accuracy_Rates Accuracy_Any Accuracy_Witness.
Local Open Scope list_scope.
Local Open Scope R_scope.

(** Coverages whose rates of change are within a tolerance, physical or not, are within a multiple of it
    of the only steady state, and so are the net rates and the turnover frequencies. *)
Theorem C119_distance : forall s, usable_setup s -> forall l, only_hops s l ->
  (forall site, In site (sites s) -> 0 <= total s site <= 1) -> supplied (Rlt 0) s -> linked s l ->
  forall kf kr, length kf = length (s_exprs s) -> length kr = length (s_exprs s) ->
  (forall a, In a kf -> 0 < a) -> (forall b, In b kr -> 0 < b) ->
  exists data c0 C, get_data s = Ok data /\ feasible s c0 /\ steady_within s kf kr data 0 c0 /\ 0 <= C /\
    forall c tol, 0 <= tol -> steady_within s kf kr data tol c ->
      close (C * tol) c c0 /\
      (forall nets nets0, net_rates s (Ok (kf, kr)) (Some data) c = Ok nets -> net_rates s (Ok (kf, kr)) (Some data) c0 = Ok nets0 ->
         close (C * tol) nets nets0) /\
      (forall tof tof0, tofs s (Ok (kf, kr)) (Some data) c = Ok tof -> tofs s (Ok (kf, kr)) (Some data) c0 = Ok tof0 ->
         close (C * tol) tof tof0).
Proof. exact accuracy. Qed.
Print Assumptions C119_distance.

(** What a search returns, whatever its guesses, its root finder and its plugins are. *)
Theorem C119_search : forall s, usable_setup s -> forall l, only_hops s l ->
  (forall site, In site (sites s) -> 0 <= total s site <= 1) -> supplied (Rlt 0) s -> linked s l ->
  forall kf kr, length kf = length (s_exprs s) -> length kr = length (s_exprs s) ->
  (forall a, In a kf -> 0 < a) -> (forall b, In b kr -> 0 < b) ->
  exists data c0 C, get_data s = Ok data /\ feasible s c0 /\ steady_within s kf kr data 0 c0 /\ 0 <= C /\
    forall I (q : search I) fuel guess a st, q_f q = steady_state_function s (Ok (kf, kr)) (Some data) ->
      get_steady_state_cvgs q fuel guess = (Ok (Some a), st) ->
      exists x, a_coverages a = Some x /\ (length x = length (ads s) -> close (C * q_tolerance q) x c0).
Proof. exact search_accuracy. Qed.
Print Assumptions C119_search.

(** Vectors of another length: too short ones are refused, further entries are not looked at.  So nothing
    needs to be known about the root finder. *)
Theorem C119_length : forall s ks data cvgs, prepared s ->
  (length cvgs < length (ads s) /\ rates s ks data cvgs = Err IndexError /\
   steady_state_function s ks data cvgs = Err IndexError)%nat \/
  (length (ads s) <= length cvgs /\
   rates s ks data cvgs = rates s ks data (firstn (length (ads s)) cvgs) /\
   steady_state_function s ks data cvgs = steady_state_function s ks data (firstn (length (ads s)) cvgs))%nat.
Proof. exact any_length. Qed.
Print Assumptions C119_length.

Theorem C119_any_search : forall s, usable_setup s -> forall l, only_hops s l ->
  (forall site, In site (sites s) -> 0 <= total s site <= 1) -> supplied (Rlt 0) s -> linked s l ->
  forall kf kr, length kf = length (s_exprs s) -> length kr = length (s_exprs s) ->
  (forall a, In a kf -> 0 < a) -> (forall b, In b kr -> 0 < b) ->
  exists data c0 C, get_data s = Ok data /\ feasible s c0 /\ steady_within s kf kr data 0 c0 /\ 0 <= C /\
    forall I (q : search I) fuel guess a st, q_f q = steady_state_function s (Ok (kf, kr)) (Some data) ->
      get_steady_state_cvgs q fuel guess = (Ok (Some a), st) ->
      exists x, a_coverages a = Some x /\ close (C * q_tolerance q) (firstn (length (ads s)) x) c0.
Proof. exact search_any. Qed.
Print Assumptions C119_any_search.

(** The rates and turnover frequencies at what a search returns can be computed, and are those of the
    steady state up to a multiple of the tolerance. *)
Theorem C119_rates : forall s, usable_setup s -> forall l, only_hops s l ->
  (forall site, In site (sites s) -> 0 <= total s site <= 1) -> supplied (Rlt 0) s -> linked s l ->
  forall kf kr, length kf = length (s_exprs s) -> length kr = length (s_exprs s) ->
  (forall a, In a kf -> 0 < a) -> (forall b, In b kr -> 0 < b) ->
  exists data c0 nets0 tof0 C, get_data s = Ok data /\ feasible s c0 /\ steady_within s kf kr data 0 c0 /\ 0 <= C /\
    net_rates s (Ok (kf, kr)) (Some data) c0 = Ok nets0 /\ tofs s (Ok (kf, kr)) (Some data) c0 = Ok tof0 /\
    forall I (q : search I) fuel guess a st x, q_f q = steady_state_function s (Ok (kf, kr)) (Some data) ->
      get_steady_state_cvgs q fuel guess = (Ok (Some a), st) -> a_coverages a = Some x -> length x = length (ads s) ->
      exists nets tof, net_rates s (Ok (kf, kr)) (Some data) x = Ok nets /\ tofs s (Ok (kf, kr)) (Some data) x = Ok tof /\
        close (C * q_tolerance q) nets nets0 /\ close (C * q_tolerance q) tof tof0.
Proof. exact reported_rates. Qed.
Print Assumptions C119_rates.

(** Any two searches, with whatever guesses and root finders, agree up to their tolerances. *)
Theorem C119_agreement : forall s, usable_setup s -> forall l, only_hops s l ->
  (forall site, In site (sites s) -> 0 <= total s site <= 1) -> supplied (Rlt 0) s -> linked s l ->
  forall kf kr, length kf = length (s_exprs s) -> length kr = length (s_exprs s) ->
  (forall a, In a kf -> 0 < a) -> (forall b, In b kr -> 0 < b) ->
  exists data C, get_data s = Ok data /\ 0 <= C /\
    forall I (q : search I) fuel guess a st x I' (q' : search I') fuel' guess' a' st' x',
      q_f q = steady_state_function s (Ok (kf, kr)) (Some data) ->
      get_steady_state_cvgs q fuel guess = (Ok (Some a), st) -> a_coverages a = Some x -> length x = length (ads s) ->
      q_f q' = steady_state_function s (Ok (kf, kr)) (Some data) ->
      get_steady_state_cvgs q' fuel' guess' = (Ok (Some a'), st') -> a_coverages a' = Some x' -> length x' = length (ads s) ->
      close (C * (q_tolerance q + q_tolerance q')) x x'.
Proof. exact agreement. Qed.
Print Assumptions C119_agreement.

(** A mechanism given, the tolerance can be chosen for any accuracy wanted. *)
Theorem C119_tending : forall s, usable_setup s -> forall l, only_hops s l ->
  (forall site, In site (sites s) -> 0 <= total s site <= 1) -> supplied (Rlt 0) s -> linked s l ->
  forall kf kr, length kf = length (s_exprs s) -> length kr = length (s_exprs s) ->
  (forall a, In a kf -> 0 < a) -> (forall b, In b kr -> 0 < b) ->
  exists data c0, get_data s = Ok data /\ feasible s c0 /\ steady_within s kf kr data 0 c0 /\
    forall d, 0 < d -> exists tol, 0 < tol /\ forall I (q : search I) fuel guess a st x, q_tolerance q <= tol ->
      q_f q = steady_state_function s (Ok (kf, kr)) (Some data) ->
      get_steady_state_cvgs q fuel guess = (Ok (Some a), st) -> a_coverages a = Some x -> length x = length (ads s) ->
      close d x c0.
Proof. exact tending. Qed.
Print Assumptions C119_tending.

(** No tolerance serves all mechanisms: the test compares rates of change with a fixed number, so that
    for every tolerance there are constants for which the empty surface is accepted as the steady state
    although the surface is filled to two thirds then. *)
Theorem C119_uniform_refuted : forall tol, 0 < tol -> exists s l kf kr data c0 I (q : search I) a st x,
  usable_setup s /\ only_hops s l /\ linked s l /\ supplied (Rlt 0) s /\
  (forall site, In site (sites s) -> 0 <= total s site <= 1) /\
  length kf = length (s_exprs s) /\ length kr = length (s_exprs s) /\
  (forall k, In k kf -> 0 < k) /\ (forall k, In k kr -> 0 < k) /\
  get_data s = Ok data /\ steady_within s kf kr data 0 c0 /\
  q_f q = steady_state_function s (Ok (kf, kr)) (Some data) /\ q_tolerance q = tol /\
  get_steady_state_cvgs q 1 (Some x) = (Ok (Some a), st) /\ a_coverages a = Some x /\ feasible s x /\
  ~ close (1 / 2) x c0.
Proof. exact far_answer. Qed.
Print Assumptions C119_uniform_refuted.

(** The hypotheses hold of a mechanism that turns one gas into another, and a search for it succeeds. *)
Example C119_mechanism : usable_setup pump_setup /\ only_hops pump_setup pump_steps /\ linked pump_setup pump_steps /\
  supplied (Rlt 0) pump_setup /\ (forall site, In site (sites pump_setup) -> 0 <= total pump_setup site <= 1).
Proof. exact (conj pump_usable (conj pump_only (conj pump_linked (conj pump_supplied pump_total)))). Qed.
Example C119_run : exists a st, get_steady_state_cvgs (slow_search (1 / 1000)) 1 (Some [0]) = (Ok (Some a), st) /\
  a_coverages a = Some [0] /\ q_f (slow_search (1 / 1000)) =
    steady_state_function pump_setup (Ok ([1 / 1000 / 4; 1 / 1000 / 4], [1 / 1000 / 4; 1 / 1000 / 4])) (Some pump_data).
Proof. destruct (slow_returned (1 / 1000) ltac:(lra)) as (a & st & S & A). exists a, st. repeat split; assumption. Qed.
