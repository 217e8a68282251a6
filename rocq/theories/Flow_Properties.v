(** Property theorems: the course of the coverages in time (C99, C97). *)
From Coq Require Import String Ascii List ZArith Bool Reals Lra.
Import ListNotations.
From Verif Require Import PyBase Rxn_Model Rxn_Spec Species_Model Species_Spec PyReal MF_Model MF_Spec Whole_Spec
  Langmuir_Spec Langmuir_Witness Flow_Spec Flow_Proofs Flow_Langmuir Flow_Witness Flow_Unique.
Local Open Scope list_scope.
Local Open Scope R_scope.

(** C99: a solution of the rate equations that starts with nothing negative keeps it so. *)
Theorem C99_stays : forall s kf kr T th t,
  usable_setup s -> NoDup (s_exprs s) ->
  length kf = length (s_exprs s) -> length kr = length (s_exprs s) -> (forall k, In k kf \/ In k kr -> 0 <= k) ->
  simple_adsorbates s -> solution s kf kr T th ->
  nothing_negative s (th 0) -> 0 <= t <= T -> nothing_negative s (th t).
Proof.
  exact (fun s kf kr T th t U ND Lf Lr Pk Sa Sol => stays s U ND kf kr Lf Lr T th Sol Sa Pk t).
Qed.
Print Assumptions C99_stays.

(** C99: it keeps to the bounds of [__constrain_coverages]. *)
Theorem C99_feasible : forall s kf kr T th t,
  usable_setup s -> NoDup (s_exprs s) ->
  length kf = length (s_exprs s) -> length kr = length (s_exprs s) -> (forall k, In k kf \/ In k kr -> 0 <= k) ->
  (forall g x, dget (s_pressure s) g = Some x -> 0 <= x) -> (forall l x, dget (s_conc s) l = Some x -> 0 <= x) ->
  (forall site, In site (sites s) -> total s site <= 1) -> simple_adsorbates s -> solution s kf kr T th ->
  feasible s (th 0) -> 0 <= t <= T -> feasible s (th t).
Proof. exact stays_feasible. Qed.
Print Assumptions C99_feasible.

(** C99: there is only one solution from where it starts, whatever the mechanism. *)
Theorem C99_unique : forall s kf kr T th th' t,
  usable_setup s -> NoDup (s_exprs s) -> length kf = length (s_exprs s) -> length kr = length (s_exprs s) ->
  solution s kf kr T th -> solution s kf kr T th' -> th 0 = th' 0 -> 0 <= t <= T -> th t = th' t.
Proof. exact (fun s kf kr T th th' t U ND Lf Lr => unique s U ND kf kr Lf Lr T th th' t). Qed.
Print Assumptions C99_unique.

(** An adsorbate that is written as transition state becomes negative at once. *)
Theorem C99_transition_state_leaves : exists s kf kr th, usable_setup s /\ NoDup (s_exprs s) /\
  length kf = length (s_exprs s) /\ length kr = length (s_exprs s) /\ (forall k, In k kf \/ In k kr -> 0 <= k) /\
  (forall T, solution s kf kr T th) /\ nothing_negative s (th 0) /\
  (forall n, In n (ads s) -> leading_number (after_last_underscore n) = 1%Z) /\
  forall t, 0 < t -> exists i x, nth_error (th t) i = Some x /\ x < 0.
Proof. exact transition_state_leaves. Qed.
Print Assumptions C99_transition_state_leaves.

(** An adsorbate on two sites overfills the site at once. *)
Theorem C99_two_sites_leave : exists s kf kr th site, usable_setup s /\ NoDup (s_exprs s) /\
  length kf = length (s_exprs s) /\ length kr = length (s_exprs s) /\ (forall k, In k kf \/ In k kr -> 0 <= k) /\
  (forall T, solution s kf kr T th) /\ nothing_negative s (th 0) /\
  (forall n fls, In n (ads s) -> In fls (l_rxns (s_lists s)) -> plain_in n fls /\ absent n (removelast (tl fls))) /\
  In site (sites s) /\ forall t, 0 < t -> total s site < covered site (ads s) (th t).
Proof. exact two_sites_leave. Qed.
Print Assumptions C99_two_sites_leave.

(** C97: competing adsorption approaches Langmuir's isotherm, whatever the coverages to begin with, as
    fast as the slowest desorption at least. *)
Theorem C97_approach : forall s l kf kr th r, usable_setup s -> only_adsorption s l ->
  length kf = length (s_exprs s) -> length kr = length (s_exprs s) ->
  (forall k, In k kf -> 0 < k) -> (forall k, In k kr -> 0 < k) ->
  (forall gas name, In (gas, name) l -> 0 < value (s_pressure s) gas) ->
  (forall T, solution s kf kr T th) -> (forall k, In k kr -> r <= k) ->
  forall i gas name K, nth_error l i = Some (gas, name) -> nth_error (quotients kf kr) i = Some K ->
    exists C, forall t, 0 <= t ->
      Rabs (coverage s (th t) name - isotherm s l (quotients kf kr) gas name K) <= C * exp (- r * t).
Proof.
  exact (fun s l kf kr th r U OA Lf Lr Pf Pr Pp Sol Sr => approach s U l OA kf kr Lf Lr Pf Pr Pp th Sol r Sr).
Qed.
Print Assumptions C97_approach.

(** Two gases fill an empty surface. *)
Example C99_example : usable_setup compete_setup /\ NoDup (s_exprs compete_setup) /\ simple_adsorbates compete_setup /\
  (forall T, solution compete_setup compete_kf compete_kr T filling) /\
  filling 0 = [0; 0; 0] /\ feasible compete_setup (filling 0) /\ nothing_negative compete_setup (filling 0) /\
  only_adsorption compete_setup compete_pairs /\
  (forall k, In k compete_kf -> 0 < k) /\ (forall k, In k compete_kr -> 2 <= k) /\
  (forall gas name, In (gas, name) compete_pairs -> 0 < value (s_pressure compete_setup) gas).
Proof.
  split; [exact compete_usable|]. split; [exact compete_distinct|]. split; [exact compete_simple|].
  split; [exact filling_solves|]. split; [exact filling_empty|]. split; [exact filling_starts|].
  split; [exact (feasible_nothing _ _ (proj1 compete_pressures) (proj2 compete_pressures) filling_starts)|].
  split; [exact compete_only|]. split; [intros k [<-|[<-|[<-|[]]]]; lra|]. split; [intros k [<-|[<-|[<-|[]]]]; lra|].
  intros gas name [H|[H|[H|[]]]]; injection H as <- <-; lazy -[Rlt IZR]; lra.
Qed.
