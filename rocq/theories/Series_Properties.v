(** Property theorems: net rates of a mechanism at a steady state (C117). *)
From Coq Require Import String Ascii List ZArith Bool Arith Reals Lia Lra.
Import ListNotations.
From Verif Require Import PyBase Rxn_Model Rxn_Spec Species_Model Species_Spec PyReal MF_Model MF_Spec Whole_Spec
  Langmuir_Witness Hop_Spec Hop_Witness Series_Spec Series_Proofs Series_Witness.
Local Open Scope list_scope.
Local Open Scope R_scope.

(** C117: every balance over the adsorbates is a relation between the net rates, as exact as the steady
    state is. *)
Theorem C117_balances : forall s cvgs kf kr data F nets w eps, usable_setup s -> NoDup (s_exprs s) ->
  length cvgs = length (ads s) -> length kf = length (s_exprs s) -> length kr = length (s_exprs s) ->
  get_data s = Ok data -> steady_state_function s (Ok (kf, kr)) (Some data) cvgs = Ok F ->
  net_rates s (Ok (kf, kr)) (Some data) cvgs = Ok nets -> (forall y, In y F -> Rabs y <= eps) ->
  (forall n fls, In n (ads s) -> In fls (l_rxns (s_lists s)) -> plain_in n fls) ->
  Rabs (dot nets (map (fun fls => Rsum (map (fun n => w n * IZR (used_up n fls)) (ads s))) (l_rxns (s_lists s))))
    <= eps * Rsum (map (fun n => Rabs (w n)) (ads s)).
Proof.
  exact (fun s cvgs kf kr data F nets w eps U ND Len Lf Lr D EF EN =>
    balances s U ND cvgs kf kr Len Lf Lr data F nets D EF EN w eps).
Qed.
Print Assumptions C117_balances.

(** Branches that lead nowhere stand still at a steady state ... *)
Theorem C117_dead_ends : forall s cvgs kf kr data F nets, usable_setup s -> NoDup (s_exprs s) ->
  length cvgs = length (ads s) -> length kf = length (s_exprs s) -> length kr = length (s_exprs s) ->
  get_data s = Ok data -> steady_state_function s (Ok (kf, kr)) (Some data) cvgs = Ok F ->
  net_rates s (Ok (kf, kr)) (Some data) cvgs = Ok nets -> (forall y, In y F -> y = 0) ->
  forall l, dead_ends s l -> forall j, In j l -> nth_error nets j = Some 0.
Proof.
  exact (fun s cvgs kf kr data F nets U ND Len Lf Lr D EF EN Z => idle s U ND cvgs kf kr Len Lf Lr data F nets D EF EN Z).
Qed.
Print Assumptions C117_dead_ends.

(** ... and steps in a row run at the same pace. *)
Theorem C117_series : forall s cvgs kf kr data F nets, usable_setup s -> NoDup (s_exprs s) ->
  length cvgs = length (ads s) -> length kf = length (s_exprs s) -> length kr = length (s_exprs s) ->
  get_data s = Ok data -> steady_state_function s (Ok (kf, kr)) (Some data) cvgs = Ok F ->
  net_rates s (Ok (kf, kr)) (Some data) cvgs = Ok nets -> (forall y, In y F -> y = 0) ->
  forall l i j a b x y, dead_ends s l -> in_series s l i j a b ->
    nth_error nets i = Some x -> nth_error nets j = Some y -> IZR a * x = IZR b * y.
Proof.
  exact (fun s cvgs kf kr data F nets U ND Len Lf Lr D EF EN Z => same_pace s U ND cvgs kf kr Len Lf Lr data F nets D EF EN Z).
Qed.
Print Assumptions C117_series.

(** A mechanism of nothing but dead ends makes nothing. *)
Theorem C117_no_turnover : forall s cvgs kf kr data F nets, usable_setup s -> NoDup (s_exprs s) ->
  length cvgs = length (ads s) -> length kf = length (s_exprs s) -> length kr = length (s_exprs s) ->
  get_data s = Ok data -> steady_state_function s (Ok (kf, kr)) (Some data) cvgs = Ok F ->
  net_rates s (Ok (kf, kr)) (Some data) cvgs = Ok nets -> (forall y, In y F -> y = 0) ->
  forall l, dead_ends s l -> (forall j, (j < length (s_exprs s))%nat -> In j l) ->
    exists tof, tofs s (Ok (kf, kr)) (Some data) cvgs = Ok tof /\
      length tof = length (l_gas (s_lists s) ++ l_liq (s_lists s)) /\ forall y, In y tof -> y = 0.
Proof.
  exact (fun s cvgs kf kr data F nets U ND Len Lf Lr D EF EN Z => no_turnover s U ND cvgs kf kr Len Lf Lr data F nets D EF EN Z).
Qed.
Print Assumptions C117_no_turnover.

(** A cycle of three steps at one pace, and a branch of two steps that stands still. *)
Example C117_example : usable_setup turn_setup /\ NoDup (s_exprs turn_setup) /\ dead_ends turn_setup [3; 4]%nat /\
  in_series turn_setup [3; 4]%nat 0 1 1 1 /\ in_series turn_setup [3; 4]%nat 1 2 1 1 /\
  exists data, get_data turn_setup = Ok data /\
    steady_state_function turn_setup (Ok (turn_kf, turn_kr)) (Some data) [/ 50; 3 / 50; 9 / 31; 8 / 31] = Ok [0; 0; 0; 0] /\
    net_rates turn_setup (Ok (turn_kf, turn_kr)) (Some data) [/ 50; 3 / 50; 9 / 31; 8 / 31] = Ok [10 / 31; 10 / 31; 10 / 31; 0; 0].
Proof.
  split; [exact turn_usable|]. split; [exact (proj2 turn_only)|]. split; [exact turn_branch|].
  split; [exact (proj1 turn_row)|]. split; [exact (proj2 turn_row)|]. exact turn_nets.
Qed.
Example C117_adsorption : dead_ends compete_setup [0; 1; 2]%nat /\
  forall j, (j < length (s_exprs compete_setup))%nat -> In j [0; 1; 2]%nat.
Proof. split; [exact compete_branches|]. cbn. intros j Hj. lia. Qed.
