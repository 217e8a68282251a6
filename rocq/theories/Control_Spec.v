(** Specification vocabulary for the sum of the degrees of rate control (C118). *)
From Coq Require Import String Ascii List ZArith Bool Arith Reals.
Import ListNotations.
From Verif Require Import PyBase Rxn_Model Rxn_Spec Species_Model Species_Spec PyReal Energy_Model Thermo_Model Rate_Model MF_Model MF_Spec Xrc_Model.
Local Open Scope list_scope.
Local Open Scope R_scope.

(** Constants of which number [j] is multiplied by [f] and the others are the same. *)
Definition sped_up (f : R) (j : nat) (k k' : list R) : Prop :=
  length k' = length k /\
  forall i x, nth_error k i = Some x -> nth_error k' i = Some (if Nat.eqb i j then f * x else x).

(** Coverages at which nothing changes. *)
Definition at_rest (s : setup) (kf kr : list R) (data : dict R * dict R) (c : list R) : Prop :=
  length c = length (ads s) /\
  exists F, steady_state_function s (Ok (kf, kr)) (Some data) c = Ok F /\ forall y, In y F -> y = 0.

(** Physical coverages at which nothing changes faster than the tolerance. *)
Definition near_rest (s : setup) (kf kr : list R) (data : dict R * dict R) (tol : R) (c : list R) : Prop :=
  feasible s c /\
  exists F, steady_state_function s (Ok (kf, kr)) (Some data) c = Ok F /\ forall y, In y F -> Rabs y <= tol.

(** The turnover frequency number [g] at coverages. *)
Definition turns (s : setup) (kf kr : list R) (data : dict R * dict R) (c : list R) (g : nat) (r : R) : Prop :=
  exists tof, tofs s (Ok (kf, kr)) (Some data) c = Ok tof /\ nth_error tof g = Some r.

(** The lists in a dictionary of relative energies. *)
Definition has_energies (e : dict (list R)) (r : rel_energies) : Prop :=
  dget e (L "Gaf") = Some (r_Gaf r) /\ dget e (L "Gar") = Some (r_Gar r) /\ dget e (L "dG") = Some (r_dG r).

(** The methods that [get_single_XRC] calls do what they are for: the constants are those of transition
    state theory, the search ends at coverages that are [rest], and the rate is the turnover frequency
    number [g]. *)
Definition sound_tools {W} (ec : str -> R -> R -> R -> res R) (o : owner) (own : option rel_energies) (s : setup)
    (data : dict R * dict R) (gas : str) (g : nat) (rest : list R -> list R -> list R -> Prop) (q : tools W) : Prop :=
  t_rxns q = length (s_exprs s) /\
  (forall e r ks w w', has_energies e r -> t_constants q e w = (Ok ks, w') ->
     exists krs, rate_constants ec o (L "TST") (Some r) own = Ok (ks, krs)) /\
  (forall guess e r kf kr c w w', has_energies e r -> rate_constants ec o (L "TST") (Some r) own = Ok (kf, kr) ->
     t_search q guess e w = (Ok c, w') -> exists c', c = Some c' /\ rest kf kr c') /\
  (forall c e r kf kr x w w', has_energies e r -> rate_constants ec o (L "TST") (Some r) own = Ok (kf, kr) ->
     t_tof q (Some c) e gas w = (Ok x, w') -> turns s kf kr data c g x).
(** Searches that end at a steady state. *)
Definition exact_tools {W} ec o own s data gas g (q : tools W) : Prop :=
  sound_tools ec o own s data gas g (fun kf kr => at_rest s kf kr data) q.
(** Searches that end as soon as the tolerance is met, at physical coverages. *)
Definition rough_tools {W} ec o own s data gas g (tol : R) (q : tools W) : Prop :=
  sound_tools ec o own s data gas g (fun kf kr => near_rest s kf kr data tol) q.
