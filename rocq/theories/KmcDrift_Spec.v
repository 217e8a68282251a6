(** The mean drift of a lattice whose sites are occupied independently (C112). *)
From Coq Require Import String Ascii List ZArith Bool Arith QArith Reals Permutation.
Import ListNotations.
From Verif Require Import PyBase Kmc_Model Kmc_Spec KmcLat_Spec KmcMean_Spec.
From Verif Require Thermo_Model Energy_Model Rxn_Model MF_Model MF_Spec Rate_Model Rate_Spec.
Local Open Scope list_scope.
Local Open Scope nat_scope.

Section Drift.
  Variable neighbour : nat -> list Q -> nat.
  Variable basis : nat -> Z.
  Variable n : nat.

  (** Expected change per time, by a process at one place, of a sum [q] over the elements on the lattice. *)
  Definition expected_change (types : list str) (theta : str -> R) (q : str -> R) (p : kmc_process R) (a : nat) : R :=
    sum (map (fun X => product (map theta X) *
                match event neighbour basis p a X with
                | Some Y => p_rate p * (energy q Y - energy q X)
                | None => 0
                end)%R (configs types n)).
  (** By all processes at all places. *)
  Definition drift (types : list str) (theta : str -> R) (q : str -> R) (ps : list (kmc_process R)) : R :=
    sum (map (fun p => sum (map (expected_change types theta q p) (seq 0 n))) ps).

  (** How many places, of all the given kinds, the lattice has. *)
  Definition places (kinds : list pv) : nat :=
    list_sum (map (fun k => length (filter (fun a => match number k with Some z => (z =? basis a)%Z | None => false end)
                                           (seq 0 n))) kinds).

  (** What a definition contributes: as often as it has places, the change of q by the net rate. *)
  Definition share (theta : str -> R) (q : str -> R) (o : owner R) (d : dict pv) (x : R) : Prop :=
    exists pd rf rr, describes d pd /\ rate_pair o (d_reaction pd) rf rr /\
      x = (INR (length (d_group pd)) * INR (places (d_sites pd)) *
           (energy q (named (d_after pd)) - energy q (named (d_before pd))) *
           (rf * product (map theta (named (d_before pd))) - rr * product (map theta (named (d_after pd)))))%R.
End Drift.

(** The number of elements x. *)
Definition is (x e : str) : R := if str_eqb e x then 1%R else 0%R.

(** A definition of processes for a reaction of the model, its elements standing for species with the
    coverages of the mean field: no redistribution, no liquids, gases without numbers, c places on the lattice
    (as many as sites: one for every site), transition state theory with pressures. *)
Record stands_for (neighbour : nat -> list Q -> nat) (basis : nat -> Z) (n c : nat) (o : owner R)
    (ro : Thermo_Model.owner) (r : Energy_Model.rel_energies) (s : MF_Model.setup) (cvgs : list R)
    (theta : str -> R) (occ : str -> str) (d : dict pv) (pd : pdef)
    (fls : list (list Rxn_Model.formula)) (f0 f1 : list Rxn_Model.formula) (kf kr : R) : Prop := {
  sf_describes : describes d pd;
  sf_redist : flag d "redist" false;
  sf_wildcards : same_wildcards pd;
  sf_roomy : roomy neighbour n pd;
  sf_places : length (d_group pd) * places basis n (d_sites pd) = c;
  sf_rates : Kmc_Model.rates_TST o (d_reaction pd) = Rate_Model.rates_TST ro (d_reaction pd) r true;
  sf_constants : Rate_Model.rates_TST ro (d_reaction pd) r false = Ok (kf, kr);
  sf_formulas : Rxn_Model.rxn_formula_list (d_reaction pd) = Ok fls;
  sf_first : lfirst fls = Ok f0;
  sf_last : llast fls = Ok f1;
  sf_gases : Forall Rate_Spec.unnumbered (Rate_Spec.gases f0 ++ Rate_Spec.gases f1);
  sf_pressures : Rate_Spec.knows_pressures ro (MF_Spec.value (MF_Model.s_pressure s)) [f0; f1];
  sf_liquids0 : no_liquid f0;
  sf_liquids1 : no_liquid f1;
  sf_coverages : forall e, In e (named (d_before pd)) \/ In e (named (d_after pd)) ->
    theta e = MF_Spec.coverage s cvgs (occ e);
  sf_before : Permutation (map occ (named (d_before pd))) (on_surface f0);
  sf_after : Permutation (map occ (named (d_after pd))) (on_surface f1) }.
