(** A concrete case for C113: CO on two sites in equilibrium. *)
From Coq Require Import String Ascii List ZArith NArith Bool Arith QArith Reals Lra Lia Permutation.
Import ListNotations.
From Verif Require Import PyBase PyBaseFacts Kmc_Model Kmc_Spec Kmc_Proofs Kmc_Witness KmcLat_Spec KmcLat_Proofs
  KmcLat_Witness KmcMean_Spec KmcMean_Proofs KmcMean_Witness KmcDrift_Spec KmcDrift_Proofs KmcDrift_Witness KmcEq_Spec KmcEq_Proofs.
From Verif Require Rxn_Model Species_Model MF_Model MF_Spec MF_Witness Rate_Model Rate_Spec Rate_Proofs Rate_Witness Thermo_Model.
Local Open Scope list_scope.
Local Open Scope nat_scope.

Definition e_energy (kf kr : R) (e : str) : R := if str_eqb e (L "CO") then ln (kr / kf) else 0%R.

Lemma e_boltzmann kf kr : (0 < kf)%R -> (0 < kr)%R ->
  boltzmann (e_energy kf kr) [L "V"; L "CO"] (L "CO") = (kf / (kf + kr))%R /\
  boltzmann (e_energy kf kr) [L "V"; L "CO"] (L "V") = (1 - kf / (kf + kr))%R.
Proof.
  intros Hf Hr. unfold boltzmann, e_energy, sum. cbn.
  rewrite Ropp_0, exp_0, exp_Ropp, exp_ln by (apply Rmult_lt_0_compat; [lra|now apply Rinv_0_lt_compat]).
  split; field; repeat split; try lra.
Qed.

Lemma e_case : exists kf kr ps m fls f0 f1 data F, (0 < kf)%R /\ (0 < kr)%R /\
  get_processes (a_owner kf kr) [] [a_def] = (Ok ps, m) /\
  nth_error (Species_Model.l_rxns (MF_Model.s_lists a_setup)) 0 = Some fls /\
  stands_for l_neighbour l_basis 2 2 (a_owner kf kr) (Rate_Witness.co_owner 300 1) Rate_Witness.co_energies a_setup
    [kf / (kf + kr)]%R (boltzmann (e_energy kf kr) [L "V"; L "CO"]) a_occ a_def a_pdef fls f0 f1 kf kr /\
  (forall d p rf rr, In d [a_def] -> describes d p -> rate_pair (a_owner kf kr) (d_reaction p) rf rr ->
     balanced (e_energy kf kr) p rf rr) /\
  MF_Model.get_data a_setup = Ok data /\
  MF_Model.steady_state_function a_setup (Ok ([kf], [kr])) (Some data) [kf / (kf + kr)]%R = Ok F /\
  nth_error F 0 = Some 0%R.
Proof.
  assert (T : (0 < Thermo_Model.o_T (Rate_Witness.co_owner 300 1))%R) by (cbn; lra).
  pose proof (Rate_Proofs.rates_TST_plain _ _ _ _ _ _ T Rate_Witness.co_energies_of) as R0.
  assert (Pos : forall kf kr, Rate_Model.rates_TST (Rate_Witness.co_owner 300 1) Rate_Witness.co_rxn Rate_Witness.co_energies false
    = Ok (kf, kr) -> (0 < kf /\ 0 < kr)%R).
  { intros kf kr H. rewrite R0 in H. injection H as <- <-. pose proof (Rate_Proofs.frequency_pos _ T).
    split; apply Rmult_lt_0_compat; auto; apply exp_pos. }
  destruct (a_drift 0) as (kf & kr & ps0 & m0 & fls0 & g0 & g1 & d0 & F0 & _ & _ & St0 & _).
  destruct (Pos kf kr (sf_constants _ _ _ _ _ _ _ _ _ _ _ _ _ _ _ _ _ _ St0)) as [Hf Hr].
  destruct (a_drift (kf / (kf + kr))) as (kf' & kr' & ps & m & fls & f0 & f1 & data & F & H & Hn & St & _ & Pl & Oc & G & Ss & Fy & Dr).
  assert (kf' = kf /\ kr' = kr) as [-> ->].
  { pose proof (sf_constants _ _ _ _ _ _ _ _ _ _ _ _ _ _ _ _ _ _ St0) as A.
    pose proof (sf_constants _ _ _ _ _ _ _ _ _ _ _ _ _ _ _ _ _ _ St) as B. rewrite A in B. injection B as <- <-. auto. }
  destruct (e_boltzmann kf kr Hf Hr) as [B1 B2].
  exists kf, kr, ps, m, fls, f0, f1, data, F. split; [exact Hf|]. split; [exact Hr|]. split; [exact H|]. split; [exact Hn|].
  split; [|split; [|split; [exact G|split; [exact Ss|]]]].
  - destruct St. constructor; auto. intros e [[<-|[]]|[<-|[]]].
    + rewrite B2. unfold MF_Spec.coverage. cbn. ring.
    + rewrite B1. reflexivity.
  - intros d p rf rr [<-|[]] D Rp. rewrite (describes_unique _ _ _ D a_describes) in *.
    assert (rf = kf /\ rr = kr) as [-> ->].
    { destruct Rp as [[A1 A2]|[A1 A2]]; [discriminate A1|]. injection A2 as <- <-. auto. }
    unfold balanced. change (named (d_before a_pdef)) with [L "V"]. change (named (d_after a_pdef)) with [L "CO"].
    unfold weight, energy, sum, e_energy. cbn. rewrite !Rplus_0_r, Ropp_0, exp_0, exp_Ropp, exp_ln
      by (apply Rmult_lt_0_compat; [lra|now apply Rinv_0_lt_compat]).
    field. lra.
  - rewrite Fy. f_equal. field. lra.
Qed.
