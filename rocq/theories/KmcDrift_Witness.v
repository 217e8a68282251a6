(** A concrete case for C112: adsorption of CO on two sites. *)
From Coq Require Import String Ascii List ZArith NArith Bool Arith QArith Reals Lra Lia Permutation.
Import ListNotations.
From Verif Require Import PyBase PyBaseFacts Kmc_Model Kmc_Spec Kmc_Proofs Kmc_Witness KmcLat_Spec KmcLat_Proofs
  KmcLat_Witness KmcMean_Spec KmcMean_Proofs KmcMean_Witness KmcDrift_Spec KmcDrift_Proofs.
From Verif Require Rxn_Model Species_Model MF_Model MF_Spec MF_Witness Rate_Model Rate_Spec Rate_Proofs Rate_Witness Thermo_Model.
Local Open Scope list_scope.
Local Open Scope nat_scope.

Lemma a_drift t : exists kf kr ps m fls f0 f1 data F,
  get_processes (a_owner kf kr) [] [a_def] = (Ok ps, m) /\
  nth_error (Species_Model.l_rxns (MF_Model.s_lists a_setup)) 0 = Some fls /\
  stands_for l_neighbour l_basis 2 2 (a_owner kf kr) (Rate_Witness.co_owner 300 1) Rate_Witness.co_energies a_setup [t]
    (a_theta t) a_occ a_def a_pdef fls f0 f1 kf kr /\
  MF_Spec.ads a_setup = [L "CO_s"] /\
  (forall fls, In fls (Species_Model.l_rxns (MF_Model.s_lists a_setup)) -> MF_Spec.plain_in (L "CO_s") fls) /\
  (forall e, In e [L "V"; L "CO"] -> (a_occ e = L "CO_s" <-> e = L "CO")) /\
  MF_Model.get_data a_setup = Ok data /\
  MF_Model.steady_state_function a_setup (Ok ([kf], [kr])) (Some data) [t] = Ok F /\
  nth_error F 0 = Some (kf * (1 - t) - kr * t)%R /\
  drift l_neighbour l_basis 2 [L "V"; L "CO"] (a_theta t) (is (L "CO")) ps = (2 * (kf * (1 - t) - kr * t))%R.
Proof.
  destruct Rate_Witness.co_pressures as (fls & f0 & f1 & F & F0 & F1 & U & K).
  assert (T : (0 < Thermo_Model.o_T (Rate_Witness.co_owner 300 1))%R) by (cbn; lra).
  pose proof (Rate_Proofs.rates_TST_plain _ _ _ _ _ _ T Rate_Witness.co_energies_of) as R0.
  pose proof (Rate_Proofs.rates_TST_pressure _ _ _ _ _ _ _ _ _ R0 F F0 F1 U K) as R1.
  match type of R0 with _ = Ok (?x, ?y) => set (kf := x) in *; set (kr := y) in * end.
  assert (P1 : forall fs, Rate_Spec.pressure_factor (fun _ => 1%R) fs = 1%R).
  { induction fs as [|f tl IH]; cbn [Rate_Spec.pressure_factor]; auto. rewrite IH.
    destruct (str_eqb _ _); auto. rewrite powerRZ_R1. lra. }
  rewrite !P1, !Rmult_1_l in R1.
  clearbody kf kr. exists kf, kr.
  destruct (a_processes kf kr) as (ps & m & H). exists ps, m, fls, f0, f1.
  pose proof F as F'. vm_compute in F'. injection F' as F'.
  rewrite <- F' in F0, F1. injection F0 as F0. injection F1 as F1.
  assert (Gf : Rate_Spec.gases f0 = firstn 1 f0 /\ Rate_Spec.gases f1 = []) by (subst f0 f1; split; vm_compute; reflexivity).
  assert (Sf : nth_error (Species_Model.l_rxns (MF_Model.s_lists a_setup)) 0 = Some fls) by (rewrite <- F'; reflexivity).
  assert (St : stands_for l_neighbour l_basis 2 2 (a_owner kf kr) (Rate_Witness.co_owner 300 1) Rate_Witness.co_energies a_setup [t]
    (a_theta t) a_occ a_def a_pdef fls f0 f1 kf kr).
  { constructor.
    - exact a_describes.
    - reflexivity.
    - repeat constructor; intro; auto; discriminate.
    - apply l_roomy. reflexivity.
    - reflexivity.
    - symmetry. exact R1.
    - exact R0.
    - exact F.
    - rewrite <- F'. subst f0. reflexivity.
    - rewrite <- F'. subst f1. reflexivity.
    - exact U.
    - intros fs f Hs Hf. rewrite (K fs f Hs Hf). do 2 f_equal.
      destruct Gf as [G0 G1]. destruct Hs as [<-|[<-|[]]]; [rewrite G0 in Hf; subst f0|rewrite G1 in Hf; destruct Hf].
      destruct Hf as [<-|[]]. reflexivity.
    - subst f0. intros f [<-|[<-|[]]]; discriminate.
    - subst f1. intros f [<-|[]]; discriminate.
    - intros e [[<-|[]]|[<-|[]]]; unfold a_theta; cbn; unfold MF_Spec.coverage; cbn; try reflexivity. lra.
    - subst f0. apply Permutation_refl.
    - subst f1. apply Permutation_refl. }
  assert (Pl : forall fls, In fls (Species_Model.l_rxns (MF_Model.s_lists a_setup)) -> MF_Spec.plain_in (L "CO_s") fls).
  { intros g Hg. apply (MF_Witness.all_plain_ok a_setup); [vm_compute; reflexivity|now left|exact Hg]. }
  assert (Oc : forall e, In e [L "V"; L "CO"] -> (a_occ e = L "CO_s" <-> e = L "CO")).
  { intros e [<-|[<-|[]]]; split; intro Q; try reflexivity; discriminate Q. }
  assert (ND : NoDup (possible_element_types (a_owner kf kr))) by (repeat constructor; cbn; intuition discriminate).
  assert (Sm : sum (map (a_theta t) (possible_element_types (a_owner kf kr))) = 1%R) by (unfold sum, a_theta; cbn; lra).
  destruct (same_equations l_neighbour l_basis 2 2 (a_theta t) (a_owner kf kr) [] [a_def] ps m
    (Rate_Witness.co_owner 300 1) Rate_Witness.co_energies a_setup [t] a_occ [kf] [kr] 0 (L "CO_s") (L "CO"))
    as (data & Fs & y & G & Ss & Fy & Dr).
  all: try assumption; try reflexivity.
  - exact a_usable.
  - repeat constructor; cbn; intuition.
  - intros [|j] d Hd; [|destruct j; discriminate Hd]. injection Hd as <-.
    exists a_pdef, fls, f0, f1, kf, kr. repeat (split; [first [exact Sf|reflexivity]|]). exact St.
  - destruct (total_drift l_neighbour l_basis 2 (a_theta t) (is (L "CO")) (a_owner kf kr) [] [a_def] ps m H) as (xs & Sh & Dx).
    + intros d [<-|[]]. split; [reflexivity|]. intros p D. rewrite (describes_unique _ _ _ D a_describes).
      split; [apply (sf_wildcards _ _ _ _ _ _ _ _ _ _ _ _ _ _ _ _ _ _ St)|apply (sf_roomy _ _ _ _ _ _ _ _ _ _ _ _ _ _ _ _ _ _ St)].
    + exact ND.
    + exact Sm.
    + inversion Sh as [|d0 v ds0 xs0 Sv Sr]; subst d0 ds0 xs. inversion Sr; subst xs0.
      destruct Sv as (pd & rf & rr & D & Rp & Ev). rewrite (describes_unique _ _ _ D a_describes) in *.
      assert (rf = kf /\ rr = kr) as [-> ->].
      { destruct Rp as [[A1 A2]|[A1 A2]]; [discriminate A1|]. injection A2 as <- <-. auto. }
      assert (Val : v = (2 * (kf * (1 - t) - kr * t))%R).
      { rewrite Ev. change (length (d_group a_pdef)) with 1. change (places l_basis 2 (d_sites a_pdef)) with 2.
        change (named (d_before a_pdef)) with [L "V"]. change (named (d_after a_pdef)) with [L "CO"].
        unfold product, energy, sum, is, a_theta. cbn. lra. }
      change (possible_element_types (a_owner kf kr)) with [L "V"; L "CO"] in *.
      assert (Tot : drift l_neighbour l_basis 2 [L "V"; L "CO"] (a_theta t) (is (L "CO")) ps = (2 * (kf * (1 - t) - kr * t))%R).
      { rewrite Dx, Val. unfold sum. cbn. lra. }
      exists data, Fs. repeat (split; [first [assumption|reflexivity]|]).
      split; [|exact Tot]. rewrite Fy. f_equal. rewrite Tot in Dr. change (INR 2) with (1 + 1)%R in Dr. lra.
Qed.
