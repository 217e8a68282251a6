(** Lemmas: the two solvers agree in the mean field, and a concrete case (C110). *)
From Coq Require Import String Ascii List ZArith NArith Bool Arith QArith Reals Lra Lia Permutation.
Import ListNotations.
From Verif Require Import PyBase PyBaseFacts Kmc_Model Kmc_Spec Kmc_Proofs Kmc_Witness KmcLat_Spec KmcLat_Proofs
  KmcLat_Witness KmcMean_Spec KmcMean_Proofs.
From Verif Require Rxn_Model Species_Model MF_Model MF_Spec MF_Witness Rate_Model Rate_Spec Rate_Proofs Rate_Witness Thermo_Model.
Local Open Scope list_scope.
Local Open Scope nat_scope.

Lemma same_rates neighbour basis n theta (o : owner R) mapping ds ps m d pd ro r fls f0 f1 P kf kr s cvgs (occ : str -> str)
    (site : pv) cs a kfs krs i :
  get_processes o mapping ds = (Ok ps, m) -> In d ds -> describes d pd -> flag d "redist" false ->
  (forall d q, In d ds -> describes d q -> roomy neighbour n q) ->
  NoDup (possible_element_types o) -> sum (map theta (possible_element_types o)) = 1%R ->
  rate_algo o = L "TST" -> rates_TST o (d_reaction pd) = Rate_Model.rates_TST ro (d_reaction pd) r true ->
  Rate_Model.rates_TST ro (d_reaction pd) r false = Ok (kf, kr) ->
  Rxn_Model.rxn_formula_list (d_reaction pd) = Ok fls -> lfirst fls = Ok f0 -> llast fls = Ok f1 ->
  Forall Rate_Spec.unnumbered (Rate_Spec.gases f0 ++ Rate_Spec.gases f1) -> Rate_Spec.knows_pressures ro P [f0; f1] ->
  no_liquid f0 -> no_liquid f1 ->
  (forall f, In f (Rate_Spec.gases f0 ++ Rate_Spec.gases f1) ->
     MF_Spec.value (MF_Model.s_pressure s) (Rxn_Model.f_species_site f) = P (Rxn_Model.f_species_site f)) ->
  (forall e, In e (named (d_before pd)) \/ In e (named (d_after pd)) -> theta e = MF_Spec.coverage s cvgs (occ e)) ->
  Permutation (map occ (named (d_before pd))) (on_surface f0) ->
  Permutation (map occ (named (d_after pd))) (on_surface f1) ->
  In site (d_sites pd) -> In cs (d_group pd) -> a < n -> number site = Some (basis a) ->
  MF_Spec.usable_setup s -> NoDup (MF_Model.s_exprs s) -> length cvgs = length (MF_Spec.ads s) ->
  length kfs = length (MF_Model.s_exprs s) -> length krs = length (MF_Model.s_exprs s) ->
  nth_error (Species_Model.l_rxns (MF_Model.s_lists s)) i = Some fls ->
  nth_error kfs i = Some kf -> nth_error krs i = Some kr ->
  exists data rfs rrs p q, MF_Model.get_data s = Ok data /\
    MF_Model.rates s (Ok (kfs, krs)) (Some data) cvgs = Ok (rfs, rrs) /\
    In p ps /\ In q ps /\ p_coordinates p = cs /\ p_site p = site /\ p_coordinates q = cs /\ p_site q = site /\
    texts (p_before p) = d_before pd /\ texts (p_after p) = d_after pd /\
    texts (p_before q) = d_after pd /\ texts (p_after q) = d_before pd /\
    nth_error rfs i = Some (expected_rate neighbour basis n (possible_element_types o) theta p a) /\
    nth_error rrs i = Some (expected_rate neighbour basis n (possible_element_types o) theta q a).
Proof.
  intros H Hd D Fr Rm N T Al Rt R0 F F0 F1 U K N0 N1 V Th P0 P1 Hs Hc Ha Hb US NE LC L1 L2 NL K1 K2.
  destruct (mean_field neighbour basis n theta o mapping ds ps m d pd ro r fls f0 f1 P kf kr s cvgs occ site cs a
    H Hd D Fr Rm N T Al Rt R0 F F0 F1 U K N0 N1 V Th P0 P1 Hs Hc Ha Hb)
    as (p & q & Ip & Iq & p1 & p2 & q1 & q2 & p3 & p4 & q3 & q4 & E1 & E2).
  destruct (MF_Witness.rates_distinct s cvgs kfs krs US NE LC L1 L2) as (data & rfs & rrs & G & Ra & _ & _ & All).
  destruct (All i fls f0 f1 kf kr NL F0 F1 K1 K2) as [A1 A2].
  exists data, rfs, rrs, p, q. rewrite E1, E2. repeat (split; [assumption|]). assumption.
Qed.

(** Adsorption of CO on two sites. *)
Definition a_rxn : str := Rate_Witness.co_rxn.
Definition a_lists : Species_Model.lists := Eval vm_compute in MF_Witness.lists_of [a_rxn].
Definition a_setup : MF_Model.setup :=
  MF_Witness.setup_of [a_rxn] a_lists [(L "*_s", MF_Witness.one)] [(L "CO_g", 1%R)] [].
Definition a_def : dict pv :=
  [(L "reaction", PStr a_rxn);
   (L "coordinates_group", PList [PList (map (fun c => PList (map PFloat c)) w_coords)]);
   (L "elements_before", PList (map PStr w_vacant));
   (L "elements_after", PList (map PStr w_filled));
   (L "basis_sites", PList [PInt 0; PInt 1])].
Definition a_pdef : pdef :=
  {| d_reaction := a_rxn; d_group := [w_coords]; d_before := w_vacant; d_after := w_filled; d_sites := [PInt 0; PInt 1] |}.
Definition a_owner (rf rr : R) : owner R :=
  {| rxn_expressions := [a_rxn]; possible_element_types := [L "V"; L "CO"];
     rate_algo := L "TST"; rates_CT := fun _ => Ok (rr, rf); rates_TST := fun _ => Ok (rf, rr) |}.
Definition a_theta (t : R) (e : str) : R := if str_eqb e (L "CO") then t else (1 - t)%R.
Definition a_occ (e : str) : str := if str_eqb e (L "CO") then L "CO_s" else L "*_s".

Lemma a_usable : MF_Spec.usable_setup a_setup.
Proof. apply MF_Witness.usable_setup_ok; vm_compute; reflexivity. Qed.

Lemma a_describes : describes a_def a_pdef.
Proof.
  constructor; cbn.
  - reflexivity.
  - eexists; split; [reflexivity|left; reflexivity].
  - eexists; split; [reflexivity|left; reflexivity].
  - eexists; split; [reflexivity|left; reflexivity].
  - eexists; split; [reflexivity|left; reflexivity].
Qed.

Lemma a_processes rf rr : exists ps m, get_processes (a_owner rf rr) [] [a_def] = (Ok ps, m).
Proof. eexists. eexists. vm_compute. reflexivity. Qed.

Lemma a_case t : exists kf kr ps m data p q,
  Rate_Model.rates_TST (Rate_Witness.co_owner 300 1) a_rxn Rate_Witness.co_energies false = Ok (kf, kr) /\
  Rate_Model.rates_TST (Rate_Witness.co_owner 300 1) a_rxn Rate_Witness.co_energies true = rates_TST (a_owner kf kr) a_rxn /\
  get_processes (a_owner kf kr) [] [a_def] = (Ok ps, m) /\ In p ps /\ In q ps /\
  MF_Model.get_data a_setup = Ok data /\
  MF_Model.rates a_setup (Ok ([kf], [kr])) (Some data) [t]
  = Ok ([expected_rate l_neighbour l_basis 2 [L "V"; L "CO"] (a_theta t) p 0],
        [expected_rate l_neighbour l_basis 2 [L "V"; L "CO"] (a_theta t) q 0]) /\
  MF_Model.rates a_setup (Ok ([kf], [kr])) (Some data) [t] = Ok ([kf * (1 - t)]%R, [kr * t]%R).
Proof.
  destruct Rate_Witness.co_pressures as (fls & f0 & f1 & F & F0 & F1 & U & K).
  assert (T : (0 < Thermo_Model.o_T (Rate_Witness.co_owner 300 1))%R) by (cbn; lra).
  pose proof (Rate_Proofs.rates_TST_plain _ _ _ _ _ _ T Rate_Witness.co_energies_of) as R0.
  pose proof (Rate_Proofs.rates_TST_pressure _ _ _ _ _ _ _ _ _ R0 F F0 F1 U K) as R1.
  match type of R0 with _ = Ok (?x, ?y) => set (kf := x) in *; set (kr := y) in * end.
  assert (P1 : forall fs, Rate_Spec.pressure_factor (fun _ => 1%R) fs = 1%R).
  { induction fs as [|f tl IH]; cbn [Rate_Spec.pressure_factor]; auto. rewrite IH.
    destruct (str_eqb _ _); auto. rewrite powerRZ_R1. lra. }
  rewrite !P1, !Rmult_1_l in R1.
  clearbody kf kr. exists kf, kr.
  destruct (a_processes kf kr) as (ps & m & H). exists ps, m.
  pose proof F as F'. vm_compute in F'. injection F' as F'.
  rewrite <- F' in F0, F1. injection F0 as F0. injection F1 as F1.
  destruct (same_rates l_neighbour l_basis 2 (a_theta t) (a_owner kf kr) [] [a_def] ps m a_def a_pdef
    (Rate_Witness.co_owner 300 1) Rate_Witness.co_energies fls f0 f1 (fun _ => 1%R) kf kr a_setup [t] a_occ (PInt 0) w_coords 0
    [kf] [kr] 0) as (data & rfs & rrs & p & q & G & Ra & Ip & Iq & _ & _ & _ & _ & Pb & _ & Qb & _ & E1 & E2).
  all: try assumption; try reflexivity.
  - left; reflexivity.
  - exact a_describes.
  - intros d pd [<-|[]] D. rewrite (describes_unique _ _ _ D a_describes). apply l_roomy. reflexivity.
  - repeat constructor; cbn; intuition discriminate.
  - unfold sum, a_theta. cbn. lra.
  - symmetry. exact R1.
  - rewrite <- F'. subst f0. reflexivity.
  - rewrite <- F'. subst f1. reflexivity.
  - subst f0. intros f [<-|[<-|[]]]; discriminate.
  - subst f1. intros f [<-|[]]; discriminate.
  - subst f0 f1. intros f Hf. vm_compute in Hf. destruct Hf as [<-|[]]. reflexivity.
  - intros e [[<-|[]]|[<-|[]]]; unfold a_theta; cbn; unfold MF_Spec.coverage; cbn; try reflexivity. lra.
  - subst f0. apply Permutation_refl.
  - subst f1. apply Permutation_refl.
  - left; reflexivity.
  - left; reflexivity.
  - lia.
  - exact a_usable.
  - repeat constructor; cbn; intuition.
  - rewrite <- F'. reflexivity.
  - destruct (MF_Witness.rates_distinct a_setup [t] [kf] [kr] a_usable) as (data' & rfs' & rrs' & G' & Ra' & L1 & L2 & All);
      [repeat constructor; cbn; intuition|reflexivity|reflexivity|reflexivity|].
    rewrite G' in G. injection G as ->. rewrite Ra' in Ra. injection Ra as -> ->.
    destruct rfs as [|x [|]]; try discriminate L1. destruct rrs as [|y [|]]; try discriminate L2.
    destruct (All 0 _ f0 f1 kf kr eq_refl) as [A1 A2]; [subst f0; reflexivity|subst f1; reflexivity|reflexivity|reflexivity|].
    exists data, p, q. cbn [nth_error] in *.
    split; [exact R0|]. split; [exact R1|]. split; [exact H|]. split; [exact Ip|]. split; [exact Iq|].
    split; [exact G'|]. rewrite Ra'.
    split; [injection E1 as E1; injection E2 as E2; rewrite E1, E2; reflexivity|].
    injection A1 as ->. injection A2 as ->. subst f0 f1.
    do 2 f_equal; f_equal; lazy -[Rmult Rminus Rplus Rpow_def.pow IZR]; ring.
Qed.
