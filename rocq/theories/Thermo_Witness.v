(** Concrete reactions for C22, C23 and C51-C52. *)
From Coq Require Import String Ascii List ZArith QArith Qreals Bool Arith Reals Lra Lia.
Import ListNotations.
From Verif Require Import PyBase PyBaseFacts Regex Rxn_Model Rxn_Spec Rxn_Proofs Rxn_Count Rxn_More
  Mol_Model PyReal Energy_Model Energy_Spec Energy_Proofs Thermo_Model Rate_Spec Rate_Model Rate_Proofs
  RDeriv Thermo_Spec Thermo_Proofs Thermo_Entropy.
Open Scope list_scope.
Open Scope R_scope.

Definition two_CO : str := L "2CO_g + 2*_s -> 2CO_s".

Definition two_CO_list : list (list formula) :=
  match rxn_formula_list two_CO with Ok l => l | Err _ => [] end.

Definition two_CO_owner (T p : R) : owner :=
  {| o_T := T; o_pressures := [(L "CO_g", Some p)]; o_rxns := [two_CO];
     o_rxns_list := [two_CO_list]; o_Auc := 1; o_act_ratio := 1; o_corrector_str := false |}.

Definition zero_energies : rel_energies := {| r_Gaf := [0]; r_Gar := [0]; r_dG := [0] |}.

Lemma two_CO_parsed : exists a b c,
  two_CO_list = [[a; b]; [c]] /\ rxn_formula_list two_CO = Ok [[a; b]; [c]] /\
  f_text a = L "2CO_g" /\ f_stoich a = 2%Z /\ f_species_site a = L "CO_g" /\ f_site a = L "g" /\
  f_text b = L "2*_s" /\ f_site b = L "s" /\
  f_text c = L "2CO_s" /\ f_site c = L "s".
Proof. do 3 eexists. split; [vm_compute; reflexivity|]. vm_compute. repeat split; reflexivity. Qed.

Lemma not_gas_texts cf : (forall s f, parse_formula s = Ok f -> f_site f <> L "g" -> cf s = Ok 0) ->
  cf (L "2*_s") = Ok 0 /\ cf (L "2CO_s") = Ok 0.
Proof.
  intro H. split; eapply H; try (vm_compute; reflexivity); discriminate.
Qed.

(** Whatever the method, [dG] changes by minus the correction of the text "2CO_g". *)
Lemma two_CO_corrected cf T p x :
  (forall s f, parse_formula s = Ok f -> f_site f <> L "g" -> cf s = Ok 0) ->
  cf (L "2CO_g") = Ok x ->
  exists r', correct_loop cf (o_rxns_list (two_CO_owner T p)) 0 1 zero_energies = (r', Ok tt) /\
    nth_error (r_dG r') 0 = Some (- x).
Proof.
  intros NG HX. destruct (not_gas_texts cf NG) as [N1 N2].
  destruct two_CO_parsed as (a & b & c & EL & _ & Ta & _ & _ & _ & Tb & _ & Tc & _).
  assert (D : Forall2 (state_change cf) [[a; b]; [c]] [x; 0]).
  { constructor; [|constructor; [|constructor]].
    - exists [x; 0]. split; [|cbn; lra]. constructor; [now rewrite Ta|]. constructor; [now rewrite Tb|]. constructor.
    - exists [0]. split; [|cbn; lra]. constructor; [now rewrite Tc|]. constructor. }
  assert (E : entry_t zero_energies 0 (0, 0, 0)) by (repeat split; reflexivity).
  destruct (correct_loop_ok cf (o_rxns_list (two_CO_owner T p)) 1 0 zero_energies) as (r' & L1 & _ & _ & I).
  { intros j Hj. assert (j = 0)%nat as -> by lia.
    exists (0, 0, 0), [[a; b]; [c]], [x; 0]. split; auto. split; [cbn [o_rxns_list two_CO_owner nth_error]; now rewrite EL|]. split; auto. }
  exists r'. split; auto.
  assert (C : corrected [x; 0] (0, 0, 0) (Rmax 0 (- x), Rmax 0 (- - x), - x)).
  { constructor. lra. }
  destruct (I 0%nat (0, 0, 0) [[a; b]; [c]] [x; 0] _ ltac:(lia) E ltac:(cbn [o_rxns_list two_CO_owner nth_error]; now rewrite EL) D C) as (_ & _ & X).
  exact X.
Qed.

Lemma co_mass : exists m, molecular_mass (L "CO") true = Ok m /\ 0 < Q2R m.
Proof.
  eexists. split; [vm_compute; reflexivity|].
  replace 0 with (Q2R 0) by (unfold Q2R; cbn; lra). apply Qlt_Rlt. reflexivity.
Qed.

Lemma co_formula : exists f, parse_formula (L "CO_g") = Ok f /\ f_site f = L "g" /\
  f_species_site f = L "CO_g" /\ f_species f = L "CO".
Proof. eexists. split; [vm_compute; reflexivity|]. repeat split; reflexivity. Qed.

Lemma co_tables : dget rotation_temperatures (L "CO_g") = Some (1, [2.78]) /\
  dget vibration_temperatures (L "CO_g") = Some [3120].
Proof. split; reflexivity. Qed.

Lemma co_rot T : 300 <= T -> q_rot 1 [2.78] T (T / (1 * 2.78)).
Proof.
  intro H. left. exists 2.78. split; auto. split; [lra|].
  assert (X : 2.78 / T <= 0.01).
  { apply (Rmult_le_reg_r T); [lra|]. unfold Rdiv. rewrite Rmult_assoc, Rinv_l by lra. lra. }
  split; [lra|]. unfold q_linear. destruct (Rle_dec (2.78 / T) 0.01); [reflexivity|contradiction].
Qed.

(** The correction of CO at 300 K as a function of pressure (in units of P0). *)
Lemma co_entropy : forall p, 0 < p ->
  exists c, entropy_correction rotation_temperatures vibration_temperatures (two_CO_owner 300 p) (L "CO_g") = Ok c.
Proof.
  intros p Hp. destruct co_formula as (f & P & G & S1 & S2). destruct co_mass as (m & M & Mp).
  destruct co_tables as [T1 T2].
  rewrite (entropy_defaults _ _ _ _ f m p P).
  - eexists. apply (entropy_value _ _ _ f 1 [2.78] [3120] (300 / (1 * 2.78))); auto; cbn [o_T two_CO_owner]; try lra.
    + now rewrite S1.
    + now rewrite S1.
    + apply Rmult_lt_0_compat; auto. apply P0_pos.
    + apply co_rot. lra.
    + discriminate.
    + constructor; [lra|constructor].
  - now rewrite S2.
  - rewrite S1. reflexivity.
Qed.

Lemma co_entropy_differs : exists p c, 0 < p /\ c <> 0 /\
  entropy_correction rotation_temperatures vibration_temperatures (two_CO_owner 300 p) (L "CO_g") = Ok c.
Proof.
  destruct (co_entropy 1 ltac:(lra)) as [c1 C1]. destruct (Req_dec c1 0) as [Z|N].
  - destruct (co_entropy 2 ltac:(lra)) as [c2 C2]. exists 2, c2. split; [lra|]. split; auto.
    intro Z2. subst c1 c2.
    destruct co_formula as (f & P & G & S1 & S2). destruct co_mass as (m & M & Mp).
    destruct co_tables as [T1 T2].
    rewrite (entropy_defaults _ _ _ _ f m 1 P) in C1; [|now rewrite S2|now rewrite S1].
    rewrite (entropy_defaults _ _ _ _ f m 2 P) in C2; [|now rewrite S2|now rewrite S1].
    cbn [o_T two_CO_owner] in C1, C2. pose proof P0_pos as PP.
    destruct (entropy_pressure_law rotation_temperatures vibration_temperatures (L "CO_g") f 1 [2.78] [3120]
      (300 / (1 * 2.78)) (Q2R m) (P0 * 1) (P0 * 2) 300) as (g1 & g2 & G1 & G2 & D); auto; try lra.
    + now rewrite S1.
    + now rewrite S1.
    + apply co_rot. lra.
    + discriminate.
    + constructor; [lra|constructor].
    + rewrite C1 in G1. rewrite C2 in G2. injection G1 as <-. injection G2 as <-.
      replace (P0 * 2 / (P0 * 1)) with 2 in D by (field; lra).
      pose proof (kT_pos 300 ltac:(lra)). pose proof (ln_lt_2 : / 2 < ln 2).
      assert (0 < kT 300 * ln 2) by (apply Rmult_lt_0_compat; lra). lra.
  - exists 1, c1. split; [lra|]. auto.
Qed.

Lemma entropy_count_wrong : exists o r r' c,
  o_rxns o = [two_CO] /\ rxn_formula_list two_CO = Ok (hd [] (o_rxns_list o)) /\
  correct_relative_energies shomate_params rotation_temperatures vibration_temperatures o (L "entropy") r
  = (r', Ok tt) /\
  entropy_correction rotation_temperatures vibration_temperatures o (L "CO_g") = Ok c /\ c <> 0 /\
  nth_error (r_dG r) 0 = Some 0 /\ nth_error (r_dG r') 0 = Some (- c).
Proof.
  destruct co_entropy_differs as (p & c & Hp & Hc & C).
  exists (two_CO_owner 300 p), zero_energies.
  destruct (two_CO_corrected
    (entropy_correction rotation_temperatures vibration_temperatures (two_CO_owner 300 p)) 300 p c) as (r' & X1 & X2).
  { intros s f P S. now apply (not_gas_zero_entropy _ _ _ _ _ P). }
  { rewrite <- C. apply (entropy_ignores_number _ _ _ 2%N (L "CO")). split; reflexivity. }
  exists r', c. split; [reflexivity|]. split.
  { destruct two_CO_parsed as (a & b & d & EL & E & _). cbn [o_rxns_list two_CO_owner hd]. rewrite EL. exact E. }
  split; [exact X1|]. auto.
Qed.

Lemma ln_298 : -7 < ln (298 / 1000).
Proof.
  rewrite <- (ln_exp (-7)). apply ln_increasing; [apply exp_pos|].
  assert (8 <= exp 7). { pose proof (exp_ineq1 7 ltac:(lra)). lra. }
  replace (-7) with (- (7)) by lra. rewrite exp_Ropp.
  apply (Rle_lt_trans _ (/ 8)); [|lra]. apply Rinv_le_contravar; lra.
Qed.

Definition default_row : shomate_row :=
  {| sh_gas := []; sh_min := 0; sh_max := 0; sh_A := 0; sh_B := 0; sh_C := 0; sh_D := 0;
     sh_E := 0; sh_F := 0; sh_G := 0; sh_H := 0 |}.

Lemma shomate_CO_200 : exists c, shomate_correction shomate_params 200 (L "CO_g") = Ok c /\ c <> 0.
Proof.
  destruct co_formula as (f & P & G & _ & _).
  assert (formula_type f = Gas) as TG.
  { apply is_gas_iff in G. unfold is_gas in G. destruct (formula_type f); congruence. }
  eexists. split.
  - unfold shomate_correction. rewrite P. cbn [bind]. rewrite TG. reflexivity.
  - rewrite (shomate_row_below _ _ _ (nth 5 shomate_params (hd default_row shomate_params))).
    2:{ exists (firstn 5 shomate_params), (skipn 6 shomate_params). split; [reflexivity|].
        apply Forall_forall. cbn [firstn shomate_params].
        repeat (apply Forall_cons; [discriminate|]). constructor. }
    2:{ reflexivity. }
    2,3: cbn [nth shomate_params sh_min]; lra.
    cbn [nth shomate_params sh_min].
    unfold shomate_Cp, shomate_S, kJmol2eV. cbn [sh_A sh_B sh_C sh_D sh_E sh_F sh_G sh_H].
    pose proof ln_298. set (l := ln (298 / 1000)) in *. intro Z. lra.
Qed.

Lemma shomate_count_wrong : exists o r r' c,
  o_rxns o = [two_CO] /\ rxn_formula_list two_CO = Ok (hd [] (o_rxns_list o)) /\
  correct_relative_energies shomate_params rotation_temperatures vibration_temperatures o (L "shomate") r
  = (r', Ok tt) /\
  shomate_correction shomate_params (o_T o) (L "CO_g") = Ok c /\ c <> 0 /\
  nth_error (r_dG r) 0 = Some 0 /\ nth_error (r_dG r') 0 = Some 0.
Proof.
  destruct shomate_CO_200 as (c & C & Hc).
  exists (two_CO_owner 200 1), zero_energies.
  destruct (two_CO_corrected (shomate_correction shomate_params 200) 200 1 0) as (r' & X1 & X2).
  { intros s f P S. now apply (not_gas_zero_shomate _ _ _ _ P). }
  { apply (shomate_numbered shomate_params 200 2%N (L "CO")); [split; reflexivity|].
    apply shomate_params_no_digit. }
  exists r', c. split; [reflexivity|]. split.
  { destruct two_CO_parsed as (a & b & d & EL & E & _). cbn [o_rxns_list two_CO_owner hd]. rewrite EL. exact E. }
  split; [exact X1|]. rewrite Ropp_0 in X2. auto.
Qed.

Lemma hydrogen_cold : forall m p T, 0 < T -> T <= 291 -> p <> 0 ->
  entropy_correction_full rotation_temperatures vibration_temperatures (L "H2_g") m p T = Err AttributeError.
Proof.
  intros m p T HT H Hp.
  assert (X : exists f, parse_formula (L "H2_g") = Ok f /\ f_site f = L "g" /\ f_species_site f = L "H2_g").
  { eexists. split; [vm_compute; reflexivity|]. repeat split; reflexivity. }
  destruct X as (f & P & G & S1).
  eapply (entropy_logger _ _ _ f 2 87.5 [6320]); eauto; try lra; try (rewrite S1; reflexivity).
  apply (Rmult_le_reg_r T); auto. unfold Rdiv. rewrite Rmult_assoc, Rinv_l by lra. lra.
Qed.
