(** Lemmas: rates by collision theory at different pressures (C111). *)
From Coq Require Import String Ascii List ZArith QArith Qreals Bool Arith Reals Lra Lia.
Import ListNotations.
From Verif Require Import PyBase PyBaseFacts Rxn_Model Rxn_Spec Mol_Model PyReal Energy_Model Energy_Spec Energy_Proofs
  Thermo_Model Rate_Model Rate_Spec Rate_Proofs Rate_Witness Rate_Temp Thermo_Spec Thermo_Jump RatePress_Spec.
Open Scope list_scope.
Open Scope R_scope.

Lemma pressed_pressure o P name p : dget P name = Some (Some p) -> gas_pressure (pressed o P) true name = Ok (P0 * p).
Proof. intro H. unfold gas_pressure, pressure_of, dindex. cbn [o_pressures pressed]. now rewrite H. Qed.

Lemma exp_ln_div a x k : 0 < x -> 0 < k -> exp ((a - k * ln x) / k) = exp (a / k) / x.
Proof.
  intros X K. replace ((a - k * ln x) / k) with (a / k + - ln x) by (field; lra).
  rewrite exp_plus, exp_Ropp, exp_ln by auto. reflexivity.
Qed.

Lemma ct_ads o P1 P2 e r fls first last g g' m p1 p2 gaf gar dg :
  300 <= o_T o -> 0 < o_Auc o -> o_corrector_str o = false -> 0 < o_act_ratio o <= 1 ->
  energies_of o r e gaf gar dg ->
  rxn_formula_list e = Ok fls -> lfirst fls = Ok first -> llast fls = Ok last ->
  first_gas first = Some g -> f_stoich g = 1%Z -> molecular_mass (f_species g) true = Ok m -> 0 < Q2R m ->
  parse_formula (f_text g) = Ok g' -> f_site g' = L "g" -> In (f_species_site g') entropy_gases ->
  dget P1 (f_text g) = Some (Some p1) -> dget P2 (f_text g) = Some (Some p2) -> 0 < p1 -> 0 < p2 ->
  exists f1 b1 f2 b2, rates_CT ec_tables (pressed o P1) e r true = Ok (f1, b1) /\
    rates_CT ec_tables (pressed o P2) e r true = Ok (f2, b2) /\ 0 < f1 /\ 0 < b1 /\ f2 / f1 = p2 / p1 /\ b2 = b1.
Proof.
  intros T A C Ar E F F0 F1 G N M Mp G' S I D1 D2 H1 H2. pose proof P0_pos as P0'.
  assert (T0 : 0 < o_T o) by lra.
  destruct (proj1 (entropy_gases_corrected _ _ G' S) I (Q2R m) (P0 * p1) (P0 * p2) (o_T o)) as (c1 & c2 & C1 & C2 & D);
    [auto|nra|nra|auto|].
  destruct (rates_CT_adsorption ec_tables (pressed o P1) e r fls first last g m (P0 * p1) c1 gaf gar dg true
    T0 A C Ar E F F0 F1 G M Mp (pressed_pressure o P1 _ _ D1) ltac:(nra) C1) as (f1 & b1 & R1 & K1 & Q1 & B1).
  destruct (rates_CT_adsorption ec_tables (pressed o P2) e r fls first last g m (P0 * p2) c2 gaf gar dg true
    T0 A C Ar E F F0 F1 G M Mp (pressed_pressure o P2 _ _ D2) ltac:(nra) C2) as (f2 & b2 & R2 & K2 & Q2 & B2).
  change (o_T (pressed o P1)) with (o_T o) in *. change (o_T (pressed o P2)) with (o_T o) in *.
  change (o_Auc (pressed o P1)) with (o_Auc o) in *. change (o_Auc (pressed o P2)) with (o_Auc o) in *.
  change (o_act_ratio (pressed o P1)) with (o_act_ratio o) in *. change (o_act_ratio (pressed o P2)) with (o_act_ratio o) in *.
  exists f1, b1, f2, b2. split; [exact R1|]. split; [exact R2|]. split; [exact Q1|].
  pose proof (frequency_pos _ T0) as Fr. pose proof (kT_pos _ T0) as KT.
  split; [rewrite B1; apply Rmin_pos; auto; apply Rmult_lt_0_compat; auto; apply exp_pos|].
  rewrite kCT_value in K1, K2 by lra. injection K1 as K1. injection K2 as K2.
  assert (Y : f2 = f1 * (p2 / p1)).
  { rewrite <- K1, <- K2. field.
    split; [lra|]. apply Rgt_not_eq, sqrt_lt_R0, denom_pos; auto. }
  split; [rewrite Y; field; lra|].
  rewrite B1, B2, N. f_equal. rewrite Y.
  replace (P0 * p2 / (P0 * p1)) with (p2 / p1) in D by (field; lra).
  replace (dg - 1 * c2) with ((dg - 1 * c1) - kT (o_T o) * ln (p2 / p1)) by lra.
  assert (0 < p2 / p1) by (now apply Rdiv_lt_0_compat).
  rewrite exp_ln_div by auto. field. lra.
Qed.

Lemma ct_des o P1 P2 e r fls first last g g' m p1 p2 gaf gar dg :
  300 <= o_T o -> 0 < o_Auc o -> o_corrector_str o = false ->
  energies_of o r e gaf gar dg ->
  rxn_formula_list e = Ok fls -> lfirst fls = Ok first -> llast fls = Ok last ->
  first_gas first = None -> first_gas last = Some g -> f_stoich g = 1%Z ->
  molecular_mass (f_species g) true = Ok m -> 0 < Q2R m ->
  parse_formula (f_text g) = Ok g' -> f_site g' = L "g" -> In (f_species_site g') entropy_gases ->
  dget P1 (f_text g) = Some (Some p1) -> dget P2 (f_text g) = Some (Some p2) -> 0 < p1 -> 0 < p2 ->
  exists f1 b1 f2 b2, rates_CT ec_tables (pressed o P1) e r true = Ok (f1, b1) /\
    rates_CT ec_tables (pressed o P2) e r true = Ok (f2, b2) /\ 0 < f1 /\ 0 < b1 /\ f2 = f1 /\ b2 / b1 = p2 / p1.
Proof.
  intros T A C E F F0 F1 G0 G N M Mp G' S I D1 D2 H1 H2. pose proof P0_pos as P0'.
  assert (T0 : 0 < o_T o) by lra.
  destruct (proj1 (entropy_gases_corrected _ _ G' S) I (Q2R m) (P0 * p1) (P0 * p2) (o_T o)) as (c1 & c2 & C1 & C2 & D);
    [auto|nra|nra|auto|].
  destruct (rates_CT_desorption ec_tables (pressed o P1) e r fls first last g m (P0 * p1) c1 gaf gar dg true
    T0 A C E F F0 F1 G0 G M (pressed_pressure o P1 _ _ D1) C1) as (f1 & b1 & R1 & K1 & L1 & _).
  destruct (rates_CT_desorption ec_tables (pressed o P2) e r fls first last g m (P0 * p2) c2 gaf gar dg true
    T0 A C E F F0 F1 G0 G M (pressed_pressure o P2 _ _ D2) C2) as (f2 & b2 & R2 & K2 & L2 & _).
  change (o_T (pressed o P1)) with (o_T o) in *. change (o_T (pressed o P2)) with (o_T o) in *.
  exists f1, b1, f2, b2. split; [exact R1|]. split; [exact R2|].
  pose proof (frequency_pos _ T0) as Fr. pose proof (kT_pos _ T0) as KT.
  rewrite kTST_value in K1, K2, L1, L2 by auto. injection K1 as <-. injection K2 as <-. injection L1 as <-. injection L2 as <-.
  split; [apply Rmult_lt_0_compat; auto; apply exp_pos|]. split; [apply Rmult_lt_0_compat; auto; apply exp_pos|].
  split; auto. rewrite N.
  replace (P0 * p2 / (P0 * p1)) with (p2 / p1) in D by (field; lra).
  assert (X : 0 < p1 / p2) by (now apply Rdiv_lt_0_compat).
  replace (- (gar - 1 * c2) / kT (o_T o)) with ((- (gar - 1 * c1) - kT (o_T o) * ln (p1 / p2)) / kT (o_T o)).
  - rewrite exp_ln_div by auto. pose proof (exp_pos (- (gar - 1 * c1) / kT (o_T o))). field. lra.
  - f_equal. replace (ln (p1 / p2)) with (- ln (p2 / p1)); [lra|].
    rewrite <- ln_Rinv by (now apply Rdiv_lt_0_compat). f_equal. field. lra.
Qed.

(** Gases not in the tables. *)
Lemma ct_ads_untabulated o P e r fls first last g g' m p gaf gar dg :
  0 < o_T o -> 0 < o_Auc o -> o_corrector_str o = false -> 0 < o_act_ratio o <= 1 ->
  energies_of o r e gaf gar dg ->
  rxn_formula_list e = Ok fls -> lfirst fls = Ok first -> llast fls = Ok last ->
  first_gas first = Some g -> molecular_mass (f_species g) true = Ok m -> 0 < Q2R m ->
  parse_formula (f_text g) = Ok g' -> f_site g' = L "g" -> ~ In (f_species_site g') entropy_gases ->
  dget P (f_text g) = Some (Some p) -> 0 < p ->
  exists f b, rates_CT ec_tables (pressed o P) e r true = Ok (f, b) /\
    kCT gaf (o_Auc o) (o_act_ratio o) (Q2R m) (o_T o) (P0 * p) 1 = Ok f /\
    b = Rmin (frequency (o_T o)) (f * exp (dg / kT (o_T o))).
Proof.
  intros T A C Ar E F F0 F1 G M Mp G' S I D H. pose proof P0_pos as P0'.
  pose proof (proj2 (entropy_gases_corrected _ _ G' S) I (Q2R m) (P0 * p) (o_T o)) as C1.
  destruct (rates_CT_adsorption ec_tables (pressed o P) e r fls first last g m (P0 * p) 0 gaf gar dg true
    T A C Ar E F F0 F1 G M Mp (pressed_pressure o P _ _ D) ltac:(nra) C1) as (f & b & R1 & K1 & Q1 & B1).
  exists f, b. split; [exact R1|]. split; [exact K1|]. rewrite B1. cbn [o_T pressed].
  now replace (dg - IZR (f_stoich g) * 0) with dg by ring.
Qed.

(** Pressures of other species. *)
Lemma ct_other ec o P1 P2 e r fls first last :
  rxn_formula_list e = Ok fls -> lfirst fls = Ok first -> llast fls = Ok last ->
  (forall g, first_gas first = Some g \/ (first_gas first = None /\ first_gas last = Some g) ->
     dget P1 (f_text g) = dget P2 (f_text g)) ->
  forall incl, rates_CT ec (pressed o P1) e r incl = rates_CT ec (pressed o P2) e r incl.
Proof.
  intros F F0 F1 H incl.
  assert (Q : forall g, first_gas first = Some g \/ (first_gas first = None /\ first_gas last = Some g) ->
    gas_pressure (pressed o P1) incl (f_text g) = gas_pressure (pressed o P2) incl (f_text g)).
  { intros g K. unfold gas_pressure, pressure_of, dindex. cbn [o_pressures pressed]. now rewrite (H g K). }
  unfold rates_CT. change (rxn_energies (pressed o P1) r e) with (rxn_energies o r e).
  change (rxn_energies (pressed o P2) r e) with (rxn_energies o r e).
  destruct (rxn_energies o r e) as [[[a b] c]|]; cbn [bind]; auto. rewrite F. cbn [bind]. rewrite F0. cbn [bind].
  rewrite F1. cbn [bind].
  destruct (first_gas first) as [g|]; [rewrite (Q g) by auto; reflexivity|].
  destruct (first_gas last) as [g|]; [rewrite (Q g) by auto; reflexivity|]. reflexivity.
Qed.

(** ** Witnesses *)
Definition met_rxn : str := L "CH3OH_g + *_s -> CH3OH_s".
Definition met_owner : owner :=
  {| o_T := 300; o_pressures := []; o_rxns := [met_rxn]; o_rxns_list := []; o_Auc := 9e-20; o_act_ratio := 1;
     o_corrector_str := false |}.
Definition met_energies : rel_energies := {| r_Gaf := [0]; r_Gar := [0]; r_dG := [0] |}.
Definition met_at (p : R) : dict (option R) := [(L "CH3OH_g", Some p)].

Lemma met_parsed : exists a b c m,
  rxn_formula_list met_rxn = Ok [[a; b]; [c]] /\ first_gas [a; b] = Some a /\ f_text a = L "CH3OH_g" /\
  parse_formula (f_text a) = Ok a /\ f_site a = L "g" /\ f_species_site a = L "CH3OH_g" /\
  molecular_mass (f_species a) true = Ok m /\
  (1 # 100000000000000000000000000 < m)%Q /\ (m < 1 # 10000000000000000000000000)%Q.
Proof. do 4 eexists. split; [vm_compute; reflexivity|]. repeat (split; [first [reflexivity|vm_compute; reflexivity]|]).
  reflexivity. Qed.

Lemma met_refuted : exists o e r f1 b1 f2 b2, e = L "CH3OH_g + *_s -> CH3OH_s" /\
  rates_CT ec_tables (pressed o [(L "CH3OH_g", Some 1)]) e r true = Ok (f1, b1) /\
  rates_CT ec_tables (pressed o [(L "CH3OH_g", Some 2)]) e r true = Ok (f2, b2) /\
  0 < f1 /\ 0 < b1 /\ f2 = 2 * f1 /\ b2 = 2 * b1.
Proof.
  destruct met_parsed as (a & b & x & m & L1 & G & X & P & Si & Sp & M & M1 & M2).
  apply Qlt_Rlt in M1. apply Qlt_Rlt in M2.
  assert (Q1 : Q2R (1 # 100000000000000000000000000) = 1e-26) by (unfold Q2R; cbn [Qnum Qden]; lra).
  assert (Q2 : Q2R (1 # 10000000000000000000000000) = 1e-25) by (unfold Q2R; cbn [Qnum Qden]; lra).
  rewrite Q1 in M1. rewrite Q2 in M2. assert (MM : 0 < Q2R m) by lra.
  assert (E : energies_of met_owner met_energies met_rxn 0 0 0).
  { exists 0%nat. split; [reflexivity|]. split; [intros; lia|]. repeat split. }
  assert (U : ~ In (f_species_site a) entropy_gases).
  { rewrite Sp. intro H. repeat (destruct H as [H|H]; [discriminate H|]). destruct H. }
  assert (R : forall p, 0 < p -> exists f b, rates_CT ec_tables (pressed met_owner (met_at p)) met_rxn met_energies true = Ok (f, b) /\
    kCT 0 9e-20 1 (Q2R m) 300 (P0 * p) 1 = Ok f /\ b = Rmin (frequency 300) (f * exp (0 / kT 300))).
  { intros p Hp. apply (ct_ads_untabulated met_owner (met_at p) met_rxn met_energies [[a; b]; [x]] [a; b] [x] a a m p 0 0 0); auto;
      try (cbn [o_T o_Auc o_act_ratio met_owner]; lra). rewrite X. reflexivity. }
  destruct (R 1 ltac:(lra)) as (f1 & b1 & R1 & K1 & B1). destruct (R 2 ltac:(lra)) as (f2 & b2 & R2 & K2 & B2).
  exists met_owner, met_rxn, met_energies, f1, b1, f2, b2. split; [reflexivity|]. split; [exact R1|]. split; [exact R2|].
  destruct (two_bounds (Q2R m) M1 M2) as (F & K & F1 & F2).
  rewrite kCT_value in K, K1, K2 by lra. injection K as K. injection K1 as K1. injection K2 as K2.
  assert (S : sqrt (2 * PI * Q2R m * kB_J * 300) <> 0).
  { apply Rgt_not_eq, sqrt_lt_R0, denom_pos; lra. }
  assert (Y1 : f1 = F) by (rewrite <- K, <- K1; field; auto).
  assert (Y2 : f2 = 2 * F) by (rewrite <- K, <- K2; field; auto).
  pose proof frequency_300 as Fr.
  replace (0 / kT 300) with 0 in B1, B2 by (unfold kT; field; pose proof kB_eV_pos; lra). rewrite exp_0, Rmult_1_r in B1, B2.
  rewrite Rmin_right in B1, B2 by lra. repeat split; lra.
Qed.

Definition er_rxn : str := L "CO_g + O_s -> CO2_g + *_s".
Definition er_owner : owner :=
  {| o_T := 300; o_pressures := []; o_rxns := [er_rxn]; o_rxns_list := []; o_Auc := 9e-20; o_act_ratio := 1;
     o_corrector_str := false |}.
Definition er_at (p : R) : dict (option R) := [(L "CO_g", Some 1); (L "CO2_g", Some p)].

Lemma er_parsed : exists a b c d m,
  rxn_formula_list er_rxn = Ok [[a; b]; [c; d]] /\ first_gas [a; b] = Some a /\ f_stoich a = 1%Z /\ f_text a = L "CO_g" /\
  parse_formula (f_text a) = Ok a /\ f_site a = L "g" /\ f_species_site a = L "CO_g" /\
  molecular_mass (f_species a) true = Ok m /\ (0 < m)%Q.
Proof. do 5 eexists. split; [vm_compute; reflexivity|]. repeat (split; [first [reflexivity|vm_compute; reflexivity]|]).
  reflexivity. Qed.

Lemma er_refuted : exists o e r f b, e = L "CO_g + O_s -> CO2_g + *_s" /\ 0 < f /\ 0 < b /\
  rates_CT ec_tables (pressed o [(L "CO_g", Some 1); (L "CO2_g", Some 1)]) e r true = Ok (f, b) /\
  rates_CT ec_tables (pressed o [(L "CO_g", Some 1); (L "CO2_g", Some 100)]) e r true = Ok (f, b).
Proof.
  destruct er_parsed as (a & b & c & d & m & L1 & G & N & X & P & Si & Sp & M & M1).
  apply Qlt_Rlt in M1. replace (Q2R 0) with 0 in M1 by (unfold Q2R; cbn [Qnum Qden]; lra).
  assert (E : energies_of er_owner met_energies er_rxn 0 0 0).
  { exists 0%nat. split; [reflexivity|]. split; [intros; lia|]. repeat split. }
  destruct (ct_ads er_owner (er_at 1) (er_at 100) er_rxn met_energies [[a; b]; [c; d]] [a; b] [c; d] a a m 1 1 0 0 0)
    as (f1 & b1 & f2 & b2 & R1 & R2 & F & B & Q & S); auto; try (cbn [o_T o_Auc o_act_ratio er_owner]; lra);
    try (rewrite X; reflexivity).
  { rewrite Sp. cbn. tauto. }
  exists er_owner, er_rxn, met_energies, f1, b1. split; [reflexivity|]. split; [exact F|]. split; [exact B|].
  split; [exact R1|]. rewrite <- S. replace f1 with f2; [exact R2|].
  replace (1 / 1) with 1 in Q by field. apply (f_equal (fun x => x * f1)) in Q.
  replace (f2 / f1 * f1) with f2 in Q by (field; lra). lra.
Qed.

Lemma co_tabulated : exists a b c m,
  rxn_formula_list (L "CO_g + *_s -> CO_s") = Ok [[a; b]; [c]] /\ rxn_formula_list (L "CO_s -> CO_g + *_s") = Ok [[c]; [a; b]] /\
  first_gas [a; b] = Some a /\ first_gas [c] = None /\ f_stoich a = 1%Z /\ f_text a = L "CO_g" /\
  molecular_mass (f_species a) true = Ok m /\ 0 < Q2R m /\
  parse_formula (f_text a) = Ok a /\ f_site a = L "g" /\ In (f_species_site a) entropy_gases.
Proof.
  destruct two_parsed as (a & b & c & m & L1 & L2 & G1 & G2 & N & M & M1 & M2).
  exists a, b, c, m. apply Qlt_Rlt in M1.
  assert (Q1 : Q2R (1 # 100000000000000000000000000) = 1e-26) by (unfold Q2R; cbn [Qnum Qden]; lra).
  rewrite Q1 in M1.
  assert (W : f_text a = L "CO_g" /\ parse_formula (f_text a) = Ok a /\ f_site a = L "g" /\ f_species_site a = L "CO_g").
  { vm_compute in L1. injection L1 as <- <- <-. repeat split; vm_compute; reflexivity. }
  destruct W as (W1 & W2 & W3 & W4).
  do 6 (split; [assumption|]). split; [assumption|]. split; [lra|]. split; [assumption|]. split; [assumption|].
  rewrite W4. cbn. tauto.
Qed.

Lemma co_pressure_example : exists f1 b1 f2 b2,
  rates_CT ec_tables (pressed two_owner [(L "CO_g", Some 1)]) (L "CO_g + *_s -> CO_s") (two_energies 1) true = Ok (f1, b1) /\
  rates_CT ec_tables (pressed two_owner [(L "CO_g", Some 3)]) (L "CO_g + *_s -> CO_s") (two_energies 1) true = Ok (f2, b2) /\
  f2 / f1 = 3 /\ b2 = b1.
Proof.
  destruct co_tabulated as (a & b & c & m & L1 & L2 & G1 & G2 & N & X & M & MM & P & Si & I).
  destruct (ct_ads two_owner [(L "CO_g", Some 1)] [(L "CO_g", Some 3)] co_rxn (two_energies 1) [[a; b]; [c]] [a; b] [c]
    a a m 1 3 0 (- (1)) (0 - - (1))) as (f1 & b1 & f2 & b2 & R1 & R2 & F & B & Q & S); auto;
    try (cbn [o_T o_Auc o_act_ratio two_owner]; lra); try (rewrite X; reflexivity).
  - apply two_energies_of.
  - exists f1, b1, f2, b2. split; [exact R1|]. split; [exact R2|]. split; [lra|exact S].
Qed.
