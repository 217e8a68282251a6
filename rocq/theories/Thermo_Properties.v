(** Properties C22, C23, C51, C52, C98, C101, C102, C103, C105: thermodynamic corrections.  Vocabulary: Thermo_Spec.v. *)
From Coq Require Import String Ascii List ZArith QArith Qreals Bool Reals Lra Lia.
Import ListNotations.
From Verif Require Import PyBase PyBaseFacts Rxn_Model Rxn_Spec Mol_Model PyReal Energy_Model Energy_Spec
  Energy_Proofs Thermo_Model Rate_Spec Thermo_Spec Thermo_Proofs Thermo_Entropy Thermo_Witness Thermo_More
  Thermo_Jump Thermo_Fall Thermo_Warm Thermo_Data Thermo_Modes Thermo_Lone_Spec Thermo_Lone.
Open Scope list_scope.
Open Scope R_scope.

(** C22.  All reactions are corrected in place, each by the change of its states. *)
Theorem C22_corrected : forall rows rot vib o m cf r,
  method_correction rows rot vib o m cf ->
  (forall j, (j < length (o_rxns o))%nat -> correctable cf (o_rxns_list o) r j) ->
  exists r', correct_relative_energies rows rot vib o m r = (r', Ok tt) /\
    (forall k, entries r k -> entries r' k) /\
    (forall j t, (length (o_rxns o) <= j)%nat -> (entry_t r' j t <-> entry_t r j t)) /\
    (forall j t fls ds t', (j < length (o_rxns o))%nat -> entry_t r j t ->
       nth_error (o_rxns_list o) j = Some fls ->
       Forall2 (state_change cf) fls ds -> corrected ds t t' -> entry_t r' j t').
Proof. exact correct_all. Qed.
Print Assumptions C22_corrected.

Theorem C22_consistent : forall ds a b c a' b' c',
  corrected ds (a, b, c) (a', b', c') -> a - b = c -> a' - b' = c'.
Proof. exact corrected_consistent. Qed.
Print Assumptions C22_consistent.

Theorem C22_no_transition_state : forall d0 d1 t a b c,
  corrected [d0; d1] t (a, b, c) -> 0 <= a /\ 0 <= b /\ (a = 0 \/ b = 0) /\ a - b = c.
Proof. exact corrected_no_ts. Qed.
Print Assumptions C22_no_transition_state.

(** A failure leaves the reactions from the failing one on as they were. *)
Theorem C22_failure : forall rows rot vib o m cf r r' er,
  method_correction rows rot vib o m cf ->
  correct_relative_energies rows rot vib o m r = (r', Err er) ->
  exists j, (j < length (o_rxns o))%nat /\ ~ correctable cf (o_rxns_list o) r j /\
    (forall k t, (j <= k)%nat -> (entry_t r' k t <-> entry_t r k t)).
Proof. exact correct_failure. Qed.
Print Assumptions C22_failure.

Theorem C22_unknown_method : forall rows rot vib o m r, m <> L "shomate" -> m <> L "entropy" ->
  correct_relative_energies rows rot vib o m r = (r, Err ValueError).
Proof. exact correct_unknown. Qed.
Print Assumptions C22_unknown_method.

Example C22_example : exists o r r' c,
  correct_relative_energies shomate_params rotation_temperatures vibration_temperatures o (L "entropy") r
  = (r', Ok tt) /\ c <> 0 /\ nth_error (r_dG r) 0 = Some 0 /\ nth_error (r_dG r') 0 = Some (- c).
Proof.
  destruct entropy_count_wrong as (o & r & r' & c & _ & _ & A & _ & B & C & D). now exists o, r, r', c.
Qed.

(** C23.  Gases written without number are counted right. *)
Theorem C23_stoichiometry_partial : forall rows rot vib o m cf corr r j fls first last t,
  method_correction rows rot vib o m cf ->
  (forall j, (j < length (o_rxns o))%nat -> correctable cf (o_rxns_list o) r j) ->
  (j < length (o_rxns o))%nat -> entry_t r j t -> nth_error (o_rxns_list o) j = Some fls ->
  lfirst fls = Ok first -> llast fls = Ok last ->
  (forall f, In f first \/ In f last -> parse_formula (f_text f) = Ok f) ->
  Forall unnumbered (gases first ++ gases last) ->
  (forall f, In f (gases first ++ gases last) -> cf (f_species_site f) = Ok (corr (f_species_site f))) ->
  exists r' t', correct_relative_energies rows rot vib o m r = (r', Ok tt) /\ entry_t r' j t' /\
    snd t' - snd t = gas_sum corr last - gas_sum corr first.
Proof. exact gas_sum_dG. Qed.
Print Assumptions C23_stoichiometry_partial.

(** The entropy method corrects [n] molecules like one, whatever [n]. *)
Theorem C23_entropy_ignores_number : forall rot vib o n sp, species_name sp ->
  entropy_correction rot vib o (write_formula (Some n) sp None (L "g"))
  = entropy_correction rot vib o (write_formula None sp None (L "g")).
Proof. exact entropy_ignores_number. Qed.
Print Assumptions C23_entropy_ignores_number.

(** The Shomate method does not correct a gas with a number at all. *)
Theorem C23_shomate_drops_numbered : forall T n sp, species_name sp ->
  shomate_correction shomate_params T (write_formula (Some n) sp None (L "g")) = Ok 0.
Proof. exact (fun T n sp H => shomate_numbered shomate_params T n sp H shomate_params_no_digit). Qed.
Print Assumptions C23_shomate_drops_numbered.

(** 2CO_g + 2*_s -> 2CO_s: the change should be -2c, is -c. *)
Theorem C23_entropy_refuted : exists o r r' c,
  o_rxns o = [two_CO] /\ rxn_formula_list two_CO = Ok (hd [] (o_rxns_list o)) /\
  correct_relative_energies shomate_params rotation_temperatures vibration_temperatures o (L "entropy") r
  = (r', Ok tt) /\
  entropy_correction rotation_temperatures vibration_temperatures o (L "CO_g") = Ok c /\ c <> 0 /\
  nth_error (r_dG r) 0 = Some 0 /\ nth_error (r_dG r') 0 = Some (- c).
Proof. exact entropy_count_wrong. Qed.
Print Assumptions C23_entropy_refuted.

(** ... and 0 with the other method. *)
Theorem C23_shomate_refuted : exists o r r' c,
  o_rxns o = [two_CO] /\ rxn_formula_list two_CO = Ok (hd [] (o_rxns_list o)) /\
  correct_relative_energies shomate_params rotation_temperatures vibration_temperatures o (L "shomate") r
  = (r', Ok tt) /\
  shomate_correction shomate_params (o_T o) (L "CO_g") = Ok c /\ c <> 0 /\
  nth_error (r_dG r) 0 = Some 0 /\ nth_error (r_dG r') 0 = Some 0.
Proof. exact shomate_count_wrong. Qed.
Print Assumptions C23_shomate_refuted.

Example C23_example : exists r fls first last t c,
  (forall j, (j < 1)%nat -> correctable (shomate_correction shomate_params 200) (o_rxns_list (one_owner 200 1)) r j) /\
  entry_t r 0 t /\ nth_error (o_rxns_list (one_owner 200 1)) 0 = Some fls /\
  lfirst fls = Ok first /\ llast fls = Ok last /\
  (forall f, In f first \/ In f last -> parse_formula (f_text f) = Ok f) /\
  Forall unnumbered (gases first ++ gases last) /\
  (forall f, In f (gases first ++ gases last) -> shomate_correction shomate_params 200 (f_species_site f) = Ok c) /\
  c <> 0 /\ gas_sum (fun _ => c) last - gas_sum (fun _ => c) first = - c.
Proof. exact one_correctable. Qed.

(** C51.  Free energy of the ideal gas. *)
Theorem C51_value : forall rot vib name f sigma rth vth qr m p T,
  parse_formula name = Ok f -> f_site f = L "g" ->
  dget rot (f_species_site f) = Some (sigma, rth) -> dget vib (f_species_site f) = Some vth ->
  0 < sigma -> 0 < T -> 0 < m -> 0 < p -> q_rot sigma rth T qr ->
  vth <> [] -> Forall (fun th => 0 < th) vth ->
  entropy_correction_full rot vib name m p T
  = Ok (- (8.6173324e-5 * T)
        * (ln (1.38064852e-23 * T / p
               * Rpower (2 * PI * m * 1.38064852e-23 * T / (6.626070040e-34 * 6.626070040e-34)) (3 / 2))
           + ln qr + ln (q_vib vth T))).
Proof. exact entropy_value. Qed.
Print Assumptions C51_value.

Theorem C51_pressure_law_partial : forall rot vib name f sigma rth vth qr m p1 p2 T,
  parse_formula name = Ok f -> f_site f = L "g" ->
  dget rot (f_species_site f) = Some (sigma, rth) -> dget vib (f_species_site f) = Some vth ->
  0 < sigma -> 0 < T -> 0 < m -> 0 < p1 -> 0 < p2 -> q_rot sigma rth T qr ->
  vth <> [] -> Forall (fun th => 0 < th) vth ->
  exists g1 g2, entropy_correction_full rot vib name m p1 T = Ok g1 /\
    entropy_correction_full rot vib name m p2 T = Ok g2 /\ g2 - g1 = kT T * ln (p2 / p1).
Proof. exact entropy_pressure_law. Qed.
Print Assumptions C51_pressure_law_partial.

(** The heavier the molecules, the lower. *)
Theorem C51_mass_law : forall rot vib name f sigma rth vth qr m1 m2 p T,
  parse_formula name = Ok f -> f_site f = L "g" ->
  dget rot (f_species_site f) = Some (sigma, rth) -> dget vib (f_species_site f) = Some vth ->
  0 < sigma -> 0 < T -> 0 < m1 -> 0 < m2 -> 0 < p -> q_rot sigma rth T qr ->
  vth <> [] -> Forall (fun th => 0 < th) vth ->
  exists g1 g2, entropy_correction_full rot vib name m1 p T = Ok g1 /\
    entropy_correction_full rot vib name m2 p T = Ok g2 /\ g1 - g2 = 3 / 2 * kT T * ln (m2 / m1).
Proof. exact mass_law. Qed.
Print Assumptions C51_mass_law.

Theorem C51_not_tabulated : forall rot vib name f m p T,
  parse_formula name = Ok f ->
  f_site f <> L "g" \/ dget rot (f_species_site f) = None \/ dget vib (f_species_site f) = None ->
  entropy_correction_full rot vib name m p T = Ok 0.
Proof. exact entropy_not_tabulated. Qed.
Print Assumptions C51_not_tabulated.

(** The gases of the tables of the code, and no others, are corrected. *)
Theorem C51_gases : forall name f, parse_formula name = Ok f -> f_site f = L "g" ->
  (In (f_species_site f) entropy_gases -> forall m p1 p2 T, 0 < m -> 0 < p1 -> 0 < p2 -> 300 <= T ->
     exists g1 g2, entropy_correction_full rotation_temperatures vibration_temperatures name m p1 T = Ok g1 /\
       entropy_correction_full rotation_temperatures vibration_temperatures name m p2 T = Ok g2 /\
       g2 - g1 = kT T * ln (p2 / p1)) /\
  (~ In (f_species_site f) entropy_gases -> forall m p T,
     entropy_correction_full rotation_temperatures vibration_temperatures name m p T = Ok 0).
Proof. exact entropy_gases_corrected. Qed.
Print Assumptions C51_gases.

Theorem C51_zero_pressure : forall rot vib name f sigma rth vth m T,
  parse_formula name = Ok f -> f_site f = L "g" ->
  dget rot (f_species_site f) = Some (sigma, rth) -> dget vib (f_species_site f) = Some vth ->
  entropy_correction_full rot vib name m 0 T = Err ZeroDivisionError.
Proof. exact entropy_zero_pressure. Qed.
Print Assumptions C51_zero_pressure.

(** A gas whose list of vibrations is empty cannot be corrected. *)
Theorem C51_no_vibrations : forall rot vib name f sigma rth qr m p T,
  parse_formula name = Ok f -> f_site f = L "g" ->
  dget rot (f_species_site f) = Some (sigma, rth) -> dget vib (f_species_site f) = Some [] ->
  0 < sigma -> 0 < T -> p <> 0 -> q_rot sigma rth T qr ->
  entropy_correction_full rot vib name m p T = Err TypeError.
Proof. exact entropy_no_vibrations. Qed.
Print Assumptions C51_no_vibrations.

Example C51_no_vibrations_example : forall T, 300 <= T ->
  entropy_correction_full rotation_temperatures [(L "CO_g", [])] (L "CO_g") 1 1 T = Err TypeError.
Proof.
  intros T H. destruct co_formula as (f & P & G & S1 & _). destruct co_tables as [T1 _].
  eapply (C51_no_vibrations _ _ _ f 1 [2.78] (T / (1 * 2.78))); auto; try lra;
    try (rewrite S1; first [assumption|reflexivity]). now apply co_rot.
Qed.

(** Mass, pressure (in units of P0) and temperature default to those of the model. *)
Theorem C51_defaults : forall rot vib o name f m p,
  parse_formula name = Ok f -> molecular_mass (f_species f) true = Ok m ->
  dget (o_pressures o) (f_species_site f) = Some (Some p) ->
  entropy_correction rot vib o name = entropy_correction_full rot vib name (Q2R m) (101325 * p) (o_T o).
Proof. exact entropy_defaults. Qed.
Print Assumptions C51_defaults.

(** Linear molecules with theta/T >= 0.3 end in an AttributeError (self.logger). *)
Theorem C51_cold_linear : forall rot vib name f sigma th vth m p T,
  parse_formula name = Ok f -> f_site f = L "g" ->
  dget rot (f_species_site f) = Some (sigma, [th]) -> dget vib (f_species_site f) = Some vth ->
  0 < sigma -> 0 < th -> 0 < T -> p <> 0 -> 0.3 <= th / T ->
  entropy_correction_full rot vib name m p T = Err AttributeError.
Proof. exact entropy_logger. Qed.
Print Assumptions C51_cold_linear.

Theorem C51_all_temperatures_refuted : exists name m p T, 0 < T /\ 0 < m /\ 0 < p /\
  entropy_correction_full rotation_temperatures vibration_temperatures name m p T = Err AttributeError.
Proof.
  exact (ex_intro _ (L "H2_g") (ex_intro _ 1 (ex_intro _ 1 (ex_intro _ 200
    (conj (IZR_lt 0 200 eq_refl) (conj Rlt_0_1 (conj Rlt_0_1
      (hydrogen_cold 1 1 200 (IZR_lt 0 200 eq_refl) (IZR_le 200 291 ltac:(lia)) R1_neq_R0)))))))).
Qed.
Print Assumptions C51_all_temperatures_refuted.

Example C51_example : forall T, 300 <= T -> exists g1 g2,
  entropy_correction_full rotation_temperatures vibration_temperatures (L "CO_g") 1 1 T = Ok g1 /\
  entropy_correction_full rotation_temperatures vibration_temperatures (L "CO_g") 1 2 T = Ok g2 /\
  g2 - g1 = kT T * ln (2 / 1).
Proof.
  intros T H. destruct co_formula as (f & P & G & S1 & _). destruct co_tables as [T1 T2].
  eapply (C51_pressure_law_partial _ _ _ f 1 [2.78] [3120] (T / (1 * 2.78))); auto; try lra;
    try (rewrite S1; assumption); [now apply co_rot|discriminate|].
  constructor; [lra|constructor].
Qed.

(** C52.  Shomate correction. *)
Theorem C52_value : forall rows s f r T,
  parse_formula s = Ok f -> f_site f = L "g" -> row_for rows s T r ->
  0 < T -> sh_min r <= T <= sh_max r ->
  shomate_correction rows T s
  = Ok (kJmol2eV * (298.15 * shomate_heat_capacity r 298.15 / 1000
                    + (shomate_enthalpy r T - shomate_enthalpy r 298.15)
                    - T * shomate_entropy r T / 1000)).
Proof. exact shomate_inside. Qed.
Print Assumptions C52_value.

Theorem C52_derivative : forall rows s f r lo hi T,
  parse_formula s = Ok f -> f_site f = L "g" ->
  (forall u, lo < u < hi -> row_for rows s u r /\ sh_min r <= u <= sh_max r) -> 0 <= lo -> lo < T < hi ->
  exists g, (forall u, lo < u < hi -> shomate_correction rows u s = Ok (g u)) /\
    derivable_pt_lim g T (- (kJmol2eV / 1000 * shomate_entropy r T)).
Proof. exact shomate_derivative. Qed.
Print Assumptions C52_derivative.

(** The polynomials fit together: H' = Cp, S' = Cp / T. *)
Theorem C52_polynomials : forall r T, 0 < T ->
  derivable_pt_lim (shomate_enthalpy r) T (shomate_heat_capacity r T / 1000) /\
  derivable_pt_lim (shomate_entropy r) T (shomate_heat_capacity r T / T).
Proof. exact derivative_enthalpy_spec. Qed.
Print Assumptions C52_polynomials.

Theorem C52_below : forall rows s f r T,
  parse_formula s = Ok f -> f_site f = L "g" -> row_for rows s T r ->
  sh_min r <> 0 -> T < sh_min r -> sh_min r < 300 ->
  shomate_correction rows T s
  = Ok (kJmol2eV * (T * (shomate_heat_capacity r (sh_min r) - shomate_entropy r (sh_min r)) / 1000)).
Proof. exact shomate_below. Qed.
Print Assumptions C52_below.

Theorem C52_outside : forall rows s f T,
  parse_formula s = Ok f -> f_site f = L "g" -> Forall (row_silent s T) rows ->
  shomate_correction rows T s = Ok 0.
Proof. exact shomate_no_row. Qed.
Print Assumptions C52_outside.

(** The gases and temperatures the table of the code has a row for. *)
Theorem C52_gases : forall s f T, parse_formula s = Ok f -> f_site f = L "g" ->
  ((exists hi, In (s, hi) shomate_gases /\ T <= hi) ->
     exists r, row_for shomate_params s T r /\ (sh_min r <= T <= sh_max r \/ T < sh_min r < 300)) /\
  (~ (exists hi, In (s, hi) shomate_gases /\ T <= hi) -> shomate_correction shomate_params T s = Ok 0).
Proof. exact shomate_gases_corrected. Qed.
Print Assumptions C52_gases.

Theorem C52_not_gas : forall rows T s f, parse_formula s = Ok f -> f_site f <> L "g" ->
  shomate_correction rows T s = Ok 0.
Proof. exact not_gas_zero_shomate. Qed.
Print Assumptions C52_not_gas.

Example C52_example : exists f r, parse_formula (L "CO_g") = Ok f /\ f_site f = L "g" /\
  (forall u, 1300 < u < 1600 -> row_for shomate_params (L "CO_g") u r /\ sh_min r <= u <= sh_max r) /\
  sh_min r = 1300 /\ sh_max r = 1600.
Proof. exact co_row. Qed.

(** C98.  Continuous inside the range of a row. *)
Theorem C98_inside_partial : forall rows s f r lo hi T, parse_formula s = Ok f -> f_site f = L "g" ->
  (forall u, lo < u < hi -> row_for rows s u r /\ sh_min r <= u <= sh_max r) -> 0 <= lo -> lo < T < hi ->
  exists c0, shomate_correction rows T s = Ok c0 /\ forall eps, 0 < eps -> exists d, 0 < d /\
    forall u, Rabs (u - T) < d -> exists c, shomate_correction rows u s = Ok c /\ Rabs (c - c0) < eps.
Proof. exact shomate_inside_continuous. Qed.
Print Assumptions C98_inside_partial.

(** From one row to the next the correction steps from the value by the first to that by the second:
    each is relative to its own polynomial at 298.15 K, inside its range or not. *)
Theorem C98_step : forall rows s f r1 r2 T hi, parse_formula s = Ok f -> f_site f = L "g" -> 0 < T < hi ->
  row_for rows s T r1 -> sh_min r1 <= T <= sh_max r1 ->
  (forall u, T < u < hi -> row_for rows s u r2 /\ sh_min r2 <= u <= sh_max r2) ->
  shomate_correction rows T s = Ok (shomate_free_energy r1 T) /\
  forall eps, 0 < eps -> exists d, 0 < d /\ forall u, T < u < T + d ->
    exists c, shomate_correction rows u s = Ok c /\ Rabs (c - shomate_free_energy r2 T) < eps.
Proof. exact shomate_step. Qed.
Print Assumptions C98_step.

(** Methane drops by more than one eV at 1300 K, in the middle of its table. *)
Theorem C98_continuous_refuted : exists gas T hi v, In (gas, hi) shomate_gases /\ T + 300 <= hi /\ 298 < T /\
  shomate_correction shomate_params T gas = Ok v /\
  exists d, 0 < d /\ forall u, T < u < T + d ->
    exists c, shomate_correction shomate_params u gas = Ok c /\ c < v - 1.
Proof.
  destruct methane_jump as (v & E & J). exists (L "CH4_g"), 1300, 1600, v.
  split; [right; now left|]. split; [lra|]. split; [lra|]. exact (conj E J).
Qed.
Print Assumptions C98_continuous_refuted.

(** C101.  A gas of the table is lowered in energy: at T kelvin by T meV or more. *)
Theorem C101_low : forall s hi T, In (s, hi) shomate_gases -> 0 < T <= hi ->
  exists c, shomate_correction shomate_params T s = Ok c /\ c <= - 0.001 * T.
Proof. exact correction_low. Qed.
Print Assumptions C101_low.

(** Along the range of a row, and below the lowest one, every kelvin lowers it by 1 meV or more. *)
Theorem C101_falls_partial : forall s f r T1 T2, parse_formula s = Ok f -> f_site f = L "g" ->
  row_for shomate_params s T1 r -> row_for shomate_params s T2 r -> 0 < T1 < T2 ->
  (sh_min r <= T1 /\ T2 <= sh_max r) \/ T2 < sh_min r < 300 ->
  exists c1 c2, shomate_correction shomate_params T1 s = Ok c1 /\ shomate_correction shomate_params T2 s = Ok c2 /\
    c2 <= c1 - 0.001 * (T2 - T1).
Proof. exact correction_falls. Qed.
Print Assumptions C101_falls_partial.

(** The parameters are physical in their range: heat capacities no smaller than without any inner
    motion, so that enthalpy and entropy grow. *)
Theorem C101_heat_capacity : forall r T, In r shomate_params -> sh_min r <= T <= sh_max r ->
  monatomic_heat_capacity <= shomate_heat_capacity r T /\ 97 <= shomate_entropy r T.
Proof. exact (fun r T H B => conj (row_capacity r T H B) (row_entropy r T H B)). Qed.
Print Assumptions C101_heat_capacity.

Theorem C101_growing : forall r T1 T2, In r shomate_params -> sh_min r <= T1 -> T1 < T2 -> T2 <= sh_max r ->
  shomate_enthalpy r T1 < shomate_enthalpy r T2 /\ shomate_entropy r T1 < shomate_entropy r T2.
Proof. exact row_heat. Qed.
Print Assumptions C101_growing.

(** From one row to the next a hotter gas can be lowered less: oxygen, by half an eV. *)
Theorem C101_falls_refuted : exists T1 T2 c1 c2, 298 < T1 < T2 /\ T2 <= 6000 /\
  shomate_correction shomate_params T1 (L "O2_g") = Ok c1 /\
  shomate_correction shomate_params T2 (L "O2_g") = Ok c2 /\ c1 + 0.5 < c2.
Proof. exact oxygen_hotter. Qed.
Print Assumptions C101_falls_refuted.

Example C101_example : exists f r, parse_formula (L "CO_g") = Ok f /\ f_site f = L "g" /\
  row_for shomate_params (L "CO_g") 1400 r /\ row_for shomate_params (L "CO_g") 1500 r /\
  sh_min r <= 1400 /\ 1500 <= sh_max r /\ In (L "CO_g", 1600) shomate_gases.
Proof.
  destruct co_row as (f & r & P & G & F & A & B). exists f, r.
  repeat split; auto; [apply F|apply F| | |]; try lra. right. right. now left.
Qed.

(** C102.  Heating a gas that is lowered lowers it further, as long as the rotation is computed by one
    formula. *)
Theorem C102_falls_partial : forall rot vib name f sigma rth vth q1 q2 m p T1 T2 g1,
  parse_formula name = Ok f -> f_site f = L "g" ->
  dget rot (f_species_site f) = Some (sigma, rth) -> dget vib (f_species_site f) = Some vth ->
  0 < sigma -> 0 < T1 < T2 -> 0 < m -> 0 < p -> q_rot sigma rth T1 q1 -> q_rot sigma rth T2 q2 ->
  same_rotor rth T1 T2 -> vth <> [] -> Forall (fun th => 0 < th) vth ->
  entropy_correction_full rot vib name m p T1 = Ok g1 -> g1 <= 0 ->
  exists g2, entropy_correction_full rot vib name m p T2 = Ok g2 /\ g2 < g1.
Proof. exact warm_falls. Qed.
Print Assumptions C102_falls_partial.

(** With the tables of the program: from 300 K on for every gas but hydrogen and hydrogen chloride. *)
Theorem C102_gases : forall name f m p T1 T2 g1, parse_formula name = Ok f -> f_site f = L "g" ->
  In (f_species_site f) entropy_gases -> f_species_site f <> L "H2_g" -> f_species_site f <> L "HCl_g" ->
  0 < m -> 0 < p -> 300 <= T1 < T2 ->
  entropy_correction_full rotation_temperatures vibration_temperatures name m p T1 = Ok g1 -> g1 <= 0 ->
  exists g2, entropy_correction_full rotation_temperatures vibration_temperatures name m p T2 = Ok g2 /\ g2 < g1.
Proof. exact warm_gases. Qed.
Print Assumptions C102_gases.

(** Where the formula changes heating can raise it: carbon monoxide at 278 K. *)
Theorem C102_falls_refuted : exists m p T1 T2 g1 g2, 0 < m /\ 0 < p /\ 200 < T1 < T2 /\
  entropy_correction_full rotation_temperatures vibration_temperatures (L "CO_g") m p T1 = Ok g1 /\
  entropy_correction_full rotation_temperatures vibration_temperatures (L "CO_g") m p T2 = Ok g2 /\
  g1 < 0 /\ g1 < g2.
Proof. exact co_warm_rises. Qed.
Print Assumptions C102_falls_refuted.

Example C102_example : exists g1 g2,
  entropy_correction_full rotation_temperatures vibration_temperatures (L "CO_g") 4.65e-26 101325 300 = Ok g1 /\
  entropy_correction_full rotation_temperatures vibration_temperatures (L "CO_g") 4.65e-26 101325 400 = Ok g2 /\
  g2 < g1 < 0.
Proof.
  destruct co_cold as (g & E & N). destruct co_formula as (f & P & G & S & _).
  destruct (C102_gases (L "CO_g") f 4.65e-26 101325 300 400 g P G) as (g2 & E2 & N2); auto; try lra;
    try (rewrite S; discriminate).
  - rewrite S. right. right. right. now left.
  - exists g, g2. auto.
Qed.

(** C103.  The parameters that cover room temperature give the tabulated standard entropies and heat
    capacities of their gases. *)
Theorem C103_standard_partial : forall gas s c r, In (gas, s, c) standard_gases -> In r shomate_params ->
  sh_gas r = gas -> sh_min r <= 298.15 <= sh_max r ->
  Rabs (shomate_entropy r 298.15 - s) <= 1 /\ Rabs (shomate_heat_capacity r 298.15 - c) <= 1.
Proof. exact standard_row. Qed.
Print Assumptions C103_standard_partial.

(** They count enthalpies from 298.15 K. *)
Theorem C103_zero_partial : forall r, In r shomate_params -> sh_min r <= 298.15 <= sh_max r ->
  sh_gas r <> L "CH3OH_g" -> sh_gas r <> L "HCOOH_g" -> sh_gas r <> L "CH3CH2OH_g" ->
  Rabs (shomate_enthalpy r 298.15) <= 0.05.
Proof. exact zero_row. Qed.
Print Assumptions C103_zero_partial.

(** Parameters of neighbouring ranges agree where the ranges meet. *)
Theorem C103_meet : forall r1 r2, In r1 shomate_params -> In r2 shomate_params -> sh_gas r1 = sh_gas r2 ->
  sh_max r1 = sh_min r2 ->
  Rabs (shomate_heat_capacity r2 (sh_min r2) - shomate_heat_capacity r1 (sh_min r2)) <= 0.2 /\
  Rabs (shomate_entropy r2 (sh_min r2) - shomate_entropy r1 (sh_min r2)) <= 0.05 /\
  Rabs (shomate_enthalpy r2 (sh_min r2) - shomate_enthalpy r1 (sh_min r2)) <= 0.05.
Proof. exact rows_meet. Qed.
Print Assumptions C103_meet.

(** So the steps of the correction (C98) come from the reference at 298.15 K, which the program
    takes from the parameters of the hot range.  Taken from any one row the corrections would join. *)
Theorem C103_step_cause : forall r1 r2, In r1 shomate_params -> In r2 shomate_params -> sh_gas r1 = sh_gas r2 ->
  sh_max r1 = sh_min r2 ->
  Rabs ((shomate_free_energy r2 (sh_min r2) - shomate_free_energy r1 (sh_min r2))
        - 0.01036427 * ((298.15 * shomate_heat_capacity r2 298.15 / 1000 - shomate_enthalpy r2 298.15)
                        - (298.15 * shomate_heat_capacity r1 298.15 / 1000 - shomate_enthalpy r1 298.15))) <= 0.002.
Proof. exact step_cause. Qed.
Print Assumptions C103_step_cause.

Theorem C103_one_reference : forall r0 r1 r2, In r1 shomate_params -> In r2 shomate_params ->
  sh_gas r1 = sh_gas r2 -> sh_max r1 = sh_min r2 ->
  Rabs (free_energy_from r0 r2 (sh_min r2) - free_energy_from r0 r1 (sh_min r2)) <= 0.002.
Proof. exact join_from. Qed.
Print Assumptions C103_one_reference.

(** Ethanol is off: its standard entropy is 281.6, its heat capacity 65.6 J/(mol K), and 142 at 1000 K. *)
Theorem C103_ethanol_refuted : exists r, In r shomate_params /\ sh_gas r = L "CH3CH2OH_g" /\
  sh_min r <= 298.15 <= sh_max r /\
  shomate_entropy r 298.15 < 281.6 - 15 /\ 65.6 + 11 < shomate_heat_capacity r 298.15 /\
  4 < shomate_enthalpy r 298.15 /\ 142 + 12 < shomate_heat_capacity r 1000.
Proof.
  destruct ethanol_off as (r & H & G & B & S & C & E & K). exists r. repeat split; auto; lra.
Qed.
Print Assumptions C103_ethanol_refuted.

Example C103_example : exists r1 r2, In r1 shomate_params /\ In r2 shomate_params /\
  sh_gas r1 = L "CO_g" /\ sh_gas r2 = L "CO_g" /\ sh_max r1 = sh_min r2 /\ sh_min r1 <= 298.15 <= sh_max r1 /\
  In (L "CO_g", 197.7, 29.1) standard_gases.
Proof.
  exists (nth 5 shomate_params default_row), (nth 6 shomate_params default_row).
  split; [apply nth_In; cbn; lia|]. split; [apply nth_In; cbn; lia|]. split; [reflexivity|]. split; [reflexivity|].
  split; [reflexivity|]. split; [cbn [nth shomate_params sh_min sh_max]; lra|]. right. right. now left.
Qed.

(** * C105: the vibrations of a molecule *)

(** The molecules of the specification are the gases of the tables; symmetry number, number of rotational
    temperatures and number of different vibrations are right, and the repeats add up to 3n - 5 or 3n - 6. *)
Theorem C105_rotors : (forall g, In g entropy_gases <-> In g (map mo_gas molecules)) /\
  (forall mo, In mo molecules -> exists rth vth,
    dget rotation_temperatures (mo_gas mo) = Some (mo_symmetry mo, rth) /\
    dget vibration_temperatures (mo_gas mo) = Some vth /\
    length rth = (if mo_linear mo then 1 else 3)%nat /\ length vth = length (mo_repeats mo) /\
    fold_right Nat.add 0%nat (mo_repeats mo) = normal_modes mo).
Proof. split; [exact molecules_all|exact molecule_tables]. Qed.
Print Assumptions C105_rotors.

(** Full statement: a gas has one vibrational temperature for each of its normal modes.  Proved for the
    gases without repeated vibrations; for the other four it is false (next theorem). *)
Theorem C105_modes_partial : forall mo vth, In mo molecules -> dget vibration_temperatures (mo_gas mo) = Some vth ->
  (length vth = normal_modes mo <-> ~ In (mo_gas mo) [L "CO2_g"; L "N2O_g"; L "NH3_g"; L "CH4_g"]).
Proof. exact modes_exact. Qed.
Print Assumptions C105_modes_partial.

Theorem C105_modes_refuted : exists mo vth, In mo molecules /\
  dget vibration_temperatures (mo_gas mo) = Some vth /\ mo_gas mo = L "CH4_g" /\
  length vth = 4%nat /\ normal_modes mo = 9%nat.
Proof. do 2 eexists. split; [do 11 right; left; reflexivity|]. repeat split. Qed.
Print Assumptions C105_modes_refuted.

(** The correction is minus kT times the logarithms of the three partition functions, each vibration taken
    once; the energy of the lowest level is included if the gas has one vibration, and only then. *)
Theorem C105_zero_point : forall name f mo rth vth qr m p T, parse_formula name = Ok f -> f_site f = L "g" ->
  In mo molecules -> f_species_site f = mo_gas mo ->
  dget rotation_temperatures (mo_gas mo) = Some (mo_symmetry mo, rth) ->
  dget vibration_temperatures (mo_gas mo) = Some vth ->
  0 < m -> 0 < p -> 0 < T -> q_rot (mo_symmetry mo) rth T qr ->
  exists g, entropy_correction_full rotation_temperatures vibration_temperatures name m p T = Ok g /\
    g = - kT T * (ln (q_trans m p T) + ln qr + ln_vibrations (repeat 1%nat (length vth)) vth T)
        + match vth with [th] => zero_point th | _ => 0 end.
Proof. exact correction_parts. Qed.
Print Assumptions C105_zero_point.

(** So for the four gases the correction is above the one with all the vibrations, at every temperature. *)
Theorem C105_too_high : forall name f mo rth vth qr m p T, parse_formula name = Ok f -> f_site f = L "g" ->
  In mo molecules -> f_species_site f = mo_gas mo ->
  dget rotation_temperatures (mo_gas mo) = Some (mo_symmetry mo, rth) ->
  dget vibration_temperatures (mo_gas mo) = Some vth ->
  0 < m -> 0 < p -> 0 < T -> q_rot (mo_symmetry mo) rth T qr ->
  exists g, entropy_correction_full rotation_temperatures vibration_temperatures name m p T = Ok g /\
    (In (mo_gas mo) [L "CO2_g"; L "N2O_g"; L "NH3_g"; L "CH4_g"] ->
     - kT T * (ln (q_trans m p T) + ln qr + ln_vibrations (mo_repeats mo) vth T) < g).
Proof. exact too_high. Qed.
Print Assumptions C105_too_high.

(** The temperatures themselves: within 4 % (vibration) and 6 % (rotation) of the spectroscopic ones.
    Full statement: for every gas; the rotation of CO2 is off (next theorem). *)
Theorem C105_temperatures_partial : forall g rot vib, In (g, rot, vib) spectroscopy -> exists sigma rth vth,
  dget rotation_temperatures g = Some (sigma, rth) /\ dget vibration_temperatures g = Some vth /\
  Forall2 (within 0.04) vth vib /\ (g <> L "CO2_g" -> Forall2 (within 0.06) rth rot).
Proof. exact temperatures_close. Qed.
Print Assumptions C105_temperatures_partial.

Theorem C105_rotation_refuted : exists sigma th, dget rotation_temperatures (L "CO2_g") = Some (sigma, [th]) /\
  In (L "CO2_g", [0.561], [960; 1930; 3380]) spectroscopy /\ ~ within 0.17 th 0.561.
Proof. exact co2_rotation. Qed.
Print Assumptions C105_rotation_refuted.

(** Gases listed with vibrations only, within 5 %; with rotations only, within 4 %. The rotations
    of SO2 and of CS2 are off (next theorems). *)
Theorem C105_vibrations_only : forall g vib, In (g, vib) spectroscopy_vibrations -> exists vth,
  dget vibration_temperatures g = Some vth /\ dget rotation_temperatures g = None /\ Forall2 (within 0.05) vth vib.
Proof. exact lone_vibrations. Qed.
Print Assumptions C105_vibrations_only.

Theorem C105_rotations_only_partial : forall g sigma rot, In (g, sigma, rot) spectroscopy_rotations -> exists rth,
  dget rotation_temperatures g = Some (sigma, rth) /\ dget vibration_temperatures g = None /\ Forall2 (within 0.04) rth rot.
Proof. exact lone_rotations. Qed.
Print Assumptions C105_rotations_only_partial.

Theorem C105_rotation_of_CS2_refuted : exists th, dget rotation_temperatures (L "CS2_g") = Some (2, [th]) /\
  dget vibration_temperatures (L "CS2_g") = None /\
  ~ within 0.5 th cs2_rotation.
Proof. exact cs2_off. Qed.
Print Assumptions C105_rotation_of_CS2_refuted.

Theorem C105_rotation_of_SO2_refuted : exists rth, dget rotation_temperatures (L "SO2_g") = Some (2, rth) /\
  dget vibration_temperatures (L "SO2_g") = None /\ Forall2 (within 0.13) rth so2_rotation /\
  Forall2 (fun a b => ~ within 0.1 a b) rth so2_rotation.
Proof. exact so2_off. Qed.
Print Assumptions C105_rotation_of_SO2_refuted.

Example C105_lone_example : In (L "CHCl3_g", [376; 522; 978; 1114; 1755; 4365]) spectroscopy_vibrations /\
  In (L "HI_g", 1, [9.37]) spectroscopy_rotations.
Proof. split; cbn; tauto. Qed.

(** A case with repeated vibrations: carbon dioxide. *)
Example C105_example : exists f mo rth vth qr, parse_formula (L "CO2_g") = Ok f /\ f_site f = L "g" /\
  In mo molecules /\ f_species_site f = mo_gas mo /\
  dget rotation_temperatures (mo_gas mo) = Some (mo_symmetry mo, rth) /\
  dget vibration_temperatures (mo_gas mo) = Some vth /\ q_rot (mo_symmetry mo) rth 500 qr /\
  In (mo_gas mo) [L "CO2_g"; L "N2O_g"; L "NH3_g"; L "CH4_g"] /\ vth = [954; 1890; 3360].
Proof.
  do 2 eexists. exists [0.66]. eexists. exists (q_linear 2 0.66 500). split; [vm_compute; reflexivity|].
  split; [reflexivity|]. split; [do 7 right; left; reflexivity|]. split; [reflexivity|]. split; [reflexivity|].
  split; [reflexivity|]. split; [|split; [left; reflexivity|reflexivity]].
  left. exists 0.66. repeat split; lra.
Qed.
