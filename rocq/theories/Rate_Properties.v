(** Properties C19-C21, C24, C106, C107: rate constants.  Vocabulary: Rate_Spec.v, Energy_Spec.v. *)
From Coq Require Import String Ascii List ZArith QArith Qreals Bool Reals Lra Lia.
Import ListNotations.
From Verif Require Import PyBase PyBaseFacts Rxn_Model Rxn_Spec Mol_Model PyReal Energy_Model Energy_Spec
  Energy_Proofs Thermo_Model Rate_Model Rate_Spec Rate_Proofs Rate_Witness Rate_Temp.
Open Scope list_scope.
Open Scope R_scope.

(** C19.  Value (kT/h) exp(-G/kT). *)
Theorem C19_value : forall Ga T, 0 < T -> 
  kTST Ga T = Ok (8.6173324e-5 * T / 4.135667662e-15 * exp (- Ga / (8.6173324e-5 * T))).
Proof. exact kTST_value. Qed.
Print Assumptions C19_value.

Theorem C19_positive_decreasing : forall g1 g2 T, 0 < T ->
  exists k1 k2, kTST g1 T = Ok k1 /\ kTST g2 T = Ok k2 /\ 0 < k1 /\ 0 < k2 /\ (g1 < g2 <-> k2 < k1).
Proof. exact kTST_decreasing. Qed.
Print Assumptions C19_positive_decreasing.

Theorem C19_barrier_inverse : forall Ga T, 0 < T ->
  exists k, kTST Ga T = Ok k /\ barrier_from_CT k T = Ok Ga.
Proof. exact barrier_of_kTST. Qed.
Print Assumptions C19_barrier_inverse.

Theorem C19_rate_inverse : forall k T, 0 < T -> 0 < k ->
  exists Ga, barrier_from_CT k T = Ok Ga /\ kTST Ga T = Ok k.
Proof. exact kTST_of_barrier. Qed.
Print Assumptions C19_rate_inverse.

Theorem C19_errors : forall Ga k T,
  kTST Ga 0 = Err ZeroDivisionError /\ (0 < T -> k <= 0 -> barrier_from_CT k T = Err ValueError).
Proof. exact (fun Ga k T => conj (kTST_zero Ga) (barrier_nonpos k T)). Qed.
Print Assumptions C19_errors.

(** C20 *)
Theorem C20_detailed_balance : forall o e r gaf gar dg,
  0 < o_T o -> energies_of o r e gaf gar dg -> gaf - gar = dg ->
  exists rf rr, rates_TST o e r false = Ok (rf, rr) /\ 0 < rf /\ 0 < rr /\
    rf / rr = exp (- dg / kT (o_T o)).
Proof. exact detailed_balance. Qed.
Print Assumptions C20_detailed_balance.

Theorem C20_absolute_energies : forall o ed r e gaf gar dg,
  0 < o_T o -> relative_from_absolute true ed (o_rxns o) = Ok r -> energies_of o r e gaf gar dg ->
  exists rf rr, rates_TST o e r false = Ok (rf, rr) /\ 0 < rf /\ 0 < rr /\
    rf / rr = exp (- dg / kT (o_T o)).
Proof. exact balance_absolute. Qed.
Print Assumptions C20_absolute_energies.

Theorem C20_relative_energies : forall o file setup st st' r e gaf gar dg,
  0 < o_T o -> rel_parse_data file setup (length (o_rxns o)) st = (st', Ok tt) ->
  es_rel st' = Some r -> energies_of o r e gaf gar dg ->
  exists rf rr, rates_TST o e r false = Ok (rf, rr) /\ 0 < rf /\ 0 < rr /\
    rf / rr = exp (- dg / kT (o_T o)).
Proof. exact balance_relative. Qed.
Print Assumptions C20_relative_energies.

Example C20_example : exists rf rr,
  rates_TST (co_owner 300 1) co_rxn co_energies false = Ok (rf, rr) /\ 0 < rf /\ 0 < rr /\
  rf / rr = exp (- (1) / kT 300).
Proof. apply (C20_detailed_balance (co_owner 300 1) co_rxn co_energies 3 2 1); [cbn; lra|exact co_energies_of|lra]. Qed.

(** A reaction that is not one of the model's has no rates, by either theory. *)
Theorem C20_unknown : forall ec o e r incl, ~ In e (o_rxns o) ->
  rates_TST o e r incl = Err ValueError /\ rates_CT ec o e r incl = Err ValueError.
Proof. exact rates_unknown. Qed.
Print Assumptions C20_unknown.

(** C21.  The collision rate. *)
Theorem C21_value : forall Ea Auc act_ratio m T p f,
  0 < T -> 0 < m -> act_ratio <= 1 -> f <= 1 ->
  kCT Ea Auc act_ratio m T p f
  = Ok (f * act_ratio * exp (- Ea / (8.6173324e-5 * T)) * (p * Auc) / sqrt (2 * PI * m * 1.38064852e-23 * T)).
Proof. exact kCT_value. Qed.
Print Assumptions C21_value.

Theorem C21_nonnegative : forall Ea Auc act_ratio m T p f,
  0 < T -> 0 < m -> 0 <= act_ratio <= 1 -> 0 <= f <= 1 -> 0 <= p -> 0 <= Auc ->
  exists k, kCT Ea Auc act_ratio m T p f = Ok k /\ 0 <= k.
Proof. exact kCT_nonneg. Qed.
Print Assumptions C21_nonnegative.

Theorem C21_proportional : forall Ea Auc act_ratio m T p f k a b c d,
  0 < T -> 0 < m -> act_ratio <= 1 -> f <= 1 -> b * act_ratio <= 1 -> c * f <= 1 ->
  kCT Ea Auc act_ratio m T p f = Ok k ->
  kCT Ea (d * Auc) (b * act_ratio) m T (a * p) (c * f) = Ok (a * b * c * d * k).
Proof. exact kCT_scale. Qed.
Print Assumptions C21_proportional.

Theorem C21_rejected : forall Ea Auc act_ratio m T p f,
  1 < act_ratio \/ 1 < f -> kCT Ea Auc act_ratio m T p f = Err ParameterError.
Proof. exact kCT_reject. Qed.
Print Assumptions C21_rejected.

(** No rate without a temperature and a mass. *)
Theorem C21_unphysical : forall Ea Auc act_ratio m T p f, act_ratio <= 1 -> f <= 1 ->
  (T = 0 -> kCT Ea Auc act_ratio m T p f = Err ZeroDivisionError) /\
  (T <> 0 -> m = 0 -> kCT Ea Auc act_ratio m T p f = Err ZeroDivisionError) /\
  (m * T < 0 -> kCT Ea Auc act_ratio m T p f = Err ValueError).
Proof. exact kCT_unphysical. Qed.
Print Assumptions C21_unphysical.

(** Adsorption, whatever the entropy correction [ec] returns: collision rate forward; reverse
    rate by detailed balance, capped at kT/h. *)
Theorem C21_adsorption : forall ec o e r fls first last g m p c gaf gar dg incl,
  0 < o_T o -> 0 < o_Auc o -> o_corrector_str o = false -> 0 < o_act_ratio o <= 1 ->
  energies_of o r e gaf gar dg ->
  rxn_formula_list e = Ok fls -> lfirst fls = Ok first -> llast fls = Ok last ->
  first_gas first = Some g -> molecular_mass (f_species g) true = Ok m -> 0 < Q2R m ->
  gas_pressure o incl (f_text g) = Ok p -> 0 < p ->
  ec (f_text g) (Q2R m) p (o_T o) = Ok c ->
  exists rf rr, rates_CT ec o e r incl = Ok (rf, rr) /\
    kCT gaf (o_Auc o) (o_act_ratio o) (Q2R m) (o_T o) p 1 = Ok rf /\ 0 < rf /\
    rr = Rmin (frequency (o_T o)) (rf * exp ((dg - IZR (f_stoich g) * c) / kT (o_T o))).
Proof. exact rates_CT_adsorption. Qed.
Print Assumptions C21_adsorption.

Theorem C21_desorption : forall ec o e r fls first last g m p c gaf gar dg incl,
  0 < o_T o -> 0 < o_Auc o -> o_corrector_str o = false ->
  energies_of o r e gaf gar dg ->
  rxn_formula_list e = Ok fls -> lfirst fls = Ok first -> llast fls = Ok last ->
  first_gas first = None -> first_gas last = Some g -> molecular_mass (f_species g) true = Ok m ->
  gas_pressure o incl (f_text g) = Ok p ->
  ec (f_text g) (Q2R m) p (o_T o) = Ok c ->
  exists rf rr, rates_CT ec o e r incl = Ok (rf, rr) /\
    kTST gaf (o_T o) = Ok rf /\ kTST (gar - IZR (f_stoich g) * c) (o_T o) = Ok rr /\
    rf / rr = exp (- ((gaf - gar) + IZR (f_stoich g) * c) / kT (o_T o)).
Proof. exact rates_CT_desorption. Qed.
Print Assumptions C21_desorption.

Theorem C21_surface : forall ec o e r fls first last incl,
  0 < o_Auc o -> o_corrector_str o = false ->
  rxn_formula_list e = Ok fls -> lfirst fls = Ok first -> llast fls = Ok last ->
  (forall f, In f first \/ In f last -> f_site f <> L "g") ->
  rates_CT ec o e r incl = rates_TST o e r false.
Proof. exact rates_CT_surface_sites. Qed.
Print Assumptions C21_surface.

(** The gas of the two theorems above is the first one of its state; the pressure is in Pa. *)
Theorem C21_gas_and_pressure : forall fs f o p,
  (first_gas fs = Some f <->
   exists before after, fs = before ++ f :: after /\ f_site f = L "g" /\
     forall g, In g before -> f_site g <> L "g") /\
  gas_pressure o false (f_text f) = Ok P0 /\
  (dget (o_pressures o) (f_text f) = Some (Some p) -> gas_pressure o true (f_text f) = Ok (P0 * p)).
Proof. exact gas_and_pressure. Qed.
Print Assumptions C21_gas_and_pressure.

Theorem C21_setup_checks : forall ec o e r fls first last gaf gar dg incl,
  energies_of o r e gaf gar dg ->
  rxn_formula_list e = Ok fls -> lfirst fls = Ok first -> llast fls = Ok last ->
  (o_Auc o <= 0 -> rates_CT ec o e r incl = Err AttributeError) /\
  (0 < o_Auc o -> o_corrector_str o = true -> rates_CT ec o e r incl = Err SetupError).
Proof. exact rates_CT_reject. Qed.
Print Assumptions C21_setup_checks.

Example C21_example : exists rf rr,
  rates_CT (fun _ _ _ _ => Ok 0) (co_owner 300 1) co_rxn co_energies true = Ok (rf, rr) /\ 0 < rf /\
  rr <= frequency 300.
Proof. exact co_rates_CT. Qed.

(** C24.  Gases written without number. *)
Theorem C24_pressure_partial : forall o e r states first last P rf rr,
  rates_TST o e r false = Ok (rf, rr) ->
  rxn_formula_list e = Ok states -> lfirst states = Ok first -> llast states = Ok last ->
  Forall unnumbered (gases first ++ gases last) -> knows_pressures o P [first; last] ->
  rates_TST o e r true = Ok (pressure_factor P first * rf, pressure_factor P last * rr).
Proof. exact rates_TST_pressure. Qed.
Print Assumptions C24_pressure_partial.

(** Any gas whose text, with its number, is not a key of the table. *)
Theorem C24_unknown_text : forall o e r states first last f rf rr,
  rates_TST o e r false = Ok (rf, rr) ->
  rxn_formula_list e = Ok states -> lfirst states = Ok first -> llast states = Ok last ->
  In f (gases first ++ gases last) -> dget (o_pressures o) (f_text f) = None ->
  rates_TST o e r true = Err KeyError.
Proof. exact rates_TST_unknown. Qed.
Print Assumptions C24_unknown_text.

(** The pressure of every gas is known, but a gas with number two stops the calculation. *)
Theorem C24_pressure_refuted : exists o e r states first last P rf rr,
  rates_TST o e r false = Ok (rf, rr) /\
  rxn_formula_list e = Ok states /\ lfirst states = Ok first /\ llast states = Ok last /\
  knows_pressures o P [first; last] /\ rates_TST o e r true = Err KeyError.
Proof. exact numbered_gas_fails. Qed.
Print Assumptions C24_pressure_refuted.

Example C24_example : exists states first last,
  rxn_formula_list co_rxn = Ok states /\ lfirst states = Ok first /\ llast states = Ok last /\
  Forall unnumbered (gases first ++ gases last) /\
  knows_pressures (co_owner 300 1) (fun _ => 1) [first; last].
Proof. exact co_pressures. Qed.

(** C106.  The rate constant at two temperatures: it rises as long as kT is above minus the barrier, so
    always for a barrier that is not negative, and falls below that. *)
Theorem C106_heating : forall Ga T1 T2, 0 < T1 -> T1 < T2 -> exists k1 k2, kTST Ga T1 = Ok k1 /\ kTST Ga T2 = Ok k2 /\
  (- Ga <= kT T1 -> k1 < k2) /\ (kT T2 <= - Ga -> k2 < k1).
Proof. exact tst_heating. Qed.
Print Assumptions C106_heating.

(** The apparent activation energy, k T^2 d(ln k)/dT, is the barrier plus kT. *)
Theorem C106_apparent : forall Ga T k, 0 < T -> (forall t, 0 < t -> kTST Ga t = Ok (k t)) ->
  derivable_pt_lim k T (k T * ((Ga + kT T) / (kT T * T))).
Proof. exact tst_apparent. Qed.
Print Assumptions C106_apparent.

(** Not more reactions than attempts, exactly if the barrier is not negative. *)
Theorem C106_attempts : forall Ga T, 0 < T ->
  exists k, kTST Ga T = Ok k /\ (k <= 8.6173324e-5 * T / 4.135667662e-15 <-> 0 <= Ga).
Proof. exact tst_attempts. Qed.
Print Assumptions C106_attempts.

(** Heating shifts a step towards its products exactly if it takes up energy. *)
Theorem C106_vant_hoff : forall o e r gaf gar dg T1 T2, 0 < T1 -> T1 < T2 ->
  energies_of o r e gaf gar dg -> gaf - gar = dg ->
  exists f1 r1 f2 r2, rates_TST (heated o T1) e r false = Ok (f1, r1) /\
    rates_TST (heated o T2) e r false = Ok (f2, r2) /\
    (f1 / r1 < f2 / r2 <-> 0 < dg) /\ (f1 / r1 = f2 / r2 <-> dg = 0).
Proof. exact vant_hoff. Qed.
Print Assumptions C106_vant_hoff.

(** Collisions: heating slows them down while kT is above twice the barrier, and makes them more effective
    below that. *)
Theorem C106_collisions : forall Ea A ar m p f T1 T2,
  0 < T1 -> T1 < T2 -> 0 < m -> 0 < ar <= 1 -> 0 < f <= 1 -> 0 < p -> 0 < A ->
  exists k1 k2, kCT Ea A ar m T1 p f = Ok k1 /\ kCT Ea A ar m T2 p f = Ok k2 /\
    (2 * Ea <= kT T1 -> k2 < k1) /\ (kT T2 <= 2 * Ea -> k1 < k2).
Proof. exact ct_heating. Qed.
Print Assumptions C106_collisions.

Example C106_example : (exists k1 k2, kTST 0.5 300 = Ok k1 /\ kTST 0.5 600 = Ok k2 /\ k1 < k2) /\
  (exists k1 k2, kTST (-0.5) 300 = Ok k1 /\ kTST (-0.5) 600 = Ok k2 /\ k2 < k1) /\
  (exists k1 k2, kCT 0 9e-20 1 4.65e-26 300 101325 1 = Ok k1 /\ kCT 0 9e-20 1 4.65e-26 600 101325 1 = Ok k2 /\ k2 < k1).
Proof.
  split; [|split].
  - destruct (C106_heating 0.5 300 600) as (k1 & k2 & E1 & E2 & H & _); [lra|lra|]. exists k1, k2.
    repeat split; auto. apply H. unfold kT, kB_eV. lra.
  - destruct (C106_heating (-0.5) 300 600) as (k1 & k2 & E1 & E2 & _ & H); [lra|lra|]. exists k1, k2.
    repeat split; auto. apply H. unfold kT, kB_eV. lra.
  - destruct (C106_collisions 0 9e-20 1 4.65e-26 101325 1 300 600) as (k1 & k2 & E1 & E2 & H & _); try lra.
    exists k1, k2. repeat split; auto. apply H. unfold kT, kB_eV. lra.
Qed.

(** C107.  An adsorption (rates f1, b1) written as a desorption (rates f2, b2) under collision theory.
    Full statement: the equilibrium is the same, f1 / b1 = b2 / f2.  Proved: exactly if the rate of
    desorption it implies is not above kT/h; in the other case adsorption is favoured too much. *)
Theorem C107_equilibrium_partial : forall ec o e1 e2 r1 r2 first last mid g m p c gaf gar incl,
  0 < o_T o -> 0 < o_Auc o -> o_corrector_str o = false -> 0 < o_act_ratio o <= 1 ->
  energies_of o r1 e1 gaf gar (gaf - gar) -> energies_of o r2 e2 gar gaf (gar - gaf) ->
  rxn_formula_list e1 = Ok (first :: mid ++ [last]) -> rxn_formula_list e2 = Ok (last :: mid ++ [first]) ->
  first_gas first = Some g -> first_gas last = None -> molecular_mass (f_species g) true = Ok m -> 0 < Q2R m ->
  gas_pressure o incl (f_text g) = Ok p -> 0 < p -> ec (f_text g) (Q2R m) p (o_T o) = Ok c ->
  exists f1 b1 f2 b2, rates_CT ec o e1 r1 incl = Ok (f1, b1) /\ rates_CT ec o e2 r2 incl = Ok (f2, b2) /\
    0 < f1 /\ 0 < b1 /\ 0 < f2 /\ 0 < b2 /\
    b2 / f2 <= f1 / b1 /\
    (f1 / b1 = b2 / f2 <-> f1 * f2 <= frequency (o_T o) * b2).
Proof. exact ct_directions. Qed.
Print Assumptions C107_equilibrium_partial.

Theorem C107_equilibrium_refuted : exists ec o e1 e2 r f1 b1 f2 b2,
  rates_CT ec o e1 r false = Ok (f1, b1) /\ rates_CT ec o e2 r false = Ok (f2, b2) /\
  e1 = L "CO_g + *_s -> CO_s" /\ e2 = L "CO_s -> CO_g + *_s" /\ f1 / b1 <> b2 / f2.
Proof. exact cap_breaks. Qed.
Print Assumptions C107_equilibrium_refuted.

(** The rate constants themselves depend on the writing, even where the equilibrium does not: collisions in
    the one, a barrier for molecules without translation in the other. *)
Theorem C107_constants_refuted : exists ec o e1 e2 r f1 b1 f2 b2,
  rates_CT ec o e1 r false = Ok (f1, b1) /\ rates_CT ec o e2 r false = Ok (f2, b2) /\
  e1 = L "CO_g + *_s -> CO_s" /\ e2 = L "CO_s -> CO_g + *_s" /\ f1 / b1 = b2 / f2 /\ 1000 * f1 < b2.
Proof. exact constants_differ. Qed.
Print Assumptions C107_constants_refuted.

(** Under transition state theory the direction does not matter. *)
Theorem C107_transition_state : forall o e1 e2 r1 r2 gaf gar, 0 < o_T o ->
  energies_of o r1 e1 gaf gar (gaf - gar) -> energies_of o r2 e2 gar gaf (gar - gaf) ->
  exists f b, rates_TST o e1 r1 false = Ok (f, b) /\ rates_TST o e2 r2 false = Ok (b, f).
Proof. exact tst_directions. Qed.
Print Assumptions C107_transition_state.

Example C107_example : exists a b c m,
  rxn_formula_list (L "CO_g + *_s -> CO_s") = Ok ([a; b] :: [] ++ [[c]]) /\
  rxn_formula_list (L "CO_s -> CO_g + *_s") = Ok ([c] :: [] ++ [[a; b]]) /\
  first_gas [a; b] = Some a /\ first_gas [c] = None /\ molecular_mass (f_species a) true = Ok m /\ 0 < Q2R m /\
  energies_of two_owner (two_energies 1) (L "CO_g + *_s -> CO_s") 0 (- (1)) (0 - - (1)) /\
  energies_of two_owner (two_energies 1) (L "CO_s -> CO_g + *_s") (- (1)) 0 (- (1) - 0).
Proof. exact two_example. Qed.
