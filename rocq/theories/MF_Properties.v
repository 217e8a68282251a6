(** Property theorems: coverages, rates, steady-state function, turnover frequencies
    (C25-C28, C31, C53). *)
From Coq Require Import String Ascii List ZArith Bool Reals.
Import ListNotations.
From Verif Require Import PyBase Rxn_Model Rxn_Spec Species_Model Species_Spec PyReal Energy_Model Thermo_Model
  Rate_Model Rate_Spec MF_Model MF_Spec MF_Cover MF_Rate MF_More MF_Witness.
Local Open Scope nat_scope.
Local Open Scope list_scope.

(** C25 *)
Theorem C25_two_views : forall s, prepared s -> forall cvgs, length cvgs = length (ads s) ->
  exists cl d, classify s = Ok cl /\ tuple2dict s cl cvgs = Ok d /\
    dict2tuple s d = Ok cvgs /\ map fst d = ads s ++ sites s /\
    (forall i n x, nth_error (ads s) i = Some n -> nth_error cvgs i = Some x -> dget d n = Some x) /\
    (forall site, In site (sites s) -> exists free, dget d site = Some free /\
       (covered site (ads s) cvgs + free = total s site)%R).
Proof. exact views_agree. Qed.
Print Assumptions C25_two_views.

Theorem C25_one_site_each : forall s, prepared s ->
  exists cl, classify s = Ok cl /\ map fst cl = sites s /\
    (forall site names, dget cl site = Some names ->
       forall n, In n names <-> In n (ads s) /\ site_tag n = site) /\
    (forall site names, dget cl site = Some names -> NoDup names) /\
    (forall n, In n (ads s) -> exists names, dget cl (site_tag n) = Some names /\ In n names).
Proof. exact classify_exact. Qed.
Print Assumptions C25_one_site_each.

Theorem C25_table_rebuilt : forall s d cvgs, prepared s -> dict2tuple s d = Ok cvgs ->
  (forall site, In site (sites s) -> exists free, dget d site = Some free /\
     (covered site (ads s) cvgs + free = total s site)%R) ->
  exists cl d', classify s = Ok cl /\ tuple2dict s cl cvgs = Ok d' /\
    forall n, In n (ads s ++ sites s) -> dget d' n = dget d n.
Proof. exact dict_rebuilt. Qed.
Print Assumptions C25_table_rebuilt.

Theorem C25_short_vector : forall s cvgs, prepared s -> length cvgs < length (ads s) ->
  exists cl, classify s = Ok cl /\ tuple2dict s cl cvgs = Err IndexError.
Proof. exact short_vector. Qed.
Print Assumptions C25_short_vector.

Example C25_example : exists cl d, classify ox_setup = Ok cl /\ tuple2dict ox_setup cl [/ 4; / 2]%R = Ok d /\
  map fst d = [L "CO_s"; L "O_s"; L "*_s"] /\ exists free, dget d (L "*_s") = Some free /\ free = (/ 4)%R.
Proof. exact ox_example_covered. Qed.

(** C26 *)
Theorem C26_physical : forall s, prepared s -> (forall site, In site (sites s) -> (0 <= total s site)%R) ->
  forall cvgs, length cvgs = length (ads s) ->
  exists c, constrain_coverages s cvgs = Ok c /\ feasible s c.
Proof. exact constrained_feasible. Qed.
Print Assumptions C26_physical.

Theorem C26_physical_left_alone : forall s, prepared s ->
  (forall site, In site (sites s) -> (0 <= total s site)%R) ->
  forall cvgs, feasible s cvgs -> constrain_coverages s cvgs = Ok cvgs.
Proof. exact feasible_unchanged. Qed.
Print Assumptions C26_physical_left_alone.

Theorem C26_idempotent : forall s, prepared s ->
  (forall site, In site (sites s) -> (0 <= total s site)%R) ->
  forall cvgs c, length cvgs = length (ads s) ->
  constrain_coverages s cvgs = Ok c -> constrain_coverages s c = Ok c.
Proof. exact constrain_idempotent. Qed.
Print Assumptions C26_idempotent.

(** Which physical vector: each coverage is cut to its bounds, then the coverages of an
    overfull site are scaled by the same factor. *)
Theorem C26_exact : forall s cvgs, prepared s -> (forall site, In site (sites s) -> (0 <= total s site)%R) ->
  length cvgs = length (ads s) ->
  exists c, constrain_coverages s cvgs = Ok c /\ length c = length (ads s) /\
    forall i n x, nth_error (ads s) i = Some n -> nth_error (clipped s cvgs) i = Some x ->
      nth_error c i = Some (x * share s (clipped s cvgs) (site_tag n))%R.
Proof. exact constrain_exact. Qed.
Print Assumptions C26_exact.

Example C26_example : exists c, constrain_coverages ox_setup [2; -1]%R = Ok c /\
  nth_error c 0 = Some 1%R /\ nth_error c 1 = Some 0%R.
Proof. exact ox_constrained. Qed.

(** C27 *)
Theorem C27_mass_action : forall s cvgs kf kr, usable_setup s -> NoDup (s_exprs s) ->
  length cvgs = length (ads s) -> length kf = length (s_exprs s) -> length kr = length (s_exprs s) ->
  exists data rfs rrs,
    get_data s = Ok data /\ rates s (Ok (kf, kr)) (Some data) cvgs = Ok (rfs, rrs) /\
    length rfs = length (s_exprs s) /\ length rrs = length (s_exprs s) /\
    forall i fls first last a b,
      nth_error (l_rxns (s_lists s)) i = Some fls -> lfirst fls = Ok first -> llast fls = Ok last ->
      nth_error kf i = Some a -> nth_error kr i = Some b ->
      nth_error rfs i = Some (mass_action s cvgs a first) /\
      nth_error rrs i = Some (mass_action s cvgs b last).
Proof. exact rates_distinct. Qed.
Print Assumptions C27_mass_action.

(** In general: a reaction written twice gets the rate constants of its first copy. *)
Theorem C27_mass_action_first_copy : forall s, usable_setup s -> forall cvgs kf kr,
  length cvgs = length (ads s) -> length kf = length (s_exprs s) -> length kr = length (s_exprs s) ->
  exists data rfs rrs,
    get_data s = Ok data /\ rates s (Ok (kf, kr)) (Some data) cvgs = Ok (rfs, rrs) /\
    length rfs = length (s_exprs s) /\ length rrs = length (s_exprs s) /\
    forall i j e fls first last a b,
      nth_error (s_exprs s) i = Some e -> first_position (s_exprs s) e j ->
      nth_error (l_rxns (s_lists s)) i = Some fls -> lfirst fls = Ok first -> llast fls = Ok last ->
      nth_error kf j = Some a -> nth_error kr j = Some b ->
      nth_error rfs i = Some (mass_action s cvgs a first) /\
      nth_error rrs i = Some (mass_action s cvgs b last).
Proof. exact rates_indexed. Qed.
Print Assumptions C27_mass_action_first_copy.

Theorem C27_written_twice_refuted : exists s cvgs kf kr data rfs rrs i e fls first k x,
  usable_setup s /\ get_data s = Ok data /\ rates s (Ok (kf, kr)) (Some data) cvgs = Ok (rfs, rrs) /\
  nth_error (s_exprs s) i = Some e /\ rxn_formula_list e = Ok fls /\ lfirst fls = Ok first /\
  nth_error kf i = Some k /\ nth_error rfs i = Some x /\ x <> mass_action s cvgs k first.
Proof. exact tw_refutes. Qed.
Print Assumptions C27_written_twice_refuted.

Example C27_example : forall t1 t2 a b c a' b' c', exists data rfs rrs,
  get_data ox_setup = Ok data /\
  rates ox_setup (Ok ([a; b; c], [a'; b'; c'])%R) (Some data) [t1; t2] = Ok (rfs, rrs) /\
  rfs = [a * 2 * (1 - t1 - t2); b * 3 * (1 - t1 - t2) ^ 2; c * t1 * t2]%R /\
  rrs = [a' * t1; b' * t2 ^ 2; c' * 0 * (1 - t1 - t2) ^ 2]%R.
Proof. exact ox_rates. Qed.

(** The rate constants that enter: one pair per reaction, from the energies passed in or else
    from those of the model. *)
Theorem C27_rate_constants_TST : forall ec o given own r, (0 < o_T o)%R ->
  match given with Some x => x = r | None => own = Some r end ->
  (forall e, In e (o_rxns o) -> exists a b c, energies_of o r e a b c) ->
  exists kf kr, rate_constants ec o (L "TST") given own = Ok (kf, kr) /\
    length kf = length (o_rxns o) /\ length kr = length (o_rxns o) /\
    forall i e a b c, nth_error (o_rxns o) i = Some e -> energies_of o r e a b c ->
      nth_error kf i = Some (frequency (o_T o) * exp (- a / kT (o_T o)))%R /\
      nth_error kr i = Some (frequency (o_T o) * exp (- b / kT (o_T o)))%R.
Proof. exact rate_constants_TST. Qed.
Print Assumptions C27_rate_constants_TST.

Theorem C27_rate_constants_each : forall ec o algo given own kf kr,
  rate_constants ec o algo given own = Ok (kf, kr) ->
  exists r, match given with Some x => x = r | None => own = Some r end /\
    length kf = length (o_rxns o) /\ length kr = length (o_rxns o) /\
    forall i e a b, nth_error (o_rxns o) i = Some e -> nth_error kf i = Some a -> nth_error kr i = Some b ->
      (algo = L "TST" /\ rates_TST o e r false = Ok (a, b)) \/
      (algo = L "CT" /\ rates_CT ec o e r false = Ok (a, b)).
Proof. exact rate_constants_each. Qed.
Print Assumptions C27_rate_constants_each.

Theorem C27_rate_constants_rejected : forall ec o algo given own, algo <> L "TST" -> algo <> L "CT" ->
  (given <> None \/ own <> None -> rate_constants ec o algo given own = Err ValueError) /\
  (given = None -> own = None -> rate_constants ec o algo given own = Err AttributeError).
Proof. exact rate_constants_reject. Qed.
Print Assumptions C27_rate_constants_rejected.

Theorem C27_net_rates : forall s ks data cvgs rfs rrs, rates s ks data cvgs = Ok (rfs, rrs) ->
  length rfs = length rrs ->
  exists nets, net_rates s ks data cvgs = Ok nets /\ length nets = length rfs /\
    forall i a b, nth_error rfs i = Some a -> nth_error rrs i = Some b -> nth_error nets i = Some (a - b)%R.
Proof. exact net_rates_ok. Qed.
Print Assumptions C27_net_rates.

Theorem C27_reversibilities : forall rfs rrs, length rfs = length rrs -> (forall x, In x rfs -> x <> 0%R) ->
  exists l, reversibilities rfs rrs = Ok l /\ length l = length rfs /\
    forall i a b, nth_error rfs i = Some a -> nth_error rrs i = Some b -> nth_error l i = Some (b / a)%R.
Proof. exact reversibilities_ok. Qed.
Print Assumptions C27_reversibilities.

Theorem C27_reversibilities_errors : forall rfs rrs,
  (length rfs <> length rrs -> reversibilities rfs rrs = Err ValueError) /\
  (length rfs = length rrs -> In 0%R rfs -> reversibilities rfs rrs = Err ZeroDivisionError).
Proof. exact reversibilities_error. Qed.
Print Assumptions C27_reversibilities_errors.

(** C28: true for an adsorbate that occurs at most once in the end states of a reaction.
    Missing from the full statement: adsorbates that occur repeatedly or on both sides,
    for which it is refuted below. *)
Theorem C28_net_production_partial : forall s cvgs kf kr, usable_setup s -> length cvgs = length (ads s) ->
  length kf = length (s_exprs s) -> length kr = length (s_exprs s) ->
  exists data rfs rrs F,
    get_data s = Ok data /\ rates s (Ok (kf, kr)) (Some data) cvgs = Ok (rfs, rrs) /\
    steady_state_function s (Ok (kf, kr)) (Some data) cvgs = Ok F /\ length F = length (ads s) /\
    forall i name x, nth_error (ads s) i = Some name -> nth_error F i = Some x ->
    (forall fls, In fls (l_rxns (s_lists s)) -> plain_in name fls) ->
    exists cs, length cs = length (s_exprs s) /\ x = Rsum cs /\
      forall j fls rf rr c, nth_error (l_rxns (s_lists s)) j = Some fls ->
        nth_error rfs j = Some rf -> nth_error rrs j = Some rr -> nth_error cs j = Some c ->
        net_change name fls (rf - rr) c.
Proof. exact steady_net. Qed.
Print Assumptions C28_net_production_partial.

(** For every adsorbate: the formula of a reaction met first decides. *)
Theorem C28_counted_by_first_formula : forall s, usable_setup s -> forall cvgs kf kr,
  length cvgs = length (ads s) ->
  length kf = length (s_exprs s) -> length kr = length (s_exprs s) ->
  exists data rfs rrs F,
    get_data s = Ok data /\ rates s (Ok (kf, kr)) (Some data) cvgs = Ok (rfs, rrs) /\
    steady_state_function s (Ok (kf, kr)) (Some data) cvgs = Ok F /\ length F = length (ads s) /\
    forall i name x, nth_error (ads s) i = Some name -> nth_error F i = Some x ->
    exists cs, length cs = length (s_exprs s) /\ x = Rsum cs /\
      forall j fls rf rr c, nth_error (l_rxns (s_lists s)) j = Some fls ->
        nth_error rfs j = Some rf -> nth_error rrs j = Some rr -> nth_error cs j = Some c ->
        counted_change name fls rf rr c.
Proof. exact steady_indexed. Qed.
Print Assumptions C28_counted_by_first_formula.

(** A species on both sides, with no net production, gets a time derivative that is not 0. *)
Theorem C28_both_sides_refuted : exists s cvgs kf kr data F i name x,
  usable_setup s /\ get_data s = Ok data /\
  steady_state_function s (Ok (kf, kr)) (Some data) cvgs = Ok F /\
  nth_error (ads s) i = Some name /\ nth_error F i = Some x /\
  (forall fls first last, In fls (l_rxns (s_lists s)) -> lfirst fls = Ok first -> llast fls = Ok last ->
     net_consumption name first last = 0%Z) /\ x <> 0%R.
Proof. exact sp_refutes. Qed.
Print Assumptions C28_both_sides_refuted.

Example C28_example : usable_setup ox_setup /\ ads ox_setup = [L "CO_s"; L "O_s"] /\
  forall name fls, In name (ads ox_setup) -> In fls (l_rxns (s_lists ox_setup)) -> plain_in name fls.
Proof. exact (conj ox_usable (conj ox_ads ox_plain)). Qed.

(** C31 *)
Theorem C31_turnover_is_net_production : forall s cvgs kf kr, usable_setup s -> length cvgs = length (ads s) ->
  length kf = length (s_exprs s) -> length kr = length (s_exprs s) ->
  exists data rfs rrs tof,
    get_data s = Ok data /\ rates s (Ok (kf, kr)) (Some data) cvgs = Ok (rfs, rrs) /\
    tofs s (Ok (kf, kr)) (Some data) cvgs = Ok tof /\
    length tof = length (l_gas (s_lists s) ++ l_liq (s_lists s)) /\
    forall i name x, nth_error (l_gas (s_lists s) ++ l_liq (s_lists s)) i = Some name -> nth_error tof i = Some x ->
      (In name (l_gas (s_lists s)) -> tof_of s (Ok (kf, kr)) (Some data) cvgs name = Ok x) /\
      exists cs, length cs = length (s_exprs s) /\ x = Rsum cs /\
        forall j fls rf rr c, nth_error (l_rxns (s_lists s)) j = Some fls ->
          nth_error rfs j = Some rf -> nth_error rrs j = Some rr -> nth_error cs j = Some c ->
          net_change name fls (rf - rr) c.
Proof. exact tofs_indexed. Qed.
Print Assumptions C31_turnover_is_net_production.

(** Atoms gained by the gas and liquid phases and by the surface cancel, at any coverages
    (for adsorbates that C28 counts right). *)
Theorem C31_atoms_conserved : forall s cvgs kf kr x, usable_setup s -> length cvgs = length (ads s) ->
  length kf = length (s_exprs s) -> length kr = length (s_exprs s) ->
  (forall name fls, In name (ads s) -> In fls (l_rxns (s_lists s)) -> plain_in name fls) ->
  exists data F tof,
    get_data s = Ok data /\ steady_state_function s (Ok (kf, kr)) (Some data) cvgs = Ok F /\
    tofs s (Ok (kf, kr)) (Some data) cvgs = Ok tof /\
    (weighted_sum (name_atoms x) (l_gas (s_lists s) ++ l_liq (s_lists s)) tof
     + weighted_sum (name_atoms x) (ads s) F = 0)%R.
Proof. exact conservation. Qed.
Print Assumptions C31_atoms_conserved.

Theorem C31_steady_state_balanced : forall s cvgs kf kr x, usable_setup s -> length cvgs = length (ads s) ->
  length kf = length (s_exprs s) -> length kr = length (s_exprs s) ->
  (forall name fls, In name (ads s) -> In fls (l_rxns (s_lists s)) -> plain_in name fls) ->
  forall data F, get_data s = Ok data -> steady_state_function s (Ok (kf, kr)) (Some data) cvgs = Ok F ->
  (forall y, In y F -> y = 0%R) ->
  exists tof, tofs s (Ok (kf, kr)) (Some data) cvgs = Ok tof /\
    weighted_sum (name_atoms x) (l_gas (s_lists s) ++ l_liq (s_lists s)) tof = 0%R.
Proof. exact steady_balance. Qed.
Print Assumptions C31_steady_state_balanced.

Theorem C31_unknown_gas : forall s ks data cvgs l gas, tofs s ks data cvgs = Ok l ->
  (forall i x, index_of gas (l_gas (s_lists s)) = Some i -> nth_error l i = Some x -> tof_of s ks data cvgs gas = Ok x) /\
  (~ In gas (l_gas (s_lists s)) -> tof_of s ks data cvgs gas = Err ParameterError).
Proof. exact tof_of_ok. Qed.
Print Assumptions C31_unknown_gas.

Example C31_example : usable_setup ox_setup /\ l_gas (s_lists ox_setup) = [L "CO2_g"; L "CO_g"; L "O2_g"] /\
  map (name_atoms "O") (l_gas (s_lists ox_setup)) = [2; 1; 2]%Z /\
  forall name fls, In name (ads ox_setup) -> In fls (l_rxns (s_lists ox_setup)) -> plain_in name fls.
Proof. split; [exact ox_usable|]. split; [reflexivity|]. split; [reflexivity|]. exact ox_plain. Qed.

(** C53 *)
Theorem C53_distribution : forall s T ed (include : bool), prepared s -> (0 < T)%R -> ads s <> [] ->
  (forall n, In n (if include then ads s ++ sites s else ads s) -> exists e, dget ed n = Some e) ->
  exists cvgs, boltzmann_coverages s T (Some ed) include = Ok cvgs /\ length cvgs = length (ads s) /\
    (forall x, In x cvgs -> 0 < x <= 1)%R /\
    (include = false -> Rsum cvgs = 1%R) /\ (include = true -> (Rsum cvgs < 1)%R) /\
    (forall i j n m x y, nth_error (ads s) i = Some n -> nth_error (ads s) j = Some m ->
       nth_error cvgs i = Some x -> nth_error cvgs j = Some y ->
       (x / y = exp (- (value ed n - value ed m) / kT T))%R) /\
    (include = true -> forall i n x, nth_error (ads s) i = Some n -> nth_error cvgs i = Some x ->
       (x * Rsum (map (fun m => exp (- (value ed m - value ed n) / kT T)) (ads s ++ sites s)) = 1)%R).
Proof. exact boltzmann_facts. Qed.
Print Assumptions C53_distribution.

Theorem C53_errors : forall s T ed (include : bool),
  (boltzmann_coverages s T None include = match get_data s with Ok _ => Err IOError | Err e => Err e end) /\
  (forall n, In n (if include then ads s ++ sites s else ads s) ->
     (forall m, In m (if include then ads s ++ sites s else ads s) -> m <> n -> exists e, dget ed m = Some e) ->
     (0 < T)%R -> dget ed n = None -> boltzmann_coverages s T (Some ed) include = Err KeyError).
Proof. exact boltzmann_errors. Qed.
Print Assumptions C53_errors.

(** Physical if no site total is below 1 ... *)
Theorem C53_physical_partial : forall s T ed (include : bool) cvgs, prepared s -> (0 < T)%R -> ads s <> [] ->
  (forall n, In n (if include then ads s ++ sites s else ads s) -> exists e, dget ed n = Some e) ->
  (forall site, In site (sites s) -> (1 <= total s site)%R) ->
  boltzmann_coverages s T (Some ed) include = Ok cvgs -> feasible s cvgs.
Proof. exact boltzmann_feasible. Qed.
Print Assumptions C53_physical_partial.

(** ... and not in general: totals are ignored. *)
Theorem C53_scarce_site_refuted : exists s T ed cvgs, prepared s /\ (0 < T)%R /\
  boltzmann_coverages s T (Some ed) true = Ok cvgs /\ ~ feasible s cvgs.
Proof. exact sc_refutes. Qed.
Print Assumptions C53_scarce_site_refuted.

Example C53_example : prepared ox_setup /\ ads ox_setup <> [] /\ sites ox_setup = [L "*_s"].
Proof. split; [exact (proj1 ox_usable)|]. split; [discriminate|reflexivity]. Qed.
