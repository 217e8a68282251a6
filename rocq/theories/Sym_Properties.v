(** C30: symbolic and numeric evaluation agree. *)
From Coq Require Import String Ascii List ZArith NArith Bool Arith Reals.
Import ListNotations.
From Verif Require Import PyBase Rxn_Model Species_Model Species_Spec PyReal Energy_Model Energy_Spec Thermo_Model
  Rate_Model Rate_Spec MF_Model MF_Spec Sym_Model Sym_Spec Sym_Main Sym_Rest Sym_Missing Sym_Witness.
Local Open Scope nat_scope.
Local Open Scope list_scope.

(** The symbols, and what the expressions of the free sites stand for. *)
Theorem C30_symbols : forall s, prepared s -> exists y data, symbolic s y data /\
  y_p y = map (fun n => SSym (L "p_" ++ n)) (l_gas (s_lists s)) /\
  y_c y = map (fun n => SSym (L "c_" ++ n)) (l_liq (s_lists s)) /\
  y_ads y = map (fun n => SSym (L "theta_" ++ n)) (ads s) /\
  length (y_Ga y) = length (s_exprs s) /\ length (y_dG y) = length (s_exprs s) /\ length (y_K y) = length (s_exprs s) /\
  (forall i, i < length (s_exprs s) ->
    nth_error (y_Ga y) i = Some (SSym (L "Ga_" ++ dec (N.of_nat i))) /\
    nth_error (y_dG y) i = Some (SSym (L "dG_" ++ dec (N.of_nat i))) /\
    nth_error (y_K y) i = Some (SSym (L "K_" ++ dec (N.of_nat i)))) /\
  length (y_free y) = length (sites s) /\
  forall k site e cvgs d, nth_error (sites s) k = Some site -> nth_error (y_free y) k = Some e ->
    length cvgs = length (ads s) ->
    (forall i n x, nth_error (ads s) i = Some n -> nth_error cvgs i = Some x -> dget d (L "theta_" ++ n) = Some x) ->
    sev d e = Ok (total s site - covered site (ads s) cvgs)%R.
Proof. exact symbols_named. Qed.
Print Assumptions C30_symbols.

Example C30_symbols_example : exists y data, symbolic cp_setup y data /\
  y_ads y = [SSym (L "theta_CO_s"); SSym (L "theta_NO_s")] /\
  y_free y = [SSub (SSub (SNum 1) (SSym (L "theta_CO_s"))) (SSym (L "theta_NO_s"))] /\
  forall d, dget d (L "theta_CO_s") = Some (/ 4)%R -> dget d (L "theta_NO_s") = Some (/ 2)%R ->
    exists x, mapM (sev d) (y_free y) = Ok [x] /\ x = (/ 4)%R.
Proof. exact cp_symbols. Qed.

(** Looking up a symbol. *)
Theorem C30_symbol_lookup : forall s y data k name, prepared s -> symbolic s y data ->
  (nth_error (l_gas (s_lists s)) k = Some name ->
     exists e, nth_error (y_p y) k = Some e /\ extract s y name (L "pressure") = Ok e) /\
  (nth_error (l_liq (s_lists s)) k = Some name ->
     exists e, nth_error (y_c y) k = Some e /\ extract s y name (L "concentration") = Ok e) /\
  (nth_error (ads s) k = Some name ->
     exists e, nth_error (y_ads y) k = Some e /\ extract s y name (L "ads_cvg") = Ok e) /\
  (nth_error (sites s) k = Some name ->
     exists e, nth_error (y_free y) k = Some e /\ extract s y name (L "free_site_cvg") = Ok e).
Proof. exact extract_found. Qed.
Print Assumptions C30_symbol_lookup.

Theorem C30_lookup_refusals : forall s y name t,
  (~ In t [L "pressure"; L "concentration"; L "ads_cvg"; L "free_site_cvg"] -> extract s y name t = Err ValueError) /\
  (~ In name (l_gas (s_lists s)) -> extract s y name (L "pressure") = Err ParameterError) /\
  (~ In name (l_liq (s_lists s)) -> extract s y name (L "concentration") = Err ParameterError) /\
  (~ In name (ads s) -> extract s y name (L "ads_cvg") = Err ParameterError) /\
  (~ In name (sites s) -> extract s y name (L "free_site_cvg") = Err ParameterError).
Proof. exact extract_refusals. Qed.
Print Assumptions C30_lookup_refusals.

(** Rate constants: transition state theory, whatever the solver is set to. *)
Theorem C30_rate_constants : forall s y data T r cvgs, evaluable s y data T r cvgs ->
  rate_constants_by_sym s y T r (Some data)
  = Ok (map (tst T) (r_Gaf r), map (fun p => tst T (fst p - snd p)) (combine (r_Gaf r) (r_dG r))).
Proof. exact ev_constants. Qed.
Print Assumptions C30_rate_constants.

Theorem C30_rate_constants_agree : forall ec s o y data r, usable_setup s -> NoDup (s_exprs s) ->
  o_rxns o = s_exprs s -> l_liq (s_lists s) = [] -> (0 < o_T o)%R ->
  entries r (length (s_exprs s)) -> consistent r -> symbolic s y data ->
  rate_constants ec o (L "TST") (Some r) None = rate_constants_by_sym s y (o_T o) r (Some data).
Proof. exact constants_agree. Qed.
Print Assumptions C30_rate_constants_agree.

Theorem C30_collision_refuted : exists ec s o y data r kf kr kf' kr',
  usable_setup s /\ NoDup (s_exprs s) /\ o_rxns o = s_exprs s /\ l_liq (s_lists s) = [] /\ (0 < o_T o)%R /\
  entries r (length (s_exprs s)) /\ consistent r /\ symbolic s y data /\
  rate_constants ec o (L "CT") (Some r) None = Ok (kf, kr) /\
  rate_constants_by_sym s y (o_T o) r (Some data) = Ok (kf', kr') /\ kf <> kf'.
Proof. exact collision_differs. Qed.
Print Assumptions C30_collision_refuted.

Example C30_agree_example : usable_setup cp_setup /\ NoDup (s_exprs cp_setup) /\ l_liq (s_lists cp_setup) = [] /\
  entries cp_energies (length (s_exprs cp_setup)) /\ consistent cp_energies.
Proof. exact (conj cp_usable (conj cp_nodup (conj eq_refl cp_entries))). Qed.

(** Equilibrium constants. *)
Theorem C30_equilibrium : forall s y data T r c d, prepared s -> symbolic s y data -> l_liq (s_lists s) = [] -> (0 < T)%R ->
  energies_ready s r -> (forall x, c = Some x -> length x = length (ads s)) ->
  subs_dict s y T r (Some data) c = Ok d ->
  mapM (sev d) (equilibrium_syms y) = Ok (map (fun g => exp (- g / kT T)) (r_dG r)).
Proof. exact equilibrium_main. Qed.
Print Assumptions C30_equilibrium.

(** Rates, net rates and turnover frequencies are those of the numeric methods with the same
    rate constants. *)
Theorem C30_rates : forall s y data T r cvgs, evaluable s y data T r cvgs -> exists rfs rrs,
  rates_by_sym s y T r (Some data) cvgs = Ok (rfs, rrs) /\ length rfs = length (s_exprs s) /\ length rrs = length (s_exprs s) /\
  rates s (rate_constants_by_sym s y T r (Some data)) (Some data) cvgs = Ok (rfs, rrs).
Proof. exact ev_rates. Qed.
Print Assumptions C30_rates.

Theorem C30_net_rates : forall s y data T r cvgs, evaluable s y data T r cvgs -> exists nets,
  net_rates_by_sym s y T r (Some data) cvgs = Ok nets /\ length nets = length (s_exprs s) /\
  net_rates s (rate_constants_by_sym s y T r (Some data)) (Some data) cvgs = Ok nets.
Proof. exact ev_net. Qed.
Print Assumptions C30_net_rates.

Theorem C30_tofs : forall s y data T r cvgs, evaluable s y data T r cvgs -> exists l,
  tof_by_sym s y T r (Some data) cvgs = Ok l /\
  tofs s (rate_constants_by_sym s y T r (Some data)) (Some data) cvgs = Ok l.
Proof. exact ev_tof. Qed.
Print Assumptions C30_tofs.

(** The steady-state function: both ways agree as long as no adsorbate carries a number. *)
Theorem C30_steady_partial : forall s y data T r cvgs, evaluable s y data T r cvgs -> single s -> exists F,
  steady_state_by_sym s y T r (Some data) cvgs = Ok F /\
  steady_state_function s (rate_constants_by_sym s y T r (Some data)) (Some data) cvgs = Ok F.
Proof. exact ev_single. Qed.
Print Assumptions C30_steady_partial.

Example C30_example : exists y data, evaluable cp_setup y data 300 cp_energies [/ 4; / 2]%R /\ single cp_setup /\
  length (ads cp_setup) = 2.
Proof. exact cp_evaluable. Qed.

(** In general the symbolic way counts an adsorbate once. *)
Theorem C30_steady_counts : forall s y data T r cvgs, evaluable s y data T r cvgs -> exists F rfs rrs,
  steady_state_by_sym s y T r (Some data) cvgs = Ok F /\ length F = length (ads s) /\
  rates_by_sym s y T r (Some data) cvgs = Ok (rfs, rrs) /\
  forall i name x, nth_error (ads s) i = Some name -> nth_error F i = Some x ->
  exists cs, length cs = length (s_exprs s) /\ x = Rsum cs /\
    forall j fls rf rr c, nth_error (l_rxns (s_lists s)) j = Some fls ->
      nth_error rfs j = Some rf -> nth_error rrs j = Some rr -> nth_error cs j = Some c ->
      bare_change name fls rf rr c.
Proof. exact ev_steady. Qed.
Print Assumptions C30_steady_counts.

Theorem C30_steady_refuted : exists s y data T r cvgs F F', evaluable s y data T r cvgs /\
  steady_state_by_sym s y T r (Some data) cvgs = Ok F /\
  steady_state_function s (rate_constants_by_sym s y T r (Some data)) (Some data) cvgs = Ok F' /\ F <> F'.
Proof. exact ox_steady_differs. Qed.
Print Assumptions C30_steady_refuted.

(** The analytical Jacobian is the derivative of the symbolic steady-state function; it exists for
    two adsorbates only. *)
Theorem C30_jacobian_partial : forall s y data T r cvgs, evaluable s y data T r cvgs -> length (ads s) = 2 ->
  exists J, jacobian_by_sym s y T r (Some data) cvgs = Ok J /\ length J = 2 /\ (forall row, In row J -> length row = 2) /\
    forall i j row x, nth_error J i = Some row -> nth_error row j = Some x ->
    exists G, (forall t, exists l, steady_state_by_sym s y T r (Some data) (moved cvgs j t) = Ok l /\ nth_error l i = Some (G t)) /\
      forall c, nth_error cvgs j = Some c -> derivable_pt_lim G c x.
Proof. exact ev_jacobian. Qed.
Print Assumptions C30_jacobian_partial.

Theorem C30_jacobian_size : forall s y data T r cvgs, evaluable s y data T r cvgs -> length (ads s) <> 2 ->
  jacobian_by_sym s y T r (Some data) cvgs = Err IndexError.
Proof. exact ev_jacobian_size. Qed.
Print Assumptions C30_jacobian_size.

Theorem C30_jacobian_refuted : exists s y data T r cvgs, evaluable s y data T r cvgs /\ single s /\
  jacobian_by_sym s y T r (Some data) cvgs = Err IndexError.
Proof. exact jacobian_one_fails. Qed.
Print Assumptions C30_jacobian_refuted.

(** Liquids, and missing data. *)
Theorem C30_constants_refusals : forall s y data T r, prepared s -> symbolic s y data ->
  (l_liq (s_lists s) <> [] -> rate_constants_by_sym s y T r (Some data) = Err KeyError) /\
  (l_gas (s_lists s) <> [] \/ l_liq (s_lists s) <> [] -> rate_constants_by_sym s y T r None = Err AttributeError).
Proof. exact constants_refusals. Qed.
Print Assumptions C30_constants_refusals.

Theorem C30_rates_refusals : forall s y data T r cvgs l, prepared s -> symbolic s y data -> rate_syms s y = Ok l ->
  (l_liq (s_lists s) <> [] -> rates_by_sym s y T r (Some data) cvgs = Err KeyError /\
     net_rates_by_sym s y T r (Some data) cvgs = Err KeyError /\ tof_by_sym s y T r (Some data) cvgs = Err KeyError) /\
  (l_gas (s_lists s) <> [] \/ l_liq (s_lists s) <> [] -> rates_by_sym s y T r None cvgs = Err AttributeError /\
     net_rates_by_sym s y T r None cvgs = Err AttributeError /\ tof_by_sym s y T r None cvgs = Err AttributeError).
Proof. exact rates_refusals. Qed.
Print Assumptions C30_rates_refusals.

Theorem C30_steady_refusals : forall s y data T r cvgs l, prepared s -> symbolic s y data -> dtheta_syms s y false = Ok l ->
  (l_liq (s_lists s) <> [] -> steady_state_by_sym s y T r (Some data) cvgs = Err KeyError) /\
  (l_gas (s_lists s) <> [] \/ l_liq (s_lists s) <> [] -> steady_state_by_sym s y T r None cvgs = Err AttributeError).
Proof. exact steady_refusals. Qed.
Print Assumptions C30_steady_refusals.

(** An adsorbate in the list that no reaction mentions: there is no system of equations. *)
Theorem C30_unused : forall s y T r data cvgs name, In name (ads s) ->
  (forall e fls fs f, In e (s_exprs s) -> rxn_formula_list e = Ok fls -> In fs fls -> In f fs -> f_species_site f <> name) ->
  forall l, steady_state_by_sym s y T r data cvgs <> Ok l.
Proof. exact unused_fails. Qed.
Print Assumptions C30_unused.

(** When it is the first of the list, the function fails with an AttributeError. *)
Theorem C30_unused_first : forall s y T r data cvgs name rest l d, l_ads (s_lists s) = name :: rest ->
  (forall e fls fs f, In e (s_exprs s) -> rxn_formula_list e = Ok fls -> In fs fls -> In f fs -> f_species_site f <> name) ->
  dtheta_syms s y false = Ok l -> subs_dict s y T r data (Some cvgs) = Ok d ->
  steady_state_by_sym s y T r data cvgs = Err AttributeError.
Proof. exact unused_first. Qed.
Print Assumptions C30_unused_first.

Theorem C30_no_data_needed : forall s y data T r c, prepared s -> symbolic s y data ->
  (l_gas (s_lists s) <> [] \/ l_liq (s_lists s) <> [] -> subs_dict s y T r None c = Err AttributeError) /\
  (l_gas (s_lists s) = [] -> l_liq (s_lists s) = [] -> subs_dict s y T r None c = subs_dict s y T r (Some data) c).
Proof. exact no_data_fails. Qed.
Print Assumptions C30_no_data_needed.

Theorem C30_liquid_refuted : exists s y data T r cvgs F kf kr,
  usable_setup s /\ plain_sites s /\ (0 < T)%R /\ energies_ready s r /\ length cvgs = length (ads s) /\ symbolic s y data /\
  single s /\ l_liq (s_lists s) <> [] /\ steady_state_by_sym s y T r (Some data) cvgs = Err KeyError /\
  length kf = length (s_exprs s) /\ length kr = length (s_exprs s) /\
  steady_state_function s (Ok (kf, kr)) (Some data) cvgs = Ok F.
Proof. exact wet_fails. Qed.
Print Assumptions C30_liquid_refuted.

(** An adsorbate on a site with a star in its name. *)
Theorem C30_star_refuted : exists s y data T r cvgs F kf kr,
  usable_setup s /\ l_liq (s_lists s) = [] /\ (0 < T)%R /\ energies_ready s r /\ length cvgs = length (ads s) /\ symbolic s y data /\
  single s /\ steady_state_by_sym s y T r (Some data) cvgs = Err ParameterError /\
  rates_by_sym s y T r (Some data) cvgs = Err ParameterError /\
  length kf = length (s_exprs s) /\ length kr = length (s_exprs s) /\
  steady_state_function s (Ok (kf, kr)) (Some data) cvgs = Ok F.
Proof. exact star_fails. Qed.
Print Assumptions C30_star_refuted.

(** Unknown names, and the logging switch. *)
Theorem C30_dtheta_refusals : forall s y name e,
  (~ In name (ads s) -> elementary_dtheta_sym s y name e = Err ParameterError) /\
  (In name (ads s) -> ~ In e (s_exprs s) -> elementary_dtheta_sym s y name e = Err ParameterError) /\
  (~ In e (s_exprs s) -> elementary_rate_sym s y e = Err ValueError) /\
  (forall l, dtheta_syms s y false = Ok l -> dtheta_syms s y true = Err AttributeError).
Proof. exact dtheta_refusals. Qed.
Print Assumptions C30_dtheta_refusals.

(** An expression without quotients has a value exactly if all its symbols do; otherwise there is
    a TypeError. *)
Theorem C30_missing_symbol : forall d e, no_quotient e ->
  ((exists x, sev d e = Ok x) <-> forall n, mentions n e -> dget d n <> None) /\
  (sev d e = Err TypeError <-> exists n, mentions n e /\ dget d n = None).
Proof. exact missing_symbol. Qed.
Print Assumptions C30_missing_symbol.

Example C30_missing_example : no_quotient (SMul (SSym (L "a")) (SExp (SSym (L "b")))) /\
  sev [(L "a", 0%R)] (SMul (SSym (L "a")) (SExp (SSym (L "b")))) = Err TypeError.
Proof. repeat split. Qed.

(** The TeX lines of the rates. *)
Theorem C30_latex : forall latex s y rf rr, rate_syms s y = Ok (rf, rr) ->
  log_rates latex s y = Ok (
    concat (map (fun p => L "r_{f" ++ dec (N.of_nat (fst p)) ++ L "^{+}}" ++ L " = " ++ latex (snd p) ++ L "\\" ++ newline)
                (combine (seq 1 (length rf)) rf)) ++ newline ++
    concat (map (fun p => L "r_{r" ++ dec (N.of_nat (fst p)) ++ L "^{-}}" ++ L " = " ++ latex (snd p) ++ L "\\" ++ newline)
                (combine (seq 1 (length rr)) rr)) ++ newline).
Proof. exact log_rates_text. Qed.
Print Assumptions C30_latex.
