{
 "claims": [
  {
   "property": "C01",
   "status": "proved",
   "theorems": [
    "C01_formula_roundtrip"
   ],
   "note": "Reading back a written formula, for all numbers, species names and site names."
  },
  {
   "property": "C02",
   "status": "proved",
   "theorems": [
    "C02_formula_accepted_iff_site_marker"
   ],
   "note": "Acceptance is equivalent to the presence of a site marker; every other text raises ChemFormulaError."
  },
  {
   "property": "C03",
   "status": "proved",
   "theorems": [
    "C03_reaction_two_states",
    "C03_reaction_three_states",
    "C03_no_arrow_error",
    "C03_four_states_refuted"
   ],
   "note": "Two and three states, any arrows and blanks; only a text without arrow fails. C03_four_states_refuted records that a fourth state is dropped silently (outside the property's scope)."
  },
  {
   "property": "C04",
   "status": "proved",
   "theorems": [
    "C04_revert_involution",
    "C04_revert_error"
   ],
   "note": "Exact text of the reverse, its states, and the involution."
  },
  {
   "property": "C05",
   "status": "proved",
   "theorems": [
    "C05_conservation_check_exact",
    "C05_accepted_is_balanced",
    "C05_check_outcomes",
    "C05_formula_conserve_iff",
    "C05_state_conserve_exact",
    "C05_one_sided_refuted"
   ],
   "note": "Exact characterisation for every readable reaction, all error outcomes. C05_one_sided_refuted records that an equation with one side is accepted without being read."
  },
  {
   "property": "C06",
   "status": "proved",
   "theorems": [
    "C06_check_reversal",
    "C06_check_permutation"
   ],
   "note": "Reversal, and permutation of the formulas of each state of a written reaction."
  },
  {
   "property": "C07",
   "status": "proved",
   "theorems": [
    "C07_element_totals",
    "C07_formula_elements",
    "C07_site_totals"
   ],
   "note": "Totals of elements (formula and state) and of sites."
  },
  {
   "property": "C08",
   "status": "partial",
   "theorems": [
    "C08_species_table_refuted",
    "C08_species_table_partial",
    "C08_species_table_last",
    "C08_species_list"
   ],
   "note": "False in general (witness CO_s + 2CO_s); true when no species is listed twice; the table shows the last occurrence."
  },
  {
   "property": "C09",
   "status": "proved",
   "theorems": [
    "C09_gas_lists",
    "C09_gas_lists_mirror",
    "C09_formula_type"
   ],
   "note": "Gas lists, mirror under reversal, and the classification of formula types."
  },
  {
   "property": "C10",
   "status": "proved",
   "theorems": [
    "C10_lists_exact",
    "C10_lists_disjoint",
    "C10_order_independent",
    "C10_all_or_nothing",
    "C10_error_comes_from_a_reaction"
   ],
   "note": "Exact contents, order, disjointness, permutation invariance, success iff every reaction is balanced and readable."
  },
  {
   "property": "C11",
   "status": "proved",
   "theorems": [
    "C11_matrices_net_consumption",
    "C11_reversal_negates"
   ],
   "note": "All rows and columns of both matrices; reversal negates the row."
  },
  {
   "property": "C12",
   "status": "proved",
   "theorems": [
    "C12_rows_conserve",
    "C12_double_site_refuted"
   ],
   "note": "For rows whose end states have only tabulated species (empty sites written one at a time). C12_double_site_refuted shows the restriction is needed: *_2s has no column."
  },
  {
   "property": "C13",
   "status": "proved",
   "theorems": [
    "C13_returned_equation_checked",
    "C13_returned_equation_balanced",
    "C13_outcome",
    "C13_too_few_coefficients",
    "C13_one_sided_rejected"
   ],
   "note": "For arbitrary coefficients: exact outcome in every case (too few, one-sided, unbalanced, balanced)."
  },
  {
   "property": "C14",
   "status": "partial",
   "theorems": [
    "C14_expansion",
    "C14_outcomes",
    "C14_rejection_partial",
    "C14_unclosed_refuted",
    "C14_acceptance",
    "C14_mass_unclosed",
    "C14_mass"
   ],
   "note": "Expansion and mass for every molecule text; acceptance is exact for all texts (C14_acceptance: a text with unclosed parentheses is read as one definite closed text). The claim that unclosed parentheses are rejected is false (witness \"(CO\" is read as [C])."
  },
  {
   "property": "C15",
   "status": "proved",
   "theorems": [
    "C15_two_states",
    "C15_three_states",
    "C15_consistent",
    "C15_missing_species",
    "C15_lists",
    "C15_lists_error",
    "C15_without_energies",
    "C15_double_site_refuted"
   ],
   "note": "Exact values of both barriers and the reaction energy for two- and three-state reactions, error for unknown species, whole lists. C15_double_site_refuted records a fact outside the claim: '*_2s' takes the energy of '*_2s' looked up as one site name."
  },
  {
   "property": "C16",
   "status": "proved",
   "theorems": [
    "C16_reversal",
    "C16_reversal_error"
   ],
   "note": "Reverting a reaction swaps the barriers and negates the reaction energy; errors coincide."
  },
  {
   "property": "C17",
   "status": "proved",
   "theorems": [
    "C17_completion",
    "C17_rejection"
   ],
   "note": "Completion of Ga/dG data and every rejection."
  },
  {
   "property": "C18",
   "status": "partial",
   "theorems": [
    "C18_priority",
    "C18_relative_error_stores_nothing",
    "C18_absolute_no_data",
    "C18_absolute_outcome",
    "C18_absolute_error_stores_refuted"
   ],
   "note": "Priority proved; false that a failing absolute-energy file leaves nothing stored (C18_absolute_error_stores_refuted)."
  },
  {
   "property": "C19",
   "status": "proved",
   "theorems": [
    "C19_value",
    "C19_positive_decreasing",
    "C19_barrier_inverse",
    "C19_rate_inverse",
    "C19_errors"
   ],
   "note": "Value, positivity, strict monotonicity, both inverses, error cases."
  },
  {
   "property": "C20",
   "status": "proved",
   "theorems": [
    "C20_detailed_balance",
    "C20_absolute_energies",
    "C20_relative_energies",
    "C20_unknown"
   ],
   "note": "For explicit energies and for the outcome of both energy parsers."
  },
  {
   "property": "C21",
   "status": "proved",
   "theorems": [
    "C21_value",
    "C21_nonnegative",
    "C21_proportional",
    "C21_rejected",
    "C21_unphysical",
    "C21_adsorption",
    "C21_desorption",
    "C21_surface",
    "C21_gas_and_pressure",
    "C21_setup_checks"
   ],
   "note": "Value and scaling of the collision rate, adsorption, desorption and surface branches for any entropy correction, cap kT/h, rejections."
  },
  {
   "property": "C22",
   "status": "proved",
   "theorems": [
    "C22_corrected",
    "C22_consistent",
    "C22_no_transition_state",
    "C22_failure",
    "C22_unknown_method"
   ],
   "note": "For both methods through correct_relative_energies, with failure and unknown-method behaviour."
  },
  {
   "property": "C23",
   "status": "partial",
   "theorems": [
    "C23_stoichiometry_partial",
    "C23_entropy_ignores_number",
    "C23_shomate_drops_numbered",
    "C23_entropy_refuted",
    "C23_shomate_refuted"
   ],
   "note": "Proved for gases written without number; refuted with a number for both methods."
  },
  {
   "property": "C24",
   "status": "partial",
   "theorems": [
    "C24_pressure_partial",
    "C24_unknown_text",
    "C24_pressure_refuted"
   ],
   "note": "Proved for gases written without number; with a number the lookup uses the text including the number and raises KeyError."
  },
  {
   "property": "C25",
   "status": "proved",
   "theorems": [
    "C25_two_views",
    "C25_one_site_each",
    "C25_table_rebuilt",
    "C25_short_vector"
   ],
   "note": "classify, tuple2dict and dict2tuple for every prepared setup: round trip both ways, keys, totals per site, exactly one site per adsorbate, short vectors fail with IndexError."
  },
  {
   "property": "C26",
   "status": "proved",
   "theorems": [
    "C26_physical",
    "C26_physical_left_alone",
    "C26_idempotent",
    "C26_exact"
   ],
   "note": "Site totals must not be negative. Feasible result, idempotence, feasible input unchanged, and the exact value in terms of Rmin/Rmax and one scale factor per site."
  },
  {
   "property": "C27",
   "status": "proved",
   "theorems": [
    "C27_mass_action",
    "C27_mass_action_first_copy",
    "C27_written_twice_refuted",
    "C27_rate_constants_TST",
    "C27_rate_constants_each",
    "C27_rate_constants_rejected",
    "C27_net_rates",
    "C27_reversibilities",
    "C27_reversibilities_errors"
   ],
   "note": "The generated text is lexed, parsed and evaluated by a model of that part of Python. Needs distinct reaction texts; C27_mass_action_first_copy covers repeated texts (first copy's constants), C27_written_twice_refuted records that case. States whose surface species have no column (transition states or '*_2s' in end states) are excluded by usable_setup."
  },
  {
   "property": "C28",
   "status": "partial",
   "theorems": [
    "C28_net_production_partial",
    "C28_counted_by_first_formula",
    "C28_both_sides_refuted"
   ],
   "note": "True when the adsorbate occurs at most once in the end states of each reaction; refuted when it occurs on both sides; C28_counted_by_first_formula gives the exact value in all cases."
  },
  {
   "property": "C29",
   "status": "partial",
   "theorems": [
    "C29_jacobian_exact",
    "C29_jacobian_partial",
    "C29_jacobian_refuted",
    "C29_repeated_species_refuted",
    "C29_wrong_length_rejected",
    "C29_no_data",
    "C29_unknown_adsorbate",
    "C29_leading_coverage"
   ],
   "note": "Proved for every mechanism in which every surface species is written once per state (1-9 molecules): an entry is the derivative minus twice an explicit sum over the subtracted rates that depend on both the column adsorbate and its free site (C29_jacobian_exact), hence the derivative itself where there is none (C29_jacobian_partial). Refuted for such subtracted rates (lost parentheses) and for species written twice. Also missing data, unknown adsorbates, terms that begin with the coverage."
  },
  {
   "property": "C30",
   "status": "partial",
   "theorems": [
    "C30_symbols",
    "C30_symbol_lookup",
    "C30_lookup_refusals",
    "C30_rate_constants",
    "C30_rate_constants_agree",
    "C30_collision_refuted",
    "C30_equilibrium",
    "C30_rates",
    "C30_net_rates",
    "C30_tofs",
    "C30_steady_partial",
    "C30_steady_counts",
    "C30_steady_refuted",
    "C30_jacobian_partial",
    "C30_jacobian_size",
    "C30_jacobian_refuted",
    "C30_constants_refusals",
    "C30_rates_refusals",
    "C30_steady_refusals",
    "C30_unused",
    "C30_unused_first",
    "C30_no_data_needed",
    "C30_liquid_refuted",
    "C30_star_refuted",
    "C30_dtheta_refusals",
    "C30_missing_symbol",
    "C30_latex"
   ],
   "note": "Rates, net rates, turnover frequencies: both ways agree (whenever the symbolic way applies: gases and adsorbates, sites without a star). The steady-state function agrees when no adsorbate occurs with a number above one; refuted in general (C30_steady_refuted), and the symbolic way fails with liquids (KeyError), starred site names (ParameterError) and ignores collision theory. The symbolic Jacobian is the derivative of the symbolic function for two adsorbates and raises IndexError for any other number."
  },
  {
   "property": "C31",
   "status": "proved",
   "theorems": [
    "C31_turnover_is_net_production",
    "C31_atoms_conserved",
    "C31_steady_state_balanced",
    "C31_unknown_gas"
   ],
   "note": "Turnover as net production holds for all usable setups. Element balance needs adsorbates that are counted right (plain_in, see C28)."
  },
  {
   "property": "C32",
   "status": "proved",
   "theorems": [
    "C32_norms_decrease",
    "C32_steps",
    "C32_stale_value_refuted"
   ],
   "note": "C32_stale_value_refuted records something outside the statement: the function value (not the norm) reported with a repeated point may be that of the last rejected point."
  },
  {
   "property": "C33",
   "status": "proved",
   "theorems": [
    "C33_own_residual",
    "C33_steps",
    "C33_end",
    "C33_singular",
    "C33_feasible"
   ],
   "note": "For every function, Jacobian, solver, line search and constraint. C33_feasible: with the solver's own constraint the items are physical from the sixth on."
  },
  {
   "property": "C34",
   "status": "proved",
   "theorems": [
    "C34_converged",
    "C34_source",
    "C34_complete",
    "C34_no_error_known",
    "C34_no_adsorbates"
   ],
   "note": "For every root finder, hybrid method, plugin list and number of rounds. The residual is of the function the search was called with."
  },
  {
   "property": "C35",
   "status": "partial",
   "theorems": [
    "C35_negative_refuted",
    "C35_overfilled_refuted",
    "C35_non_negative_partial",
    "C35_physical_partial",
    "C35_feasible_partial"
   ],
   "note": "Refuted: a hybrid method's guess that happens to be within the tolerance is returned even if negative, and a root in the first five steps may over-fill a site (shown with the solver's rate equations of dissociative adsorption). Proved: non-negative if the hybrid guesses are; physical if in addition the root is found after the fifth constrained step, or if the root finder's items are physical."
  },
  {
   "property": "C36",
   "status": "proved",
   "theorems": [
    "C36_definition_check",
    "C36_generation",
    "C36_number_of_processes",
    "C36_invalid_rejected",
    "C36_other_errors_refuted"
   ],
   "note": "Exact characterisation of the check, of generation and of SetupError. C36_other_errors_refuted records two unusable inputs that raise other errors (list mixed with tuple, unknown rate algorithm)."
  },
  {
   "property": "C37",
   "status": "partial",
   "theorems": [
    "C37_mapping_aligned_partial",
    "C37_generated_once",
    "C37_failed_attempt",
    "C37_refuted"
   ],
   "note": "Proved for a new solver when no redistribution process is slow. Refuted otherwise: slow redistribution, retry after a failure, second call of get_processes."
  },
  {
   "property": "C38",
   "status": "partial",
   "theorems": [
    "C38_agreement_partial",
    "C38_incomplete_cell",
    "C38_no_cell",
    "C38_refuted"
   ],
   "note": "Agreement proved for lattices of whole cells and possible types without repetition, for any number type. Other lattices: the Python version ignores the points of an incomplete last cell, the C++ version does not (C38_incomplete_cell, C38_refuted); no ratios or too few points (C38_no_cell); repeated types (C38_refuted)."
  },
  {
   "property": "C39",
   "status": "proved",
   "theorems": [
    "C39_collected_fractions",
    "C39_recorded_fractions",
    "C39_recorded_bounds",
    "C39_recorded_values",
    "C39_no_empty_type"
   ],
   "note": "Values, bounds, sum and the column of the empty type, for every lattice and ratio vector."
  },
  {
   "property": "C40",
   "status": "partial",
   "theorems": [
    "C40_recorded_partial",
    "C40_types_refuted",
    "C40_empty_flush_refuted",
    "C40_other_ranks",
    "C40_new_files"
   ],
   "note": "Proved: all steps, times and coverages once and in order for every buffer size, when the text of the types is left out and something is left in the buffer at the end. Refuted as stated: the types are written in doubled quotes, so the file is never executable (C40_types_refuted), and a final flush of an empty buffer makes it fail too (C40_empty_flush_refuted)."
  },
  {
   "property": "C41",
   "status": "proved",
   "theorems": [
    "C41_frequencies",
    "C41_intervals",
    "C41_total",
    "C41_failures",
    "C41_other_ranks"
   ],
   "note": "For every history and buffer size; events after the last cut are not in the file (C41_intervals says which). Exact rationals."
  },
  {
   "property": "C42",
   "status": "partial",
   "theorems": [
    "C42_counts",
    "C42_each_step_once",
    "C42_no_steady_time",
    "C42_refuted"
   ],
   "note": "Proved for runs with steady time; otherwise the run ends with ZeroDivisionError and nothing is written (C42_no_steady_time, C42_refuted)."
  },
  {
   "property": "C43",
   "status": "partial",
   "theorems": [
    "C43_split_then_merge_partial",
    "C43_lossless_iff_divides",
    "C43_piece",
    "C43_few_elements_rejected",
    "C43_no_ranks",
    "C43_refuted"
   ],
   "note": "Exactly the first P*(n/P) elements survive; lossless iff P divides the length; refuted otherwise."
  },
  {
   "property": "C44",
   "status": "proved",
   "theorems": [
    "C44_exact_and_balanced",
    "C44_chunk_of_rank"
   ],
   "note": "Sizes sum to the total, differ by at most one; each rank's size given exactly."
  },
  {
   "property": "C45",
   "status": "partial",
   "theorems": [
    "C45_read_back_partial",
    "C45_integers",
    "C45_in_a_file",
    "C45_zero_columns_rejected",
    "C45_quotes_refuted"
   ],
   "note": "All lists of numbers, plain texts and nested lists/tuples, every non-zero column count. Refuted for texts with quotes."
  },
  {
   "property": "C46",
   "status": "partial",
   "theorems": [
    "C46_single_write",
    "C46_read_after_write",
    "C46_copy_after_write",
    "C46_read_default",
    "C46_used_refused",
    "C46_wrong_kind",
    "C46_outcome",
    "C46_value_refuted",
    "C46_component_refuted",
    "C46_documented",
    "C46_documented_all"
   ],
   "note": "All parts proved for every history over any number of objects. Exceptions, recorded as refuted theorems: a mutable value can be changed in place through the object a read returns, and component attributes can be written twice."
  },
  {
   "property": "C47",
   "status": "partial",
   "theorems": [
    "C47_shared_refuted",
    "C47_register",
    "C47_change",
    "C47_own_list_partial"
   ],
   "note": "Refuted: the default list is shared by all models. Exact effect of a registration proved; proved for models that were given a list of their own."
  },
  {
   "property": "C48",
   "status": "partial",
   "theorems": [
    "C48_exact",
    "C48_transparent_partial",
    "C48_rate_constants_partial",
    "C48_method",
    "C48_method_refusals",
    "C48_temperature_refuted",
    "C48_no_argument_refuted",
    "C48_bound_method_refuted",
    "C48_derivation_refuted"
   ],
   "note": "Exact: a cached method returns the value of the first call with an equal key. Transparent if the method depends only on object and arguments. Refuted: the key holds neither temperature nor other state of the model; calls without arguments share one entry; a method looked up on another object runs with the first one."
  },
  {
   "property": "C49",
   "status": "partial",
   "theorems": [
    "C49_file",
    "C49_kept",
    "C49_read_partial",
    "C49_ranks",
    "C49_crash",
    "C49_crash_refuted",
    "C49_two_tools_refuted",
    "C49_restart_refuted",
    "C49_stuck"
   ],
   "note": "Exact content of the file after any history, and read back for one tool per file. Refuted: a crash in a call leaves an unreadable file; two tools with one file overwrite each other; a restart loses names of the earlier process."
  },
  {
   "property": "C50",
   "status": "partial",
   "theorems": [
    "C50_add",
    "C50_apart",
    "C50_self",
    "C50_nothing",
    "C50_new",
    "C50_append",
    "C50_equal_lengths_partial",
    "C50_equal_lengths_refuted",
    "C50_extend",
    "C50_extend_only",
    "C50_extend_stops",
    "C50_move",
    "C50_move_arguments",
    "C50_move_lengths",
    "C50_move_add",
    "C50_move_check_refuted",
    "C50_move_empty_refuted",
    "C50_duplicates_refuted"
   ],
   "note": "Adding, moving, appending, extending and the constructor exactly. Refuted: equal lengths after a refused append; coinciding positions inside the second group are all kept; move accepts lists of other lengths and refuses the empty group."
  },
  {
   "property": "C51",
   "status": "partial",
   "theorems": [
    "C51_value",
    "C51_pressure_law_partial",
    "C51_mass_law",
    "C51_not_tabulated",
    "C51_gases",
    "C51_zero_pressure",
    "C51_no_vibrations",
    "C51_defaults",
    "C51_cold_linear",
    "C51_all_temperatures_refuted"
   ],
   "note": "Pressure law and value proved wherever theta/T < 0.3 (or nonlinear); refuted below (AttributeError from self.logger), e.g. H2 below 291 K."
  },
  {
   "property": "C52",
   "status": "proved",
   "theorems": [
    "C52_value",
    "C52_derivative",
    "C52_polynomials",
    "C52_below",
    "C52_outside",
    "C52_gases",
    "C52_not_gas"
   ],
   "note": "For all tables; example is the second CO row."
  },
  {
   "property": "C53",
   "status": "partial",
   "theorems": [
    "C53_distribution",
    "C53_errors",
    "C53_physical_partial",
    "C53_scarce_site_refuted"
   ],
   "note": "Distribution proved; site totals are ignored, so the last clause is refuted for totals below 1 and proved for totals of at least 1."
  },
  {
   "property": "C54",
   "status": "proved",
   "theorems": [
    "C54_merge",
    "C54_master_only"
   ],
   "note": "merge_two_dicts and master_only."
  },
  {
   "property": "C55",
   "status": "proved",
   "theorems": [
    "C55_convert_time"
   ],
   "note": "Exact rationals in place of floats."
  },
  {
   "property": "C56",
   "status": "proved",
   "theorems": [
    "C56_dict_read_back"
   ],
   "note": "Plain text keys and number texts."
  },
  {
   "property": "C57",
   "status": "proved",
   "theorems": [
    "C57_probabilities",
    "C57_no_rate",
    "C57_file",
    "C57_flushes",
    "C57_other_ranks"
   ],
   "note": "Probabilities in exact rationals; file content for every buffer size; layout of the tables is an argument."
  },
  {
   "property": "C60",
   "status": "partial",
   "theorems": [
    "C60_no_guess",
    "C60_no_method",
    "C60_rounds",
    "C60_pairs_refuted"
   ],
   "note": "The exact sequence of calls is proved for searches in which nothing divides by zero and plugins do not raise. It is not the expected one in two respects (refuted): finalize is called without setup when a guess is good, and after a restart it gets the number of the next round."
  },
  {
   "property": "C61",
   "status": "proved",
   "theorems": [
    "C61_differences",
    "C61_converges",
    "C61_affine",
    "C61_rejects"
   ],
   "note": "Difference quotients, convergence to the derivative, exactness for affine functions, rejection of other directions."
  },
  {
   "property": "C62",
   "status": "partial",
   "theorems": [
    "C62_one_round_partial",
    "C62_same_guess_refuted",
    "C62_zero_interval_refuted"
   ],
   "note": "Without a hybrid method the search ends in its first round. With one it can run forever, also because of a plugin whose interval is 0."
  },
  {
   "property": "C63",
   "status": "partial",
   "theorems": [
    "C63_construct",
    "C63_unknown_ignored",
    "C63_level_refuted",
    "C63_default_refuted",
    "C63_sympy_refuted",
    "C63_reactions_refuted"
   ],
   "note": "Construction succeeds exactly under the stated conditions; refuted in part: logging levels cannot be in the setup dictionary, species definitions and (with a steady-state solver) reactions cannot be left out although they have defaults, sympy is accepted by the attribute but no steady-state solver can be made with it."
  },
  {
   "property": "C64",
   "status": "partial",
   "theorems": [
    "C64_text",
    "C64_text_among",
    "C64_integer",
    "C64_integer_among",
    "C64_number",
    "C64_dict",
    "C64_types",
    "C64_sequence",
    "C64_species",
    "C64_ref_energies",
    "C64_interval",
    "C64_refusal",
    "C64_refusal_setup",
    "C64_interval_refuted",
    "C64_plugin_refuted",
    "C64_candidates",
    "C64_number_candidates",
    "C64_sequence_candidates",
    "C64_equality",
    "C64_species_refusal",
    "C64_attributes",
    "C64_attributes_every",
    "C64_attributes_all"
   ],
   "note": "Exact characterisation of every check, and of every attribute of the classes by name (C64_attributes, C64_attributes_all). Refuted: intervals that advance, plugin instances."
  },
  {
   "property": "C65",
   "status": "proved",
   "theorems": [
    "C65_class",
    "C65_refusal"
   ],
   "note": "Exact condition and the exceptions."
  },
  {
   "property": "C58",
   "status": "partial",
   "theorems": [
    "C58_start",
    "C58_recorded",
    "C58_every",
    "C58_quiet",
    "C58_ended",
    "C58_end_time",
    "C58_steps",
    "C58_interval_zero",
    "C58_last_refuted",
    "C58_stuck_refuted"
   ],
   "note": "The integrator is an argument. Refuted: the state returned is in the file only if its number is a multiple of the interval; an integrator that stops advancing without raising makes the call endless. C58_interval_zero: with interval 0 the first step raises ZeroDivisionError."
  },
  {
   "property": "C59",
   "status": "partial",
   "theorems": [
    "C59_formula",
    "C59_state",
    "C59_reaction",
    "C59_reaction_error",
    "C59_readable_simple",
    "C59_readable",
    "C59_distinct_refuted"
   ],
   "note": "Texts of formulas, states and reactions exact; C59_readable: what is left of every name, and the names that are left whole. Refuted: the text does not determine the formula or the arrow."
  },
  {
   "property": "C66",
   "status": "partial",
   "theorems": [
    "C66_outcome",
    "C66_refusals",
    "C66_default",
    "C66_default_refuted",
    "C66_mixed_refuted",
    "C66_fsolve",
    "C66_fsolve_refuted",
    "C66_file_ignored",
    "C66_unsolved",
    "C66_results",
    "C66_summary"
   ],
   "note": "C66_outcome characterises every outcome. Refuted parts: defaults in a new directory, fsolve on a fresh solver, mixed results; the file key that is never written is C66_file_ignored."
  },
  {
   "property": "C67",
   "status": "partial",
   "theorems": [
    "C67_values",
    "C67_needs",
    "C67_missing",
    "C67_errors",
    "C67_no_coverages",
    "C67_energies_kept",
    "C67_raised",
    "C67_alias_refuted",
    "C67_stored",
    "C67_repeat_refuted",
    "C67_meaning",
    "C67_limit"
   ],
   "note": "Values, failures, untouched energies, meaning and limit are proved; refuted for shared lists of barriers and for repeated calls."
  },
  {
   "property": "C68",
   "status": "partial",
   "theorems": [
    "C68_absolute_written",
    "C68_absolute_order",
    "C68_absolute_without_reactions",
    "C68_absolute_filled",
    "C68_absolute_unedited",
    "C68_relative_filled",
    "C68_relative_written",
    "C68_relative_unedited",
    "C68_replaced",
    "C68_no_file",
    "C68_other_kind",
    "C68_other_kind_unedited",
    "C68_misspelled",
    "C68_append",
    "C68_two_lines_refuted",
    "C68_two_lines_not_indented_refuted"
   ],
   "note": "True for reactions on one line; C68_two_lines_refuted: an accepted reaction over two lines makes an unreadable file."
  },
  {
   "property": "C69",
   "status": "partial",
   "theorems": [
    "C69_text",
    "C69_sites",
    "C69_configuration",
    "C69_processes",
    "C69_default_sites",
    "C69_stored",
    "C69_names",
    "C69_failed",
    "C69_energies_failed",
    "C69_derived_class",
    "C69_derived_class_refuted",
    "C69_configuration_unchecked_refuted"
   ],
   "note": "Proved: all outcomes of reading each file, order, state after success and failure, default sites. Refuted: derived classes of KMCModel do not show what they read; configuration types are handed to the library unchecked."
  },
  {
   "property": "C70",
   "status": "partial",
   "theorems": [
    "C70_control_parameters",
    "C70_other_attributes",
    "C70_time_seed_refuted",
    "C70_processes_given",
    "C70_no_processes",
    "C70_preparation_failed",
    "C70_parameters_rejected",
    "C70_started",
    "C70_preparation",
    "C70_derived_class",
    "C70_later_runs",
    "C70_script",
    "C70_header_is_comment",
    "C70_script_processes",
    "C70_changed_processes_refuted"
   ],
   "note": "Proved: all stages of a run, what is handed to the main loop, keyword table, scripts. Refuted: time_seed has no effect; processes read again are not used; derived classes cannot be run."
  },
  {
   "property": "C71",
   "status": "partial",
   "theorems": [
    "C71_level",
    "C71_file",
    "C71_console",
    "C71_no_handlers",
    "C71_construction",
    "C71_banner",
    "C71_file_not_opened",
    "C71_quiet",
    "C71_old_level",
    "C71_models_alike",
    "C71_own_file",
    "C71_shared_file_refuted",
    "C71_once_refuted",
    "C71_earlier_model_refuted",
    "C71_lowest_level_refuted",
    "C71_own_console_refuted",
    "C71_worker",
    "C71_second_worker_refuted"
   ],
   "note": "handlers and lines after every history; several expectations refuted, see the _refuted theorems"
  },
  {
   "property": "C72",
   "status": "partial",
   "theorems": [
    "C72_completes",
    "C72_master",
    "C72_fresh_directory_refuted",
    "C72_after_failure",
    "C72_waits_for_ever_refuted"
   ],
   "note": "proved when ./log exists; refuted in a fresh directory"
  },
  {
   "property": "C73",
   "status": "partial",
   "theorems": [
    "C73_set_solver",
    "C73_not_a_solver",
    "C73_last_solver",
    "C73_nothing_else",
    "C73_set_corrector",
    "C73_corrector_refuted",
    "C73_plotter_refuted"
   ],
   "note": "solver proved; corrector and plotter refuted"
  },
  {
   "property": "C74",
   "status": "partial",
   "theorems": [
    "C74_pictures",
    "C74_names",
    "C74_no_energies",
    "C74_documented_argument_refuted",
    "C74_uphill_refuted"
   ],
   "note": "pictures proved for every drawing package; two expectations refuted"
  },
  {
   "property": "C75",
   "status": "partial",
   "theorems": [
    "C75_hybrid",
    "C75_steps",
    "C75_stationary",
    "C75_interval_zero",
    "C75_energies_refuted",
    "C75_modify",
    "C75_modify_steps",
    "C75_modify_refuted",
    "C75_queries",
    "C75_good_guess_refuted",
    "C75_register",
    "C75_decorated_refuted"
   ],
   "note": "Exact relation to the ODE integration of C58; refuted: guesses from the energies of the search, modify_init_guess being new, good_guess, the decorated name."
  },
  {
   "property": "C76",
   "status": "partial",
   "theorems": [
    "C76_construct",
    "C76_sorted",
    "C76_precision",
    "C76_own_precision_refuted",
    "C76_constrained",
    "C76_damped",
    "C76_documented_refuted",
    "C76_iterator"
   ],
   "note": "Exact conditions of construction; precision over all histories; refuted: own precision of a solver, documented keywords and norm of MDNewton."
  },
  {
   "property": "C77",
   "status": "proved",
   "theorems": [
    "C77_cycles_close",
    "C77_constants_close",
    "C77_reference_free",
    "C77_supplied_refuted",
    "C77_one_state_refuted"
   ],
   "note": "Whole_Spec defines produced, dot, reference, rereferenced independently of the parser. C77_cycles_close and C77_constants_close for all weights; C77_reference_free for reactions with at least two states. The two refuted theorems record what lies outside the statement: supplied reaction energies and one-state texts."
  },
  {
   "property": "C78",
   "status": "proved",
   "theorems": [
    "C78_downhill",
    "C78_equilibrium",
    "C78_boltzmann"
   ],
   "note": "Rates over R by the modelled evaluation of the generated rate expressions (C27); NoDup excludes repeated reactions, for which the code uses the constants of the first (C27). C78_boltzmann covers all reference energies per atom and site."
  },
  {
   "property": "C79",
   "status": "partial",
   "theorems": [
    "C79_never_negative",
    "C79_never_overfull",
    "C79_transition_state_refuted",
    "C79_two_sites_refuted"
   ],
   "note": "Proved for adsorbates that are not written as transition states (lower bound) and occupy one site each on one side of each reaction (upper bound); refuted otherwise, with witnesses."
  },
  {
   "property": "C80",
   "status": "partial",
   "theorems": [
    "C80_order",
    "C80_direction",
    "C80_spectator_refuted"
   ],
   "note": "Order: proved without further conditions. Direction: proved when every adsorbate is on one side of each reaction (plain_in for both writings); refuted for spectators."
  },
  {
   "property": "C81",
   "status": "partial",
   "theorems": [
    "C81_turnover_frequencies",
    "C81_gas_rows",
    "C81_liquids_refuted",
    "C81_reversibilities",
    "C81_coverages",
    "C81_rate_control",
    "C81_thermodynamic_rate_control",
    "C81_all_gases",
    "C81_rates",
    "C81_rates_silent",
    "C81_rates_empty",
    "C81_nothing_lost",
    "C81_long_reaction_refuted"
   ],
   "note": "Read back with a column reader for all five indexed tables, the table of gases and intermediates and the table of rates. The text of a number is any function whose values fit the column. Refuted: liquids have no line in the TOF table; values of reactions longer than 70 characters leave their column."
  },
  {
   "property": "C82",
   "status": "proved",
   "theorems": [
    "C82_linear",
    "C82_common_shift",
    "C82_switched_off"
   ],
   "note": "Proved for usable mechanisms without repeated reactions; the common shift for rate constants by transition state theory."
  },
  {
   "property": "C83",
   "status": "proved",
   "theorems": [
    "C83_reaction_order",
    "C83_more_pressure",
    "C83_constants_without_pressure"
   ],
   "note": "Proved for usable mechanisms without repeated reactions; rate constants for both theories as get_rate_constants uses them (without pressure)."
  },
  {
   "property": "C84",
   "status": "partial",
   "theorems": [
    "C84_construct",
    "C84_unknown_ignored",
    "C84_vectors",
    "C84_integer_vectors_refuted",
    "C84_generator_refuted",
    "C84_solver_refuted",
    "C84_documented",
    "C84_documented_all",
    "C84_default_accepted",
    "C84_attributes",
    "C84_attributes_all"
   ],
   "note": "Exact condition for construction of KMCModel (C84_construct), ignored parameters, exact acceptance of vectors, defaults. Refuted in part: equal vectors of integers are refused; the generator RANLUX48 cannot be chosen (candidate list has a misspelt name); the steady-state solver is refused only by its constructor."
  },
  {
   "property": "C85",
   "status": "proved",
   "theorems": [
    "C85_words",
    "C85_expressions",
    "C85_unambiguous",
    "C85_no_expression",
    "C85_no_words",
    "C85_assignments",
    "C85_outside",
    "C85_file_words",
    "C85_values",
    "C85_values_unambiguous",
    "C85_statements",
    "C85_files",
    "C85_unknown_names",
    "C85_only_lists",
    "C85_beside",
    "C85_prefixes",
    "C85_misplaced",
    "C85_open_text",
    "C85_wrong_brace"
   ],
   "note": "Both readers accept exactly the stated grammar and compute exactly the stated meaning (iff theorems); the grammar itself is the part of Python's reference that the package writes."
  },
  {
   "property": "C86",
   "status": "proved",
   "theorems": [
    "C86_classes",
    "C86_strip",
    "C86_join",
    "C86_split",
    "C86_read_integer",
    "C86_write_integer",
    "C86_lookup",
    "C86_assign",
    "C86_dict_equal",
    "C86_sorted",
    "C86_index",
    "C86_element",
    "C86_first",
    "C86_last",
    "C86_repeat",
    "C86_loop"
   ],
   "note": "Exact characterisations of the operations of PyBase.v on which the other claims rest."
  },
  {
   "property": "C87",
   "status": "partial",
   "theorems": [
    "C87_written",
    "C87_lines",
    "C87_intended",
    "C87_only_last",
    "C87_continues_partial",
    "C87_joined",
    "C87_continues_refuted",
    "C87_twice",
    "C87_missing_refuted",
    "C87_no_times",
    "C87_unreadable"
   ],
   "note": "Refuted in general (C87_continues_refuted, C87_missing_refuted, C87_twice); proved exactly when it holds (C87_intended, C87_only_last, C87_continues_partial)."
  },
  {
   "property": "C88",
   "status": "partial",
   "theorems": [
    "C88_read_back",
    "C88_one_meaning",
    "C88_quoting_refuted",
    "C88_jobs",
    "C88_jobs_2d",
    "C88_own_directory_refuted",
    "C88_no_template",
    "C88_no_template_2d",
    "C88_fails",
    "C88_errors",
    "C88_nothing"
   ],
   "note": "Refuted for texts with quotes (C88_quoting_refuted) and for pressures with the same printed text (C88_own_directory_refuted); proved for all other settings and pressures."
  },
  {
   "property": "C89",
   "status": "partial",
   "theorems": [
    "C89_merged_exact",
    "C89_merged_total_partial",
    "C89_merged_total_refuted",
    "C89_merged_CO_refuted",
    "C89_collected_exact",
    "C89_collected_missing",
    "C89_collected_CO_refuted",
    "C89_sorted",
    "C89_table_exact",
    "C89_table_cells_partial",
    "C89_table_labels_refuted",
    "C89_table_errors",
    "C89_places_exact",
    "C89_places_types_partial",
    "C89_places_refuted",
    "C89_not_a_number"
   ],
   "note": "Merged curves, collected coverages, sorting and tables exact. Refuted: coverages of other types are dropped, types beginning with C count as CO, extract_cvgs.py needs a type named C, columns of a table are labelled with the pressures of the last row, O and CO are read by place."
  },
  {
   "property": "C90",
   "status": "partial",
   "theorems": [
    "C90_tofs_exact",
    "C90_map_tofs_exact",
    "C90_tofs_errors",
    "C90_forward_rates_partial",
    "C90_idle_reaction_refuted",
    "C90_sorted",
    "C90_bars_exact",
    "C90_bars_pairs_partial",
    "C90_bars_refuted",
    "C90_production",
    "C90_signs",
    "C90_production_amount_refuted",
    "C90_production_species_refuted",
    "C90_production_consumed_refuted"
   ],
   "note": "Sums over places, bars and signed sums exact; meaning proved when every reaction has both directions. Refuted: an idle reaction changes the sum, a missing direction shifts the bars, the curve of production ignores amounts and consumption and counts other molecules."
  },
  {
   "property": "C91",
   "status": "partial",
   "theorems": [
    "C91_arrays",
    "C91_entries",
    "C91_gray",
    "C91_color",
    "C91_refused",
    "C91_each",
    "C91_replay_partial",
    "C91_smallest",
    "C91_opaque",
    "C91_transparent_refuted",
    "C91_disposed_refuted"
   ],
   "note": "Replay and smallest rectangles are proved for any number of pictures of any shape; pixels that become transparent and disposal 2 are refuted. Pictures of different shapes are not modelled."
  },
  {
   "property": "C92",
   "status": "partial",
   "theorems": [
    "C92_two_bytes",
    "C92_two_bytes_refused",
    "C92_palette",
    "C92_read_back",
    "C92_written_partial",
    "C92_plays",
    "C92_plays_whole",
    "C92_spread",
    "C92_place_none",
    "C92_place_given",
    "C92_transparency",
    "C92_mixed",
    "C92_unopened",
    "C92_no_images",
    "C92_bad_loops",
    "C92_infinite",
    "C92_breaks_off",
    "C92_for_ever_refuted",
    "C92_places_refuted"
   ],
   "note": "The file is read back by an independent reader of the format; the whole plays as the given pictures if PIL loses no colours. Refuted: repeat=True or 0 does not mean for ever, and given places can be lost with dispose=2."
  },
  {
   "property": "C93",
   "status": "partial",
   "theorems": [
    "C93_reported_balance",
    "C93_both_sides_refuted"
   ],
   "note": "Proved for adsorbates that stand on one side of each reaction (hypothesis plain_in) and vectors of the right length; refuted for an adsorbate on both sides (C93_both_sides_refuted), where the rate equation counts only the formula met first."
  },
  {
   "property": "C94",
   "status": "partial",
   "theorems": [
    "C94_dissipation",
    "C94_free_energy_falls",
    "C94_second_law",
    "C94_reported_second_law",
    "C94_supplied_refuted"
   ],
   "note": "Proved for energies from a table of absolute energies with everything present (positive activities) and adsorbates on one side of each reaction; refuted for reaction energies supplied as such (C94_supplied_refuted)."
  },
  {
   "property": "C95",
   "status": "partial",
   "theorems": [
    "C95_mkm_partial",
    "C95_determined",
    "C95_kmc_partial",
    "C95_keywords",
    "C95_search",
    "C95_ode_only_refuted",
    "C95_never_exits",
    "C95_missing_setup_refuted",
    "C95_old_log_refuted",
    "C95_setup_removed_refuted",
    "C95_python3_refuted"
   ],
   "note": "True: exact behaviour of both scripts for every directory, every answer of the methods and clock (C95_mkm_partial, C95_determined, C95_kmc_partial), keywords of run (C95_keywords, C95_search). False: missing setup file is not noticed, OdeOnly is not obeyed, old log is not removed by the KMC script, a setup file auto_*.mkm is removed, the KMC script does not start under Python 3 (refuted theorems)."
  },
  {
   "property": "C96",
   "status": "partial",
   "theorems": [
    "C96_palette_partial",
    "C96_python3_refuted",
    "C96_samples_refuted",
    "C96_no_samples",
    "C96_small",
    "C96_mode",
    "C96_few_colors",
    "C96_schedule_length",
    "C96_schedule_distinct",
    "C96_schedule_refuted",
    "C96_bias_refuted",
    "C96_bias",
    "C96_palette_numbers",
    "C96_convert",
    "C96_quantized",
    "C96_quantized_scipy",
    "C96_writer_refuted",
    "C96_writer_python2",
    "C96_writer_python3"
   ],
   "note": "Proved for Python 2 and pictures with at least 100 samples. Refuted: Python 3 (float >> int), 503 or more pixels being enough, the documented formula of the biases, each pixel at most once for multiples of all four primes, the option nq of the writer."
  },
  {
   "property": "C97",
   "status": "proved",
   "theorems": [
    "C97_approach",
    "C97_langmuir",
    "C97_exactly_one",
    "C97_energies",
    "C97_reported"
   ],
   "note": "The steady-state function, the constants and the search are those of C28, C21 and C34; mechanisms with transition states, several sites and either order of writing are covered; adsorption that dissociates or on several sites at once is not of this kind. C97_reported needs the reported vector to have one entry per adsorbate."
  },
  {
   "property": "C98",
   "status": "partial",
   "theorems": [
    "C98_inside_partial",
    "C98_step",
    "C98_continuous_refuted"
   ],
   "note": "Continuous inside the range of a row (C98_inside_partial); C98_step gives the value and the limit from above at the border of two rows of any table. Refuted for the table of the code: methane at 1300 K steps down by more than one eV (C98_continuous_refuted)."
  },
  {
   "property": "C99",
   "status": "proved",
   "theorems": [
    "C99_stays",
    "C99_feasible",
    "C99_unique",
    "C99_transition_state_leaves",
    "C99_two_sites_leave"
   ],
   "note": "For exact solutions of the rate equations; the errors of the numerical integrator are not part of it. C99_transition_state_leaves and C99_two_sites_leave show that the conditions are needed."
  },
  {
   "property": "C100",
   "status": "partial",
   "theorems": [
    "C100_formula_conserve",
    "C100_state_conserve_partial",
    "C100_state_vouches_others",
    "C100_state_conserve_refuted",
    "C100_add_fails",
    "C100_add_refuted"
   ],
   "note": "Formulas: True exactly for a balancing formula, an error for anything else. States: the same when the other object is a state (C100_state_conserve_partial); refuted for other objects, where the error is returned and counts as true. Adding formulas always raises TypeError (C100_add_fails, C100_add_refuted)."
  },
  {
   "property": "C101",
   "status": "partial",
   "theorems": [
    "C101_low",
    "C101_falls_partial",
    "C101_heat_capacity",
    "C101_growing",
    "C101_falls_refuted"
   ],
   "note": "Bound and fall proved for all 30 rows of the table at all temperatures; across the borders of rows refuted (oxygen at 2000 K rises by more than 0.5 eV, C101_falls_refuted)."
  },
  {
   "property": "C102",
   "status": "partial",
   "theorems": [
    "C102_falls_partial",
    "C102_gases",
    "C102_falls_refuted"
   ],
   "note": "Falls whenever both temperatures use the same rotational formula (C102_falls_partial), in particular from 300 K on for the gases of the tables but H2 and HCl (C102_gases); refuted at the change of formula (CO at 278 K, C102_falls_refuted)."
  },
  {
   "property": "C103",
   "status": "partial",
   "theorems": [
    "C103_standard_partial",
    "C103_zero_partial",
    "C103_meet",
    "C103_step_cause",
    "C103_one_reference",
    "C103_ethanol_refuted"
   ],
   "note": "19 gases agree with standard entropies and heat capacities (C103_standard_partial), all but three count enthalpy from 298.15 K (C103_zero_partial), neighbouring rows meet (C103_meet), the steps of C98 come from the reference (C103_step_cause, C103_one_reference); ethanol is off (C103_ethanol_refuted)."
  },
  {
   "property": "C104",
   "status": "partial",
   "theorems": [
    "C104_read",
    "C104_first_frames_partial",
    "C104_raised",
    "C104_scalar",
    "C104_picture_fails",
    "C104_refused",
    "C104_complete_refuted"
   ],
   "note": "Complete for whole files (C104_read); what is returned is always the first frames up to the end or a frame cut off (C104_first_frames_partial); other exceptions propagate (C104_raised); completeness refuted for a damaged file (C104_complete_refuted)."
  },
  {
   "property": "C105",
   "status": "partial",
   "theorems": [
    "C105_rotors",
    "C105_modes_partial",
    "C105_modes_refuted",
    "C105_zero_point",
    "C105_too_high",
    "C105_temperatures_partial",
    "C105_rotation_refuted",
    "C105_vibrations_only",
    "C105_rotations_only_partial",
    "C105_rotation_of_CS2_refuted",
    "C105_rotation_of_SO2_refuted"
   ],
   "note": "C105_rotors (symmetry numbers, numbers of temperatures), C105_modes_partial is exact: the gases with one temperature per normal mode are those without repeated vibrations; C105_modes_refuted gives CH4; C105_too_high the sign of the effect; C105_zero_point the lowest level, included for one vibration only; C105_temperatures_partial for all gases in both tables but the rotation of CO2 (C105_rotation_refuted); C105_vibrations_only and C105_rotations_only_partial for gases in one table (no correction is computed for those), except the rotations of SO2 and CS2 (C105_rotation_of_SO2_refuted, C105_rotation_of_CS2_refuted). The measured values are rounded and written from memory."
  },
  {
   "property": "C106",
   "status": "proved",
   "theorems": [
    "C106_heating",
    "C106_apparent",
    "C106_attempts",
    "C106_vant_hoff",
    "C106_collisions"
   ],
   "note": "C106_heating and C106_collisions give both sides of the turning point; C106_apparent the derivative; C106_attempts and C106_vant_hoff are equivalences."
  },
  {
   "property": "C107",
   "status": "partial",
   "theorems": [
    "C107_equilibrium_partial",
    "C107_equilibrium_refuted",
    "C107_constants_refuted",
    "C107_transition_state"
   ],
   "note": "C107_equilibrium_partial states the exact condition; refuted where the reverse rate is capped at kT/h (C107_equilibrium_refuted) and for the constants themselves (C107_constants_refuted). Transition state theory: C107_transition_state."
  },
  {
   "property": "C108",
   "status": "partial",
   "theorems": [
    "C108_reversible",
    "C108_detailed_balance_partial",
    "C108_stationary_partial",
    "C108_transition_state",
    "C108_redistribution_refuted",
    "C108_wildcards_refuted"
   ],
   "note": "Reversibility proved for all definitions that are no redistributions and keep wildcards in place; detailed balance given rates in the ratio of weights (characterised for transition state theory). Refuted for redistributions and for elements written over wildcards, which are accepted."
  },
  {
   "property": "C109",
   "status": "partial",
   "theorems": [
    "C109_declared",
    "C109_recorded",
    "C109_conserved_partial",
    "C109_conserved_refuted"
   ],
   "note": "Declared types, number of sites and recorded coverages proved for all simulations; conservation proved for what all definitions conserve, and refuted for what the reactions conserve since definitions are not compared with them."
  },
  {
   "property": "C110",
   "status": "proved",
   "theorems": [
    "C110_expected_rate",
    "C110_elsewhere",
    "C110_same_rates"
   ],
   "note": "The lattice in the mean field (independent sites) is specified in KmcMean_Spec.v; both solvers are the modelled ones. Gases with stoichiometric numbers are excluded by hypothesis (C24 refutes them)."
  },
  {
   "property": "C111",
   "status": "partial",
   "theorems": [
    "C111_adsorption_partial",
    "C111_desorption_partial",
    "C111_first_gas",
    "C111_second_gas_refuted",
    "C111_untabulated",
    "C111_untabulated_refuted"
   ],
   "note": "Proved for the first gas of a reaction, unnumbered and in the tables of the entropy correction, from 300 K on. Refuted for a second gas and for gases missing in the tables."
  },
  {
   "property": "C112",
   "status": "proved",
   "theorems": [
    "C112_drift",
    "C112_same_equations"
   ],
   "note": "Processes declared as redistributions excluded (C108); species occurring on both sides excluded (C28)."
  },
  {
   "property": "C113",
   "status": "proved",
   "theorems": [
    "C113_recorded",
    "C113_no_drift",
    "C113_steady_state"
   ],
   "note": "Averages over the stationary distribution of C108 (KMCLib itself is not modelled; KmcLat_Spec says what its events do). The condition on the rates is the one that C108_transition_state turns into one on the energies."
  },
  {
   "property": "C114",
   "status": "partial",
   "theorems": [
    "C114_isotherm_partial",
    "C114_exactly_one_partial",
    "C114_energies_partial",
    "C114_root",
    "C114_spurious_refuted"
   ],
   "note": "Proved for coverages none of which is negative, the free sites included (an equivalence: isotherm <-> zero and nothing negative), with exactly one such vector, and for constants from energies. Refuted without the condition on the sign: C114_spurious_refuted gives a root with all adsorbates between 0 and 1 but more nitrogen than sites for it, so that the function alone does not single out the isotherm."
  },
  {
   "property": "C115",
   "status": "proved",
   "theorems": [
    "C115_exists",
    "C115_exactly_one",
    "C115_energies",
    "C115_links_needed"
   ],
   "note": "Existence for all constants and pressures >= 0, uniqueness among all vectors and positivity for linked mechanisms with positive ones; a witness shows that the links are needed."
  },
  {
   "property": "C116",
   "status": "proved",
   "theorems": [
    "C116_approach",
    "C116_limit",
    "C116_energies",
    "C116_links_needed"
   ],
   "note": "Proved for exact solutions of the rate equations (solution, Flow_Spec); scipy integrates them approximately, which is not modelled. The links are needed (C116_links_needed)."
  },
  {
   "property": "C117",
   "status": "proved",
   "theorems": [
    "C117_balances",
    "C117_dead_ends",
    "C117_series",
    "C117_no_turnover"
   ],
   "note": "C117_balances is the general relation; C117_dead_ends, C117_series and C117_no_turnover are its consequences for mechanism graphs. The example has a running cycle beside an idle branch, so the dead-end condition is not met by every step."
  },
  {
   "property": "C118",
   "status": "partial",
   "theorems": [
    "C118_changes",
    "C118_rule",
    "C118_computed",
    "C118_limit",
    "C118_tolerance",
    "C118_tolerance_limit",
    "C118_exactly_refuted"
   ],
   "note": "The bound holds for every mechanism of single-site steps and every perturbation: C118_computed over get_single_XRC with searches that end at a steady state, C118_limit the limit of small perturbations, C118_tolerance with searches that end within a tolerance and C118_tolerance_limit its limit, C118_rule and C118_changes below them. Missing: mechanisms with steps between two occupied sites. That the sum is exactly one is refuted for a finite perturbation (C118_exactly_refuted: 7/10)."
  },
  {
   "property": "C119",
   "status": "partial",
   "theorems": [
    "C119_distance",
    "C119_search",
    "C119_length",
    "C119_any_search",
    "C119_rates",
    "C119_agreement",
    "C119_tending",
    "C119_uniform_refuted"
   ],
   "note": "The distance is at most a multiple of the tolerance for every mechanism of single-site steps (C119_distance, C119_search; C119_any_search without a condition on the length of the answer, by C119_length); the same for rates and turnover frequencies at the answer (C119_rates); two searches agree (C119_agreement) and any accuracy can be had for a given mechanism (C119_tending). Refuted: one tolerance for all mechanisms (C119_uniform_refuted, slow steps). Missing: steps between two occupied sites, where there can be several steady states (C114)."
  }
 ]
}