{"id": "C01", "title": "A species formula text is read back as the parts it was written from", "statement": "Writing a stoichiometric number (or none, meaning 1), a species name, a site number (or none, meaning 1) and a site name as `<n><species>_<m><site>` and reading the text as a chemical formula gives exactly n, the species name, m, the site name, and the `<species>_<m><site>` part, for every species name over letters, digits, `_`, `*`, `-` that does not start with a digit and every site name over letters and `*`.", "quantifier": "every stoichiometric number, species name, site number and site name", "why_tests_cant": "the space of names and numbers is infinite and the reader is a backtracking pattern match whose greedy choices interact with digits, dashes and underscores inside the names", "anchors": ["scaks/parsers/rxn_parser.py:ChemFormula.__init__", "scaks/parsers/rxn_parser.py:ChemFormula.__split", "scaks/parsers/rxn_parser.py:ChemFormula.stoichiometry", "scaks/parsers/rxn_parser.py:ChemFormula.species", "scaks/parsers/rxn_parser.py:ChemFormula.site", "scaks/parsers/rxn_parser.py:ChemFormula.nsite", "scaks/parsers/rxn_parser.py:ChemFormula.species_site"]}
{"id": "C02", "title": "Exactly the texts that contain a site marker are accepted as formulas", "statement": "Constructing a chemical formula succeeds if and only if the text contains an underscore followed by any number of digits and then a letter or `*`; every other text raises the formula error. No text makes the constructor fail in another way.", "quantifier": "every text", "why_tests_cant": "acceptance is a search over all start positions of an arbitrary text", "anchors": ["scaks/parsers/rxn_parser.py:ChemFormula.__init__", "scaks/parsers/rxn_parser.py:ChemFormula.__split"]}
{"id": "C03", "title": "A reaction text is read back as the states it was written from", "statement": "Joining two state texts with `->` or `<->`, or three state texts with two such arrows, where each state text is non-blank and contains no `<` or `>`, and reading it as a reaction gives exactly those states in order with surrounding blanks removed.", "quantifier": "every pair or triple of state texts and every choice of arrows and padding", "why_tests_cant": "states may themselves contain dashes (transition states), so the split depends on backtracking over arbitrary text", "anchors": ["scaks/parsers/rxn_parser.py:RxnEquation.__init__", "scaks/parsers/rxn_parser.py:RxnEquation.tolist"]}
{"id": "C04", "title": "Reversing a reaction is an involution and swaps its ends", "statement": "The reverse of a reaction has the same states in opposite order, and reversing twice gives a reaction with the original states, whichever arrows and blanks the original text used.", "quantifier": "every two- and three-state reaction text", "why_tests_cant": "quantifies over all reaction texts", "anchors": ["scaks/parsers/rxn_parser.py:RxnEquation.revert", "scaks/parsers/rxn_parser.py:RxnEquation.tolist"]}
{"id": "C05", "title": "A reaction accepted as balanced really is balanced", "statement": "If the conservation check of a reaction with at least two states succeeds then for every pair of its states, for every chemical element the total number of atoms is equal and for every surface site name (other than gas and liquid) the total number of sites is equal; conversely a readable reaction whose states list the same elements and sites with the same totals is accepted, and every other readable reaction makes the check raise ValueError.", "quantifier": "every reaction text, every pair of states, every element and every site", "why_tests_cant": "all reactions and all elements; soundness is about totals over arbitrarily long states while the code compares dictionaries", "anchors": ["scaks/parsers/rxn_parser.py:RxnEquation.check_conservation", "scaks/parsers/rxn_parser.py:ChemState.conserve", "scaks/parsers/rxn_parser.py:ChemState.get_elements_dict", "scaks/parsers/rxn_parser.py:ChemState.get_sites_dict", "scaks/parsers/rxn_parser.py:ChemFormula.get_elements_dict"]}
{"id": "C06", "title": "Balance does not depend on the writing direction or the order of species", "statement": "A reaction passes the conservation check iff its reverse passes it, and reordering the species inside a state never changes the outcome.", "quantifier": "every reaction and every permutation of the species inside a state", "why_tests_cant": "all permutations of all states", "anchors": ["scaks/parsers/rxn_parser.py:RxnEquation.check_conservation", "scaks/parsers/rxn_parser.py:RxnEquation.revert", "scaks/parsers/rxn_parser.py:ChemState.conserve"]}
{"id": "C07", "title": "Element counts are additive and scale with the stoichiometric number", "statement": "The element totals reported for a state are, for every element, the sum over its formulas of the stoichiometric number times the sum of the multiplicities written after that letter in the species name; an empty site contributes no element.", "quantifier": "every state, every element", "why_tests_cant": "arbitrary numbers of formulas with repeated elements in any position", "anchors": ["scaks/parsers/rxn_parser.py:ChemFormula.get_species_elements_dict", "scaks/parsers/rxn_parser.py:ChemFormula.get_elements_dict", "scaks/parsers/rxn_parser.py:ChemState.get_elements_dict"]}
{"id": "C08", "title": "The species table of a state accounts for every formula in it", "statement": "In the species-to-site table reported for a state, the stoichiometric number shown for a species is the total over all occurrences of the species in that state.", "quantifier": "every state, every species", "why_tests_cant": "needs all states, including those that list a species more than once", "anchors": ["scaks/parsers/rxn_parser.py:ChemState.get_species_site_dict"]}
{"id": "C09", "title": "Gas uptake and release of a reaction mirror each other under reversal", "statement": "The gases a reaction adsorbs are exactly the gas-phase formulas of its first state, those it desorbs exactly the gas-phase formulas of its last state, and the reverse reaction exchanges the two lists.", "quantifier": "every reaction", "why_tests_cant": "all reaction texts", "anchors": ["scaks/parsers/rxn_parser.py:RxnEquation.adsorption_gases", "scaks/parsers/rxn_parser.py:RxnEquation.desorption_gases", "scaks/parsers/rxn_parser.py:ChemFormula.type"]}
{"id": "C10", "title": "Species classification is complete, duplicate-free, sorted and independent of reaction order", "statement": "Parsing a list of reactions yields gas, liquid, adsorbate, transition-state and site name lists that are each strictly increasing; a name is in one of the species lists iff it occurs in some state of some reaction and satisfies that list's rule; no name is in two of the four species lists; permuting the reactions changes none of the lists; and one unbalanced reaction makes the whole call fail.", "quantifier": "every list of reactions", "why_tests_cant": "arbitrary numbers of reactions and species in arbitrary order", "anchors": ["scaks/parsers/parser_base.py:ParserBase.parse_elementary_rxns"]}
{"id": "C11", "title": "The stoichiometry matrices hold the net consumption of every species in every reaction", "statement": "Entry (i, j) of the reactant-product matrix (gas and liquid columns) and of the site matrix (empty-site and adsorbate columns) equals the total stoichiometric number of species j in the first state of reaction i minus its total in the last state; reversing a reaction negates its row.", "quantifier": "every reaction list, every row and column", "why_tests_cant": "matrix sizes and multiplicities are unbounded", "anchors": ["scaks/parsers/parser_base.py:ParserBase.get_stoichiometry_matrices"]}
{"id": "C12", "title": "Matrix rows of accepted reactions conserve elements and sites", "statement": "For every accepted reaction list whose empty sites are written one at a time (`*_s`, `2*_s`, not `*_2s`), each row of the two matrices together, weighted with the number of atoms of any one element per species, sums to zero, and each row of the site matrix weighted with the sites each species occupies on any one site type sums to zero.", "quantifier": "every accepted reaction list, every element, every site type", "why_tests_cant": "it is a conservation law over all mechanisms, connecting a dictionary comparison with integer matrices", "anchors": ["scaks/parsers/parser_base.py:ParserBase.get_stoichiometry_matrices", "scaks/parsers/parser_base.py:ParserBase.parse_elementary_rxns", "scaks/parsers/rxn_parser.py:RxnEquation.check_conservation"]}
{"id": "C13", "title": "A total reaction equation is only returned when it is balanced", "statement": "Whatever coefficients the linear-algebra step produces, if the total-reaction routine returns an equation text then the equation passes the conservation check, i.e. has equal element totals on both sides.", "quantifier": "every coefficient vector and every species list", "why_tests_cant": "the coefficients come from a floating-point null-space computation that can return anything", "anchors": ["scaks/parsers/parser_base.py:ParserBase.get_total_rxn_equation"]}
{"id": "C14", "title": "Molecular formulas expand to the atoms they denote and masses add up", "statement": "Expanding a formula built from element symbols, multiplicities and parenthesised groups lists every atom the formula denotes with its multiplicity, and the molecular mass is the sum over those atoms; formulas that are not of that shape (for example with an unclosed parenthesis) are rejected with ValueError.", "quantifier": "every formula, with any nesting depth and any multiplicities", "why_tests_cant": "recursive grammar with unbounded nesting", "anchors": ["scaks/functions.py:string2symbols", "scaks/parsers/parser_base.py:ParserBase.get_molecular_mass"]}
{"id": "C15", "title": "Barriers and reaction energy derived from absolute energies are consistent", "statement": "For every reaction and every absolute-energy table, forward barrier minus reverse barrier equals the reaction energy, the reaction energy is the stoichiometry-weighted energy difference between last and first state, and for a reaction without transition state both barriers are non-negative and one of them is zero.", "quantifier": "every reaction and energy table", "why_tests_cant": "ranges over all real energies and states", "anchors": ["scaks/parsers/parser_base.py:ParserBase._get_state_energy", "scaks/parsers/parser_base.py:ParserBase._get_single_relative_energies", "scaks/parsers/parser_base.py:ParserBase._get_relative_from_absolute"]}
{"id": "C16", "title": "Reversing a reaction exchanges its barriers and negates its reaction energy", "statement": "With the same absolute energies, the reverse reaction has forward and reverse barrier exchanged and the opposite reaction energy.", "quantifier": "every reaction and energy table", "why_tests_cant": "all reactions, all energies", "anchors": ["scaks/parsers/parser_base.py:ParserBase._get_single_relative_energies", "scaks/parsers/rxn_parser.py:RxnEquation.revert"]}
{"id": "C17", "title": "User-supplied relative energies are completed consistently", "statement": "When relative energies are read, forward barrier minus reverse barrier equals the given reaction energy for every reaction, a barrierless endothermic reaction gets its reaction energy as barrier (so its reverse is barrierless), every other forward barrier is kept as given, the three lists have one entry per reaction, and a wrong number of entries is rejected.", "quantifier": "every list of reactions, barriers and reaction energies", "why_tests_cant": "all lengths and all real values", "anchors": ["scaks/parsers/relative_energy_parser.py:RelativeEnergyParser"]}
{"id": "C18", "title": "An energy file takes priority over energies in the setup, and absence of both is an error", "statement": "Reading energies uses the file when it exists, otherwise the energies given in the setup, otherwise raises IOError; nothing is stored in the model when an error is raised.", "quantifier": "every combination of file presence, file content and setup energies", "why_tests_cant": "history of file system and setup states", "anchors": ["scaks/parsers/relative_energy_parser.py:RelativeEnergyParser.parse_data", "scaks/parsers/absolute_energy_parser.py:AbsoluteEnergyParser.parse_data"]}
{"id": "C19", "title": "Transition-state rate constants and barriers are inverse to each other", "statement": "For positive temperature the transition-state rate constant is positive, strictly decreasing in the barrier, and converting any positive rate constant to a barrier and back gives the same rate constant, and conversely.", "quantifier": "all real barriers, positive temperatures and positive rate constants", "why_tests_cant": "real-valued identity over a continuum", "anchors": ["scaks/solvers/solver_base.py:SolverBase.get_kTST", "scaks/solvers/solver_base.py:SolverBase.get_TST_barrier_from_CT"]}
{"id": "C20", "title": "Rate constants satisfy detailed balance", "statement": "For every reaction whose barriers satisfy forward minus reverse = reaction energy, the ratio of forward to reverse transition-state rate constants is exp(-dG/kT); this holds for the energies produced by both energy parsers.", "quantifier": "all energies, temperatures and reactions", "why_tests_cant": "exact thermodynamic consistency over a continuum", "anchors": ["scaks/solvers/solver_base.py:SolverBase.get_rxn_rates_TST", "scaks/parsers/relative_energy_parser.py:RelativeEnergyParser", "scaks/parsers/parser_base.py:ParserBase._get_single_relative_energies"]}
{"id": "C21", "title": "Collision-theory rates are well formed and validated", "statement": "Collision-theory rate constants are non-negative, linear in the pressure and proportional to the sticking factors; an active-area ratio or sticking factor above one is rejected; the reverse rate of an adsorption reaction never exceeds kT/h.", "quantifier": "all masses, areas, pressures, temperatures and factors", "why_tests_cant": "continuum of parameters", "anchors": ["scaks/solvers/solver_base.py:SolverBase.get_kCT", "scaks/solvers/solver_base.py:SolverBase.get_rxn_rates_CT"]}
{"id": "C22", "title": "Thermodynamic correction keeps the energies consistent", "statement": "Correcting relative energies preserves forward barrier minus reverse barrier = reaction energy for every reaction, and makes both barriers of a reaction without transition state non-negative with one of them zero.", "quantifier": "all energies and all species corrections", "why_tests_cant": "all reals; all mechanisms", "anchors": ["scaks/correctors/thermodynamic_corrector.py:ThermodynamicCorrector.correct_relative_energies", "scaks/correctors/thermodynamic_corrector.py:ThermodynamicCorrector.__change_relative_energies"]}
{"id": "C23", "title": "Thermodynamic correction counts each molecule", "statement": "The reaction-energy change made by the correction equals the stoichiometry-weighted difference of the corrections of the gases in the last and first state.", "quantifier": "every reaction, every correction function", "why_tests_cant": "needs every stoichiometric number", "anchors": ["scaks/correctors/thermodynamic_corrector.py:ThermodynamicCorrector.__correct_single_relative_energies"]}
{"id": "C24", "title": "Pressure enters rates with the stoichiometric number of the gas", "statement": "With pressures included, the forward (reverse) rate of a reaction is its rate constant times, for each gas of the first (last) state, the pressure of the gas to the power of its stoichiometric number.", "quantifier": "every reaction and pressure table", "why_tests_cant": "needs every stoichiometric number and gas list", "anchors": ["scaks/solvers/solver_base.py:SolverBase.get_rxn_rates_TST"]}
{"id": "C25", "title": "Coverage vectors and coverage tables are two views of the same data and free sites complete the total", "statement": "Turning a coverage vector into the coverage table and back gives the vector; in the table the coverages of all adsorbates of a site plus the free coverage of that site equal the site's total; every adsorbate is counted under exactly one site.", "quantifier": "every mechanism, every coverage vector, every site total", "why_tests_cant": "arbitrary numbers of sites and adsorbates, real coverages", "anchors": ["scaks/solvers/mean_field_solver.py:MeanFieldSolver._cvg_tuple2dict", "scaks/solvers/mean_field_solver.py:MeanFieldSolver._cvg_dict2tuple", "scaks/solvers/mean_field_solver.py:MeanFieldSolver.__classify_adsorbates"]}
{"id": "C26", "title": "Constrained coverages are physical, and physical coverages are left alone", "statement": "The coverages returned by the constraint step are between 0 and 1, never exceed the total of their site one by one or summed, the step is idempotent, and it returns its input unchanged when the input already satisfies the constraints.", "quantifier": "every mechanism and every real coverage vector", "why_tests_cant": "continuum of vectors over arbitrarily many sites", "anchors": ["scaks/solvers/steady_state_solver.py:SteadyStateSolver.__constrain_coverages"]}
{"id": "C27", "title": "Rate expressions evaluate to mass-action rates", "statement": "For every reaction the generated forward (reverse) rate expression evaluates to the forward (reverse) rate constant of that reaction times the product over the formulas of the first (last) state of pressure, concentration or coverage to the power of the stoichiometric number.", "quantifier": "every mechanism, every assignment of rate constants, pressures, concentrations and coverages", "why_tests_cant": "generated program text must denote the right function for all mechanisms and all values", "anchors": ["scaks/solvers/mean_field_solver.py:MeanFieldSolver.get_elementary_rate_expression", "scaks/solvers/mean_field_solver.py:MeanFieldSolver.get_rates"]}
{"id": "C28", "title": "The steady-state function is the stoichiometry matrix applied to the net rates", "statement": "The time derivative computed for each adsorbate equals the sum over all reactions of (amount produced minus amount consumed) times the net rate of the reaction.", "quantifier": "every mechanism, every adsorbate, every coverage vector and rate constants", "why_tests_cant": "all mechanisms, including those where an adsorbate occurs repeatedly or on both sides", "anchors": ["scaks/solvers/steady_state_solver.py:SteadyStateSolver.get_elementary_dtheta_dt_expression", "scaks/solvers/steady_state_solver.py:SteadyStateSolver.steady_state_function"]}
{"id": "C29", "title": "The analytical Jacobian is the derivative of the steady-state function", "statement": "Entry (i, j) of the analytical Jacobian equals the partial derivative of the i-th component of the steady-state function with respect to the coverage of adsorbate j, where the free-site coverage is the site total minus the adsorbate coverages.", "quantifier": "every mechanism, every pair of adsorbates, every coverage vector", "why_tests_cant": "derivatives over a continuum for all mechanisms; the code differentiates program text", "anchors": ["scaks/solvers/steady_state_solver.py:SteadyStateSolver.analytical_jacobian", "scaks/solvers/steady_state_solver.py:SteadyStateSolver.poly_adsorbate_derivation"]}
{"id": "C30", "title": "Symbolic and numeric evaluation agree", "statement": "The steady-state function evaluated through symbolic expressions equals the one evaluated from generated text, for the same inputs.", "quantifier": "every mechanism and every coverage vector", "why_tests_cant": "two implementations must agree on all mechanisms", "anchors": ["scaks/solvers/steady_state_solver.py:SteadyStateSolver.get_elementary_dtheta_dt_sym", "scaks/solvers/steady_state_solver.py:SteadyStateSolver.steady_state_function_by_sym"]}
{"id": "C31", "title": "Turnover frequencies are element balanced at steady state", "statement": "The turnover frequency of every gas or liquid is its net production summed over reactions, and at a steady state (all adsorbate time derivatives and free-site time derivatives zero) the turnover frequencies weighted by the number of atoms of any element sum to zero.", "quantifier": "every accepted mechanism, every element, every steady state", "why_tests_cant": "conservation law over all mechanisms and real rates", "anchors": ["scaks/solvers/mean_field_solver.py:MeanFieldSolver.get_tof", "scaks/parsers/parser_base.py:ParserBase.get_stoichiometry_matrices"]}
{"id": "C32", "title": "Damped Newton iteration never makes the residual worse", "statement": "Every iterate the damped Newton method yields reports the norm of the function at that iterate, the reported norms never increase, and strictly decrease until a stationary point is reported.", "quantifier": "every function, Jacobian, linear solver result and start point; every number of iterations", "why_tests_cant": "unbounded iteration over arbitrary functions", "anchors": ["scaks/solvers/rootfinding_iterators.py:MDNewton.__iter__"]}
{"id": "C33", "title": "Constrained Newton iterates become feasible and report their own residual", "statement": "Every iterate the constrained Newton method yields is reported with the function value and norm at that iterate, and from the sixth iterate on every iterate is a result of the constraint step, whatever the step length search and linear solver return.", "quantifier": "every function, step search and start point; every number of iterations", "why_tests_cant": "unbounded iteration with arbitrary numerical oracles", "anchors": ["scaks/solvers/rootfinding_iterators.py:ConstrainedNewton.__iter__"]}
{"id": "C34", "title": "A steady state is only reported when it is converged", "statement": "If the steady-state search returns coverages, their residual is within the tolerance; it never returns coverages that failed the test.", "quantifier": "every initial guess, every behaviour of the root finder and of the fallback integrator, any number of restarts", "why_tests_cant": "nested loops with restarts driven by arbitrary numerical behaviour", "anchors": ["scaks/solvers/steady_state_solver.py:SteadyStateSolver.get_steady_state_cvgs"]}
{"id": "C35", "title": "A reported steady state is physical", "statement": "If the steady-state search returns coverages, none of them is negative and no site is over-filled.", "quantifier": "every initial guess, every behaviour of the root finder and of the fallback integrator", "why_tests_cant": "depends on the whole history of restarts", "anchors": ["scaks/solvers/steady_state_solver.py:SteadyStateSolver.get_steady_state_cvgs"]}
{"id": "C36", "title": "KMC process generation yields each elementary event and its reverse exactly once per site and orientation", "statement": "A process definition that is not a redistribution process gives, for each basis site and each coordinate set in order, one forward process followed by one reverse process with exchanged elements; a redistribution process gives only forward processes; the rates are the forward and reverse rates of the reaction; invalid definitions raise SetupError and generate nothing.", "quantifier": "every process definition", "why_tests_cant": "any number of basis sites and coordinate sets", "anchors": ["scaks/solvers/kmc_solver.py:KMCSolver.__get_single_process", "scaks/solvers/kmc_solver.py:KMCSolver.get_processes"]}
{"id": "C37", "title": "The process-to-reaction mapping is aligned with the generated processes", "statement": "The i-th entry of the process mapping names the reaction and direction of the i-th generated slow (non-fast) process.", "quantifier": "every list of process definitions", "why_tests_cant": "index alignment over arbitrarily many definitions", "anchors": ["scaks/solvers/kmc_solver.py:KMCSolver.__get_single_process", "scaks/solvers/kmc_solver.py:KMCSolver.process_mapping"]}
{"id": "C38", "title": "Python and C++ coverage collection agree", "statement": "The compiled and the interpreted coverage collection functions return the same coverages for the same lattice types, possible types and ratios.", "quantifier": "every lattice, every list of possible types and ratios", "why_tests_cant": "two implementations on unbounded lattices", "anchors": ["scaks/solvers/kmc_plugins/kmc_functions.py:collect_coverages", "c++/src/kmc_functions.cpp:collect_coverages"]}
{"id": "C39", "title": "Collected coverages are the fractions of occupied sites", "statement": "The coverage of each non-empty type equals the ratio-weighted fraction of lattice sites of that type, all coverages lie in [0,1] and sum to one when the ratios of a unit cell sum to one.", "quantifier": "every lattice and every ratio vector", "why_tests_cant": "unbounded lattices and rational weights", "anchors": ["scaks/solvers/kmc_plugins/kmc_functions.py:collect_coverages"]}
{"id": "C40", "title": "The coverage file holds every recorded step exactly once and in order", "statement": "Whatever the buffer size and however many steps are run, executing the coverage file written during and at the end of a run yields all recorded times, steps and coverages in order, without loss or duplication.", "quantifier": "every buffer size and every number and content of recorded steps", "why_tests_cant": "all histories of buffer flushes", "anchors": ["scaks/solvers/kmc_plugins/coverages_analysis.py:CoveragesAnalysis"]}
{"id": "C41", "title": "The TOF file accounts for every executed event", "statement": "For every recorded interval the turnover frequency times interval length times number of sites equals the number of events of each reaction in that interval, and summed over the file equals the number of all events up to the last recorded time, for every buffer size.", "quantifier": "every sequence of steps, every buffer size", "why_tests_cant": "all event histories", "anchors": ["scaks/solvers/kmc_plugins/tof_analysis.py:TOFAnalysis"]}
{"id": "C42", "title": "Frequency analysis counts every step once", "statement": "At the end of a run the process occurrence counts sum to the number of registered steps and the count of a reaction direction is the number of steps at which one of its processes was picked; steady-state counts are those after the steady-state start time.", "quantifier": "every sequence of steps and every mapping", "why_tests_cant": "all event histories", "anchors": ["scaks/solvers/kmc_plugins/frequency_analysis.py:FrequencyAnalysis"]}
{"id": "C43", "title": "Work splitting over MPI ranks loses nothing", "statement": "Splitting a sequence over any number of ranks and merging the pieces in rank order gives the sequence back.", "quantifier": "every sequence length and every number of ranks", "why_tests_cant": "all lengths and all rank counts", "anchors": ["scaks/mpicommons.py:mpi.split_seq", "scaks/mpicommons.py:mpi.merge_seq"]}
{"id": "C44", "title": "Size splitting over MPI ranks is exact and balanced", "statement": "The chunk sizes assigned to the ranks sum to the given size and differ by at most one.", "quantifier": "every size and every number of ranks", "why_tests_cant": "all sizes and rank counts", "anchors": ["scaks/mpicommons.py:mpi.split_size"]}
{"id": "C45", "title": "Lists written to data files can be read back", "statement": "The text produced for a named list of integers or of texts, when executed as a Python assignment, defines the same list, for every number of columns.", "quantifier": "every list, every column count", "why_tests_cant": "text generation and parsing over all lists", "anchors": ["scaks/utilities/format_utilities.py:get_list_string"]}
{"id": "C46", "title": "Setup attributes are write-once", "statement": "In every history of reads and writes of a setup attribute, at most one write succeeds, after which all reads return the written value; a write after a read is rejected; a value of the wrong kind is never stored.", "quantifier": "every sequence of reads and writes", "why_tests_cant": "all histories", "anchors": ["scaks/descriptors/descriptors.py:AttrDescriptor", "scaks/descriptors/descriptors.py:Type._check"]}
{"id": "C47", "title": "Model objects do not share mutable state", "statement": "Registering an analysis plugin in one model never changes the analysis list of another model.", "quantifier": "every interleaving of operations on any number of models", "why_tests_cant": "all histories over several objects", "anchors": ["scaks/descriptors/descriptors.py:AttrDescriptor.__get__", "scaks/models/micro_kinetic_model.py:MicroKineticModel.analysis_register"]}
{"id": "C48", "title": "Caching of results is transparent", "statement": "A memoized solver method returns for every call the value the method would compute for that object and those arguments.", "quantifier": "every interleaving of calls on any number of solver objects", "why_tests_cant": "all call histories", "anchors": ["scaks/descriptors/descriptors.py:Memoized", "scaks/solvers/mean_field_solver.py:MeanFieldSolver.get_rate_constants"]}
{"id": "C49", "title": "The data archive always holds the latest value of every archived variable", "statement": "After any sequence of archiving calls the data file, read back, maps every archived variable to the value archived last, and variables that are not selected for archiving are not in the file; a crash during an archiving call leaves the previous content readable.", "quantifier": "every sequence of archiving calls and every crash point", "why_tests_cant": "all histories and crash points", "anchors": ["scaks/__init__.py:ModelShell.archive_data"]}
{"id": "C50", "title": "Merging coordinate groups keeps every position and never duplicates a shared one", "statement": "Merging two coordinate groups keeps all positions of the first in order, appends exactly those positions of the second that coincide with none of the first, and gives a shared position the element of the second group if the first marks it as vacant and otherwise the element of the first; elements and positions always have equal length.", "quantifier": "every pair of groups", "why_tests_cant": "arbitrary numbers of positions and tolerance comparisons", "anchors": ["scaks/utilities/coordinate_utilities.py:CoordsGroup.__add__", "scaks/utilities/coordinate_utilities.py:CoordsGroup.append", "scaks/utilities/coordinate_utilities.py:CoordsGroup.move"]}
{"id": "C51", "title": "The free-energy correction of a gas follows the ideal-gas pressure law", "statement": "For every tabulated gas, mass, temperature above zero and pressures p1, p2 above zero the entropy correction exists and the corrections at p2 and p1 differ by kT ln(p2/p1); its value is -kT (ln q_trans + ln q_rot + ln q_vib); species that are not gases or not tabulated are not corrected; zero pressure is an error.", "quantifier": "all gases in the tables, masses, temperatures and pressures", "why_tests_cant": "continuum of temperatures and pressures; branches that only some molecules at some temperatures reach", "anchors": ["scaks/correctors/thermodynamic_corrector.py:ThermodynamicCorrector.entropy_correction"]}
{"id": "C52", "title": "The Shomate correction is thermodynamically consistent", "statement": "Inside the temperature range of the row in force the correction is H - TS with the Shomate polynomials of that row, and its temperature derivative is minus the entropy; below a range starting under 300 K it is the linear extrapolation, outside all ranges and for other species it is zero.", "quantifier": "all gases, tables and temperatures", "why_tests_cant": "statement about a derivative over a continuum and all tables", "anchors": ["scaks/correctors/thermodynamic_corrector.py:ThermodynamicCorrector.shomate_correction"]}
{"id": "C53", "title": "Boltzmann initial coverages are a probability distribution", "statement": "The Boltzmann coverages are positive, at most 1, proportional to exp(-E/kT), sum to 1 over the adsorbates (to less than 1 when empty sites are included, the empty sites taking the rest), and respect every site total.", "quantifier": "every mechanism, temperature above zero and table of energies", "why_tests_cant": "continuum of energies and temperatures, arbitrarily many adsorbates and sites", "anchors": ["scaks/solvers/mean_field_solver.py:MeanFieldSolver.boltzmann_coverages"]}
{"id": "C54", "title": "Dictionary merging is right-biased; master-only functions run on one rank", "statement": "Merging two dictionaries gives every key of the second dictionary its value there and every other key its value in the first. A function restricted to the master process runs on rank 0 and on no other rank.", "quantifier": "every pair of dictionaries, every rank", "why_tests_cant": "all dictionaries and ranks", "anchors": ["scaks/compatutil.py:merge_two_dicts", "scaks/mpicommons.py:master_only"]}
{"id": "C55", "title": "Time conversion is exact", "statement": "Converting a duration in seconds gives hours, minutes below 60 and seconds below 60 that add up to the duration.", "quantifier": "every non-negative duration", "why_tests_cant": "unbounded range of durations", "anchors": ["scaks/utilities/format_utilities.py:convert_time"]}
{"id": "C56", "title": "Dictionaries written to data files can be read back", "statement": "The text produced for a named dictionary with text keys and numbers, when executed as a Python assignment, defines a dictionary with the same value for every key.", "quantifier": "every dictionary", "why_tests_cant": "text generation and parsing over all dictionaries", "anchors": ["scaks/utilities/format_utilities.py:get_dict_string"]}
{"id": "C57", "title": "The event file shows every step once with probabilities summing to one", "statement": "For every step of a KMC run the event analysis lists each process with its available sites, its total rate and a probability proportional to that rate, the probabilities summing to one; whatever the buffer size, the file holds the table of every step but the last, once and in order, with the process picked next.", "quantifier": "every sequence of steps, every number of processes, every buffer size", "why_tests_cant": "all event histories and buffer flushes", "anchors": ["scaks/solvers/kmc_plugins/event_analysis.py:EventAnalysis"]}
{"id": "C60", "title": "Analysis plugins see every round of the steady-state search", "statement": "For every round of the search a plugin is set up, told of exactly those steps that are multiples of its interval, in order, and finalized, with the number of the round; the results are returned after the last round.", "quantifier": "every root finder, hybrid method, list of plugins and number of rounds", "why_tests_cant": "all histories of nested loops with restarts", "anchors": ["scaks/solvers/steady_state_solver.py:SteadyStateSolver.get_steady_state_cvgs"]}
{"id": "C61", "title": "The numerical Jacobian approximates the derivatives", "statement": "Entry (i, j) of the numerical Jacobian is a one-sided difference quotient of component i along coordinate j with a step that is at least h; it tends to the partial derivative as h tends to zero and is exact for functions that are linear along the coordinate; an unknown side, number representation or a zero step is an error.", "quantifier": "every function, point, positive step and side", "why_tests_cant": "a limit over all differentiable functions", "anchors": ["scaks/functions.py:numerical_jacobian"]}
{"id": "C62", "title": "The steady-state search ends", "statement": "The search for a steady state always ends, with coverages, without, or with an error.", "quantifier": "every initial guess, root finder, hybrid method and list of plugins", "why_tests_cant": "termination for all behaviours of the numerical routines", "anchors": ["scaks/solvers/steady_state_solver.py:SteadyStateSolver.get_steady_state_cvgs"]}
{"id": "C63", "title": "A model is built exactly from an acceptable setup", "statement": "A micro-kinetic model can be built from a setup dictionary exactly if the logging levels are admissible, every known parameter has an acceptable value, a parser and species definitions are given, the reaction expressions parse, and, if a solver is asked for, there are reactions and the numerical representation is mpmath; unknown parameters have no effect; afterwards every given value is the stored one. (Refuted: the four parameters set by the constructor itself are excluded; species definitions are required although they have a default, and reactions if there is a solver; sympy is an admissible representation with which no solver can be built.)", "quantifier": "every setup dictionary, every store, every parser of expressions", "why_tests_cant": "an exact condition over all dictionaries; a test shows only that some dictionary is accepted", "anchors": ["scaks/models/kinetic_model.py:KineticModel.__init__", "scaks/models/kinetic_model.py:KineticModel._load", "scaks/parsers/parser_base.py:ParserBase.__init__", "scaks/solvers/mean_field_solver.py:MeanFieldSolver.__init__"]}
{"id": "C64", "title": "Setup checks accept exactly the documented values", "statement": "Each check of a setup value (text, one of several texts, integer, number, dictionary, sequence of a type, species definitions, reference energies, analysis interval) accepts exactly the values of its description, and every refusal is ValueError or SetupError. Every attribute of a model is listed with what it accepts. (Intervals that never advance are accepted and plugin instances are refused: refuted.)", "quantifier": "every Python value made of None, booleans, numbers, texts, lists, tuples, dictionaries and objects", "why_tests_cant": "an exact condition over all nested values", "anchors": ["scaks/descriptors/descriptors.py", "scaks/utilities/check_utilities.py:check_species_definitions", "scaks/utilities/check_utilities.py:check_ref_energies", "scaks/utilities/check_utilities.py:check_analysis_interval"]}
{"id": "C65", "title": "Classes of analysis plugins", "statement": "A class of analysis plugins can be defined exactly if its interval, if given, is a positive integer and each of setup, register_step and finalize is callable, None or absent; a method is active exactly if it is callable.", "quantifier": "every class body", "why_tests_cant": "an exact condition over all class bodies", "anchors": ["scaks/plugins/metaclasses.py:AnalysisMeta"]}
{"id": "C58", "title": "Integration over time and its trajectory file", "statement": "solve_ode starts from the coverages given, else from the Boltzmann coverages, else from zeros if the energies cannot be read; it integrates in steps until the end time is reached and returns the time and coverages reached. With traj_output, executing the trajectory file gives exactly the states number n, 2n, 3n, ... (n the output interval), also if the integrator raises. (The returned state need not be in the file, and an integrator that fails without raising makes the call endless: refuted.)", "quantifier": "every integrator, initial value, time span, step and interval, trajectories of any length", "why_tests_cant": "trajectories have no bound and the file is written piece by piece", "anchors": ["scaks/solvers/steady_state_solver.py:solve_ode"]}
{"id": "C59", "title": "TeX text of formulas and reactions", "statement": "The TeX text of a formula is its stoichiometric number unless it is one, its species with the numbers of atoms as subscripts, and its site in brackets; states join formulas by plus signs and reactions join states by arrows. For simple names the text without the subscript commands shows number, species and site. (Different formulas or reactions can have the same text: refuted.)", "quantifier": "every formula, state and reaction text", "why_tests_cant": "an exact description over all texts", "anchors": ["scaks/parsers/rxn_parser.py:texen"]}
{"id": "C66", "title": "What a call of run computes, stores and refuses", "statement": "MicroKineticModel.run uses the given initial coverages, else those of the data file, else the hybrid method; computes coverages, rate constants, rates, turnover frequencies, reversibilities and error in this order, stores each as soon as it is known, and raises exactly the first exception met. Coverages of the wrong kind or number are refused before anything is done. (Refuted: a call without arguments in a new directory fails; fsolve on a fresh solver fails at the end; results of a failed run mix with older ones; the key looked up in the data file is one the package never writes.)", "quantifier": "all arguments, files, solver behaviours, including failing ones, and earlier states of the model", "why_tests_cant": "all combinations of options, files and failures of every method called", "anchors": ["scaks/models/micro_kinetic_model.py:run", "scaks/models/micro_kinetic_model.py:steady_state_coverages", "scaks/models/micro_kinetic_model.py:model_info", "scaks/solvers/steady_state_solver.py:coarse_steady_state_cvgs"]}
{"id": "C67", "title": "The degree of rate control", "statement": "get_single_XRC returns for every reaction (k/r)(r'-r)/(k'-k), where both barriers of that reaction alone are raised by epsilon (the perturbation size if none is given) and the steady state is searched again from the stored coverages; 'inf' when r or k'-k is zero. The energies given are never changed. It is 1 for a rate proportional to k, 0 for a rate that does not move, and tends to the logarithmic derivative as epsilon tends to 0. (Refuted: with one list for both barriers epsilon counts twice; the call replaces the stored coverages, so a repeated call gives other numbers.)", "quantifier": "all energies, also shared lists, numbers of reactions, epsilons and behaviours of the solver's methods", "why_tests_cant": "a limit, all numbers of reactions and all sharing of lists", "anchors": ["scaks/solvers/steady_state_solver.py:get_single_XRC"]}
{"id": "C68", "title": "The energy files written for the user to fill in", "statement": "generate_absolute_energies_file writes one line for every gas, liquid, adsorbate, transition state and surface site of the reactions, no name twice, and with any numbers put in the file is read as the table of these numbers; left unchanged it gives zero relative energies for every reaction (a starred gas or liquid whose own name is not listed is missed and raises KeyError). generate_relative_energies_file writes a block for every reaction; with numbers between the brackets the file is read as the two lists of numbers in the order of the reactions, left unchanged it raises TypeError and nothing is stored. Either call replaces the earlier text of its file and touches no other. (Refuted: the relative file of an accepted reaction written over two lines can never be read.)", "quantifier": "all accepted lists of reactions, numbers, file names and directories", "why_tests_cant": "all reaction lists and all numbers; the text has to be read back as Python", "anchors": ["scaks/models/kinetic_model.py:generate_relative_energies_file", "scaks/models/kinetic_model.py:generate_absolute_energies_file", "scaks/parsers/relative_energy_parser.py:parse_data", "scaks/parsers/absolute_energy_parser.py:parse_data"]}
{"id": "C69", "title": "The input files of a kinetic Monte Carlo simulation", "statement": "parse_data of the KMC parser reads the processes, then the configuration, then the sites, each from the file named or else from kmc_processes.py, kmc_configuration.py, kmc_sites.py, and the first that fails decides the exception. The processes file must exist and define processes. A missing configuration (file or variable) means every site is empty, and the empty type must be a possible element type. Missing site types mean the first possible site type on every site, which is always accepted for a lattice of positive size; given ones must be as many as sites (product of the repetitions times the basis sites) and all possible, otherwise SetupError. The model shows the three inputs only if all were read, otherwise it keeps those it had, while the relative energies have already been replaced. (Refuted: a model of a class derived from KMCModel reads its files without complaint but shows none of them; the types of a configuration file are handed on unchecked.)", "quantifier": "all files, lattices, type lists, class names and behaviours of the library constructors", "why_tests_cant": "every combination of missing, damaged and complete files and every lattice size; state after failures", "anchors": ["scaks/parsers/kmc_parser.py:KMCParser.parse_data", "scaks/parsers/kmc_parser.py:KMCParser.construct_sitesmap", "scaks/parsers/kmc_parser.py:KMCParser.parse_configuration", "scaks/parsers/kmc_parser.py:KMCParser.parse_processes", "scaks/models/kmc_model.py", "scaks/functions.py:mangled_name"]}
{"id": "C70", "title": "What a run of a kinetic Monte Carlo simulation hands to the library", "statement": "KMCModel.run enters the main loop of the library at most once, and exactly if processes, analyses, interactions, configuration, sites, lattice model and control parameters can be made, in this order. It hands over the lattice model of the inputs read and the processes generated, one analysis object per name in the order of the setup (None if there is none), the trajectory file named after the type, and every control attribute under its keyword, those of the redistribution only if it is switched on. The script of the lattice model is written only on request and on the logging process, after the preparation and before the parameters are checked; a script of processes defines them under different names and gathers exactly these in order. Processes and mapping are stored in the model before anything else can fail. (Refuted: time_seed has no effect; processes read again after a run are not used by the next run; a class derived from KMCModel cannot be run.)", "quantifier": "all setups, inputs, states of the solver and behaviours of the library", "why_tests_cant": "all failure points and all attribute combinations; the effect of earlier runs", "anchors": ["scaks/models/kmc_model.py:KMCModel.run", "scaks/solvers/kmc_solver.py:KMCSolver.run", "scaks/solvers/kmc_solver.py:KMCSolver.get_control_parameters", "scaks/solvers/kmc_solver.py:KMCSolver.script_decorator", "scaks/solvers/kmc_solver.py:KMCSolver.script_processes"]}
{"id": "C71", "title": "Messages of the models in the log file and on the console", "statement": "A message below the logging level of the newest model leaves no trace. Any other message is added to a log file once for every model built on that file since the handlers were last cleared whose file level admits it, and to the console once for every such model whose console level admits it; the line is the logger's name, three blanks, the level in eight places, a blank and the text. set_logger_level changes the handler of the first model only and returns its old level, or raises ValueError if there is none. Without handlers warnings and worse go to the console bare. The first model of an MPI worker sends no INFO to the console. (Refuted: a message appears once; a model's own level governs its messages; level 0 shows most; the second model's console can be silenced; later models of a worker are silent; ranks of a KMC run use log files of their own.)", "quantifier": "all histories of constructions, level changes, clearings and messages; all levels, ranks and sizes", "why_tests_cant": "the logger is shared by all models of the process, so the effect depends on the whole history", "anchors": ["scaks/models/kinetic_model.py:KineticModel._set_logger", "scaks/models/kinetic_model.py:KineticModel.set_logger_level", "scaks/models/kinetic_model.py:KineticModel.clear_handlers", "scaks/models/micro_kinetic_model.py:MicroKineticModel._set_logger", "scaks/models/kmc_model.py:KMCModel._set_logger"]}
{"id": "C72", "title": "Building micro-kinetic models in an MPI run", "statement": "If ./log exists, then in every order of events all ranks build all their models: no rank fails, no rank waits for ever, and ./data exists in the end and was made once. Rank 0 never fails whatever exists at the start; another rank can only fail because ./log is missing. After a failure no barrier opens again. (Refuted: in a fresh directory, for every number of ranks, there is an order of events in which a rank fails to open its log file, because the barrier precedes the making of the directory; rank 0 may then wait for ever.)", "quantifier": "all numbers of ranks and models, all interleavings", "why_tests_cant": "depends on the interleaving of processes", "anchors": ["scaks/models/kinetic_model.py:KineticModel._set_logger", "scaks/models/micro_kinetic_model.py:MicroKineticModel.__init__", "scaks/mpicommons.py:MPIUtil.barrier"]}
{"id": "C73", "title": "Setting the components of a model after its construction", "statement": "set_solver accepts exactly instances of (classes derived from) SolverBase, any number of times, and the last one accepted is what the model shows; anything else is a TypeError that changes nothing. Setting a component changes no other attribute and no other model. (Refuted: set_corrector accepts anything because its checked definition is replaced by an unchecked one; set_plotter always raises NameError.)", "quantifier": "all class tables, objects, histories and values", "why_tests_cant": "all values and sequences of settings", "anchors": ["scaks/models/kinetic_model.py:KineticModel.set_solver", "scaks/models/kinetic_model.py:KineticModel.set_corrector", "scaks/models/kinetic_model.py:KineticModel.set_plotter", "scaks/descriptors/component_descriptors.py:Component"]}
{"id": "C74", "title": "Pictures of the energy profiles", "statement": "plot_all makes one picture for each reaction that has energies, drawn from 0, the barrier unless it is below 0.00001 eV, and the reaction energy of that reaction, under a name formed from its number and text that no other reaction has, and touches no other file. It stops at the first reaction that cannot be drawn or saved, with that exception, the pictures before it being there. Without relative energies it raises KeyError, having made the directory. (Refuted: the documented argument rxn_equation raises TypeError; a reaction without transition state that goes uphill is drawn with one.)", "quantifier": "all reaction lists, energies, behaviours of the drawing package and of the disk", "why_tests_cant": "all lists and failure points", "anchors": ["scaks/plotters/energy_profile_plotter.py:EnergyProfilePlotter.plot_all"]}
{"id": "C75", "title": "New initial guesses during the search for a steady state", "statement": "The default hybrid method integrates the current coverages of the solver to time 10 in steps of 1/100 with the energies of the model and returns the last coverages; coverages that the integrator leaves alone come back unchanged. modify_init_guess integrates the Boltzmann coverages to a random time with a random step, whatever the current coverages are. Registering a hybrid method binds that function. (Refuted: with other relative energies the new guess comes from those energies; modify_init_guess may return the Boltzmann coverages themselves; good_guess returns None after a converged search; the name of a decorated function stays usable.)", "quantifier": "all integrators, coverages, random numbers, fuels", "why_tests_cant": "all integrators and coverages; a test sees one mechanism", "anchors": ["scaks/plugins/hybrid_methods.py", "scaks/models/micro_kinetic_model.py:MicroKineticModel.hybrid_method_register", "scaks/solvers/steady_state_solver.py:SteadyStateSolver.modify_init_guess"]}
{"id": "C76", "title": "Construction of solvers and root finding iterators", "statement": "A solver can be constructed exactly with the numerical representation mpmath; then the precision of the whole program is that of its model, and after any history of constructions that of the newest solver. The adsorbates of parsed reactions can always be sorted by site. ConstrainedNewton accepts exactly the keyword arguments that include its six essential ones and stores all of them; MDNewton accepts exactly a starting point with one column together with the keyword verbose. A search with coverages can always make the iterator named by the attribute rootfinding, with the functions of the search. (Refuted: a solver computes with the precision of its own model; MDNewton uses the norm it is given, and accepts the keywords documented for it.)", "quantifier": "all histories of constructions, all keyword dictionaries, all mechanisms", "why_tests_cant": "global state over all histories; all dictionaries", "anchors": ["scaks/solvers/mean_field_solver.py:MeanFieldSolver.__init__", "scaks/solvers/rootfinding_iterators.py:ConstrainedNewton.__init__", "scaks/solvers/rootfinding_iterators.py:MDNewton.__init__", "scaks/solvers/steady_state_solver.py:SteadyStateSolver.get_steady_state_cvgs"]}
{"id": "C77", "title": "Energies along cycles and reference energies", "statement": "With absolute energies, any combination of the reactions of a mechanism (with any real weights) that leaves no net production of any species has reaction energy zero, and the transition state theory rate constants satisfy the corresponding product rule: the weighted sums of the logarithms of the forward and of the reverse constants are equal. Adding arbitrary reference energies per atom of each element and per occupied site to the energy table changes no barrier and no reaction energy of an accepted mechanism. (Refuted outside this scope: relative energies supplied by the user need not close; the accepted text 'CO_s ->' has one state and its barrier depends on the reference.)", "quantifier": "all mechanisms, energy tables, weights, reference energies, temperatures", "why_tests_cant": "all cycles of all mechanisms with real weights and real energies", "anchors": ["scaks/parsers/parser_base.py:ParserBase._get_single_relative_energies", "scaks/parsers/parser_base.py:ParserBase._get_state_energy", "scaks/solvers/mean_field_solver.py:MeanFieldSolver.get_rate_constants"]}
{"id": "C78", "title": "Direction of net rates and equilibrium", "statement": "With transition state theory and barriers that fit the reaction energies, every net rate has the opposite sign of the free energy of its reaction at the given coverages, pressures and concentrations, and vanishes exactly when that is zero. If all are zero, the steady-state function and all turnover frequencies vanish. With absolute energies this is so whenever every activity is the Boltzmann weight of the tabulated energy relative to any reference energies per atom and per site: the rate equations have the thermodynamic equilibrium as a steady state.", "quantifier": "all usable mechanisms without repeated reactions, all energies, temperatures above zero, coverages, pressures", "why_tests_cant": "relates the real-valued rates of every mechanism to thermodynamics, for all inputs", "anchors": ["scaks/solvers/mean_field_solver.py:MeanFieldSolver.get_rate_constants", "scaks/solvers/mean_field_solver.py:MeanFieldSolver.get_net_rates", "scaks/solvers/mean_field_solver.py:MeanFieldSolver.get_tof", "scaks/solvers/steady_state_solver.py:SteadyStateSolver.steady_state_function"]}
{"id": "C79", "title": "The rate equations keep coverages physical", "statement": "With nothing negative, the time derivative of an adsorbate with coverage zero is not negative, if the adsorbate is in no transition state; on a site that is full the total coverage does not grow, if the adsorbates of the site occupy one site each and are on one side of each reaction. (Refuted: an adsorbate written in the place of a transition state is used up though there is none of it; an adsorbate on two sites counts as one coverage, so its dissociation overfills a full site.)", "quantifier": "all usable mechanisms without repeated reactions, all coverages, pressures and rate constants that are not negative", "why_tests_cant": "boundary behaviour of a vector field for all mechanisms and coverages", "anchors": ["scaks/solvers/steady_state_solver.py:SteadyStateSolver.steady_state_function", "scaks/solvers/mean_field_solver.py:MeanFieldSolver.get_rates"]}
{"id": "C80", "title": "The way a mechanism is written does not matter", "statement": "Writing the reactions (with their rate constants) in another order changes neither the lists of species nor the steady-state function nor the turnover frequencies. Neither does writing some reactions the other way round with the two rate constants exchanged, if every adsorbate is on one side of each reaction. (Refuted: an adsorbate on both sides of a reaction changes sign when the reaction is reverted.)", "quantifier": "all usable mechanisms without repeated reactions, all permutations, all choices of reactions to revert, coverages, rate constants", "why_tests_cant": "compares all pairs of writings of all mechanisms", "anchors": ["scaks/parsers/rxn_parser.py:RxnEquation.revert", "scaks/parsers/parser_base.py:ParserBase.parse_elementary_rxns", "scaks/solvers/steady_state_solver.py:SteadyStateSolver.steady_state_function", "scaks/solvers/mean_field_solver.py:MeanFieldSolver.get_tof"]}
{"id": "C81", "title": "The tables in the log say what was computed", "statement": "Each table a solver writes into the log (turnover frequencies, steady-state coverages, reversibilities, degrees of rate control, rates and rate constants) has one line for each name that has a value, in order, with its number, name and value readable from fixed columns, if names and numbers fit their columns; longer ones are not cut off. The line of a gas shows what get_tof returns for that gas. The text goes to the logger of the solver as one message of level INFO if logging is allowed, otherwise nowhere. The table of rates leaves at least three blanks after every reaction, and raises IndexError without reactions. (Refuted: a liquid has a turnover frequency but no line; in the line of a reaction of more than seventy characters the value is not in its column.)", "quantifier": "all names, values, texts of numbers, loggers", "why_tests_cant": "all tables of all sizes; the text of a number is any function", "anchors": ["scaks/solvers/mean_field_solver.py:MeanFieldSolver.__log_tof", "scaks/solvers/mean_field_solver.py:MeanFieldSolver.__log_rates", "scaks/solvers/mean_field_solver.py:MeanFieldSolver.__log_reversibilities", "scaks/solvers/steady_state_solver.py:SteadyStateSolver.__log_sscvg", "scaks/solvers/steady_state_solver.py:SteadyStateSolver.__log_single_XRC"]}
{"id": "C82", "title": "Rates respond linearly to the rate constants", "statement": "Rates, steady-state function and turnover frequencies of a linear combination of two sets of rate constants are the same linear combination of theirs. Raising all barriers by the same energy e multiplies the steady-state function and all turnover frequencies by exp(-e/kT) and leaves the steady states as they are. A further reaction without new species whose rate constants are zero changes nothing.", "quantifier": "all usable mechanisms without repeated reactions, all coverages, rate constants, energies, temperatures", "why_tests_cant": "a linearity law for all mechanisms", "anchors": ["scaks/solvers/steady_state_solver.py:SteadyStateSolver.steady_state_function", "scaks/solvers/mean_field_solver.py:MeanFieldSolver.get_rates", "scaks/solvers/mean_field_solver.py:MeanFieldSolver.get_tof", "scaks/solvers/mean_field_solver.py:MeanFieldSolver.get_rate_constants"]}
{"id": "C83", "title": "Reaction orders are the stoichiometric numbers", "statement": "Multiplying the pressure of a gas by c multiplies the forward (reverse) rate of each reaction by c to the number of molecules of the gas in its first (last) state and changes nothing else; with c at least one and nothing negative no rate falls. Rate constants do not depend on the pressures, by either theory.", "quantifier": "all usable mechanisms without repeated reactions, all gases, factors, coverages, rate constants", "why_tests_cant": "a power law for all factors and mechanisms", "anchors": ["scaks/solvers/mean_field_solver.py:MeanFieldSolver.get_rates", "scaks/solvers/mean_field_solver.py:MeanFieldSolver.get_rate_constants", "scaks/solvers/solver_base.py:SolverBase.get_rxn_rates_CT"]}
{"id": "C84", "title": "Setup of a kinetic Monte Carlo model", "statement": "KMCModel(setup_dict=...) succeeds exactly if the logging levels are levels, every value is acceptable for its attribute, parser and species definitions are given, the reactions parse and the solver, if given, is the KMC solver; then every value is the one stored, and parameters that are not attributes of the class have no effect. Cell vectors and sites are acceptable exactly if they are a non-empty list of rows of three numbers, not all of them integers. All attributes are listed with what they accept and have the stated defaults, and each default that is not None is acceptable. Refuted: vectors of integers equal to acceptable ones are refused, the generator RANLUX48 cannot be chosen, and the steady-state solver passes the check of the attribute but not its constructor.", "quantifier": "all setup dictionaries, all worlds of objects, all results of the reaction parser; all values", "why_tests_cant": "an exact condition on arbitrary dictionaries of arbitrary nested values", "anchors": ["scaks/models/kmc_model.py:KMCModel", "scaks/models/kinetic_model.py:KineticModel.__init__", "scaks/descriptors/descriptors.py:SpaceVectors", "scaks/descriptors/descriptors.py:FloatList2D", "scaks/parsers/kmc_parser.py:KMCParser.__init__", "scaks/solvers/kmc_solver.py:KMCSolver.__init__"]}
{"id": "C85", "title": "Reading of rate expressions and data files", "statement": "The rate expressions that the solvers write and execute, and the data files that the plugins write and the plotting code executes, are read by Python's grammar: a text is accepted exactly if it spells words of the grammar with blanks and comments between them, every list of words has at most one reading, the value of an expression follows the precedences of powers, signs, products and sums with exact decimals, every line of assignments replaces exactly one element of its list (IndexError exactly outside the list), and a data file yields exactly the names its lines assign and extend, in order, with ends of lines inside brackets not counting. Other texts for rate expressions are rejected with a SyntaxError or as unsupported, and the reader always ends.", "quantifier": "all texts, all token lists of any length and nesting, all environments of names, all lists", "why_tests_cant": "acceptance and meaning of texts of any length and nesting depth, in both directions, and absence of ambiguity", "anchors": ["scaks/solvers/mean_field_solver.py:MeanFieldSolver.get_rates", "scaks/solvers/steady_state_solver.py:SteadyStateSolver.steady_state_function", "scaks/solvers/steady_state_solver.py:SteadyStateSolver.analytical_jacobian", "scaks/parsers/relative_energy_parser.py:RelativeEnergyParser", "scaks/parsers/absolute_energy_parser.py:AbsoluteEnergyParser", "scaks/parsers/kmc_parser.py:KMCParser"]}
{"id": "C86", "title": "Operations on texts, lists and dictionaries", "statement": "The built-in operations the package is written with behave as documented: classes of characters, strip, split, join, reading and writing of integers (one text per integer, no leading zeros), lookup and assignment in dictionaries (a key keeps its place, KeyError exactly for absent keys), equality of dictionaries, sorted(set(...)) by character codes, index, first and last elements with IndexError exactly outside, repetition, and loops that end with the exception of the first failing element.", "quantifier": "all texts, lists, dictionaries, integers and loop bodies", "why_tests_cant": "exact characterisations over unbounded texts and lists; the other claims rest on these operations", "anchors": ["scaks/parsers/rxn_parser.py:ChemFormula.__init__", "scaks/parsers/rxn_parser.py:RxnEquation.tolist", "scaks/parsers/parser_base.py:ParserBase.parse_elementary_rxns", "scaks/utilities/format_utilities.py:get_list_string"]}
{"id": "C87", "title": "Continuing a run with change_start_time.py", "statement": "scripts/kmc_run/change_start_time.py sets the start time of a setup to the last recorded time and leaves every other setting alone. It does so exactly if no line that begins with start_time has an end of line, that is if it is the last line of the file; then the changed setup, executed, gives the old settings with start_time at the last recorded time. Otherwise the line is joined with the one behind it and the setup cannot be read, continuing twice drops the setting behind it, and a setup without such a line starts at 0.0 again. Without recorded times the setup is not touched (IndexError, KeyError).", "quantifier": "all trajectory files, all setup texts of any number of lines, all formats of numbers", "why_tests_cant": "an exact characterisation of the written text, and of when it means what is intended, for files with any lines", "anchors": ["scripts/kmc_run/change_start_time.py"]}
{"id": "C88", "title": "Jobs for many pressures", "statement": "The setup file that create_jobs.py writes for a job gives, when executed, exactly the settings of the template with the pressure of that job (both pressures in the two-dimensional scan) and nothing else changed, whatever jobs were made before it; every directory named in job_dirs.txt, in order, has the files of the template and this setup, and other directories are left alone. This holds if no text among the settings has quotes, backslashes or ends of lines (otherwise one setting can become several) and if the printed pressures are distinct (otherwise the last job replaces the earlier ones). If the template or the species is missing the script stops at the first job, whose directory is already emptied.", "quantifier": "all settings with nested lists, tuples and dictionaries of any size, all lists of pressures, all contents of the disk", "why_tests_cant": "reading back what was written for values of any nesting, and independence of the order of any number of jobs", "anchors": ["scripts/kmc_run/1d-run/create_jobs.py:dict2setup", "scripts/kmc_run/2d-run/create_jobs.py:dict2setup"]}
{"id": "C89", "title": "Coverages collected from many runs", "statement": "plot_merged_coverages.py draws at every step the sums over the types that begin with O, C and V (an error exactly if a list of such a type has neither one entry per step nor one entry); these sums lose nothing if all types begin with one of the letters, but other types are dropped silently and every type beginning with C counts as CO. extract_cvgs.py gives for every directory that has results its pressure, the last coverage of a type named C (not CO_s: a string was written where a tuple was meant) and the sum over five types of oxygen, and after sorting each coverage still stands beside its own pressure. The tables over two pressures have in row i and column j the result of the run at these pressures if every row has the same runs, but otherwise all columns carry the pressures of the last row; O and CO are read by place, so they are right exactly when these types come last.", "quantifier": "all files of coverages, all numbers of directories, steps and types", "why_tests_cant": "alignment of labels and values for any number of runs and any order of directories, exact conditions for errors", "anchors": ["scripts/kmc_plot/plot_merged_coverages.py", "scripts/kmc_plot/batch_plot/extract_cvgs.py", "scripts/kmc_plot/map_plot/extract_O_cvgs.py", "scripts/kmc_plot/map_plot/extract_CO_cvgs.py"]}
{"id": "C90", "title": "Rates and frequencies collected from many runs", "statement": "The turnover frequencies collected by extract_tofs.py are sums of the rates at fixed places of the sorted process names (IndexError exactly if there are too few names); with every reaction present in both directions these are forward rates of reactions in the order of their names, and plot_frequencies.py draws forward and reverse bars of the same reaction side by side. A reaction that never happens can change the sum, and a missing direction shifts the bars. plot_tof.py draws the sum of the rates with sign 1 for forward and -1 for reverse processes whose reaction has the product's text in its final state; this is not the rate of production when several molecules form at once, when another name ends alike or when the product is consumed.", "quantifier": "all sets of reactions, rates, processes and directories", "why_tests_cant": "the order of names decides which rate is meant, for any set of reactions", "anchors": ["scripts/kmc_plot/batch_plot/extract_tofs.py", "scripts/kmc_plot/map_plot/extract_tofs.py", "scripts/kmc_plot/plot_frequencies.py", "scripts/kmc_plot/plot_tof.py"]}
{"id": "C91", "title": "An animation from sub-rectangles shows the given pictures", "statement": "For any number of arrays of one shape, the pieces that getSubRectangles cuts out, shown one after the other at their places and left there, show exactly the given pictures; each piece is the part inside the smallest rectangle that covers all changed pixels (two by two pixels in the corner if nothing changes). Arrays are converted entry by entry (floats 0 to 1, integers modulo 256) and refused exactly if they have the wrong number of dimensions or colours. Not so for pixels that become transparent, which keep their old colour, and not if the pieces are taken away (dispose=2).", "quantifier": "all sequences of arrays of any shape and contents", "why_tests_cant": "that no changed pixel is missed depends on all pixels of all frames, and on differences of bytes taken modulo 256", "anchors": ["scaks/plotters/images2gif.py:checkImages", "scaks/plotters/images2gif.py:GifWriter.getSubRectangles", "scaks/plotters/images2gif.py:GifWriter.handleSubRectangles"]}
{"id": "C92", "title": "The animated GIF file says what was asked for", "statement": "A reader of the GIF89a format gets back from the file written by writeGif the size of the first picture, the palette used most, the number of loops, and for each frame its duration in hundredths of a second (rounded down), disposal, place, size, colours and data; so a viewer shows exactly the given pictures, if PIL loses no colours. Arguments of the wrong length, arrays that cannot be pictures and mixtures of pictures with and without transparency raise before the file is opened; no pictures or a number of loops that does not fit leave an empty file, a duration that does not fit one that breaks off and cannot be read. repeat=True and 0 are written as 65535 loops instead of for ever, and with dispose=2 given places can be lost.", "quantifier": "all lists of pictures, durations, disposals, places and numbers of loops", "why_tests_cant": "the format counts bytes and lengths of blocks: one wrong byte for some size or some number of frames makes the rest of the file unreadable", "anchors": ["scaks/plotters/images2gif.py:intToBin", "scaks/plotters/images2gif.py:GifWriter.getheaderAnim", "scaks/plotters/images2gif.py:GifWriter.getImageDescriptor", "scaks/plotters/images2gif.py:GifWriter.getAppExt", "scaks/plotters/images2gif.py:GifWriter.getGraphicsControlExt", "scaks/plotters/images2gif.py:GifWriter.convertImagesToPIL", "scaks/plotters/images2gif.py:GifWriter.writeGifToFile", "scaks/plotters/images2gif.py:writeGif"]}
{"id": "C93", "title": "Reported steady states conserve the elements within the tolerance", "statement": "For the coverages that get_steady_state_cvgs returns, the turnover frequencies of all gases and liquids, weighted with their atoms of any element, add up to at most the tolerance times the number of atoms of that element in one of each adsorbate, if every adsorbate stands on one side of each reaction only. An adsorbate on both sides refutes it: at an exact reported steady state CO is consumed and nothing is made.", "quantifier": "all mechanisms, rate constants, root finders, searches and elements", "why_tests_cant": "it ties the stopping rule of the search to the stoichiometry of an arbitrary mechanism", "anchors": ["scaks/solvers/steady_state_solver.py:SteadyStateSolver.get_steady_state_cvgs", "scaks/solvers/steady_state_solver.py:SteadyStateSolver.steady_state_function", "scaks/solvers/mean_field_solver.py:MeanFieldSolver.get_tof"]}
{"id": "C94", "title": "A mechanism at work obeys the second law", "statement": "With transition state rate constants and everything present, the net rates times the free energies of the reactions add up to at most zero, and to zero exactly at equilibrium. With energies computed from a table of absolute energies this sum is the chemical potentials of gases and liquids times their turnover frequencies plus those of the adsorbates (less their sites) times their time derivatives; so at a steady state free energy is never gained by turning gases over, up to the tolerance at a reported one. With reaction energies supplied as such it fails: a cycle of reactions can turn for ever while nothing is consumed.", "quantifier": "all mechanisms, energies, temperatures, pressures and coverages", "why_tests_cant": "it relates parser, energies, rate constants, rates and turnover frequencies of an arbitrary mechanism", "anchors": ["scaks/solvers/mean_field_solver.py:MeanFieldSolver.get_tof", "scaks/solvers/mean_field_solver.py:MeanFieldSolver.get_net_rates", "scaks/solvers/steady_state_solver.py:SteadyStateSolver.steady_state_function", "scaks/parsers/absolute_energy_parser.py", "scaks/solvers/solver_base.py:SolverBase.get_rxn_rates_TST"]}
{"id": "C95", "title": "The run scripts do what their comments say", "statement": "scripts/mkm_run/run.py removes the outputs of earlier runs and no other file, builds the model from the last setup file by name, then parses the data, integrates and runs the model from the end point of the integration, each once, in this order, up to the first that raises; that exception ends the script and only the master tells of it, or of the time used as full hours, full minutes below 60 and seconds below 60. scripts/kmc_run/run.py does the same with rel_energy.py. Each keyword of run has its documented default, and every other keyword is left over. False: the check for a missing setup file never fires (the status is that of tail) and the complaint of the shell is used as a file name; OdeOnly is not obeyed; the old log is not removed by the kinetic Monte Carlo script, which also does not start under Python 3; a setup file auto_*.mkm is removed.", "quantifier": "all working directories, constants, keywords, answers of the model's methods and clock readings", "why_tests_cant": "the scripts run whole simulations in whatever directory they find, and the outcome depends on where an exception occurs", "anchors": ["scripts/mkm_run/run.py", "scripts/kmc_run/run.py", "scaks/models/micro_kinetic_model.py:MicroKineticModel.run"]}
{"id": "C96", "title": "The colour quantizer learns a palette and replaces each pixel by a nearest colour of it", "statement": "For a picture in RGBA with at least 503 pixels, NeuQuant starts from black, white, the colour of the first pixel and shades of grey, and learns 1/samplefac of the pixels, each at most once, with strength and radius falling on schedule: for each colour that is not special the nearest neuron gains frequency, the nearest one after subtracting the biases moves its share of the way, and its neighbours follow less the farther they are, while the special three stay. The palette is the neurons rounded to bytes, in order of green, with black, white and the background among them, and its image has 768 numbers. Converting a colour gives the first nearest one; quantizing gives every pixel a nearest colour and keeps its alpha. False: Python 3 raises TypeError always; pictures with fewer than 100 samples raise ZeroDivisionError; the biases do not obey the documented formula; pixel counts divisible by all four primes repeat pixels; the writer with nq >= 1 fails for every picture.", "quantifier": "all pictures, sampling factors, numbers of colours and palettes", "why_tests_cant": "learning is a long chain of small real-valued moves whose invariants and coverage depend on the size of the picture and its divisibility", "anchors": ["scaks/plotters/images2gif.py:NeuQuant", "scaks/plotters/images2gif.py:GifWriter.convertImagesToPIL"]}
{"id": "C97", "title": "Competing adsorption follows Langmuir's isotherm", "statement": "When every reaction adsorbs one gas molecule on one free site as an adsorbate of its own (in any order of writing, with or without a transition state, on any number of kinds of sites), the steady-state function vanishes at coverages exactly if every adsorbate covers total * K p / (1 + sum of K p over the adsorbates of its site), K the quotient of the rate constants; there is exactly one such vector and it is a possible one. With TST constants from energies K is exp(-dG/kT), whatever the barriers are. What a search reports is within tolerance * (sum of 1/k_r over the site + 1/k_r) of the isotherm. Integrated over time from any coverages, with positive constants and pressures, the distance from the isotherm falls at least like exp(-r t), r the smallest desorption constant.", "quantifier": "all mechanisms of this kind with any number of gases, sites and reactions, all rate constants, pressures, totals, energies, coverages and searches", "why_tests_cant": "an equivalence over a continuum of coverages and rate constants, for mechanisms of every size; a test compares one number with one isotherm", "anchors": ["scaks/solvers/steady_state_solver.py:SteadyStateSolver.steady_state_function", "scaks/solvers/mean_field_solver.py:MeanFieldSolver.get_rates", "scaks/solvers/steady_state_solver.py:SteadyStateSolver.get_steady_state_cvgs", "scaks/solvers/mean_field_solver.py:MeanFieldSolver.get_rate_constants"]}
{"id": "C98", "title": "The Shomate correction of a gas varies continuously with temperature", "statement": "Over the temperatures its table covers, the Shomate correction of a gas is a continuous function of temperature. True inside the range of each row. False where one row takes over from another: each row is taken relative to its own polynomial at 298.15 K, which lies outside the range of every row but the first, so the correction steps from the value by one row to that by the next; methane drops by more than one eV just above 1300 K.", "quantifier": "all tables, gases and temperatures", "why_tests_cant": "a statement about limits; a test compares the correction with stored numbers at single temperatures, mostly in the first row", "anchors": ["scaks/correctors/thermodynamic_corrector.py:ThermodynamicCorrector.shomate_correction"]}
{"id": "C99", "title": "Coverages integrated over time stay physical", "statement": "Let coverages change in time exactly as the steady-state function says (the equations solve_ode hands to the integrator). When every adsorbate sits on one site, is not written as a transition state and occurs at most once at the ends of a reaction, then coverages and free sites that are nowhere negative to begin with are never negative later, and coverages within the bounds of the solver stay within them; rate constants, pressures and concentrations being nonnegative. From given coverages there is one such course at most, whatever the mechanism. The conditions are needed: an adsorbate written as transition state turns negative at once, and one on two sites overfills the site.", "quantifier": "all mechanisms, rate constants, pressures, starting coverages, solutions and times", "why_tests_cant": "a test follows one trajectory with a numerical integrator and its errors; the claim is about every exact solution of every mechanism at all times", "anchors": ["scaks/solvers/steady_state_solver.py:SteadyStateSolver.steady_state_function", "scaks/solvers/mean_field_solver.py:MeanFieldSolver.get_rates", "scaks/solvers/steady_state_solver.py:SteadyStateSolver.solve_ode"]}
{"id": "C100", "title": "Comparing or adding the wrong things is noticed", "statement": "x.conserve(y) says True only for a y of the same class as x with the same atoms and sites, and raises otherwise, so that code entering a branch on its answer can rely on it; the sum of two formulas is the state made of both. For formulas the first holds for every y. For states it holds when y is a state; for every y of another class the error object is returned instead of raised, and it counts as true. The sum of two formulas never works: it raises TypeError whatever is added.", "quantifier": "all formulas, all states, all objects handed over", "why_tests_cant": "a test compares a few pairs; that no unbalanced pair and no foreign object is ever vouched for is a claim about all of them", "anchors": ["scaks/parsers/rxn_parser.py:ChemState.conserve", "scaks/parsers/rxn_parser.py:ChemFormula.conserve", "scaks/parsers/rxn_parser.py:ChemFormula.__add__"]}
{"id": "C101", "title": "The Shomate correction lowers a gas, the more the hotter", "statement": "For every gas of the Shomate table and every temperature T up to the end of its table the correction is at most -T meV, and between two temperatures covered by the same parameters (or both below the table) it falls by at least 1 meV per kelvin; in their range all parameters give a heat capacity of at least 5R/2, growing enthalpy and entropy. That a hotter gas is always lowered further is false: at the border between two sets of parameters the correction can rise, for oxygen at 2000 K by half an eV.", "quantifier": "all gases and parameter rows of the table, all real temperatures of their ranges", "why_tests_cant": "a test evaluates some temperatures; the claim is about every temperature of 30 parameter rows, and follows from bounds on polynomials and logarithms over whole ranges", "anchors": ["scaks/correctors/thermodynamic_corrector.py:ThermodynamicCorrector.shomate_correction", "scaks/database/thermo_data.py:shomate_params"]}
{"id": "C102", "title": "Heating a gas lowers its free energy as computed from partition functions", "statement": "For every tabulated gas, mass and pressure above zero and temperatures T1 < T2: if the entropy correction at T1 is not above zero, then the one at T2 is strictly lower - provided the program uses the same rotational formula at both (theta/T up to 0.01, or above); from 300 K on that holds for every gas of the tables but H2 and HCl. Without the proviso it is false: where the program changes from the corrected to the plain formula the correction rises, for CO between 277.999 K and 278 K. At equal temperature and pressure masses m1 and m2 differ by 3/2 kT ln(m2/m1).", "quantifier": "all gases, masses, pressures and pairs of temperatures", "why_tests_cant": "a continuum of temperatures; the exception is a step of 0.3 percent in the partition function at one temperature per molecule", "anchors": ["scaks/correctors/thermodynamic_corrector.py:ThermodynamicCorrector.entropy_correction"]}
{"id": "C103", "title": "The Shomate parameters describe the gases they are named after, and neighbouring ranges agree", "statement": "For each of 19 gases the parameters covering 298.15 K give the textbook standard entropy and heat capacity within 1 J/(mol K), and for all but three (methanol, formic acid, ethanol) an enthalpy of zero within 0.05 kJ/mol. Where two ranges of one gas meet, their heat capacities agree within 0.2 and their entropies within 0.05 J/(mol K), their enthalpies within 0.05 kJ/mol; so the steps of the correction at these temperatures (C98) are, within 2 meV, the difference of the 298.15 K references, which the program evaluates with the parameters of the hot range, and would vanish with one reference. That every gas of the table is right is false: ethanol's entropy is 15 J/(mol K) too low and its heat capacity 11 J/(mol K) too high.", "quantifier": "all parameter rows of the table and all pairs of neighbouring rows", "why_tests_cant": "the claims relate logarithms and polynomials of 240 real parameters to each other, exactly; a test in floating point compares some values with themselves as computed by the same code", "anchors": ["scaks/database/thermo_data.py:shomate_params", "scaks/correctors/thermodynamic_corrector.py:ThermodynamicCorrector.shomate_correction"]}
{"id": "C104", "title": "Reading an animated GIF returns all its frames in order", "statement": "For a file of n >= 1 frames readGif returns exactly these frames in order, as arrays or (asNumpy=False) each converted to a picture; a missing module is a RuntimeError, a missing file an IOError, and every exception but EOFError raised while reading reaches the caller. That the result is always complete is false: a frame that is cut off (EOFError while it is decoded) ends the reading silently, and the frames after it are lost.", "quantifier": "all files with any number of frames, all behaviours of PIL at each frame", "why_tests_cant": "any number of frames and any point of failure; the try block covers both the search for the next frame and the decoding", "anchors": ["scaks/plotters/images2gif.py:readGif"]}
{"id": "C105", "title": "The correction by partition functions takes every vibration of a gas into account", "statement": "The tables give each gas the symmetry number and the number of rotational temperatures of its molecule, and one vibrational temperature per normal mode (3n-5 for linear molecules of n atoms, 3n-6 for others); the temperatures are within 4 % (vibration) and 6 % (rotation) of the spectroscopic ones. Exactly the gases without repeated vibrations meet this: for CO2, N2O, NH3 and CH4 each repeated vibration is listed once (4 instead of 9 for CH4) and the correction is above the one with all vibrations at every temperature. The rotational temperature of CO2 is more than 17 % off. The correction includes the energy of the lowest vibrational level for gases with one vibration and for no other gas.", "quantifier": "all gases of the tables, all masses, pressures and temperatures", "why_tests_cant": "the strict inequality between the correction and the one with all vibrations holds for every positive real temperature, mass and pressure", "anchors": ["scaks/database/thermo_data.py:rotation_temperatures", "scaks/database/thermo_data.py:vibration_temperatures", "scaks/correctors/thermodynamic_corrector.py:ThermodynamicCorrector.entropy_correction"]}
{"id": "C106", "title": "Rate constants respond to heating as transition-state and collision theory say", "statement": "A transition-state rate constant rises with temperature as long as kT is above minus the barrier (so always for a barrier that is not negative) and falls below that; its apparent activation energy is the barrier plus kT; it is at most the attempt frequency kT/h exactly if the barrier is not negative. At given energies the ratio of forward to reverse rate constant rises with temperature exactly if the step takes up energy and is constant exactly if it is thermoneutral. A collision rate falls with temperature while kT is above twice the barrier and rises below that.", "quantifier": "all barriers, all pairs of positive temperatures, all masses, pressures, areas and sticking factors, all reactions of a model", "why_tests_cant": "strict monotonicity over all real temperatures and the exact turning points", "anchors": ["scaks/solvers/solver_base.py:SolverBase.get_kTST", "scaks/solvers/solver_base.py:SolverBase.get_kCT", "scaks/solvers/solver_base.py:SolverBase.get_rxn_rates_TST"]}
{"id": "C107", "title": "The direction in which an adsorption is written does not matter to its equilibrium", "statement": "Written as an adsorption or as a desorption, with barriers exchanged and the reaction energy negated, a step has the same two rate constants under transition state theory. Under collision theory the ratio of the rate constants is the same exactly if the rate of desorption it implies is at most kT/h; otherwise the adsorption is favoured when written as an adsorption (refuted with a witness), and the rate constants themselves differ even when the ratios agree (refuted).", "quantifier": "all models, energies, gases, pressures, entropy corrections and texts with one gas on one side", "why_tests_cant": "exact condition over all real parameters and any correction function", "anchors": ["scaks/solvers/solver_base.py:SolverBase.get_rxn_rates_CT", "scaks/solvers/solver_base.py:SolverBase.get_rxn_rates_TST"]}
{"id": "C108", "title": "The processes generated for kinetic Monte Carlo are reversible and in detailed balance on every lattice", "statement": "For definitions none of which is a redistribution and whose wildcards stand at the same places before and after, every event that a generated process makes possible anywhere on a lattice is undone by another generated process at the same place. If the two rates of every definition are in the ratio of Boltzmann weights of the elements, any two configurations of the whole lattice exchange equally, so that the weights are stationary; with transition state theory that condition is: elements written minus elements overwritten is the free energy of reaction with pressures. Accepted definitions that are redistributions or that write over wildcards have events with no way back (refuted with witnesses).", "quantifier": "all lists of process definitions, rate constants, lattices of any size with any neighbourhoods and basis sites, and all configurations", "why_tests_cant": "statement about all configurations and all pairs of configurations of lattices of any size; KMCLib simulations only sample", "anchors": ["scaks/solvers/kmc_solver.py:KMCSolver.__get_single_process", "scaks/solvers/kmc_solver.py:KMCSolver.processes", "scaks/solvers/solver_base.py:SolverBase.get_rxn_rates_TST"]}
{"id": "C109", "title": "A simulation with the generated processes shows declared types only, and conserves what its definitions conserve", "statement": "Starting from a lattice occupied by declared element types, any number of events of generated processes keeps the number of sites and leads to declared types only, so that the coverages recorded at any step are the true weighted fractions of all types. A sum over elements that every definition leaves unchanged never changes. Definitions are not compared with their reactions, so what a reaction conserves is not always conserved (refuted with a witness: a reaction moving a CO, simulated as making one).", "quantifier": "all lists of process definitions, lattices, neighbourhoods, initial configurations and finite sequences of events", "why_tests_cant": "invariant of unboundedly many unbounded random simulations", "anchors": ["scaks/solvers/kmc_solver.py:KMCSolver.__get_single_process", "scaks/solvers/kmc_solver.py:KMCSolver.get_processes", "scaks/solvers/kmc_plugins/coverages_analysis.py:CoveragesAnalysis.registerStep"]}
{"id": "C110", "title": "In the mean field the two solvers agree on the rates", "statement": "If the sites of a lattice are occupied independently with given probabilities, the expected rate of every generated process at a site of its kind is its rate constant times the probabilities of the elements it needs, whatever the size of the lattice. If the elements of a definition correspond to the species of its reaction and the probabilities to their coverages, the forward and reverse rates that the mean-field solver computes are exactly the expected rates of the two processes (transition state theory, gases without numbers; for numbers see C24).", "quantifier": "all definitions, reactions, lattices of any size and neighbourhood, probabilities, coverages, pressures, energies", "why_tests_cant": "equality of an expectation over exponentially many configurations with a product, for all sizes and real parameters, across two solvers", "anchors": ["scaks/solvers/kmc_solver.py:KMCSolver.__get_single_process", "scaks/solvers/mean_field_solver.py:MeanFieldSolver.get_rates", "scaks/solvers/solver_base.py:SolverBase.get_rxn_rates_TST"]}
{"id": "C111", "title": "Under collision theory only the uptake of a gas feels its pressure", "statement": "With collision theory, the entropy correction of the code and include_pressure, changing the pressure of a gas multiplies the rate constant of the direction that takes it up by the ratio of the pressures and leaves the rate constant of the direction that releases it unchanged, so that the equilibrium shifts as the law of mass action demands. This holds for the gas that comes first in its reaction (for a gas among the products: if no reactant is a gas), without a number, and in the tables of the correction, at 300 K or more, also where the reverse rate is limited to kT/h. It fails otherwise: only the first gas counts at all, so a product gas beside a reactant gas has no influence; and for a gas missing in the tables (methanol) desorption grows with the pressure like adsorption and the equilibrium does not shift.", "quantifier": "all reactions, energies, pressures, temperatures from 300 K, unit cell areas, active ratios", "why_tests_cant": "cancellation of the pressure between the collision rate and the logarithm in the free energy is an identity over the reals, through a branch at kT/h", "anchors": ["scaks/solvers/solver_base.py:SolverBase.get_rxn_rates_CT", "scaks/correctors/thermodynamic_corrector.py:ThermodynamicCorrector.entropy_correction"]}
{"id": "C112", "title": "The mean drift of a lattice obeys the coverage equations of the steady-state solver", "statement": "On a lattice of any size whose sites are occupied independently, the expected change per time of any sum over the elements by all generated processes together is, definition by definition, the number of places it has (sets of coordinates times sites of its kinds) times its change times its net rate at the given probabilities. If the definitions stand for the reactions of the model, each with the same number of places k, and the elements for the species, the number of an element drifts with k times the time derivative that the steady-state solver computes for its species (transition state theory, species that C28 counts right). So kinetic Monte Carlo and steady-state solver describe the same kinetics in the mean field, and a definition that lists several equivalent orientations counts its reaction several times.", "quantifier": "all process definitions, reactions, lattices of any size and neighbourhood, probabilities, coverages, pressures, energies", "why_tests_cant": "expectation over exponentially many configurations of all processes at all sites, equal to what an executed text of equations gives, for all sizes and real parameters", "anchors": ["scaks/solvers/kmc_solver.py:KMCSolver.get_processes", "scaks/solvers/kmc_solver.py:KMCSolver.__get_single_process", "scaks/solvers/steady_state_solver.py:SteadyStateSolver.steady_state_function", "scaks/solvers/steady_state_solver.py:SteadyStateSolver.get_dtheta_dt_expressions"]}
{"id": "C113", "title": "In equilibrium the two solvers agree on the coverages", "statement": "If the forward and reverse rates of all process definitions are in the ratio of the Boltzmann weights of what they overwrite and write, then (a) averaged over the stationary distribution of the lattice the coverages recorded by the coverage plugin are Boltzmann's shares exp(-E)/sum exp(-E), for any number of unit cells and any site ratios; (b) at these coverages no sum over the lattice drifts; (c) these coverages are a root of the steady-state function of the micro-kinetic model whose reactions the definitions stand for.", "quantifier": "for all element types, energies, lattices (numbers of sites, neighbours, basis sites), site ratios, process definitions, reactions, rates and coverages", "why_tests_cant": "A simulation yields one noisy trajectory on one lattice, and comparing it with a numerical root says nothing about other lattices or rates; the equality holds in the stationary average, which no finite run computes.", "anchors": ["scaks/solvers/kmc_solver.py:KMCSolver.get_processes", "scaks/solvers/kmc_plugins/kmc_functions.py:collect_coverages", "scaks/solvers/steady_state_solver.py:SteadyStateSolver.steady_state_function"]}
{"id": "C114", "title": "Dissociative adsorption follows its isotherm", "statement": "When every reaction turns one gas molecule and n free sites into n adsorbates of a kind of its own (n may differ from reaction to reaction, the gas may be written first or last, any states in between, any number of kinds of sites), the steady-state function vanishes at coverages exactly if every adsorbate covers total * x / (1 + sum of x over the adsorbates of its site), x the n-th root of K p and K the quotient of the rate constants; there is exactly one such vector and it is a possible one. With TST constants from energies K is exp(-dG/kT), whatever the barriers are.", "quantifier": "all mechanisms of this kind with any number of gases, sites, reactions and any n, all rate constants, pressures, totals, energies and coverages", "why_tests_cant": "an equivalence over a continuum of coverages and rate constants, for mechanisms of every size and molecules that break into any number of pieces; a test compares one number with one isotherm and does not meet the other roots", "anchors": ["scaks/solvers/steady_state_solver.py:SteadyStateSolver.steady_state_function", "scaks/solvers/mean_field_solver.py:MeanFieldSolver.get_rates", "scaks/solvers/mean_field_solver.py:MeanFieldSolver.get_rate_constants"]}
{"id": "C115", "title": "A mechanism of single-site steps has exactly one steady state", "statement": "When every reaction changes what is on one place of the surface (an adsorbate or an empty site becomes another one on the same kind of site, with any gases and liquids on both sides and any transition states), the coverage equations have a physical solution for all rate constants and pressures that are not negative. If all constants and pressures are positive and a chain of steps connects every adsorbate with its empty site, there is exactly one solution among all vectors, so that the result of a search does not depend on the initial guess, and all coverages in it are positive. This holds for all TST constants from energies.", "quantifier": "all mechanisms of this kind with any number of species, sites and reactions, branched and cyclic, all rate constants, energies, pressures, totals and coverages", "why_tests_cant": "existence and uniqueness over all of a continuum of vectors and parameters; a test that starts from some guesses and finds the same root says nothing about the others", "anchors": ["scaks/solvers/steady_state_solver.py:SteadyStateSolver.steady_state_function", "scaks/solvers/mean_field_solver.py:MeanFieldSolver.get_rates", "scaks/solvers/mean_field_solver.py:MeanFieldSolver.get_rate_constants"]}
{"id": "C116", "title": "Coverages of single-site mechanisms approach the steady state in time", "statement": "For a mechanism of single-site steps with positive constants and pressures and every adsorbate linked to its empty site, every exact solution of the rate equations that solve_ode integrates, from whatever coverages to begin with (unphysical ones included), approaches the one steady state: all distances fall below a multiple of exp(-r t) with a positive r that depends on the mechanism and the constants only. So the hybrid method, which integrates for a time and then searches a root, is led to the same coverages from any initial guess if it integrates long enough.", "quantifier": "all such mechanisms with any number of species, sites and reactions, cyclic and driven ones included, all constants, energies and pressures, all solutions over unbounded time", "why_tests_cant": "a limit over unbounded time and a continuum of starting points and constants; a test integrates a finite time from a few starts", "anchors": ["scaks/solvers/steady_state_solver.py:SteadyStateSolver.solve_ode", "scaks/solvers/steady_state_solver.py:SteadyStateSolver.steady_state_function"]}
{"id": "C117", "title": "At a steady state dead ends stand still and steps in a row run at one pace", "statement": "For every mechanism whose adsorbates do not occur on both sides of a reaction (transition states aside): at coverages where the rates of change vanish, every step that is the only one to change some adsorbate has net rate zero, and so have the steps that are left dead ends once these are taken away; two steps of which the first makes and the second uses an adsorbate that nothing else changes have net rates in the ratio of their stoichiometric numbers; and if all steps are dead ends every turnover frequency is zero. When the rates of change are only small, any weighted balance over the adsorbates holds among the reported net rates up to the tolerance times the sum of the absolute weights. So net rates and turnover frequencies that get_net_rates and get_tof report beside a converged steady state agree along the pathway.", "quantifier": "all usable mechanisms with any number of reactions, species and sites, all constants, pressures and coverages, all weights and tolerances", "why_tests_cant": "a relation between three outputs for every mechanism graph and every continuum of constants; a test compares the rates of a few mechanisms up to the tolerance of the solver", "anchors": ["scaks/solvers/mean_field_solver.py:MeanFieldSolver.get_net_rates", "scaks/solvers/mean_field_solver.py:MeanFieldSolver.get_tof", "scaks/solvers/steady_state_solver.py:SteadyStateSolver.steady_state_function"]}
{"id": "C118", "title": "The degrees of rate control sum to one up to the size of the perturbation", "statement": "For every mechanism whose steps each move one adsorbate or free site to another on one kind of site, connected and supplied with gas of positive pressure: the numbers that get_single_XRC returns for the steps, when the searches it makes end at steady states and the rate is a turnover frequency that is not zero, are all finite and their sum differs from one by at most a constant times |exp(-epsilon/kT) - 1|, where the constant depends on the mechanism and the unperturbed energies but not on the perturbation, on the coverages searched from or on the state of the solver. When the searches end only at physical coverages whose rates of change are within a tolerance, the bound grows by the same constant times the tolerance times (1 + 1/|exp(-epsilon/kT) - 1|), so the perturbation has to be large beside the tolerance. With exact searches, as the perturbation gets smaller the sum tends to one (Campbell's sum rule). With a tolerance, for any accuracy wanted there is a perturbation, and for each smaller one a tolerance, that ensure it. For any one finite perturbation the sum need not be one itself.", "quantifier": "all such mechanisms with any number of reactions and species, all energies, temperatures, pressures, all perturbations other than zero, all solvers that meet the description", "why_tests_cant": "a bound with one constant for a continuum of perturbations, over all mechanism graphs; a test compares one sum with one up to a tolerance that it has to guess", "anchors": ["scaks/solvers/steady_state_solver.py:get_single_XRC", "scaks/solvers/mean_field_solver.py:MeanFieldSolver.get_tof", "scaks/solvers/steady_state_solver.py:SteadyStateSolver.steady_state_function"]}
{"id": "C119", "title": "Coverages that the search accepts are near the steady state", "statement": "For every mechanism whose steps each move one adsorbate or free site to another on one kind of site, connected, with positive rate constants and positive pressures, there is a constant C such that coverages whose rates of change are all within a tolerance (physical or not) differ from the one steady state by at most C times the tolerance, and so do the net rates and the turnover frequencies computed from them. So the coverages that get_steady_state_cvgs returns are within C times its tolerance of the steady state, whatever the initial guess, the root finder and the plugins are (and the net rates and turnover frequencies there can be computed and are as near to those of the steady state); the answers of two searches agree up to C times the sum of their tolerances, and for any accuracy wanted there is a tolerance that ensures it. The constant depends on the mechanism and its constants: no tolerance serves all of them, since for every tolerance there are rate constants for which the search returns an empty surface although the steady state is two thirds full.", "quantifier": "all such mechanisms with any number of reactions and species, all constants and pressures, all coverages and tolerances, all guesses, root finders and plugins", "why_tests_cant": "a Lipschitz bound around a solution that is known only implicitly, for a continuum of coverages and every mechanism graph; a test has no independent steady state to compare with", "anchors": ["scaks/solvers/steady_state_solver.py:SteadyStateSolver.get_steady_state_cvgs", "scaks/solvers/mean_field_solver.py:MeanFieldSolver.get_net_rates", "scaks/solvers/mean_field_solver.py:MeanFieldSolver.get_tof"]}
