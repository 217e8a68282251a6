# Formal model of SCAKS in Coq 8.16.1

The code under study is the Python package `scaks` in `/repo` (plus one C++ file).
Nothing of it is run here.  Each function is re-written by hand as a total Gallina
function and the properties of `properties.jsonl` are proved about these functions.

## Method

* Models are shallow: one Gallina function per Python function, branch by branch,
  exceptions are values (`res A := Ok a | Err e`).
* Loops are structural recursion or folds.  Unbounded loops take fuel and return
  a separate out-of-fuel answer that the theorems never treat as a normal result.
* External numerical routines (linear solvers, line search, ODE integrator, SVD)
  are universally quantified function arguments: the theorems hold whatever they
  return.
* Python text is `list ascii`.  Python dictionaries are association lists in
  insertion order.  Python integers are `Z`.  Floating point / mpmath numbers are
  exact: `R` where `exp`, `ln`, derivatives are needed, `Q` otherwise.
* Files: `<Area>_Model.v` (definitions only), `<Area>_Spec.v` (small independent
  specification), `<Area>_Proofs.v`, `<Area>_Properties.v` (theorem statements,
  each closed by `exact`, with `Print Assumptions`), and non-vacuity `Example`s.

## Plan per property

| id | what is modelled | how it is proved |
|----|------------------|------------------|
| C01 | backtracking pattern matcher with Python's leftmost, greedy priority; the formula reader | induction on the name lists: the greedy match is unique |
| C02 | same reader | search succeeds iff a factorisation exists, induction on the text |
| C03 | arrow pattern and `tolist` | matcher lemmas on texts without `<`,`>` |
| C04 | `revert` | C03 applied to the printed reverse |
| C05 | element/site dictionaries, dictionary equality, `check_conservation` | counting functions defined on the formula list; dictionary invariant by induction |
| C06 | same | C05 and permutation invariance of sums |
| C07 | `get_elements_dict` at the three levels | induction on the formulas |
| C08 | `get_species_site_dict` | proved when species are distinct; refuted otherwise (last occurrence wins) |
| C09 | `type`, `adsorption_gases`, `desorption_gases` | C04 |
| C10 | `parse_elementary_rxns` | sorting/duplicate removal lemmas |
| C11 | `get_stoichiometry_matrices` | fold invariants |
| C12 | matrices and conservation check together | C05 + C11, sum over columns |
| C13 | text assembly and final check of `get_total_rxn_equation`, coefficients from an oracle | final check + C05 |
| C14 | `string2symbols`, `get_molecular_mass` | grammar of formulas, induction on it; refuted part for unclosed parenthesis; exact acceptance of all texts through the closed text they stand for |
| C15 | `_get_state_energy`, `_get_single_relative_energies` | real arithmetic |
| C16 | with `revert` | real arithmetic |
| C17 | relative energy parser | induction on the lists |
| C18 | `parse_data` as a function of file and setup | case analysis over all inputs |
| C19 | `get_kTST`, `get_TST_barrier_from_CT` over `R` | `exp`/`ln` lemmas |
| C20 | TST rates from both parsers | `exp` lemmas and C15/C17 |
| C21 | `get_kCT`, `get_rxn_rates_CT` | real arithmetic |
| C22 | `correct_relative_energies` | induction on the reactions |
| C23 | correction of one reaction | refuted for coefficient 2; proved for coefficient 1 |
| C24 | pressures in TST rates | refuted (table is searched with the coefficient still in the name); proved for coefficient 1 |
| C25 | coverage tuple/dict conversion | induction on names |
| C26 | constraint step | order reasoning, induction on adsorbates |
| C27 | rate expression text and its evaluation | induction on formulas |
| C28 | time-derivative expressions | proved when each adsorbate occurs once per reaction; refuted otherwise |
| C29 | text differentiation | analytic derivative (`derivable_pt_lim`) plus an exact error term for the lost parentheses; partial; refuted in general (operator precedence) |
| C30 | symbolic variant: expression trees, substitution, differentiation | induction on the trees; rates, net rates, turnover frequencies and the Jacobian agree; the steady-state function agrees when no adsorbate carries a number and is refuted otherwise, and with liquids, starred sites or collision theory |
| C31 | `get_tof` | linear algebra over C12 |
| C32, C33 | Newton iterators as fuelled step functions with oracles | induction on yields |
| C34, C35 | search loop with oracles | induction on restarts; C35 refuted |
| C36, C37 | KMC process generation | induction on definitions; C37 refuted for redistribution processes that are not fast |
| C38, C39 | coverage collection in Python and C++ | induction on the lattice |
| C40-C42, C57 | analysis plugins as state machines writing chunks; reading a file = executing its statements | induction on histories |
| C43, C44 | `split_seq`, `split_size`, `merge_seq` | arithmetic; C43 refuted unless the size divides |
| C45 | list text and a reader for Python list literals | induction on the list |
| C46-C48 | descriptors as state machines over object stores | induction on histories; C47, C48 refuted |
| C49 | archive dictionary and file | induction on histories; crash part refuted |
| C50 | `CoordsGroup` | induction on the second group; equal lengths refuted after a refused append |
| C51, C52 | entropy and Shomate corrections | derivatives, `ln` lemmas |
| C53 | `boltzmann_coverages` | real arithmetic; site totals refuted |
| C54 | `merge_two_dicts`, `master_only` | induction on the dictionary |
| C55 | `convert_time` | rational arithmetic |
| C56 | dictionary text and the reader of C45 | induction on the dictionary |
| C58 | `solve_ode` as a fuelled loop over an integrator, writing chunks | induction on the trajectory; recording of the last state and termination refuted |
| C59 | TeX texts of the models of C01-C05 | independent text function; what a reader sees of every name; injectivity refuted |
| C60 | the trace of plugin calls of the search loop | induction on rounds and steps; pairing of setup and finalize refuted |
| C61 | `numerical_jacobian` over `R` | `derivable_pt_lim` |
| C63 | construction of a model as a sequence of writes | exact condition, induction on the dictionary; refuted for levels, the default species, the default reactions and sympy |
| C64 | checks of setup values over trees of Python values | case analysis, induction on nested values |
| C65 | class check of the plugin metaclass | case analysis |
| C62 | search loop with fuel | one round without hybrid method; refuted with one (endless restarts) |
| C66 | the method run over an abstract solver | inductive relation for all outcomes; refuted defaults, fsolve, mixed results |
| C67 | rate control over a heap of lists | invariant: only copies are written; limit by derivatives; refuted for shared lists and repeated calls |
| C68 | texts of the generated energy files and a reader for them | writing then reading for all numbers, by induction over the lines; refuted for reactions over two lines |
| C69 | reading of the three KMC input files over arbitrary files and library constructors | one relation per file listing all outcomes, equivalence with the code; state after success and failure; refuted for derived classes |
| C70 | KMC run with the library as arguments, control parameters, scripts | relation of the stages, equivalence with the code; keyword table; scripts by induction over the processes through the lexer of C45; refuted for `time_seed`, changed processes, derived classes |
| C71 | shared logger as a state machine over histories | handlers, levels and lines read off the history since the last clearing, by induction over histories; refuted by short histories |
| C72 | ranks as a transition system with barriers and shared directories | invariant of four phases, progress, decreasing measure; refuted by an execution for every number of ranks |
| C73 | setters on the objects of C46 | frame and read-after-set lemmas, induction over settings |
| C74 | plot_all with drawing and saving as arguments | induction over the reactions; file names injective |
| C75 | default hybrid method and new guesses over the ODE model of C58 | reduction to C58; refuted by an energy dependent integrator |
| C76 | constructors of solver and iterators, the shared precision | induction over histories of constructions; lemma on dictionaries; refuted for the documented arguments |
| C77 | reaction energies and rate constants along cycles, reference energies | sums over the species of the mechanism; the weights of each species cancel; balance of accepted reactions; refuted for supplied reaction energies and one-state texts |
| C78 | rates against free energies, equilibrium | closed form of the rates; logarithms; product of Boltzmann weights over balanced states |
| C79 | steady-state function at the boundary of the physical coverages | closed form, sign of each summand; conservation of sites; refuted for adsorbates as transition states and for adsorbates on two sites |
| C80 | the same mechanism in another order or direction | permutations of sums; reversal of the state lists; refuted for adsorbates on both sides |
| C81 | tables of the log | a reader that splits lines and cuts columns, applied to the written text; refuted for liquids and long reactions |
| C82 | linearity in the rate constants | closed forms of C77-C80; a common factor from a common barrier |
| C83 | reaction orders | powers of the activities in the closed forms |
| C84 | setup of a kinetic Monte Carlo model | the proof of C63 for both classes at once; shapes of nested lists |
| C85 | reading of rate expressions and data files | invariants of the lexers' states; the parser's stack against a grammar given as inductive relations |
| C86 | operations on texts, lists and dictionaries | inductions; uniqueness of decimal texts by bounds on their values |
| C87 | continuing a run with change_start_time.py | exact list of lines; lengths of the written and the intended text; grammar of data files for appended lines |
| C88 | jobs for many pressures | induction on nested values: reader undoes writer; invariant of the loop: settings differ from the template in the pressures only |
| C89 | coverages collected from many runs | invariant of the loops; sorting by index keeps pairs together; cell by cell for tables of any size |
| C90 | rates and frequencies collected from many runs | order of names with a suffix is decided before the suffix; sums over indices equal signed sums |
| C91 | an animation from sub-rectangles shows the given pictures | sums of differences are zero exactly where nothing changes; first and last changed row and column; induction over the frames |
| C92 | the animated GIF file says what was asked for | a reader of the format, written independently, undoes the writer block by block; induction over the frames with fuel; composed with C91 |
| C93 | reported steady states conserve the elements within the tolerance | C31's exact balance of atoms and C34's bound on the derivatives; weighted sums bounded term by term |
| C94 | a mechanism at work obeys the second law | free energies of reactions written with chemical potentials of names, sums over reactions and species exchanged, sites eliminated by the balance of sites; each term is negative by C78 |
| C95 | the run scripts do what their comments say | the scripts as state passing functions over the history of actions; an inductive relation for "one after the other until one raises", the last name in the order of names as a maximum; partial: five refutations |
| C96 | the colour quantizer makes a palette learned from the picture and replaces each pixel by a nearest colour of it | learning as a relation on networks (who is nearest, who moves how far), the plan of pixels in closed form with number theory for "each pixel at most once"; rounding by bounds, sorting by permutation and order, nearest colours by minimality; partial: five refutations |
| C97 | competing adsorption follows Langmuir's isotherm | no new code: the steady-state function in closed form for such mechanisms (each adsorbate made by one reaction), a linear equation per site in the free sites with the residuals as error term; equivalence, uniqueness, and the distance of a reported state from the isotherm |
| C98 | the Shomate correction varies continuously with temperature | no new code: continuity of the polynomials from C52, the limit from above at the border of two rows; partial: refuted for methane at 1300 K with bounds on ln 1.3 |
| C99 | coverages integrated over time stay physical | no new code: solutions of the rate equations as functions of time; the sum of the squares of the negative parts of coverages and free sites obeys V' <= c V, since a rate is at most a constant times any factor of it (Gronwall); uniqueness the same way with the differences of two solutions; C97_approach with the squares of the distances from the isotherm, weighted |
| C100 | comparing or adding the wrong things is noticed | objects of any class as arguments of `conserve` and `+`; partial: states hand the error back instead of raising it, and `+` uses a method as if it were text |
| C101 | the Shomate correction lowers a gas, the more the hotter | no new code: bounds on entropy and heat capacity of each row (chords and tangents of the powers, bounds on ln at the row ends), mean value theorem; partial: refuted for oxygen at 2000 K |
| C102 | the correction by partition functions falls with temperature | no new code: each factor (translation, rotation in one formula, vibration) grows with T; refuted at 278 K for CO where the rotational formula changes |
| C103 | the Shomate parameters against standard values and against each other | no new code: bounds on ln by roots and Pade quotients, linear arithmetic per row; the standard values (`standard_gases`, Thermo_Spec.v) are textbook figures, rounded, and are not in the program; partial: refuted for ethanol |
| C104 | reading an animated GIF | induction over the frames; PIL (conversion and search at each position) is an oracle; partial: refuted for a frame that is cut off |
| C105 | the vibrations of a molecule | table lookups, logarithm of a product, monotonicity in the number of factors; partial: refuted for repeated vibrations and the rotation of CO2, SO2 and CS2 |
| C106 | rate constants and heating | 1 + x < exp x for the monotonicity, derivative rules for the apparent barrier |
| C107 | adsorption written both ways | the two branches of get_rxn_rates_CT compared; partial: refuted where the rate of desorption is capped, and for the constants |
| C108 | processes on a lattice | KMCLib's events as specification (sites, wildcards, neighbours as arbitrary functions); each pair of processes undoes itself, hence detailed balance and stationarity by summation; partial: redistributions and overwritten wildcards refuted |
| C109 | invariants of simulations | induction over the sequence of events (specification as for C108), with C39 for what is recorded; partial: conservation as in the reactions refuted |
| C110 | the two solvers in the mean field | sum over configurations of products over sites = product of sums (induction on the number of sites); one factor per constraint (induction on the elements before); then C24 and C27 |
| C111 | pressure in the rates of collision theory | the pressure cancels between the collision rate (C21) and the logarithm of the entropy correction (C51); witnesses: Eley-Rideal step, methanol |
| C112 | mean drift of a lattice and coverage equations | an event changes a sum over the elements by a constant (C108's lemmas), so drift = expected rate (C110) times change; sum over places, coordinates, definitions; number of an element = stoichiometric number, then C28 |
| C113 | Equilibrium coverages of lattice and mean field | induction over the number of sites (averages of products), C112's drift, balanced rates |
| C114 | Isotherm of dissociative adsorption | no new code: C97's closed form with powers; on coverages that are not negative a power can be undone, so that the equations are again linear per site; the other roots refuted by a witness |
| C115 | Single-site steps have one steady state | no new code: the coverage equations as rates between the states of a site; existence by induction over the states (elimination of one after another), uniqueness by a maximum principle (what is positive passes on along the links) |
| C116 | Single-site mechanisms approach the steady state | no new code: the weighted square distance falls along solutions (its derivative is minus the unevenness along the links), a Poincare inequality by induction along the links, Gronwall; the solutions are exact ones, the integrator of scipy is not modelled |
| C117 | Dead ends stand still, steps in a row run at one pace | no new code: the rate of change of an adsorbate is minus the sum of net rates times what each reaction uses up, summed with any weights; induction over the order in which dead ends are taken away |
| C118 | The degrees of rate control sum to one up to the size of the perturbation | no new code: the function of the steady state is coercive on the coverages of one kind of site (from the proof of C115), so the coverages move by at most a constant times the change of the constants; summed over the steps the first order terms cancel to those of a common factor; then the definition of the degree and the copies of the energies from C67 |
| C119 | Coverages that the search accepts are near the steady state | no new code: the distance of two coverage vectors is bounded by the difference of their rates of change (coercivity, as in C118, from the spectral gap of C116), one of them being the steady state of C115; with what C34 says of the answer of a search; refuted for one tolerance for all mechanisms by slow steps |

## Trusted base

* Coq's kernel (8.16.1).
* The hand translation of `/repo` into Gallina.  Each definition cites its file and
  lines and states its simplifications.
* Exact numbers in place of floating point (IEEE doubles, mpmath `mpf`).  Theorems say
  nothing about rounding.
* The standard library axioms listed per theorem at the end of this file.  No other
  axiom is used.

Tables (`Mol_Model.v`, `Thermo_Model.v`) were transcribed from the text of
`scaks/database/elements_data.py` and `thermo_data.py` by a small script.  While checking the
transcription one data file was once executed to count its rows.  Nothing else of the
package was executed, and no result rests on that run.

Oracles and readers that are trusted to match their originals:

* The readers of rate expressions and of data files (`PyExpr_Model.v`, `PyData_Model.v`) are hand-written models
  of how CPython executes the small subset of statements found there.  C85 proves them equal to a grammar and a
  meaning given as relations (`PyExpr_Spec.v`, `PyData_Spec.v`); what is trusted is that these relations are Python's.
  Numbers with leading zeros (an error in Python 3) are read as decimals; the package writes none.  A float is carried as its
  text, so that `float(repr(x)) == x` is assumed where a text stands for a float.
* `Gen_Model.v` adds to that reader `a, b = [], []`, `x.append(number)`, `x.append()` and unexpected indentation (C68).
  The value of a number literal is an argument.
* `mpi4py`'s `allgather` returns the values of all ranks in rank order.
* KMCLibX calls a plugin's `setup` once, `registerStep` for each analysed step, `finalize` once,
  and hands it the step number, the time, the types and the interactions.  A picked index is
  not negative.
* Python's `str` of a float (`show`): a number literal.  The text PrettyTable makes of a table
  (`render`, `process_table`): any text.
* The root finders: the function, its Jacobian, the norm, mpmath's `lu_solve` and scipy's `golden`
  are arguments that may return anything or raise.  Comparing two points (`x1 == x0`) is an
  argument as well.  For the numbers of C32's second half, `<` is the order of `R`.
* The hybrid method and the plugins of the steady-state search may do anything that depends on
  what happened before, and may raise.  They do not change the solver's own attributes.
* `pickle.dump` and `pickle.load` (C49) are arguments; that loading gives back what was dumped is a
  hypothesis where it is used.  Opening a file for writing empties it.
* scipy's `ode` object (C58): its start, its time, its values and `integrate` are arguments; after an
  exception the object may be in any state.
* sympy (C30): an expression is kept as a tree, `evalf(subs=...)` is the value of the tree (a symbol that
  is left unevaluated is an error), `Derivative(...).doit()` differentiates the tree by the usual rules, and the
  text of `latex` is an argument.
* The methods of the solver that `run` (C66) and `get_single_XRC` (C67) call may return anything, raise, and
  change anything they own.  They do not change the energies handed to them, nor the results stored in the model.
* `copy.deepcopy` of a dictionary of lists copies each list once, and keeps shared lists shared.
* numpy's broadcasting of an array of rows and a vector (C50).  The shape and the kind of numbers that `np.array`
  gives nested lists of Python values (C84).
* The constructor `KMCProcess` of KMCLibX accepts the arguments it is given (C36).  The other constructors of
  KMCLibX, its main loop, `_script` of its objects and the constructors of the analyses (C69, C70) are arguments
  that may return anything or raise; they do not change the model or its solver.
* Python's `logging` (C71): levels, handlers in order, the handler of last resort, the root logger unconfigured.
* The text of a number in a log table (C81), `'{:.16e}'.format(float(x))` or `'{:.4e}'`, is an argument; `float` does not fail there.
* MPI barriers (C72): all ranks are let go together once each has called some barrier.
* `catplot` (C74): drawing and saving are arguments that may return anything or raise.
* Executing a KMC input file (C69) is an argument: what it gives for the three names, or an exception.

## What is modelled

| part of /repo/scaks | files |
|---------------------|-------|
| `parsers/rxn_parser.py` (all of it, incl. regular expressions) | Regex, Rxn_* |
| `parsers/parser_base.py` | Species_*, Mol_*, Energy_* |
| `parsers/absolute_energy_parser.py`, `relative_energy_parser.py` | Energy_* |
| `models/kinetic_model.py` 158-251, 416-422, `models/micro_kinetic_model.py` 140-144, 336-342, `models/kmc_model.py` 139-140, 161-167 (logging) | Log_* |
| `models/kinetic_model.py` 188-201, `models/micro_kinetic_model.py` 126-133 (directories in an MPI run) | MpiDir_* |
| `models/kinetic_model.py` 379-414 (setting components) | Set_* |
| `plotters/energy_profile_plotter.py` | Plot_* |
| `models/kinetic_model.py` 318-325, 332-372; the reading of such files in the energy parsers | Gen_* |
| `database/elements_data.py`, `thermo_data.py` (tables used) | Mol_Model, Thermo_Model |
| `correctors/thermodynamic_corrector.py` | Thermo_* |
| `solvers/solver_base.py` (rate constants) | Rate_* |
| the Python expressions written by the solvers (lexer, parser, evaluator) | PyExpr_*, Reader_Properties |
| `solvers/mean_field_solver.py` 116-556 | MF_* |
| `solvers/steady_state_solver.py` 34-254 | MF_* |
| `solvers/steady_state_solver.py` 256-495 (analytical Jacobian; the cache left out) | SS_* |
| `solvers/mean_field_solver.py` 617-1068, `solvers/steady_state_solver.py` 503-664 (symbolic methods) | Sym_* |
| `solvers/rootfinding_iterators.py` 92-147, 218-262; `functions.py` 58-98 | Newton_* |
| `solvers/steady_state_solver.py` 684-705, 758-963 | Steady_* |
| `plugins/hybrid_methods.py`, `models/micro_kinetic_model.py` 283-296, `solvers/steady_state_solver.py` 1174-1189, 1363-1381 | Guess_* |
| `solvers/mean_field_solver.py` 24-129, `solvers/rootfinding_iterators.py` 16-90, 150-216, `solvers/steady_state_solver.py` 684-705 (constructors) | Solver_*, Attr_Model |
| `solvers/steady_state_solver.py` 1195-1360 (`solve_ode`) | Ode_* |
| `models/micro_kinetic_model.py` 126-137, 146-281, 311-325, 344-371; `solvers/steady_state_solver.py` 709-756 | Run_* |
| `solvers/steady_state_solver.py` 1052-1147 (`get_single_XRC`; log output left out) | Xrc_* |
| `solvers/mean_field_solver.py` 240-268, 486-510, 558-577, `solvers/steady_state_solver.py` 972-1050, 1149-1172 (log tables) | Table_* |
| `parsers/rxn_parser.py` (`texen`) | Rxn_Model, Tex_* |
| `parsers/rxn_parser.py` (`conserve` with an object of any class, `__add__`) | Obj_* |
| `descriptors/descriptors.py`, `descriptors/component_descriptors.py`, `plugins/metaclasses.py`, `utilities/check_utilities.py` 62-135, `models/kinetic_model.py` class attributes and `__init__`/`_load`, `models/micro_kinetic_model.py` 88-124, 298-309, `models/kmc_model.py` 10-136, `parsers/parser_base.py` 25-40 | Attr_* |
| `descriptors/descriptors.py` 345-405 (cached methods), used with `get_rate_constants` and `poly_adsorbate_derivation` | Memo_* |
| `__init__.py` 25-49 (data archive), `models/micro_kinetic_model.py` 327-334 | Archive_* |
| `utilities/coordinate_utilities.py` | Coords_* |
| `mpicommons.py` (split, merge, master only), `compatutil.py` `merge_two_dicts` | Mpi_* |
| data files: lexer, parser and executor for the Python subset the package writes | PyData_*, Reader_Properties |
| `utilities/format_utilities.py` | Fmt_* |
| `solvers/kmc_solver.py` 110-226, 390-399; `utilities/check_utilities.py` 11-59, 138-218 | Kmc_* |
| `parsers/kmc_parser.py` 41-133, 156-229; `models/kmc_model.py` 169-202; `functions.py` 115-140 | KIn_* |
| `models/kmc_model.py` 142-159; `solvers/kmc_solver.py` 36-108, 228-388 | KRun_* |
| `solvers/kmc_plugins/kmc_functions.py`, `/repo/c++/src/kmc_functions.cpp` `collect_coverages`; the coverages recorded at a step (`coverages_analysis.py` 80-93) | KCov_* |
| `solvers/kmc_plugins/*_analysis.py` (state machines and files) | KPlug_* |
| `/repo/scripts/kmc_run/change_start_time.py` (the printed text of a number is an argument) | Restart_* |
| `/repo/scripts/kmc_run/1d-run/create_jobs.py`, `2d-run/create_jobs.py`, and the executed setup file as far as it consists of assigned literals | Jobs_* |
| `/repo/scripts/kmc_plot`: the data part of `plot_merged_coverages.py`, `plot_tof.py`, `plot_frequencies.py`, `batch_plot/extract_*.py`, `map_plot/extract_*.py` (under the Python 2 that `execfile` and `xrange` there need); not the drawing. `float` and `np.argsort` are quantified over (any function that puts the entries in ascending order) | Collect_* |
| `plotters/images2gif.py`: `checkImages`, `intToBin`, `GifWriter`, `writeGif` with `nq=0` for numpy arrays (PIL images are taken as arrays of bytes). Differences of arrays of different shapes (numpy's broadcasting) give `Unsupported`. What PIL makes of an array (palette, descriptor, compressed data) and a viewer's decoder are quantified over; durations are exact fractions, so the rounding of `duration*100` is not modelled | Gif_* |
| `scripts/mkm_run/run.py`, `scripts/kmc_run/run.py`, the keywords of `MicroKineticModel.run`. The methods of the model and the clock are oracles that may depend on the whole history; names are compared byte by byte, names that `ls` takes for options or that contain a line feed give `Unsupported`, keyword values of other types likewise; tracebacks are left out. | Script_* |
| class `NeuQuant` of `plotters/images2gif.py` and the branch of `convertImagesToPIL` with `nq >= 1`. Floats are exact fractions; the machine is little endian; what `np.empty` leaves is a parameter; scipy's tree search is an oracle; the conversions by PIL after the pixels were replaced, the unused table `netindex` and the cache of `geta` are left out; arrays of different lengths give `Unsupported` (proved not to happen). | Quant_* |
| `readGif` of `plotters/images2gif.py`. PIL's opened file is a pair of functions of the position, which may raise; the loop has fuel (`OutOfFuel` otherwise). | GifRead_* |

## What is not modelled

* KMCLib, which runs the processes: C108 states in KmcLat_Spec.v what an event on a lattice is (elements before
  match, elements after are written, wildcards do neither, basis site agrees) and proves consequences for the
  processes; the library's own matching, redistribution and random numbers are not modelled.
* `classified_numerical_jacobian` (`mean_field_solver.py` 579-614): nothing calls it, and with mpmath it
  ends in an AttributeError at `reshape`.
* Single log messages of the solvers (progress, warnings), the plotting scripts, tests, examples.
* The numerical libraries (numpy, scipy, mpmath, sympy): their routines are arguments of
  the models.
* Energy files other than those made by the package's generators (C68): there the model starts
  from the dictionary of names the file defines (C15-C18).

## Assumptions per theorem

<!-- assumptions begin -->

**Closed under the global context**

* Archive_Properties: C49_file, C49_kept, C49_read_partial, C49_ranks, C49_crash, C49_crash_refuted, C49_two_tools_refuted, C49_restart_refuted, C49_stuck
* Attr_Properties: C46_single_write, C46_read_after_write, C46_copy_after_write, C46_read_default, C46_used_refused, C46_wrong_kind, C46_outcome, C46_value_refuted, C46_component_refuted, C46_documented, C46_documented_all, C47_shared_refuted, C47_register, C47_change, C47_own_list_partial, C63_construct, C63_unknown_ignored, C63_level_refuted, C63_default_refuted, C63_sympy_refuted, C63_reactions_refuted, C64_text, C64_text_among, C64_integer, C64_integer_among, C64_number, C64_dict, C64_types, C64_sequence, C64_species, C64_ref_energies, C64_interval, C64_refusal, C64_refusal_setup, C64_interval_refuted, C64_plugin_refuted, C64_candidates, C64_number_candidates, C64_sequence_candidates, C64_equality, C64_species_refusal, C64_attributes, C64_attributes_every, C64_attributes_all, C65_class, C65_refusal, C84_construct, C84_unknown_ignored, C84_vectors, C84_integer_vectors_refuted, C84_generator_refuted, C84_solver_refuted, C84_documented, C84_documented_all, C84_default_accepted, C84_attributes, C84_attributes_all
* Builtins_Properties: C86_classes, C86_strip, C86_join, C86_split, C86_read_integer, C86_write_integer, C86_lookup, C86_assign, C86_dict_equal, C86_sorted, C86_index, C86_element, C86_first, C86_last, C86_repeat, C86_loop
* Collect_Properties: C89_merged_exact, C89_merged_total_partial, C89_merged_total_refuted, C89_merged_CO_refuted, C89_collected_exact, C89_collected_missing, C89_collected_CO_refuted, C89_sorted, C89_table_exact, C89_table_cells_partial, C89_table_labels_refuted, C89_table_errors, C89_places_exact, C89_places_types_partial, C89_places_refuted, C90_tofs_exact, C90_map_tofs_exact, C90_tofs_errors, C90_forward_rates_partial, C90_idle_reaction_refuted, C90_sorted, C90_bars_exact, C90_bars_pairs_partial, C90_bars_refuted, C90_production, C90_signs, C90_production_amount_refuted, C90_production_species_refuted, C90_production_consumed_refuted, C89_not_a_number
* Coords_Properties: C50_add, C50_apart, C50_self, C50_nothing, C50_new, C50_append, C50_equal_lengths_partial, C50_equal_lengths_refuted, C50_extend, C50_extend_only, C50_extend_stops, C50_move, C50_move_arguments, C50_move_lengths, C50_move_add, C50_move_check_refuted, C50_move_empty_refuted, C50_duplicates_refuted
* Energy_Properties: C15_without_energies
* Fmt_Properties: C45_read_back_partial, C45_integers, C45_in_a_file, C45_zero_columns_rejected, C45_quotes_refuted, C56_dict_read_back, C55_convert_time
* Gen_Properties: C68_absolute_written, C68_absolute_order, C68_absolute_without_reactions, C68_relative_written, C68_replaced, C68_append
* GifRead_Properties: C104_read, C104_first_frames_partial, C104_raised, C104_scalar, C104_picture_fails, C104_refused, C104_complete_refuted
* Gif_Properties: C91_arrays, C91_entries, C91_gray, C91_color, C91_refused, C91_each, C91_replay_partial, C91_smallest, C91_opaque, C91_transparent_refuted, C91_disposed_refuted, C92_two_bytes, C92_two_bytes_refused, C92_palette, C92_read_back, C92_written_partial, C92_plays, C92_plays_whole, C92_spread, C92_place_none, C92_place_given, C92_transparency, C92_mixed, C92_unopened, C92_no_images, C92_bad_loops, C92_infinite, C92_breaks_off, C92_for_ever_refuted, C92_places_refuted
* Guess_Properties: C75_hybrid, C75_steps, C75_stationary, C75_interval_zero, C75_energies_refuted, C75_modify, C75_modify_steps, C75_modify_refuted, C75_queries, C75_good_guess_refuted, C75_register, C75_decorated_refuted
* Jobs_Properties: C88_read_back, C88_one_meaning, C88_quoting_refuted, C88_jobs, C88_jobs_2d, C88_own_directory_refuted, C88_no_template, C88_no_template_2d, C88_fails, C88_errors, C88_nothing
* KCov_Properties: C38_agreement_partial, C38_incomplete_cell, C38_no_cell, C38_refuted, C39_collected_fractions, C39_recorded_fractions, C39_recorded_bounds, C39_recorded_values, C39_no_empty_type
* KIn_Properties: C69_text, C69_sites, C69_configuration, C69_processes, C69_default_sites, C69_stored, C69_names, C69_failed, C69_energies_failed, C69_derived_class, C69_derived_class_refuted, C69_configuration_unchecked_refuted
* KPlug_Properties: C40_recorded_partial, C40_types_refuted, C40_empty_flush_refuted, C40_other_ranks, C40_new_files, C41_frequencies, C41_intervals, C41_total, C41_failures, C41_other_ranks, C42_counts, C42_each_step_once, C42_no_steady_time, C42_refuted, C57_probabilities, C57_no_rate, C57_file, C57_flushes, C57_other_ranks
* KRun_Properties: C70_control_parameters, C70_other_attributes, C70_time_seed_refuted, C70_processes_given, C70_no_processes, C70_preparation_failed, C70_parameters_rejected, C70_started, C70_preparation, C70_derived_class, C70_later_runs, C70_script, C70_header_is_comment, C70_script_processes, C70_changed_processes_refuted
* KmcLat_Properties: C109_declared, C109_recorded
* Kmc_Properties: C36_definition_check, C36_generation, C36_number_of_processes, C36_invalid_rejected, C36_other_errors_refuted, C37_mapping_aligned_partial, C37_generated_once, C37_failed_attempt, C37_refuted
* Log_Properties: C71_level, C71_file, C71_console, C71_no_handlers, C71_construction, C71_banner, C71_file_not_opened, C71_quiet, C71_old_level, C71_models_alike, C71_own_file, C71_shared_file_refuted, C71_once_refuted, C71_earlier_model_refuted, C71_lowest_level_refuted, C71_own_console_refuted, C71_worker, C71_second_worker_refuted
* MF_Properties: C25_one_site_each
* Mol_Properties: C14_expansion, C14_outcomes, C14_rejection_partial, C14_unclosed_refuted, C14_acceptance, C14_mass_unclosed, C14_mass
* MpiDir_Properties: C72_completes, C72_master, C72_fresh_directory_refuted, C72_after_failure, C72_waits_for_ever_refuted
* Mpi_Properties: C43_split_then_merge_partial, C43_lossless_iff_divides, C43_piece, C43_few_elements_rejected, C43_no_ranks, C43_refuted, C44_exact_and_balanced, C44_chunk_of_rank, C54_merge, C54_master_only
* Newton_Properties: C32_steps, C32_stale_value_refuted, C33_own_residual, C33_steps, C33_end, C33_singular
* Obj_Properties: C100_formula_conserve, C100_state_conserve_partial, C100_state_vouches_others, C100_state_conserve_refuted, C100_add_fails, C100_add_refuted
* Ode_Properties: C58_start, C58_recorded, C58_every, C58_quiet, C58_ended, C58_end_time, C58_steps, C58_interval_zero, C58_last_refuted, C58_stuck_refuted
* Plot_Properties: C74_names
* Quant_Properties: C96_palette_partial, C96_python3_refuted, C96_samples_refuted, C96_no_samples, C96_small, C96_mode, C96_few_colors, C96_schedule_length, C96_schedule_distinct, C96_schedule_refuted, C96_bias_refuted, C96_bias, C96_palette_numbers, C96_convert, C96_quantized, C96_quantized_scipy, C96_writer_refuted, C96_writer_python2, C96_writer_python3
* Reader_Properties: C85_words, C85_unambiguous, C85_outside, C85_file_words, C85_values, C85_values_unambiguous, C85_statements, C85_files, C85_unknown_names, C85_only_lists, C85_beside, C85_prefixes, C85_misplaced, C85_open_text, C85_wrong_brace
* Restart_Properties: C87_written, C87_lines, C87_intended, C87_only_last, C87_continues_partial, C87_joined, C87_continues_refuted, C87_twice, C87_missing_refuted, C87_no_times, C87_unreadable
* Run_Properties: C66_outcome, C66_refusals, C66_default, C66_default_refuted, C66_mixed_refuted, C66_fsolve, C66_fsolve_refuted, C66_file_ignored, C66_unsolved, C66_results, C66_summary
* Rxn_Properties: C01_formula_roundtrip, C02_formula_accepted_iff_site_marker, C03_reaction_two_states, C03_reaction_three_states, C03_no_arrow_error, C03_four_states_refuted, C04_revert_involution, C04_revert_error, C05_conservation_check_exact, C05_accepted_is_balanced, C05_check_outcomes, C05_formula_conserve_iff, C05_state_conserve_exact, C05_one_sided_refuted, C06_check_reversal, C06_check_permutation, C07_element_totals, C07_formula_elements, C07_site_totals, C08_species_table_refuted, C08_species_table_partial, C08_species_table_last, C08_species_list, C09_gas_lists, C09_gas_lists_mirror, C09_formula_type
* SS_Properties: C29_unknown_adsorbate, C29_leading_coverage
* Script_Properties: C95_mkm_partial, C95_determined, C95_kmc_partial, C95_keywords, C95_search, C95_ode_only_refuted, C95_never_exits, C95_missing_setup_refuted, C95_old_log_refuted, C95_setup_removed_refuted, C95_python3_refuted
* Set_Properties: C73_set_solver, C73_not_a_solver, C73_last_solver, C73_nothing_else, C73_set_corrector, C73_corrector_refuted, C73_plotter_refuted
* Solver_Properties: C76_construct, C76_precision, C76_own_precision_refuted, C76_constrained, C76_damped, C76_documented_refuted, C76_iterator
* Species_Properties: C10_lists_exact, C10_lists_disjoint, C10_order_independent, C10_all_or_nothing, C10_error_comes_from_a_reaction, C11_matrices_net_consumption, C11_reversal_negates, C12_rows_conserve, C12_double_site_refuted, C13_returned_equation_checked, C13_returned_equation_balanced, C13_outcome, C13_too_few_coefficients, C13_one_sided_rejected
* Sym_Properties: C30_lookup_refusals, C30_dtheta_refusals, C30_latex
* Table_Properties: C81_turnover_frequencies, C81_reversibilities, C81_coverages, C81_rate_control, C81_thermodynamic_rate_control, C81_all_gases, C81_rates, C81_rates_silent, C81_rates_empty, C81_nothing_lost, C81_long_reaction_refuted
* Tex_Properties: C59_formula, C59_state, C59_reaction, C59_reaction_error, C59_readable_simple, C59_readable, C59_distinct_refuted
* Xrc_Properties: C67_raised

**`ClassicalDedekindReals.sig_forall_dec`**

* KmcLat_Properties: C109_conserved_refuted
* MF_Properties: C25_short_vector
* Rate_Properties: C21_gas_and_pressure
* Solver_Properties: C76_sorted
* Sym_Properties: C30_symbol_lookup
* Thermo_Properties: C105_modes_partial, C105_modes_refuted
* Xrc_Properties: C67_stored

**`ClassicalDedekindReals.sig_forall_dec`, `FunctionalExtensionality.functional_extensionality_dep`**

* Accuracy_Properties: C119_distance, C119_search, C119_length, C119_any_search, C119_rates, C119_agreement, C119_tending, C119_uniform_refuted
* Balance_Properties: C93_reported_balance, C93_both_sides_refuted
* Control_Properties: C118_changes, C118_rule, C118_exactly_refuted
* Energy_Properties: C15_two_states, C15_three_states, C15_consistent, C15_missing_species, C15_lists, C15_lists_error, C15_double_site_refuted, C16_reversal, C16_reversal_error, C17_completion, C17_rejection, C18_priority, C18_relative_error_stores_nothing, C18_absolute_no_data, C18_absolute_outcome, C18_absolute_error_stores_refuted
* FirstGuess_Properties: C60_no_guess, C60_no_method
* Gen_Properties: C68_absolute_filled, C68_absolute_unedited, C68_relative_filled, C68_relative_unedited, C68_no_file, C68_other_kind, C68_other_kind_unedited, C68_misspelled, C68_two_lines_refuted, C68_two_lines_not_indented_refuted
* Hop_Properties: C115_exists, C115_exactly_one, C115_links_needed
* KmcDrift_Properties: C112_drift
* KmcLat_Properties: C108_reversible, C108_redistribution_refuted, C108_wildcards_refuted, C109_conserved_partial
* KmcMean_Properties: C110_expected_rate, C110_elsewhere
* Langmuir_Properties: C97_langmuir, C97_exactly_one, C97_reported
* MF_Properties: C25_two_views, C25_table_rebuilt, C26_physical, C26_physical_left_alone, C26_idempotent, C26_exact, C27_mass_action, C27_mass_action_first_copy, C27_written_twice_refuted, C27_net_rates, C27_reversibilities, C27_reversibilities_errors, C28_net_production_partial, C28_counted_by_first_formula, C28_both_sides_refuted, C31_turnover_is_net_production, C31_atoms_conserved, C31_steady_state_balanced, C31_unknown_gas
* Memo_Properties: C48_exact, C48_transparent_partial, C48_derivation_refuted
* Newton_Properties: C32_norms_decrease, C33_feasible, C61_differences, C61_converges, C61_affine, C61_rejects
* Plot_Properties: C74_pictures, C74_no_energies, C74_documented_argument_refuted, C74_uphill_refuted
* Reader_Properties: C85_expressions, C85_no_expression, C85_no_words, C85_assignments
* Relax_Properties: C116_links_needed
* SS_Properties: C29_jacobian_exact, C29_jacobian_partial, C29_jacobian_refuted, C29_repeated_species_refuted, C29_wrong_length_rejected, C29_no_data
* Scale_Properties: C82_linear, C82_switched_off, C83_reaction_order, C83_more_pressure
* Series_Properties: C117_balances, C117_dead_ends, C117_series, C117_no_turnover
* Steady_Properties: C34_converged, C34_source, C34_complete, C34_no_error_known, C34_no_adsorbates, C35_negative_refuted, C35_overfilled_refuted, C35_non_negative_partial, C35_physical_partial, C35_feasible_partial, C60_rounds, C60_pairs_refuted, C62_one_round_partial, C62_same_guess_refuted, C62_zero_interval_refuted
* Sym_Properties: C30_no_data_needed
* Table_Properties: C81_gas_rows, C81_liquids_refuted
* Thermo_Properties: C22_consistent, C22_no_transition_state, C103_zero_partial, C105_rotors, C105_temperatures_partial, C105_rotation_refuted, C105_vibrations_only, C105_rotations_only_partial, C105_rotation_of_CS2_refuted, C105_rotation_of_SO2_refuted
* Whole_Properties: C77_cycles_close, C77_reference_free, C77_supplied_refuted, C77_one_state_refuted, C79_never_negative, C79_never_overfull, C79_transition_state_refuted, C79_two_sites_refuted, C80_order, C80_direction, C80_spectator_refuted
* Xrc_Properties: C67_values, C67_needs, C67_missing, C67_errors, C67_no_coverages, C67_energies_kept, C67_alias_refuted, C67_repeat_refuted, C67_meaning

**`ClassicalDedekindReals.sig_forall_dec`, `ClassicalDedekindReals.sig_not_dec`, `FunctionalExtensionality.functional_extensionality_dep`**

* KmcDrift_Properties: C112_same_equations
* KmcEq_Properties: C113_recorded, C113_no_drift, C113_steady_state
* KmcLat_Properties: C108_detailed_balance_partial, C108_stationary_partial
* KmcMean_Properties: C110_same_rates
* MF_Properties: C53_distribution, C53_errors, C53_physical_partial, C53_scarce_site_refuted
* Rate_Properties: C19_value, C20_detailed_balance, C20_absolute_energies, C20_relative_energies, C21_value, C21_nonnegative, C21_proportional, C21_rejected, C21_unphysical, C24_pressure_partial, C24_unknown_text, C24_pressure_refuted, C106_apparent, C107_transition_state
* Sym_Properties: C30_symbols, C30_rate_constants, C30_equilibrium, C30_rates, C30_net_rates, C30_tofs, C30_steady_partial, C30_steady_counts, C30_steady_refuted, C30_jacobian_partial, C30_jacobian_size, C30_jacobian_refuted, C30_constants_refusals, C30_rates_refusals, C30_steady_refusals, C30_unused, C30_unused_first, C30_liquid_refuted, C30_star_refuted, C30_missing_symbol

**`ClassicalDedekindReals.sig_forall_dec`, `ClassicalDedekindReals.sig_not_dec`, `Classical_Prop.classic`, `FunctionalExtensionality.functional_extensionality_dep`**

* Balance_Properties: C94_dissipation, C94_free_energy_falls, C94_second_law, C94_reported_second_law, C94_supplied_refuted
* Control_Properties: C118_computed, C118_limit, C118_tolerance, C118_tolerance_limit
* Dissoc_Properties: C114_isotherm_partial, C114_exactly_one_partial, C114_energies_partial, C114_root, C114_spurious_refuted
* Flow_Properties: C99_stays, C99_feasible, C99_unique, C99_transition_state_leaves, C99_two_sites_leave, C97_approach
* Hop_Properties: C115_energies
* KmcLat_Properties: C108_transition_state
* Langmuir_Properties: C97_energies
* MF_Properties: C27_rate_constants_TST, C27_rate_constants_each, C27_rate_constants_rejected
* Memo_Properties: C48_rate_constants_partial, C48_method, C48_method_refusals, C48_temperature_refuted, C48_no_argument_refuted, C48_bound_method_refuted
* RatePress_Properties: C111_adsorption_partial, C111_desorption_partial, C111_first_gas, C111_second_gas_refuted, C111_untabulated, C111_untabulated_refuted
* Rate_Properties: C19_positive_decreasing, C19_barrier_inverse, C19_rate_inverse, C19_errors, C20_unknown, C21_adsorption, C21_desorption, C21_surface, C21_setup_checks, C106_heating, C106_attempts, C106_vant_hoff, C106_collisions, C107_equilibrium_partial, C107_equilibrium_refuted, C107_constants_refuted
* Relax_Properties: C116_approach, C116_limit, C116_energies
* Scale_Properties: C82_common_shift, C83_constants_without_pressure
* Sym_Properties: C30_rate_constants_agree, C30_collision_refuted
* Thermo_Properties: C22_corrected, C22_failure, C22_unknown_method, C23_stoichiometry_partial, C23_entropy_ignores_number, C23_shomate_drops_numbered, C23_entropy_refuted, C23_shomate_refuted, C51_value, C51_pressure_law_partial, C51_mass_law, C51_not_tabulated, C51_gases, C51_zero_pressure, C51_no_vibrations, C51_defaults, C51_cold_linear, C51_all_temperatures_refuted, C52_value, C52_derivative, C52_polynomials, C52_below, C52_outside, C52_gases, C52_not_gas, C98_inside_partial, C98_step, C98_continuous_refuted, C101_low, C101_falls_partial, C101_heat_capacity, C101_growing, C101_falls_refuted, C102_falls_partial, C102_gases, C102_falls_refuted, C103_standard_partial, C103_meet, C103_step_cause, C103_one_reference, C103_ethanol_refuted, C105_zero_point, C105_too_high
* Whole_Properties: C77_constants_close, C78_downhill, C78_equilibrium, C78_boltzmann
* Xrc_Properties: C67_limit

<!-- assumptions end -->
