# DESIGN: a Rocq model of bpampel/bdld

Source: /repo (python, pinned commit, version 0.3.2).  The git submodule
`bdld/helpers` is empty in /repo.  Its code is read from the archive shipped in
the repository, `/repo/dist/bdld-0.3.2.tar.gz` (`bdld/helpers/misc.py`,
`plumed_header.py`), whose other modules are identical to /repo/bdld.

## Approach

* Shallow model: one Gallina function per python function, branch by branch, exceptions
  as values (`res A := Ok a | Err e`), mutation as returned state, loops as structural
  recursion or folds.  Every definition cites file and lines.
* Integers (steps, strides, indices): `Z` (python floor division and modulo are
  `Z.div`/`Z.modulo`), lengths and walker numbers `nat`.  Python list indexing and slicing
  (negative and out of range indices) are modelled in `PyBase.v`.
* Floating point numbers: Coq reals `R`.  Where python reaches inf/nan on purpose (empty
  histogram bins, empty states, zero attempts) the type `xreal` of `Model_xr.v` is used
  (finite, +inf, -inf, nan).
* Random numbers, `np.empty` contents and operating system entropy are universally
  quantified arguments, constrained only by the documented numpy contract `rng_ok` of
  `Spec_rng.v` (uniform draws in [0,1), `integers(m)` in [0,m), shuffle is a permutation,
  the requested number of values).
* A property that is false of the code gets a `_refuted` theorem with a concrete witness,
  an `_exact` theorem with what the code does instead, and a `_partial` theorem with the part
  of the property that holds.  Its status in MANIFEST.json is "partial", its note starts
  with REFUTED.

## Files in rocq/theories

| files | contents |
|---|---|
| `PyBase.v` | exceptions, python indexing and slicing, loops |
| `Model_*.v` | the model: definitions only |
| `Spec_*.v` | vocabulary of the theorem statements, written without the functions of the model |
| `Proof_*.v` | lemmas |
| `Prop_*.v` | the property theorems: statement, `exact lemma`, `Print Assumptions`, and an `Example` meeting the hypotheses |

| model | code |
|---|---|
| `Model_xr` | IEEE infinities and nan (no rounding) |
| `Model_f64` | the boundary conditions, the Bussi-Parrinello step, fractions-pos, the FES, time stamps and acceptance probability again, on IEEE binary64 numbers |
| `Model_f64grid` | grids from step sizes, bin edges, binning, counting and bin centers again, on IEEE binary64 numbers |
| `Model_f64ld` | thermostat constants, Langevin run of a walker with reflective boundary, energies and forces of polynomials again, on IEEE binary64 numbers |
| `Model_f64bd` | walker densities (distance-matrix branch) and birth-death rates of the three variants again, on IEEE binary64 numbers |
| `Model_f64many` | the densities and rates for more than 10000 walkers, on IEEE binary64 numbers |
| `Model_f64sim` | a whole simulation (dynamics and birth-death moves, both modes) on IEEE binary64 numbers, random numbers from an abstract generator |
| `Model_f64mb` | the Mueller-Brown potential on IEEE binary64 numbers (python's constants as float64, `** 2` as a function with a small error) |
| `Model_f64od` | overdamped dynamics on IEEE binary64 numbers (overdamped_ld.py:44-105): noise factor, one step, repeated steps |
| `Model_f64df` | free energy differences on IEEE binary64 numbers (delta_f_action.py:148-166) |
| `Model_valid` | actions/action.py get_valid_data |
| `Model_traj` | actions/trajectory_action.py |
| `Model_hist`, `Model_histaction` | histogram.py, actions/histogram_action.py |
| `Model_fes` | actions/fes_action.py without the drawing |
| `Model_deltaf`, `Model_rec` | actions/delta_f_action.py, and the recorders shared with the next line |
| `Model_pdist` | tools.py, actions/particle_distribution.py |
| `Model_dyn` | particle.py, potential/potential.py (boundary conditions), actions/bussi_parinello_ld.py, actions/overdamped_ld.py |
| `Model_heap` | the same dynamics and perform_moves on a heap of particle objects and arrays |
| `Model_pot` | potential/polynomial.py, potential/mueller_brown.py, coefficients_from_file |
| `Model_grid` | grid.py |
| `Model_potgrid` | calculate_reference, calculate_probability_density, main.bd_prob_density |
| `Model_corr`, `Model_bd` | actions/birth_death.py |
| `Model_input` | inputparser.py |
| `Model_ini` | text of the input file: the parts of configparser, int() and float() of python 3.11 that inputparser.py uses |
| `Model_text` | np.savetxt with the formats %w.pf and %d, np.genfromtxt on tables separated by white space |
| `Model_setup` | the setup functions of main.py |
| `Model_main` | main.main: setup, main loop, final runs, exit status |
| `Model_warn` | init_logger of main.py, the warnings about strides, log messages |
| `Model_debug` | walker_density_grid of actions/birth_death.py |
| `Model_files` | helpers (backup, headers, sliced files), which files every action writes, plots and prompts |

## Trusted base

* Coq 8.16.1's kernel (and the compiler of the standard library files).
* No axioms of our own.  The theorems use at most the axioms of the standard library's real
  numbers and classical logic: `ClassicalDedekindReals.sig_not_dec`,
  `ClassicalDedekindReals.sig_forall_dec`, `FunctionalExtensionality.functional_extensionality_dep`,
  `Classical_Prop.classic`.  `Print Assumptions` stands below each theorem; the result for
  each of them is in the last section.
* Libraries: the standard library, and Flocq 4.1.0 (definitions and lemmas, it has no axioms of its own)
  for the binary64 numbers of `Model_f64.v` and `Model_f64grid.v`.
* That the model is a faithful reading of the python code, numpy, scipy and configparser as
  described below.  Nothing of it was executed.

### What is idealised

* Floats are real numbers: no rounding, overflow, denormals or signed zeros.  Statements
  like "the last point is at least max" (C34) or "the rates sum to zero" (C19) hold for the
  exact arithmetic only.  The exception are `Model_f64.v`, `Model_f64grid.v` and `Model_f64ld.v` (C73 to C78, C81 to C84): there floats are binary64
  numbers with rounding to nearest even.  `np.sum` adds in an arbitrary order (`sums`), `np.log`
  and `np.exp` are arbitrary functions with a small relative error (`log_ok`, `exp_ok`,
  Spec_f64.v).
* Inputs with infinite or nan numbers (`float("inf")` converts) are accepted by the parser
  model, but a run that would use them ends as `Unmodelled`; the whole-program theorems
  say so in their hypotheses (`Finished`) or conclusions.
* numpy's generators are the record `rng_if` with the contract `rng_ok`; that draws are
  independent and uniform is not part of the contract.  Theorems about distributions
  speak about bijections (C15) or probabilities as numbers (C20).
* `scipy.interpolate.griddata` is an arbitrary function (`griddata_t`); some theorems ask
  that it works point by point (`griddata_pointwise`, Spec_bdrun.v) or returns the data at the
  data points (`griddata_exact`, Spec_correction.v) where stated.
* `scipy.signal.convolve` is modelled by its definition as a discrete convolution
  (method "direct"); `np.histogramdd`, `np.linspace`, `np.meshgrid`, `np.trapz`,
  `polyval*`, `polyder`, `pdist`, `squareform` by their documented definitions.
* `np.empty`: the contents are universally quantified (`e_junk_*` of `env`).
* configparser: `Model_input.v` starts from the sections and raw strings and has the
  interpolation with `%`.  `int()` and `float()` of strings are an argument (`conv`), so
  most theorems hold for every conversion.  `Model_ini.v` (C85 to C87) has the text level:
  reading lines into sections, and python's `int()` and `float()` as `py_conv`.  Texts are
  ASCII; a number keeps its exact decimal value (python takes the nearest float64) except
  that numbers beyond the range become infinite; the limit of 4300 digits for `int()` is
  left out.  It was read from python's own source and compared with python's configparser
  on 1200 random texts.
* Number formatting: up to C89 output files hold numbers, not digits. `Model_text` gives the text for the
  formats %w.pf and %d (C90, C91); other formats and flags are not modelled.
* Files: a map from names to contents (text with header and rows, grid, or image) and an
  oracle for which names can be written (`fe_ok`); one process.  Names are strings, no
  directories or links.  matplotlib's savefig is modelled by the list of supported
  extensions and the prompt of `save_fig_interactive`, with the lines of standard input as
  argument.
* Screen output is modelled only for the birth-death statistics (C53), the warnings about
  strides and the log messages (C71, C72).  Texts of messages are not.

### What is not modelled

* `__str__` methods, the drawing part of `plot_fes`, performance, the test directory and the
  helper modules not used by bdld (`number_format.py`, `plot.py`, `profile.py`, examples).
* argparse's own errors (missing input argument, unknown options).
* Signals, memory exhaustion, concurrent changes of files.

## Plan per property

| id | modelled / how proved |
|---|---|
| C01 | get_valid_data, TrajectoryAction with arbitrary schedule of run/write; invariant over the op list |
| C02 | functional correctness of get_valid_data against "times t, lw<t<=step, stride|t"; refutation of the unguarded claim |
| C03 | DeltaFAction recorder; invariant; refuted for 0 < n mod W < stride |
| C04 | ParticleDistributionAction recorder; same invariant; counts by C50 |
| C05 | HistogramAction.run on top of TrajectoryAction; invariant over steps |
| C06 | final_run formula in all four phase/filename cases; refuted |
| C07 | Histogram.__init__; exact formula; refuted |
| C08 | Histogram.add against per-bin count specification |
| C09 | HistogramAction.run with reset list; proved for W | r, refuted otherwise |
| C10 | calculate_fes over xreal, junk quantified |
| C11 | calculate_delta_f (calculate_fes h) |
| C12 | setup_delta_f shapes; refuted in >= 2 dimensions |
| C13 | setup_fes; refuted |
| C14 | do_birth_death both modes, perform_moves as fold |
| C15 | random_other bijection |
| C16 | bulk loop against an independent relational specification |
| C17 | recalculate loop; refuted (tuple swapped); exact behaviour proved |
| C18 | counter invariant over any history |
| C19 | calc_betas algebra over R |
| C20 | real analysis of 1-exp(-|b| dt f) |
| C21 | pdist/squareform model equals manual model; bounds |
| C22 | heap model with object identities refines the value model |
| C23 | invariant over LD/BD/add/remove operations |
| C24 | reflective boundary function and its invariant under the integrators |
| C25 | periodic boundary; proved for overshoot <= period, refuted otherwise |
| C26 | velocity Verlet reversibility by induction |
| C27 | exp/sqrt algebra |
| C28 | run = map over walkers with own noise; documented equations |
| C29 | Horner model of polyval/polyval2d/polyval3d and polyder; derivatives in R |
| C30 | derivative of the exponential sum |
| C31 | global coefficient array as state; refuted (shift not scaled, factor 0, shared state) |
| C32 | calculate_probability_density; 3D ordering refuted |
| C33 | meshgrid/transpose/reshape index model; 1D, 2D proved, 3D refuted |
| C34 | from_stepsizes with ceil; shrink refuted for exact fit |
| C35 | grid arithmetic |
| C36 | convolve valid: geometry in n dimensions, values in 1D |
| C37 | nd_trapz on nested arrays |
| C38 | bd_prob_density |
| C39 | InputOption.parse |
| C40 | Input.parse_all |
| C41 | at_most_3dim; refuted |
| C42 | get_all_numbered_values, numbered_state_options |
| C43 | min_max_to_ranges; refuted |
| C44 | exception classes reaching main; refuted |
| C45 | section dependency logic; refuted for fes without histogram |
| C46 | init_particles fractions-pos over R |
| C47 | init_particles random-global/random-pos with draws as oracle |
| C48 | backup_if_exists/initialize_file on a file-system map |
| C49 | header vs row widths; refuted for delta-f and particle-distribution |
| C50 | pos_inside_ranges |
| C51 | main loop trace |
| C52 | seeds to generators; refuted for birth-death seed 0 |
| C53 | BirthDeath.run/final_run trace; second half refuted |
| C54 | coefficients_from_file; single row refuted |
| C55 | make_ordinal |
| C56 | composition of all models |
| C57 | prompts of save_fig_interactive over the list of input lines; refuted (file names with a step have no extension) |
| C58 | energy of the Mueller-Brown model against the documented sum |
| C59 | configparser interpolation of text options; refuted for single % |
| C60 | write_to_file of grids: rows against points; refuted in 3D |
| C61 | output_files of a finished run: exact list of names and contents |
| C62 | bd_run with equal rates: probability zero, walkers unchanged |
| C63 | energy of the velocity Verlet steps without friction for linear and harmonic potentials, exact drift |
| C64 | kernel of the smoothing grids: exact displacement; refuted |
| C65 | values of the additive and multiplicative correction grids |
| C66 | Grid.sparsify with griddata exact at data points |
| C67 | frame of the main loop: two inputs with the same simulation sections |
| C68 | history of the longer run restricted to the shorter one; recorded files as prefixes |
| C69 | calculate_reference against calculate_probability_density on all grid points |
| C70 | walker_density_grid against calc_betas with one walker more; refuted in >= 2 dimensions |
| C71 | warnings as a function of the set up actions; divisibility; composition of C05, C10, C56 |
| C72 | log of main() with thresholds of the logging module; refuted for critical |
| C73 | binary64 (Flocq); error bound of any summation tree; refuted by computation |
| C74 | binary64 comparisons and negation are exact; induction over steps |
| C75 | binary64; error bound of the shift; refuted by computation |
| C76 | binary64; minimum is an element; error bounds of log and product |
| C77 | binary64; relative error against the distance of the steps |
| C78 | binary64; range, error of product and exponential; refuted by underflow |
| C79 | per section: accepted options -> constructor arguments -> fields of the world; induction over numbered options and drawn walkers |
| C80 | per section: table of options, conversion of each text, defaults; required options by contradiction |
| C81 | binary64; error of quotient, ceiling and last point; refuted by two literals |
| C82 | binary64; forward error of the edges, bins by comparison, exact integers up to 2^53 |
| C83 | binary64; magnitudes by induction over the steps (sums of dyadic bounds); error of exp and square root for the constants |
| C84 | binary64; running error of Horner's scheme against the polynomial of absolute values, dimension by dimension |
| C85 | induction over the layout with the state of the line reader as invariant; errors keep it from finishing |
| C86 | grammar of numbers as an inductive relation, equivalent to the recursive readers |
| C87 | relation between two sections that agree on the known names, preserved by every reader of options |
| C88 | every set-up function succeeds on sensible options; then `runnable` (C56) holds |
| C89 | C85 and C88 for the example; C56, C60 and C61 composed, with the number of steps as a variable |
| C90 | nearest integer to x * 10^p, its digits, and C86 for the text |
| C91 | words of a line are its numbers; C92 for the whole file; shapes of all files from C60 and C61 |
| C92 | words of a line as an inductive relation, equivalent to the recursive reader; C54 for the polynomial |
| C93 | relative errors of height, exponent and kernel of one pair, products over dimensions, np.sum of positive numbers; signed sums for the average of the rates |
| C94 | invariant `healthy` (box, finite numbers, energy and force of the position) through one Langevin step (C83) and one round of moves (C93, C77); polynomials by C84; equal walkers have a rate of exactly 0 |
| C95 | C93 for the rates, C78 and e^-x for close x for the probabilities, the relations `bulk_events` (C16) and `recalc_moves` (as C17) by induction on the order of the walkers |
| C96 | absolute errors of sums and products (near B e), the exponent to 2^-42, then relative errors of the four terms; derivatives by auto_derive; sim_ok of C94 |
| C97 | absolute errors (near B e) of the two half steps, clamping is 1-Lipschitz and exact in floats; sqrt correctly rounded for the overdamped noise factor |
| C98 | every operation commutes with the change of units (vectors by induction over the axes, forces by uniqueness of derivatives), the rates are equal because the density changes by a constant factor; then induction over the steps |
| C99 | the counts are a common constant times the weights within the factors 1 - d and 1 + d, hence so are sums over states; logarithms of ratios; the minimum of either surface is compared with the value of the other at the same bin |
| C100 | probability of a bin relative to the largest one within 2^-37, sums of nonnegative floats within 2^-32 in any order, then logarithm of the quotient; special values by cases |
| C101 | coordinates of a walker are linear in the previous ones and the noise, so second moments follow an affine map; the well's discrete energy is conserved by the deterministic part, which gives the fixed point and its uniqueness; powers of the 2x2 matrix contract a quadratic form every two steps (Cayley-Hamilton) |
| C102 | with no or one accepted walker the change is exactly the sum of the single-event contributions; with k >= 2 accepted walkers both differ by at most 4 B k <= 4 B (k^2 - k), whose mean is bounded by pairwise independence; 1 - exp(-x) = x up to x^2 |
| C103 | at most one number below the largest possible probability: the loop passes all other walkers and the single event changes the sum by minus the contribution of C102; otherwise at most as many events as such numbers; refutation with two walkers and a time step small against the claimed constant |
| C104 | second moments of displacement and momentum follow an affine map whose solution is a geometric sum; the force enters the first moments in the same way; x coth x between 1 and 1 + x^2/3 by repeated derivatives |
| C105 | height, exponent and kernel of one pair for the other method; the average and the rates by the lemmas of C93, which hold for up to 2^30 walkers |
| C106 | local errors J dt^3 / 6 and K dt^3 / 12 by repeated mean value theorems; the sum of both errors grows at most by the factor 1 + A dt per step (discrete Gronwall), and the bound keeps the walker in the region where the force is Lipschitz; functions built from coordinates, sums, products and exponentials are locally Lipschitz and twice differentiable along the motion |
| C107 | the shared generator is replaced by one prepared sequence per walker; the places of the numbers in the common sequence are c (m n + i) + j, hence different; the theorems on single walkers are applied to the dealt sequences; correlations of two walkers by induction from the linear recursion of one step |
| C108 | derivatives along curves of start states; one step maps the changes linearly (half kick, drift, half kick), the symmetric matrix of the force drops out of the sum over the axes; energies built from coordinates, sums, products and exponentials have symmetric second derivatives by induction, and the force is minus their gradient (C29, C30) |
| C109 | the random numbers drop out of the difference of two runs (C107 for every walker); the square of one step is bounded with the two conditions on the force; mean value theorem in one dimension |

## Print Assumptions of every theorem

N = `ClassicalDedekindReals.sig_not_dec`, F = `ClassicalDedekindReals.sig_forall_dec`,
E = `FunctionalExtensionality.functional_extensionality_dep`, C = `Classical_Prop.classic`;
none = closed under the global context.

| theorem | file | axioms |
|---|---|---|
| C01_no_filename | Prop_traj | F |
| C01_trajectory_files | Prop_traj | F |
| C02_get_valid_data | Prop_traj | none |
| C02_get_valid_data_stale | Prop_traj | none |
| C03_delta_f_file_partial | Prop_fes | C E F N |
| C03_delta_f_file_refuted | Prop_fes | C E F N |
| C03_exact | Prop_fes | C E F N |
| C03_no_stride | Prop_fes | C E F N |
| C04_exact | Prop_pdist | E F |
| C04_no_stride | Prop_pdist | E F |
| C04_particle_distribution_partial | Prop_pdist | E F |
| C04_particle_distribution_refuted | Prop_pdist | E F |
| C05_during_run_exact | Prop_hist | E F |
| C05_during_run_partial | Prop_hist | E F |
| C05_during_run_refuted | Prop_hist | E F |
| C06_final_exact | Prop_hist | E F |
| C06_final_partial | Prop_hist | E F |
| C06_final_refuted | Prop_hist | E F |
| C07_new_histogram_empty_partial | Prop_hist | E F |
| C07_new_histogram_empty_refuted | Prop_hist | E F |
| C07_new_histogram_exact | Prop_hist | E F |
| C08_add_counts | Prop_hist | E F |
| C08_batches | Prop_hist | E F |
| C08_cells_are_entries | Prop_hist | F |
| C08_clear | Prop_hist | F |
| C08_order | Prop_hist | E F |
| C08_wrong_dimension | Prop_hist | E F |
| C09_reset_exact | Prop_hist | E F |
| C09_reset_partial | Prop_hist | E F |
| C09_reset_refuted | Prop_hist | E F |
| C100_bad_mask | Prop_f64df | C E F N |
| C100_delta_f | Prop_f64df | C E F N |
| C100_no_states | Prop_f64df | none |
| C101_equilibrium | Prop_well | C E F N |
| C101_only | Prop_well | C E F N |
| C101_overdamped | Prop_well | E F N |
| C101_polynomial | Prop_well | E F |
| C101_reached | Prop_well | C E F N |
| C101_runs | Prop_well | E F N |
| C101_runs_overdamped | Prop_well | E F N |
| C102_mean_change | Prop_drift | C E F N |
| C102_region | Prop_drift | C E F N |
| C103_exact | Prop_drift2 | C E F N |
| C103_recalculate_refuted | Prop_drift2 | C E F N |
| C103_region_exact | Prop_drift2 | C E F N |
| C104_coefficient | Prop_diffusion | C E F N |
| C104_diffusion | Prop_diffusion | C E F N |
| C104_drift | Prop_diffusion | C E F N |
| C104_overdamped_diffusion | Prop_diffusion | E F N |
| C104_overdamped_drift | Prop_diffusion | E F N |
| C104_polynomial | Prop_diffusion | E F |
| C105_density | Prop_f64many | C E F N |
| C105_methods_agree | Prop_f64many | C E F N |
| C105_rates | Prop_f64many | C E F N |
| C106_limit | Prop_newton | C E F N |
| C106_mueller_brown | Prop_newton | C E F N |
| C106_polynomial | Prop_newton | C E F N |
| C106_second_order | Prop_newton | C E F N |
| C106_walkers | Prop_newton | C E F N |
| C107_alone | Prop_crowd | E F N |
| C107_averages | Prop_crowd | C E F N |
| C107_center | Prop_crowd | C E F N |
| C107_diffusion | Prop_crowd | C E F N |
| C107_equilibrium | Prop_crowd | C E F N |
| C107_numbers | Prop_crowd | none |
| C107_overdamped | Prop_crowd | E F N |
| C107_overdamped_diffusion | Prop_crowd | E F N |
| C107_overdamped_drift | Prop_crowd | E F N |
| C107_reached | Prop_crowd | C E F N |
| C107_runs | Prop_crowd | E F N |
| C107_runs_overdamped | Prop_crowd | E F N |
| C107_uncorrelated | Prop_crowd | E F N |
| C108_area | Prop_volume | E F N |
| C108_determinant | Prop_volume | E F N |
| C108_mueller_brown | Prop_volume | C E F N |
| C108_polynomial | Prop_volume | C E F N |
| C109_convex | Prop_forget | C E F N |
| C109_forget | Prop_forget | E F N |
| C109_meet | Prop_forget | E F N |
| C10_fes_from_histogram | Prop_fes | C E F N |
| C11_delta_f | Prop_fes | C E F N |
| C12_few_states | Prop_setup | E F |
| C12_partial | Prop_setup | E F |
| C12_refuted | Prop_setup | E F |
| C13_exact | Prop_setup | C E F N |
| C13_partial | Prop_setup | C E F N |
| C13_refuted | Prop_setup | C E F N |
| C14_bulk_succeeds | Prop_bd | C E F N |
| C14_conservation | Prop_bd | C E F N |
| C15_fails_only_alone | Prop_bd | none |
| C15_random_other | Prop_bd | none |
| C16_bulk_events | Prop_bd | C E F N |
| C17_recalculate_exact | Prop_bd | C E F N |
| C17_recalculate_refuted | Prop_bd | C E F N |
| C17_unbound | Prop_bd | C E F N |
| C18_bulk | Prop_bd | C E F N |
| C18_recalculate | Prop_bd | C E F N |
| C18_successes | Prop_bd | C E F N |
| C19_additive | Prop_bd | C E F N |
| C19_energy_shift | Prop_bd | C E F N |
| C19_multiplicative | Prop_bd | C E F N |
| C19_original | Prop_bd | C E F N |
| C19_permutation | Prop_bd | C E F N |
| C19_single | Prop_bd | C E F N |
| C20_event_probability | Prop_bd | C E F N |
| C20_parameters | Prop_bd | C E F N |
| C21_walker_density | Prop_bd | C E F N |
| C22_independent_objects | Prop_heap | E F N |
| C23_energies_current | Prop_ld | E F N |
| C24_always_inside | Prop_ld | E F N |
| C24_reflective | Prop_ld | E F |
| C24_step_succeeds | Prop_ld | E F N |
| C25_periodic_exact | Prop_ld | E F |
| C25_periodic_partial | Prop_ld | E F |
| C25_periodic_refuted | Prop_ld | E F |
| C25_periodic_too_far | Prop_ld | E F |
| C26_added_walkers | Prop_ld | E F N |
| C26_noise_free | Prop_ld | E F N |
| C26_reversible | Prop_ld | E F N |
| C27_added_walkers | Prop_ld | E F N |
| C27_fluctuation_dissipation | Prop_ld | C E F N |
| C28_bussi_parrinello | Prop_ld | E F |
| C28_independent | Prop_ld | E F N |
| C28_overdamped | Prop_ld | E F N |
| C29_polynomial | Prop_pot | C E F N |
| C29_rejected | Prop_pot | F |
| C30_evaluate | Prop_pot | E F N |
| C30_force | Prop_pot | C E F N |
| C31_scaling_exact | Prop_pot | E F N |
| C31_scaling_refuted | Prop_pot | E F N |
| C31_shared_refuted | Prop_pot | C E F N |
| C31_single_partial | Prop_pot | E F N |
| C31_zero | Prop_pot | E F N |
| C32_density_exact | Prop_grid | E F N |
| C32_density_partial | Prop_grid | E F N |
| C32_density_refuted | Prop_grid | E F N |
| C32_wrong_dimension | Prop_grid | E F N |
| C33_points_exact | Prop_grid | E F |
| C33_points_partial | Prop_grid | E F |
| C33_points_refuted | Prop_grid | E F |
| C33_set_from_func | Prop_grid | E F |
| C34_from_stepsizes | Prop_grid | E F |
| C34_shrink_exact | Prop_grid | E F |
| C34_shrink_partial | Prop_grid | E F |
| C34_shrink_refuted | Prop_grid | E F |
| C34_single_step | Prop_grid | E F |
| C35_array | Prop_grid | E F |
| C35_equality | Prop_grid | E F |
| C35_function | Prop_grid | E F |
| C35_grid | Prop_grid | E F |
| C35_new_grid | Prop_grid | E F |
| C35_number | Prop_grid | E F |
| C35_reject | Prop_grid | E F |
| C35_reject_other | Prop_grid | E F |
| C35_set_data | Prop_grid | E F |
| C35_wrong_dimension | Prop_grid | E F |
| C35_wrong_size | Prop_grid | E F |
| C36_different_spacing | Prop_grid | E F |
| C36_equal_size | Prop_grid | E F |
| C36_same_convolution | Prop_grid | E F |
| C36_valid_convolution | Prop_grid | E F |
| C37_constant | Prop_corr | E F |
| C37_linear | Prop_corr | E F |
| C37_multilinear | Prop_corr | E F |
| C37_total | Prop_corr | E F |
| C38_few_bandwidths | Prop_corr | E F N |
| C38_kernel_grid | Prop_corr | E F N |
| C39_option | Prop_input | E F |
| C39_section | Prop_input | E F |
| C40_accepted_usable | Prop_input | E F |
| C41_exact | Prop_input | E F |
| C41_partial | Prop_input | E F |
| C41_refuted | Prop_input | E F |
| C42_dict | Prop_input | none |
| C42_section | Prop_input | none |
| C42_states | Prop_input | none |
| C43_exact | Prop_input | none |
| C43_partial | Prop_input | none |
| C43_refuted | Prop_input | F |
| C44_exact | Prop_main | C E F N |
| C44_partial | Prop_main | C E F N |
| C44_refuted | Prop_main | C E F N |
| C44_setup | Prop_main | C E F N |
| C45_exact | Prop_main | C E F N |
| C45_partial | Prop_main | C E F N |
| C45_refuted | Prop_main | C E F N |
| C46_fractions_pos | Prop_setup | E F N |
| C47_random_global | Prop_setup | E F N |
| C47_random_pos | Prop_setup | E F N |
| C48_backup | Prop_files | none |
| C48_initialize | Prop_files | none |
| C48_refuted | Prop_files | C E F N |
| C48_run_partial | Prop_files | C E F N |
| C48_run_prefix_partial | Prop_files | C E F N |
| C49_columns_partial | Prop_files | C E F N |
| C49_delta_f_exact | Prop_files | C E F N |
| C49_distribution_exact | Prop_files | C E F N |
| C49_refuted | Prop_files | C E F N |
| C50_count_particles | Prop_pdist | E F |
| C50_disjoint_states | Prop_pdist | E F |
| C50_pos_inside_ranges | Prop_pdist | E F |
| C51_call_sequence | Prop_main | C E F N |
| C51_frame | Prop_main | C E F N |
| C51_once | Prop_main | none |
| C52_entropy_partial | Prop_repro | C E F N |
| C52_memory_partial | Prop_repro | C E F N |
| C52_memory_refuted | Prop_repro | C E F N |
| C52_refuted | Prop_repro | C E F N |
| C53_reports_exact | Prop_bd | C E F N |
| C53_screen | Prop_bd | C E F N |
| C53_with_stride_partial | Prop_bd | C E F N |
| C53_without_stride_refuted | Prop_bd | C E F N |
| C54_coefficient_file_partial | Prop_pot | E F |
| C54_coefficient_file_refuted | Prop_pot | E F |
| C54_file_potential_partial | Prop_pot | C E F N |
| C54_single_line_exact | Prop_pot | none |
| C55_ordinals | Prop_files | none |
| C56_completes_partial | Prop_whole | C E F N |
| C56_composition | Prop_whole | C E F N |
| C56_distribution | Prop_whole | C E F N |
| C56_fes | Prop_whole | C E F N |
| C56_histogram | Prop_whole | C E F N |
| C56_refuted | Prop_whole | C E F N |
| C56_surfaces | Prop_whole | C E F N |
| C56_trajectories | Prop_whole | C E F N |
| C57_answers_exact | Prop_files | C E F N |
| C57_plain_names_partial | Prop_files | C E F N |
| C57_refuted | Prop_files | C E F N |
| C57_stepped_name_exact | Prop_files | none |
| C58_documented_exact | Prop_pot | E F N |
| C58_documented_refuted | Prop_pot | C E F N |
| C59_exact | Prop_input | E F |
| C59_partial | Prop_input | E F |
| C59_refuted | Prop_input | E F |
| C60_fes_partial | Prop_files | C E F N |
| C60_histogram_partial | Prop_files | C E F N |
| C60_refuted | Prop_files | C E F N |
| C60_three_dimensions_exact | Prop_files | C E F N |
| C61_files | Prop_files | C E F N |
| C62_additive | Prop_equil | C E F N |
| C62_equilibrium | Prop_equil | C E F N |
| C62_multiplicative | Prop_equil | C E F N |
| C62_no_events | Prop_equil | C E F N |
| C62_rate_differences | Prop_equil | C E F N |
| C63_no_drift | Prop_energy | E F N |
| C64_centered_partial | Prop_smooth | E F N |
| C64_displacement_exact | Prop_smooth | E F N |
| C64_refuted | Prop_smooth | E F N |
| C65_additive | Prop_smooth | C E F N |
| C65_average | Prop_smooth | C E F N |
| C65_multiplicative | Prop_smooth | C E F N |
| C66_common_points | Prop_smooth | E F |
| C66_short | Prop_smooth | E F |
| C66_sparsify | Prop_smooth | E F |
| C67_outputs | Prop_indep | C E F N |
| C68_longer | Prop_indep | C E F N |
| C69_boltzmann | Prop_debug | C E F N |
| C69_empty | Prop_debug | E F |
| C69_minimum | Prop_debug | E F |
| C70_rates_partial | Prop_debug | C E F N |
| C70_refuted | Prop_debug | C E F N |
| C70_single_refuted | Prop_debug | none |
| C71_current | Prop_warn | C E F N |
| C71_exact | Prop_warn | C E F N |
| C72_explained_partial | Prop_warn | C E F N |
| C72_finished | Prop_warn | C E F N |
| C72_levels | Prop_warn | none |
| C72_refuted | Prop_warn | C E F N |
| C72_unknown | Prop_warn | none |
| C73_counts_partial | Prop_f64 | C E F N |
| C73_exact | Prop_f64 | C E F N |
| C73_refuted | Prop_f64 | C E F N |
| C74_reflective | Prop_f64 | C E F N |
| C74_run | Prop_f64 | C E F N |
| C74_short | Prop_f64 | none |
| C75_periodic_partial | Prop_f64 | C E F N |
| C75_refuted | Prop_f64 | C E F N |
| C75_short | Prop_f64 | C E F N |
| C76_empty | Prop_f64 | C E F N |
| C76_fes | Prop_f64 | C E F N |
| C76_no_bins | Prop_f64 | none |
| C77_increasing | Prop_f64 | C E F N |
| C77_time | Prop_f64 | C E F N |
| C78_accepted | Prop_f64 | C E F N |
| C78_accuracy | Prop_f64 | C E F N |
| C78_probability | Prop_f64 | C E F N |
| C78_refuted | Prop_f64 | C E F N |
| C79_birth_death | Prop_params | C E F N |
| C79_dynamics | Prop_params | C E F N |
| C79_outputs | Prop_params | C E F N |
| C79_potential | Prop_params | C E F N |
| C79_walkers | Prop_params | C E F N |
| C80_required | Prop_params | E F |
| C80_values | Prop_params | E F |
| C81_covered_refuted | Prop_f64grid | C E F N |
| C81_points_partial | Prop_f64grid | C E F N |
| C81_refuted | Prop_f64grid | C E F N |
| C82_centers | Prop_f64grid | C E F N |
| C82_counts | Prop_f64grid | C E F N |
| C82_edges | Prop_f64grid | C E F N |
| C82_limit | Prop_f64grid | C E F N |
| C82_same_bins | Prop_f64grid | C E F N |
| C83_constants | Prop_f64ld | C E F N |
| C83_polynomial | Prop_f64ld | C E F N |
| C83_run | Prop_f64ld | C E F N |
| C84_energy | Prop_f64ld | C E F N |
| C84_force | Prop_f64ld | C E F N |
| C85_layout | Prop_ini | none |
| C85_no_delimiter | Prop_ini | none |
| C85_no_section | Prop_ini | none |
| C85_outcome | Prop_ini | C E F N |
| C85_repeated_option | Prop_ini | none |
| C85_repeated_section | Prop_ini | none |
| C86_integers | Prop_ini | none |
| C86_numbers | Prop_ini | E F |
| C87_parameters | Prop_ini | E F |
| C87_unknown | Prop_ini | C E F N |
| C88_completes | Prop_complete | C E F N |
| C89_example | Prop_complete | C E F N |
| C90_aligned | Prop_text | E F |
| C90_exact | Prop_text | E F |
| C90_formats | Prop_text | none |
| C90_number | Prop_text | E F |
| C90_ordered | Prop_text | E F |
| C90_times_partial | Prop_text | E F |
| C90_times_refuted | Prop_text | E F |
| C91_run | Prop_text | C E F N |
| C91_statistics | Prop_text | E F |
| C91_table | Prop_text | E F |
| C92_coefficients | Prop_text | C E F N |
| C92_line | Prop_text | E F |
| C92_table | Prop_text | E F |
| C93_density | Prop_f64bd | C E F N |
| C93_rates | Prop_f64bd | C E F N |
| C94_polynomial | Prop_f64sim | C E F N |
| C94_run | Prop_f64sim | C E F N |
| C94_zero | Prop_f64sim | C E F N |
| C95_bulk | Prop_f64events | C E F N |
| C95_recalculate | Prop_f64events | C E F N |
| C95_step | Prop_f64events | C E F N |
| C96_energy | Prop_f64mb | C E F N |
| C96_evaluate | Prop_f64mb | C E F N |
| C96_force | Prop_f64mb | C E F N |
| C96_run | Prop_f64mb | C E F N |
| C96_scaled | Prop_f64mb | C E F N |
| C97_langevin | Prop_f64step | C E F N |
| C97_overdamped | Prop_f64step | C E F N |
| C97_run | Prop_f64step | C E F N |
| C98_birth_death | Prop_units | C E F N |
| C98_evolution | Prop_units | C E F N |
| C98_free_energies | Prop_units | C E F N |
| C98_history | Prop_units | C E F N |
| C98_langevin | Prop_units | E F N |
| C98_new_walker | Prop_units | E F N |
| C98_polynomial | Prop_units | C E F N |
| C98_same_numbers | Prop_units | C E F N |
| C99_consistent | Prop_consist | C E F N |
| C99_delta_f | Prop_consist | C E F N |
| C99_exact | Prop_consist | C E F N |
| C99_surface | Prop_consist | C E F N |
