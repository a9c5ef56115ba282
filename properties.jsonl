{"id": "C01", "title": "Trajectory files are complete and duplicate-free", "statement": "After final_run, the trajectory file of walker i holds, after its header, exactly one row per time step k in 1..n_steps that is a multiple of the stride, in increasing order, with time k*dt and the position (and momentum if requested) the walker had when step k was recorded. Calling write(step) by hand any number of times between steps never loses or duplicates a row.", "quantifier": "every stride>0, write_stride>0 (also when they do not divide each other), number of steps, walker count, history of positions, initial (uninitialised) buffer content, and schedule of manual writes", "why_tests_cant": "the ring-buffer arithmetic has to be right for all combinations of stride, write_stride, step count and write schedule; a test samples one", "anchors": ["bdld/actions/trajectory_action.py:TrajectoryAction.run/write/final_run", "bdld/actions/action.py:get_valid_data"]}
{"id": "C02", "title": "get_valid_data returns exactly the not yet written window", "statement": "Under its documented preconditions get_valid_data(data, step, stride, update_stride, last_write) returns the rows of exactly the time steps t with last_write < t <= step and stride | t, in order. (It does not when the current step is in a new buffer cycle but before its first update: then stale rows are returned.)", "quantifier": "every array length, step, stride, update_stride dividing stride, last_write in the current buffer cycle", "why_tests_cant": "one unit test checks one literal; the claim ranges over all integers and phase relations", "anchors": ["bdld/actions/action.py:get_valid_data"]}
{"id": "C03", "title": "Delta-F file has one row per evaluation", "statement": "At the end of a simulation the delta-f file holds exactly one row per multiple of the delta-f stride in 1..n_steps, in order, with time k*dt and the free energy differences evaluated at step k.", "quantifier": "every stride, write_stride multiple of it, n_steps, sequence of FES states and buffer junk", "why_tests_cant": "the failing phase (0 < n_steps mod write_stride < stride) is only found by ranging over all phases", "anchors": ["bdld/actions/delta_f_action.py:DeltaFAction.run/final_run/write", "bdld/actions/action.py:get_valid_data"]}
{"id": "C04", "title": "Particle-distribution file has one row per evaluation", "statement": "At the end of a simulation the particle-distribution file holds exactly one row per multiple of its stride in 1..n_steps, in order, with the step number and, for each state, the number of walkers whose position at that step lies in the closed box of the state.", "quantifier": "every stride, write_stride multiple of it, n_steps, walker history, state list, buffer junk", "why_tests_cant": "all phases and histories", "anchors": ["bdld/actions/particle_distribution.py:ParticleDistributionAction", "bdld/actions/action.py:get_valid_data", "bdld/tools.py:pos_inside_ranges"]}
{"id": "C05", "title": "Histogram during the run counts every sampled step once", "statement": "After each histogram update (every trajectory write_stride steps) the histogram has received every walker position of every step t since the start with stride | t exactly once, and nothing else.", "quantifier": "every stride, write_stride, update number and walker history, with and without a trajectory filename", "why_tests_cant": "interaction of two actions' buffer state over unbounded histories", "anchors": ["bdld/actions/histogram_action.py:HistogramAction.run/get_traj_data", "bdld/actions/trajectory_action.py:TrajectoryAction.write"]}
{"id": "C06", "title": "Final histogram counts every sampled step once", "statement": "After final_run the histogram has received the positions of every step t in 1..n_steps with stride | t exactly once.", "quantifier": "every stride, write_stride, n_steps, walker history, with and without a trajectory filename", "why_tests_cant": "whether the last partial or full buffer is lost or added twice depends on n_steps mod write_stride and on another action's filename", "anchors": ["bdld/actions/histogram_action.py:HistogramAction.final_run/get_traj_data", "bdld/actions/trajectory_action.py:TrajectoryAction.final_run"]}
{"id": "C07", "title": "A new histogram is empty", "statement": "A histogram reports only samples that were added to it: right after construction (and so for any later state) the counts are the counts of the added samples.", "quantifier": "every number of bins and range per dimension and every sequence of add calls", "why_tests_cant": "the spurious initial count depends on whether 0 is inside the range in every dimension", "anchors": ["bdld/histogram.py:Histogram.__init__/add"]}
{"id": "C08", "title": "Histogram bins count half-open intervals and adding is additive", "statement": "Each add increases the count of a bin by the number of samples inside that bin (half-open intervals, the last one closed, in every dimension), drops samples outside, and nothing else changes; adding batches one after another equals adding them at once in any order; clear sets all counts to zero.", "quantifier": "all dimensions, bin numbers, ranges, samples, batchings and orders", "why_tests_cant": "all real samples including bin edges, all batchings", "anchors": ["bdld/histogram.py:Histogram.add/clear"]}
{"id": "C09", "title": "Histogram reset separates the samples", "statement": "After a reset at step r the histogram (at any later update) only contains positions of steps after r.", "quantifier": "every reset step, stride, write_stride, history", "why_tests_cant": "holds or fails depending on r mod write_stride", "anchors": ["bdld/actions/histogram_action.py:HistogramAction.run"]}
{"id": "C10", "title": "FES from histogram", "statement": "The free energy surface is +inf exactly in empty bins, its minimum is 0 whenever some bin is non-empty, all values are >= 0, the differences of two non-empty bins are -kt*ln of the count ratio, and the result does not depend on the uninitialised values numpy leaves at masked positions.", "quantifier": "every histogram, kt>0 and junk values", "why_tests_cant": "all count vectors", "anchors": ["bdld/actions/fes_action.py:calculate_fes"]}
{"id": "C11", "title": "Delta F equals the log count ratio of the states", "statement": "calculate_delta_f applied to the FES of a histogram gives, for each state i>1, -kt*ln(N_i/N_1) where N_i is the number of samples in the bins of state i; +inf if only N_i is 0, -inf if only N_1 is 0 and nan if both are.", "quantifier": "every histogram with a non-empty bin, kt>0, list of masks", "why_tests_cant": "all histograms and masks, including degenerate ones", "anchors": ["bdld/actions/delta_f_action.py:calculate_delta_f", "bdld/actions/fes_action.py:calculate_fes"]}
{"id": "C12", "title": "Delta-F can be set up in every supported dimension", "statement": "For any potential dimension 1..3 and at least two states with matching dimensions, setting up the delta-f action succeeds.", "quantifier": "all dimensions, bin numbers and states", "why_tests_cant": "the mask shape check fails for all multi-dimensional histograms, a 1D test passes", "anchors": ["bdld/main.py:setup_delta_f", "bdld/actions/delta_f_action.py:check_mask_shapes", "bdld/tools.py:pos_inside_ranges"]}
{"id": "C13", "title": "FES uses the thermal energy given in [fes]", "statement": "The FES written by the fes action is computed with the kt option of the [fes] section.", "quantifier": "all values of the kt options and ld types", "why_tests_cant": "only distinguishable when the kt values of the two sections differ", "anchors": ["bdld/main.py:setup_fes", "bdld/actions/fes_action.py:FesAction.__init__", "docs/fes.rst"]}
{"id": "C14", "title": "Birth-death conserves the number of walkers and only copies", "statement": "Any birth-death step keeps the number of walkers; every walker afterwards is a full copy (position, momentum, mass, energy, forces, thermostat constant) of some walker from before; walkers not listed as killed in the returned events are unchanged; the result is that of executing the returned events one after another.", "quantifier": "all walker lists, rates, random draws, both modes (bulk and recalculate)", "why_tests_cant": "all random schedules", "anchors": ["bdld/actions/birth_death.py:BirthDeath.do_birth_death/perform_moves"]}
{"id": "C15", "title": "random_other is uniform over the other walkers", "statement": "random_other(n, i) never returns i, always returns an index below n, and maps the uniform draw from {0..n-2} bijectively onto {0..n-1} without i; it fails only if n<=1.", "quantifier": "all n, i and draws", "why_tests_cant": "all n and draws", "anchors": ["bdld/actions/birth_death.py:BirthDeath.random_other"]}
{"id": "C16", "title": "Bulk mode: kill high-rate, duplicate low-rate walkers", "statement": "In bulk mode each returned event (dup, kill) is caused by a walker i that accepted its move (random <= 1-exp(-|beta_i|*dt*rate)): kill=i and dup another walker if beta_i>0, dup=i and kill another walker otherwise; a walker already killed in this step triggers no event; every accepted, not yet killed walker triggers exactly one event, in the shuffled order.", "quantifier": "all rates, draws and shuffles", "why_tests_cant": "all random schedules", "anchors": ["bdld/actions/birth_death.py:BirthDeath.do_birth_death"]}
{"id": "C17", "title": "Recalculate mode: kill high-rate, duplicate low-rate walkers", "statement": "With recalculate-probabilities the walker that triggers an event is killed if its beta is positive and duplicated if it is negative, as in bulk mode and as documented for the returned (dup, kill) tuples.", "quantifier": "all rates, draws and shuffles", "why_tests_cant": "a test in bulk mode does not see this branch, and a fixed-seed regression test does not see the direction", "anchors": ["bdld/actions/birth_death.py:BirthDeath.do_birth_death"]}
{"id": "C18", "title": "Birth-death statistics add up", "statement": "In every reachable state of the counters: successes never exceed attempts (for births and for deaths); in bulk mode each birth-death execution increases attempts by exactly the number of walkers and successes by exactly the number of returned events.", "quantifier": "any sequence of birth-death executions with any draws", "why_tests_cant": "unbounded histories", "anchors": ["bdld/actions/birth_death.py:BirthDeath.do_birth_death", "bdld/actions/birth_death.py:BirthDeath.Stats"]}
{"id": "C19", "title": "Rates are centered and invariant", "statement": "For the original and multiplicative variants the rates beta of all walkers sum to zero; adding a constant to all energies does not change them; permuting the walkers permutes them; a single walker has rate 0. For the additive variant they sum to the sum of the interpolated corrections.", "quantifier": "all walker positions, energies, bandwidths>0, kt>0", "why_tests_cant": "algebraic laws over all real inputs", "anchors": ["bdld/actions/birth_death.py:BirthDeath.calc_betas"]}
{"id": "C20", "title": "Event probability is a probability", "statement": "The acceptance probability 1-exp(-|beta|*dt*rate) is in [0,1), zero iff beta=0 (dt, rate > 0), symmetric in beta and increasing in |beta|; so with recalculate off a walker with beta<>0 can always be accepted and always be rejected.", "quantifier": "all beta, dt>0, rate>0", "why_tests_cant": "all real values", "anchors": ["bdld/actions/birth_death.py:BirthDeath.do_birth_death"]}
{"id": "C21", "title": "Walker density: both algorithms agree and are bounded", "statement": "The pdist and the manual algorithm give the same densities for all positions; each density is the mean Gaussian kernel value to all walkers including itself and lies in [height/n, height]; so its logarithm is finite.", "quantifier": "all walker counts, dimensions, positions, bandwidths>0", "why_tests_cant": "unit test compares 3 points; the switch at 10000 walkers changes algorithm", "anchors": ["bdld/actions/birth_death.py:walker_density/_walker_density_manual/_walker_density_pdist/calc_kernel"]}
{"id": "C22", "title": "Duplicated walkers are independent objects", "statement": "After any history of Langevin and birth-death steps no two walker slots share a particle object or array, so every later step acts on the list as if the walkers were plain values.", "quantifier": "all interleavings of ld.run and birth-death moves", "why_tests_cant": "aliasing only shows up in later steps of some histories", "anchors": ["bdld/actions/birth_death.py:BirthDeath.perform_moves", "bdld/actions/bussi_parinello_ld.py:BussiParinelloLD.run", "bdld/actions/overdamped_ld.py:OverdampedLD.run"]}
{"id": "C23", "title": "Stored energies and forces always belong to the position", "statement": "After setup and after every simulation step the energy and force stored with each walker equal the potential's energy and force at its current position; so birth-death always uses current energies.", "quantifier": "all potentials, histories of adds, removes, ld steps and birth-death steps", "why_tests_cant": "invariant over unbounded histories", "anchors": ["bdld/actions/bussi_parinello_ld.py:BussiParinelloLD.run/add_particle", "bdld/actions/overdamped_ld.py:OverdampedLD.run/add_particle", "bdld/actions/birth_death.py:BirthDeath.perform_moves"]}
{"id": "C24", "title": "Reflective boundary keeps walkers inside", "statement": "With reflective boundary condition every coordinate is inside the (min,max) of the potential after every step; coordinates inside are unchanged, coordinates outside are set to the violated bound, and the momentum changes sign in exactly the violated directions.", "quantifier": "all positions, momenta, ranges with min<=max, noise, step counts", "why_tests_cant": "all real positions and histories", "anchors": ["bdld/potential/potential.py:apply_boundary_condition_reflective"]}
{"id": "C25", "title": "Periodic boundary maps walkers into the range", "statement": "With periodic boundary condition every coordinate ends inside (min,max), at a position differing from the original by a multiple of the period, momentum unchanged.", "quantifier": "all positions, ranges", "why_tests_cant": "holds only for overshoots up to one period", "anchors": ["bdld/potential/potential.py:apply_boundary_condition_periodic"]}
{"id": "C26", "title": "Frictionless dynamics is noise-free and time-reversible", "statement": "With friction 0 the Bussi-Parrinello integrator does not depend on the random numbers, and (without boundary condition) n steps, momentum reversal and n steps return to the initial position with reversed momentum.", "quantifier": "all potentials, masses>0, time steps, numbers of steps and noise", "why_tests_cant": "all initial conditions and step numbers", "anchors": ["bdld/actions/bussi_parinello_ld.py:BussiParinelloLD.run"]}
{"id": "C27", "title": "Thermostat satisfies fluctuation-dissipation", "statement": "For every accepted input (friction>=0, timestep>=0, kt>0, mass>0) the thermostat constants are real and c1^2*m*kt + c2^2 = m*kt with 0<c1<=1: the half-step thermostat keeps the Maxwell-Boltzmann variance.", "quantifier": "all accepted parameters", "why_tests_cant": "all real parameters", "anchors": ["bdld/actions/bussi_parinello_ld.py:BussiParinelloLD.__init__/add_particle"]}
{"id": "C28", "title": "Walkers do not interact through the dynamics", "statement": "One ld step updates each walker as a function of that walker and its own random numbers only: removing, adding or changing other walkers does not change it, and the update follows the documented equations.", "quantifier": "all walker lists, potentials, noise", "why_tests_cant": "all lists and noise", "anchors": ["bdld/actions/bussi_parinello_ld.py:BussiParinelloLD.run", "bdld/actions/overdamped_ld.py:OverdampedLD.run"]}
{"id": "C29", "title": "Polynomial potential: force is minus the gradient", "statement": "For polynomial coefficients in 1, 2 or 3 dimensions, force(pos)[d] is minus the partial derivative of energy in direction d and energy is the polynomial sum c_ijk x^i y^j z^k.", "quantifier": "all coefficient arrays (all orders) and positions", "why_tests_cant": "all polynomials, analytic statement", "anchors": ["bdld/potential/polynomial.py:PolynomialPotential"]}
{"id": "C30", "title": "Mueller-Brown potential: force is minus the gradient", "statement": "evaluate(pos) = (energy(pos), force(pos)) and force is minus the gradient of energy, for every scaling.", "quantifier": "all positions and amplitudes", "why_tests_cant": "analytic statement", "anchors": ["bdld/potential/mueller_brown.py:MuellerBrownPotential"]}
{"id": "C31", "title": "Mueller-Brown scaling factor scales the potential", "statement": "A Mueller-Brown potential created with scaling factor s has s times the energy and force of the unscaled one, independent of other potentials created before or after.", "quantifier": "all factors, positions and construction histories", "why_tests_cant": "depends on construction history (module global state) and the value 0", "anchors": ["bdld/potential/mueller_brown.py:MuellerBrownPotential.__init__"]}
{"id": "C32", "title": "Probability density is the normalised Boltzmann distribution", "statement": "calculate_probability_density returns positive values whose sum times the volume element is 1, and the value at grid index (i,j,k) is proportional to exp(-U/kt) at the grid point (x_i,y_j,z_k).", "quantifier": "all potentials, kt>0, ranges, point numbers, dimension 1..3", "why_tests_cant": "index ordering only differs in 3D", "anchors": ["bdld/potential/potential.py:calculate_probability_density", "bdld/grid.py:Grid.points/set_from_func"]}
{"id": "C33", "title": "Grid points are in row-major order", "statement": "points()[m] is the grid point belonging to the m-th entry of the flattened data array (row-major order).", "quantifier": "all dimensions, ranges, point numbers", "why_tests_cant": "existing tests cover 2D only", "anchors": ["bdld/grid.py:Grid.points/axes"]}
{"id": "C34", "title": "from_stepsizes covers the requested range", "statement": "from_stepsizes returns per dimension points starting at min with the given step; without shrink the last point is >= max and < max+step; with shrink the last point is <= max and > max-step, i.e. the range is shrunk only if the step does not fit exactly.", "quantifier": "all ranges with min<max, steps>0", "why_tests_cant": "boundary case of exact fit", "anchors": ["bdld/grid.py:from_stepsizes"]}
{"id": "C35", "title": "Grid arithmetic is elementwise on a new grid", "statement": "Grid arithmetic with numbers or grids with equal points returns a new grid with the same points and the elementwise results; grids with different points are rejected; wrongly sized data is rejected; two grids compare equal exactly if points and data are the same.", "quantifier": "all grids and operators", "why_tests_cant": "all shapes", "anchors": ["bdld/grid.py:Grid._perform_arithmetic_operation/_perform_math_on_self/data.setter/from_npoints"]}
{"id": "C36", "title": "Valid convolution keeps spacing and is the discrete convolution", "statement": "convolve(g1,g2,'valid') has n_large-n_small+1 points, the spacing of the inputs, is centered in the larger grid, and holds the discrete convolution times the volume element; different spacings are rejected.", "quantifier": "all grids with equal spacing and any number of dimensions, one of them having more points in every dimension; either argument order", "why_tests_cant": "all sizes", "anchors": ["bdld/grid.py:convolve"]}
{"id": "C37", "title": "nd_trapz integrates", "statement": "nd_trapz is linear, gives c*prod((n_i-1)*dx_i) for constant data c and is exact for functions linear in each coordinate.", "quantifier": "all shapes and dx", "why_tests_cant": "all shapes", "anchors": ["bdld/actions/birth_death.py:nd_trapz"]}
{"id": "C38", "title": "Kernel grid is fine enough", "statement": "The density grid set up for the birth-death corrections has an odd number of at least 501 points per dimension and gives a kernel grid of at least 20 points within +-5 sigma per dimension.", "quantifier": "all ranges and bandwidths>0", "why_tests_cant": "all real values", "anchors": ["bdld/main.py:bd_prob_density", "bdld/actions/birth_death.py:dens_kernel_convolution"]}
{"id": "C39", "title": "Input option contract", "statement": "Parsing an option returns the converted value satisfying the declared condition, or the default if the key is absent and optional; a missing compulsory key, an unconvertible scalar or a violated condition raises OptionError.", "quantifier": "all option declarations and section contents", "why_tests_cant": "all strings", "anchors": ["bdld/inputparser.py:InputOption.parse"]}
{"id": "C40", "title": "Accepted input gives usable parameters", "statement": "Whenever the input file is accepted: n_steps>0, timestep>=0, kt>0 and friction>=0 (bussi-parinello), mass>0, number>0, and all given strides, write strides, bandwidths, bins are positive, so no later modulo or division by them can fail.", "quantifier": "all input files", "why_tests_cant": "all inputs", "anchors": ["bdld/inputparser.py:Input"]}
{"id": "C41", "title": "Potential dimension is limited to 1..3", "statement": "For polynomial potentials the input parser accepts n_dim only between 1 and 3.", "quantifier": "all integers n_dim", "why_tests_cant": "the operator precedence error only shows for n_dim>=4", "anchors": ["bdld/inputparser.py:Input.at_most_3dim"]}
{"id": "C42", "title": "Numbered options are read completely and in order", "statement": "get_all_numbered_values returns the values of prefix1suffix, prefix2suffix, ... up to the first missing number, and terminates; for state options the parser accepts iff there is at least one state and as many mins as maxs, and then produces exactly the options state1-min, state1-max, ...", "quantifier": "all sections", "why_tests_cant": "all key sets", "anchors": ["bdld/inputparser.py:get_all_numbered_values/numbered_state_options"]}
{"id": "C43", "title": "State ranges reject inconsistent dimensions", "statement": "min_max_to_ranges raises ValueError if the numbers of minima and maxima differ or if any state's min and max have different dimensions, and otherwise returns the (min,max) pairs per state and dimension.", "quantifier": "all lists", "why_tests_cant": "chained comparison is wrong only for some dimension combinations", "anchors": ["bdld/inputparser.py:min_max_to_ranges"]}
{"id": "C44", "title": "Bad option values end in a clean error", "statement": "Any option value that cannot be converted or understood ends the program with the 'Input file ...' error message and exit status 1, not with a Python traceback.", "quantifier": "all input values including lists and variant names", "why_tests_cant": "the exception type differs by option kind", "anchors": ["bdld/inputparser.py:InputOption.parse", "bdld/main.py:main/setup_birth_death", "bdld/actions/birth_death.py:ApproxVariant.from_str"]}
{"id": "C45", "title": "Missing dependency sections end in a clean error", "statement": "An input with an analysis section whose required section is missing (histogram without trajectories, fes without histogram, delta-f without fes) ends with an error message and exit status 1.", "quantifier": "all combinations of present sections", "why_tests_cant": "all 2^9 combinations", "anchors": ["bdld/main.py:main", "bdld/inputparser.py:Input.parse_fes/parse_delta_f"]}
{"id": "C46", "title": "fractions-pos places exactly the requested walkers", "statement": "With non-negative fractions (not all zero) exactly `number` walkers are created, position i>1 gets floor(number*f_i/sum f), and the first position gets the remainder; a different number of positions and fractions is rejected.", "quantifier": "all fractions, numbers, position lists", "why_tests_cant": "all real fractions", "anchors": ["bdld/main.py:init_particles"]}
{"id": "C47", "title": "Random initialisation stays inside", "statement": "random-global places each walker inside the potential ranges and random-pos on one of the given positions; both create exactly `number` walkers with the given mass and zero momentum.", "quantifier": "all draws, ranges, positions", "why_tests_cant": "all draws", "anchors": ["bdld/main.py:init_particles"]}
{"id": "C48", "title": "Existing output files are never lost", "statement": "Creating an output file first moves an existing file of that name to the first free bck.N.name; the content of every file existing before is still available afterwards under some name, no other file changes, and the search for a free name terminates.", "quantifier": "all file system states and names", "why_tests_cant": "all file system states", "anchors": ["dist/bdld-0.3.2.tar.gz:bdld/helpers/misc.py:backup_if_exists/initialize_file", "bdld/actions/histogram_action.py:HistogramAction.write", "bdld/actions/fes_action.py:FesAction.write"]}
{"id": "C49", "title": "Header names every column", "statement": "The FIELDS header line of every output file has as many names as the data rows have columns.", "quantifier": "all numbers of dimensions, states, momentum option", "why_tests_cant": "all shapes", "anchors": ["bdld/actions/trajectory_action.py", "bdld/actions/delta_f_action.py", "bdld/actions/particle_distribution.py", "bdld/actions/birth_death.py:BirthDeath.Stats", "bdld/actions/histogram_action.py", "bdld/actions/fes_action.py"]}
{"id": "C50", "title": "Box membership is exact", "statement": "pos_inside_ranges marks position p for a state iff min_d <= p_d <= max_d in every dimension d; particle counts are the number of marked walkers, and for pairwise disjoint states they sum to at most the number of walkers.", "quantifier": "all positions, states, dimensions", "why_tests_cant": "all real values including boundaries", "anchors": ["bdld/tools.py:pos_inside_ranges", "bdld/actions/particle_distribution.py:count_particles"]}
{"id": "C51", "title": "Every action runs exactly once per step in dependency order", "statement": "The main loop calls run(step) of each configured action exactly once for each step 1..n_steps, within a step in the order ld, birth-death, trajectories, histogram, fes, delta-f, particle-distribution, and afterwards final_run(n_steps) once in the same order; so every analysis of step k sees the walkers after the dynamics and birth-death of step k.", "quantifier": "all configurations and n_steps", "why_tests_cant": "all configurations", "anchors": ["bdld/main.py:main"]}
{"id": "C52", "title": "Seeded runs are reproducible", "statement": "If seeds are given, two runs with the same input produce the same walkers and outputs.", "quantifier": "all seeds (also 0) and operating-system entropy", "why_tests_cant": "seed 0 is treated as not given for birth-death only", "anchors": ["bdld/main.py:setup_birth_death/setup_ld/init_particles"]}
{"id": "C53", "title": "Statistics are written as documented", "statement": "With stats-stride s the cumulative birth-death statistics are written at every multiple of s up to n_steps; without stats-stride no statistics are written.", "quantifier": "all strides and n_steps", "why_tests_cant": "all n_steps", "anchors": ["bdld/actions/birth_death.py:BirthDeath.run/final_run", "docs/birth-death.rst"]}
{"id": "C54", "title": "Coefficient files define the polynomial", "statement": "coefficients_from_file returns an array with the given value at each listed index (the last one if listed repeatedly), zero elsewhere, of shape max order + 1 per dimension, for every non-empty file.", "quantifier": "all files with non-negative orders, dimensions 2,3", "why_tests_cant": "single-row files behave differently", "anchors": ["bdld/potential/polynomial.py:coefficients_from_file"]}
{"id": "C55", "title": "Ordinals in log messages", "statement": "make_ordinal(n) gives the English ordinal for every n>=0 (11th, 12th, 13th, 111th, 21st, 122nd, ...).", "quantifier": "all n", "why_tests_cant": "all n", "anchors": ["dist/bdld-0.3.2.tar.gz:bdld/helpers/misc.py:make_ordinal"]}
{"id": "C56", "title": "Whole simulation", "statement": "For every input accepted by the parser and every random stream, the complete program (setup, n_steps of all actions in order, final actions) terminates without error, keeps the number of walkers, and the trajectory files hold exactly the strided history of the walkers produced by alternating the Langevin update and the birth-death step.", "quantifier": "all accepted configurations, potentials, random streams and step counts", "why_tests_cant": "composition of all parts over unbounded runs", "anchors": ["bdld/main.py:main", "bdld/actions/trajectory_action.py", "bdld/actions/birth_death.py", "bdld/actions/bussi_parinello_ld.py", "bdld/actions/overdamped_ld.py"]}
{"id": "C58", "title": "Mueller-Brown energy is the documented sum of exponentials", "statement": "Without scaling factor the energy of the Mueller-Brown potential is, up to a constant, the sum of four exponential terms given in the documentation of the class (amplitudes -200, -100, -170, 15).", "quantifier": "all positions", "why_tests_cant": "A test compares a few points with values produced by the same code; that two closed formulas differ by a constant is a statement about all positions.", "anchors": ["bdld/potential/mueller_brown.py:9-15", "bdld/potential/mueller_brown.py:21-33", "bdld/potential/mueller_brown.py:85-101"]}
{"id": "C59", "title": "Text options reach the program as written", "statement": "A text option of the input file, such as the documented number format fmt = %14.9f, is used exactly as written.", "quantifier": "all texts", "why_tests_cant": "configparser's interpolation only shows for texts with a percent sign", "anchors": ["bdld/inputparser.py:Input.__init__", "docs/trajectories.rst"]}
{"id": "C57", "title": "Runs need no terminal", "statement": "A run with an accepted input that can be completed is completed without asking for input at the terminal, whatever plots are requested.", "quantifier": "all accepted inputs, plot names, strides and supported image formats", "why_tests_cant": "The prompt only appears for certain names of plots at intermediate steps; a test uses one name.", "anchors": ["bdld/actions/fes_action.py:plot", "bdld/actions/fes_action.py:plot_fes", "bdld/actions/fes_action.py:save_fig_interactive"]}
{"id": "C60", "title": "Grid files show every bin", "statement": "Every histogram and free energy file of a finished run has, after its header, one row per bin with the middle of the bin and its value, in row-major order, with an empty line between the slices in two dimensions.", "quantifier": "all finished runs, dimensions and numbers of bins", "why_tests_cant": "all shapes of the grid; the order of the bins only matters for different numbers of bins in each dimension", "anchors": ["bdld/grid.py:183-215", "dist/bdld-0.3.2.tar.gz:bdld/helpers/misc.py:write_2d_sliced_to_file", "bdld/actions/histogram_action.py:write", "bdld/actions/fes_action.py:write"]}
{"id": "C61", "title": "Files of a finished run", "statement": "A finished run whose output files have different names leaves in every output file exactly the header and the recorded rows (or grid, or image), regardless of the files that were there before, and changes no other existing file.", "quantifier": "all accepted inputs, file systems, random streams and numbers of steps", "why_tests_cant": "initialisation, intermediate writes and the final write of seven kinds of files are interleaved; no test covers all inputs and directories", "anchors": ["bdld/main.py:main", "dist/bdld-0.3.2.tar.gz:bdld/helpers/misc.py:initialize_file", "bdld/actions"]}
{"id": "C62", "title": "Birth-death leaves an equilibrium alone", "statement": "If the kernel density estimate of the walkers is proportional to the Boltzmann weight exp(-U/kt) at every walker, all birth-death rates are zero and a birth-death step changes no walker; conversely the rates are all zero only in this case, and the rates of two walkers differ by the logarithm of the ratio of walker density and Boltzmann weight. The multiplicative variant has the corresponding property for the smoothed density, the additive one has the correction as rate.", "quantifier": "all numbers, positions and energies of walkers, dimensions, bandwidths, temperatures, generators and both processing modes", "why_tests_cant": "a statement about all walker configurations with an equivalence between density and rates", "anchors": ["bdld/actions/birth_death.py:222-269", "bdld/actions/birth_death.py:156-220"]}
{"id": "C63", "title": "No energy drift without friction", "statement": "Without friction the energy of every walker in a harmonic potential stays within fixed bounds of its initial energy (factor 1 - k dt^2 / (4 m)) for any number of steps, provided that the time step is below the stability limit.", "quantifier": "all harmonic potentials in any dimension, masses, time steps below the limit, initial states and numbers of steps", "why_tests_cant": "the bound holds for arbitrarily long trajectories", "anchors": ["bdld/actions/bussi_parinello_ld.py:BussiParinelloLD.run"]}
{"id": "C64", "title": "Centered smoothing kernel", "statement": "The smoothed density used by the birth-death corrections is at every grid point the sum over the grid of the density times the Gaussian kernel centered at this point, cut at five bandwidths, times the volume element.", "quantifier": "all grids in one and two dimensions, densities and bandwidths", "why_tests_cant": "depends on the parity of the number of kernel points, i.e. on the ratio of bandwidth and spacing", "anchors": ["bdld/actions/birth_death.py:484-509", "bdld/grid.py:215-252", "bdld/grid.py:291-316"]}
{"id": "C65", "title": "Values of the correction grids", "statement": "The additive correction is -log((K*pi)/pi) plus the trapezoidal integral of log((K*pi)/pi) pi, the multiplicative one -log(K*pi), at all points of the density grid that are also points of the correction grid, which covers the same ranges with at most 101 points per dimension. The logarithms are taken of positive numbers. The average of the additive correction over the density is -I (1 - T) with I the integral term and T < 1 the trapezoidal integral of the density.", "quantifier": "all positive densities on grids in one and two dimensions and all bandwidths; every interpolation that is exact at data points", "why_tests_cant": "chain of convolution, division, logarithm, integration and interpolation over all grids", "anchors": ["bdld/actions/birth_death.py:512-537", "bdld/actions/birth_death.py:125-136", "bdld/actions/birth_death.py:540-555"]}
{"id": "C66", "title": "Sparser grids", "statement": "sparsify returns a grid with the same ranges and the smaller of the number of points and the given maximum in every dimension; its values are those of the original grid at all common points, and all points are common if the number of intervals of the original grid is a multiple of the new one.", "quantifier": "all grids in one and two dimensions and maximum numbers; every interpolation that is exact at data points", "why_tests_cant": "all shapes and ranges", "anchors": ["bdld/grid.py:319-335"]}
{"id": "C67", "title": "Outputs do not influence the simulation", "statement": "Two finished runs whose inputs have the same ld, potential, particles and birth-death sections end with the same walkers, random generators and birth-death statistics, whatever else is recorded; each output (trajectory files, histogram, free energies, delta-f, particle distribution) depends only on its own section and on the sections it is made from.", "quantifier": "all pairs of inputs, environments and finished runs", "why_tests_cant": "all combinations of output sections and run lengths", "anchors": ["bdld/main.py:47-160", "bdld/main.py:300-390"]}
{"id": "C68", "title": "Longer runs extend shorter ones", "statement": "If two inputs differ only in n_steps, the longer run passes through the final walkers and generators of the shorter one, and every trajectory file of the shorter run is an initial part of the one of the longer run.", "quantifier": "all pairs of inputs differing only in n_steps, all environments", "why_tests_cant": "all run lengths and strides", "anchors": ["bdld/main.py:47-160", "bdld/actions/trajectory_action.py:60-140"]}
{"id": "C69", "title": "Reference free energies", "statement": "calculate_reference returns the energy at the given positions shifted by one constant such that its minimum is zero; on the points of a grid it equals, up to a constant, -kt times the logarithm of calculate_probability_density on the same grid.", "quantifier": "all potentials, non-empty lists of positions, temperatures, increasing ranges and numbers of grid points", "why_tests_cant": "all energy functions and grids", "anchors": ["bdld/potential/potential.py:61-110", "bdld/actions/fes_action.py:30-130"]}
{"id": "C70", "title": "Density grid", "statement": "walker_density_grid returns for every grid point the point, the kernel density at it with a walker added there, and the birth-death rate that this added walker would have.", "quantifier": "all walkers, grids, bandwidths and energies in any dimension", "why_tests_cant": "all walker sets and dimensions", "anchors": ["bdld/actions/birth_death.py:271-297"]}
{"id": "C71", "title": "No warning means up-to-date free energies", "statement": "If the setup prints no warning about strides, every free energy surface written or plotted at a step k and every delta-f row of step k is computed from the histogram with all samples until step k; a stride warning is given exactly if at some step the histogram or surface in use is an older one.", "quantifier": "all inputs, strides, resets, run lengths and walkers", "why_tests_cant": "all combinations of four strides", "anchors": ["bdld/actions/fes_action.py:74-117", "bdld/actions/delta_f_action.py:54-56", "bdld/actions/histogram_action.py:100-113"]}
{"id": "C72", "title": "Errors are reported", "statement": "Whenever the program ends with exit status 1 an error message is shown, for every value of --log-level; a finished run logs no error, shows the stride warning at levels up to warning and every histogram reset once at levels up to info; names of levels are case-insensitive and unknown names mean warning.", "quantifier": "all inputs and log level names", "why_tests_cant": "all inputs and texts for the level", "anchors": ["bdld/main.py:44-107", "bdld/main.py:392-412", "bdld/actions/histogram_action.py:112"]}
{"id": "C73", "title": "fractions-pos in double precision", "statement": "With the float64 arithmetic numpy uses, fractions-pos gives every position from the second on floor(number*f_i/sum f) walkers and the first one the remainder, whatever order np.sum adds in; in particular fractions that are given as total numbers of walkers result in these numbers.", "quantifier": "all float64 fractions, numbers of walkers and orders of summation", "why_tests_cant": "rounding fails only for few combinations (7 and 15 of 22), and the summation order depends on the machine", "anchors": ["bdld/main.py:202-209"]}
{"id": "C74", "title": "Reflective boundary in double precision", "statement": "After applying the reflective boundary condition every coordinate that is a float64 number or infinite is inside the range without any rounding error, the momentum of exactly the reflected coordinates is reversed, and after any number of steps of the dynamics each coordinate is inside its range or nan.", "quantifier": "all float64 positions incl. infinities and nan, momenta, forces, random numbers, constants", "why_tests_cant": "all float64 values", "anchors": ["bdld/potential/potential.py:140-160", "bdld/actions/bussi_parinello_ld.py:87-99"]}
{"id": "C75", "title": "Periodic boundary in double precision", "statement": "A coordinate at most one period outside of the range is inside the range after the periodic boundary condition, shifted by the period up to rounding; coordinates inside and momenta are unchanged.", "quantifier": "all float64 ranges and positions", "why_tests_cant": "the rounded sum leaves the range only for some ranges and positions", "anchors": ["bdld/potential/potential.py:162-179"]}
{"id": "C76", "title": "Free energies in double precision", "statement": "The free energy surface computed in float64 is +inf exactly in the empty bins, finite and non-negative in all others, exactly 0 in at least one, differs from kt*(ln of the largest count - ln of the count) by at most kt*2^-40 + 2^-200, and never contains nan.", "quantifier": "all histograms with counts up to 2^53, all kt up to 2^1000, any np.log with relative error 2^-50", "why_tests_cant": "all histograms and temperatures", "anchors": ["bdld/actions/fes_action.py:185-208"]}
{"id": "C77", "title": "Time stamps in double precision", "statement": "The time written for step k differs from k*dt by at most one rounding (relative 2^-53), and the times of different steps are different and in the order of the steps.", "quantifier": "all normal float64 time steps and steps up to 2^52 without overflow", "why_tests_cant": "all time steps and run lengths", "anchors": ["bdld/actions/trajectory_action.py:79", "bdld/actions/delta_f_action.py:102"]}
{"id": "C78", "title": "Acceptance probability in double precision", "statement": "The acceptance probability of a birth/death event computed in float64 lies in [0,1], is 0 for beta = 0 and positive otherwise, differs from 1-exp(-|beta|*dt*rate) by at most 2^-48, and exactly the random numbers k/2^53 not above it accept the event.", "quantifier": "all float64 beta, time steps and factors, any np.exp with relative error 2^-50", "why_tests_cant": "all float64 values", "anchors": ["bdld/actions/birth_death.py:170-210"]}
{"id": "C79", "title": "The input file determines the simulation", "statement": "When the program has set up a simulation from an input file, everything in it is what the sections of the file say: time step, number of steps, thermostat and seed of the dynamics; energy surface (with fitting forces), ranges and boundary condition; number, mass and initial positions of the walkers (drawn from the stated ranges or positions with the stated seed); stride, bandwidths, rate, variant, statistics and seed of the birth-death moves with the temperature and time step of the dynamics; bins, states, strides, resets and file outputs of all recorded quantities. Missing options have their documented defaults. A birth-death seed of 0 and a scaling factor of 0 count as not given.", "quantifier": "all input files without percent signs, all contents of coefficient files, all random generators", "why_tests_cant": "all combinations of sections, options and texts", "anchors": ["bdld/main.py:75-96", "bdld/main.py:126-390", "bdld/inputparser.py:50-480"]}
{"id": "C80", "title": "Option values", "statement": "Every option of an accepted input file has the value its text stands for, or its documented default if the file does not contain it; numbered options count up to the first missing number. An input without one of the required options is never accepted.", "quantifier": "all input files without percent signs, all sections and options", "why_tests_cant": "all texts and combinations of options", "anchors": ["bdld/inputparser.py:50-108", "bdld/inputparser.py:146-480"]}
{"id": "C81", "title": "Grid from step size in double precision", "statement": "A grid made from a range (lo, hi) and a step size s in float64 arithmetic has ceil((hi-lo)/s)+1 points starting at lo (one less if it may shrink), covers the range up to rounding and does not exceed it by more than a step. (Fails: when (hi-lo)/s is an integer up to rounding, there can be one point too many or the maximum can be missed by a rounding error.)", "quantifier": "all finite float64 ranges and step sizes without overflow, with 2^-50 to 2^49 steps", "why_tests_cant": "all float64 ranges and step sizes", "anchors": ["bdld/grid.py:291-316"]}
{"id": "C82", "title": "Histogram in double precision", "statement": "In float64 arithmetic the edges of a histogram with n bins increase strictly from exactly lo to exactly hi and differ from equally spaced edges by at most (|lo|+|hi|)/2^50; a sample is put into the same bin as with exact edges unless it is that close to an inner edge; every bin gains exactly the number of finite samples inside it, up to 2^53 counts; samples with infinite or nan coordinates are not counted; the bin centers lie between their edges.", "quantifier": "all finite float64 ranges wider than the resolution, all numbers of bins and dimensions, all float64 samples including infinities and nan", "why_tests_cant": "all float64 numbers", "anchors": ["bdld/histogram.py:26-77"]}
{"id": "C83", "title": "Langevin run in double precision", "statement": "In float64 arithmetic the thermostat constants are finite: c1 lies in [0,1] and is exp(-friction*dt/2) up to 2^-47, c2 is never nan, and one thermostat update keeps the variance mass*kt of the momenta up to a relative error of 2^-49. A simulation with reflective boundary and with a force that is finite inside the box, in particular a polynomial potential, never overflows or produces nan: after any number of steps up to 2^50 every position is finite and inside the box and the momenta have grown at most linearly with the number of steps.", "quantifier": "all float64 parameters in very wide limits (2^-100 to 2^100), all forces bounded by 2^200, all polynomials of moderate degree, all random numbers up to 2^10, all runs up to 2^50 steps", "why_tests_cant": "all parameters, noise sequences and lengths of runs", "anchors": ["bdld/actions/bussi_parinello_ld.py:60-190", "bdld/potential/polynomial.py:70-84", "bdld/potential/potential.py:55-110"]}
{"id": "C84", "title": "Polynomial potential in double precision", "statement": "The energy of a polynomial potential in float64 arithmetic is finite and equals the exact polynomial up to n*2^-51 times the sum of the absolute values of its terms (n: total number of coefficients per dimension, summed); each force component is minus the exact derivative up to (n+1)*2^-51 times the derivative of that sum.", "quantifier": "all polynomials in any number of dimensions whose terms cannot overflow, all float64 positions", "why_tests_cant": "all float64 coefficients and positions", "anchors": ["bdld/potential/polynomial.py:70-84"]}
{"id": "C85", "title": "Layout of the input file", "statement": "A text file made of [section] headers, 'option: value' or 'option = value' lines, indented further lines of values, empty lines and comment lines gives exactly the sections, options and values it shows; names of options are read without regard to capitals, and options of [DEFAULT] are added to every section. A repeated option or section, an option before the first section, and a line that is neither are never accepted: the program ends before anything is simulated, with a traceback of one of four exceptions.", "quantifier": "all texts (ASCII), all documents, anything that follows an error", "why_tests_cant": "unbounded texts", "anchors": ["bdld/inputparser.py:146-157", "docs/input.rst:12-37", "example_input"]}
{"id": "C86", "title": "Numbers in the input file", "statement": "An option of type int accepts exactly the texts with an optional sign and decimal digits (single underscores between digits, white space around), an option of type float exactly decimal numbers with optional fraction and exponent, inf, infinity and nan; the value is the decimal number that is written, and infinity if it is beyond the range of float64.", "quantifier": "all texts (ASCII)", "why_tests_cant": "unbounded texts", "anchors": ["bdld/inputparser.py:85-103", "docs/input.rst:40-60"]}
{"id": "C87", "title": "Unknown options are ignored", "statement": "Options with unknown names and sections with unknown names do not change anything: the parameters, or the error, and the outcome of the whole program are the same as without them.", "quantifier": "all inputs that are accepted or contain no '%', all additions of options and sections with unknown names, all environments", "why_tests_cant": "all possible names and values", "anchors": ["bdld/inputparser.py:146-178", "bdld/inputparser.py:374-387", "docs/input.rst:30-34"]}
{"id": "C88", "title": "Sensible inputs run to the end", "statement": "If an input is accepted and its options have sensible values - finite numbers, minima below maxima, as many entries as dimensions, at least two walkers for birth-death moves, corrections in at most two dimensions, a file name where something is written during the run, write strides that are multiples of the strides, delta-f in one dimension with at least two states - then the program runs to its end without an exception, with the number of walkers of the input, and every section of the input has its output.", "quantifier": "all environments (random numbers, uninitialised memory), all accepted inputs with sensible values: polynomial potentials in one to three dimensions and Mueller-Brown, both thermostats, all initial distributions and all combinations of optional sections", "why_tests_cant": "all combinations of options and sections, all random numbers", "anchors": ["bdld/main.py:34-123", "bdld/main.py:126-389", "docs/input.rst"]}
{"id": "C89", "title": "The example of the repository", "statement": "The input file of the repository, read from its text, is simulated to the end without a question to the user, for all random numbers and any former content of the directory. Ten walkers are kept over the 10000 steps. It leaves exactly 34 files: ten trajectories with time and position at every fifth step, the histogram of 200 bins, the free energy surface at every 500th step and at the end, a plot and the free energy differences of the two halves at every 100th step, each with the values of the simulated walkers; other files stay as they were. The histogram has one extra count at the origin, and the last 100 steps count twice at the end (C06).", "quantifier": "all environments (random numbers, uninitialised memory, directory content, standard input) in which files can be written and matplotlib knows png", "why_tests_cant": "one run of the example sees one sequence of random numbers and one directory", "anchors": ["example_input", "bdld/main.py:34-123", "bdld/inputparser.py:146-178"]}
{"id": "C90", "title": "Numbers in output files", "statement": "A number written with a format %w.pf reads as a number that differs by at most half a unit of the last decimal; inf and nan stay; numbers with at most p decimals are unchanged; the order of numbers is kept; texts have the width w as long as the number fits. The times of different steps have different texts. (False for time steps below a unit of the last decimal, 1e-9 with the default format %14.9f; true for all others.)", "quantifier": "all widths, precisions, numbers up to 1e300 in size, inf and nan; all time steps and step numbers", "why_tests_cant": "ranges over all numbers including ties and the borders of the column width; tests look at a few numbers", "anchors": ["bdld/actions/trajectory_action.py:58,123-129", "bdld/actions/delta_f_action.py:92,133-139", "bdld/actions/particle_distribution.py:81,130-136", "bdld/actions/histogram_action.py:80,160", "bdld/actions/fes_action.py:92,159", "bdld/grid.py:181-213"]}
{"id": "C91", "title": "Output files can be read back", "statement": "The trajectories, histograms, free energies, free energy differences and particle distributions that a finished run leaves are tables: np.genfromtxt reads from their text the same rows with the accuracy of the format, header and empty lines are skipped. The statistics of birth-death events are read back unchanged.", "quantifier": "all inputs, environments and finished runs, all formats %w.pf, all numbers up to 1e300 in size, inf and nan", "why_tests_cant": "concerns every file of every run, with all numbers of walkers, bins, states and dimensions", "anchors": ["bdld/actions/trajectory_action.py:112-136", "bdld/actions/histogram_action.py:140-165", "bdld/actions/fes_action.py:140-165", "bdld/actions/delta_f_action.py:120-145", "bdld/actions/particle_distribution.py:118-142", "bdld/actions/birth_death.py:345-365", "bdld/grid.py:181-213"]}
{"id": "C92", "title": "Tables of coefficients as text", "statement": "A table gives one row per line with words, in order; what follows '#' and lines without words are ignored, words that are no numbers count as nan, and rows of different lengths are an error (ValueError). A table of orders and coefficients gives the polynomial potential it lists, with forces that are minus its gradient.", "quantifier": "all texts; all tables with at least two rows in one to three dimensions", "why_tests_cant": "ranges over all layouts of a file: white space, comments, empty lines, notations of numbers", "anchors": ["bdld/potential/polynomial.py:86-110"]}
{"id": "C93", "title": "Birth-death rates in double precision", "statement": "In float64 arithmetic the walker densities are finite and strictly positive with a relative error of at most n * 2^-43, however far apart the walkers are, so no rate is infinite or a nan; the rates of all three variants (original, additive, multiplicative correction) are finite and differ from the exact rates by at most n * (2^-38 + M * 2^-48), where n is the number of walkers and M bounds the energies in units of kt and the corrections.", "quantifier": "all sets of 1 to 10000 walkers in one to three dimensions with coordinates up to 2^200, all bandwidths and temperatures between 2^-100 and 2^100, all orders of summation, all exp and log functions with a relative error of 2^-50", "why_tests_cant": "rounding errors, underflow of the kernels of distant walkers and overflow depend on all inputs; tests compare a few densities with a tolerance", "anchors": ["bdld/actions/birth_death.py:222-244", "bdld/actions/birth_death.py:403-481"]}
{"id": "C94", "title": "Whole simulations in double precision", "statement": "In float64 arithmetic a simulation (Langevin dynamics in a reflecting box, birth-death moves every stride steps, either mode, any variant) runs to the end without an exception: no walker is lost or added, every walker stays inside the box, its position, momentum, force and energy are finite (never nan or inf), and its energy and force are those of its position. This covers all polynomial potentials. In recalculation mode it needs that the random number is never exactly 0: otherwise the run can end with an UnboundLocalError (two walkers at the same place).", "quantifier": "all boxes, time steps, frictions, temperatures, masses, bandwidths, rates and strides of moderate size, all potentials that are finite in the box, all starting positions of 2 to 10000 walkers in the box, all random numbers, up to 2^50 steps", "why_tests_cant": "whether a nan or an overflow ever appears depends on every rounding of every step; a test follows a few short runs", "anchors": ["bdld/potential/potential.py:140-179", "bdld/actions/bussi_parinello_ld.py:83-124", "bdld/actions/birth_death.py:138-264", "bdld/main.py:100-120"]}
{"id": "C95", "title": "Birth-death events in double precision", "statement": "In float64 arithmetic one round of birth-death moves does what the algorithm with exact numbers does, up to rounding: the rates differ from the exact rates by at most n * (2^-38 + M * 2^-48) and the probabilities of the events from 1 - exp(-|rate| * time between two rounds * rate factor) by at most 2^-47; with these rates and probabilities, bulk mode selects exactly the walkers whose random number is not above their probability, kills those with positive rate and duplicates the others, in recalculation mode the direction is the opposite and the rates are new after every event; the walkers afterwards are the result of executing these events in order, and the counters add up. A simulation step is the dynamics of all walkers followed, in every stride-th step, by such a round.", "quantifier": "all settings and potentials of C94, all states reached by it, 2 to 10000 walkers, all random numbers (not exactly 0 in recalculation mode)", "why_tests_cant": "the order of comparisons and roundings matters for every combination of rates and random numbers; tests see a few seeds", "anchors": ["bdld/actions/birth_death.py:138-264", "bdld/main.py:113-117"]}
{"id": "C96", "title": "Mueller-Brown potential in double precision", "statement": "For every position inside the ranges of the Mueller-Brown potential and all amplitudes of reasonable size, the float64 energy is a finite number within 2^-40 of the exact energy, relative to the sum of the absolute values of the four exponential terms plus 1; the float64 forces are finite and minus the derivatives of the exact energy up to 2^-34 relative to that sum; evaluate returns exactly the numbers of energy and force; a scaling factor f gives f times the exact sum plus the shift up to rounding; and whole simulations in this potential stay finite and in the box.", "quantifier": "all float64 positions in the box, all amplitudes up to 2^100, all factors between 2^-100 and 2^90, all exp and square functions within the usual error bounds", "why_tests_cant": "cancellation and overflow depend on the position; tests look at a few points with one libm", "anchors": ["bdld/potential/mueller_brown.py:9-15", "bdld/potential/mueller_brown.py:44-124"]}
{"id": "C97", "title": "Single steps of the dynamics in double precision", "statement": "In float64 arithmetic one step of the Bussi-Parinello dynamics moves every coordinate to x + (p/m) dt, where p = c1 * momentum + c2 * noise + force * dt / 2, moved to the nearest point of the range, with an error of at most 2^-49 relative to the sizes of the terms; the new momentum is c1 (p + new force * dt / 2) + c2 * second noise up to 2^-48, with p reversed if the step left the range. One step of the overdamped dynamics moves it to x + dt * force + sqrt(2 dt) * noise, moved to the nearest point of the range, with the same kind of error, and any number of overdamped steps runs without exception, nan or infinity and stays in the box.", "quantifier": "all reflecting boxes, positions inside, momenta up to 2^400, noise, coefficients and time steps of moderate size, all force functions that are bounded in the box", "why_tests_cant": "rounding errors depend on every operand, and a wrong coefficient of an order smaller than the noise is invisible in a trajectory", "anchors": ["bdld/actions/bussi_parinello_ld.py:83-124", "bdld/actions/overdamped_ld.py:44-61", "bdld/actions/overdamped_ld.py:76-105", "bdld/potential/potential.py:140-179"]}
{"id": "C98", "title": "Choice of units", "statement": "The results do not depend on the units of length, energy and time, on the zero of the energy, on the origin of the coordinates or on the orientation of the axes: if the potential, ranges, time step, friction, kt, masses, bandwidths and rate factor are expressed in other units, every walker after every step is the same in the new units, with the same random numbers (mirrored for mirrored axes), the same birth-death events and the same statistics; free energies scale with the unit of energy. In particular a symmetric potential is sampled symmetrically. (The overdamped dynamics has a fixed diffusion constant and kt = 1: there the unit of length determines that of time, and that of energy is fixed.)", "quantifier": "all changes of units, all potentials, boundary conditions, walkers, generators, both kinds of dynamics, both modes of the birth-death moves, all numbers of steps", "why_tests_cant": "a wrong dependence on a unit (a missing mass, kt or time step) shows only for particular parameter combinations; tests use one set of parameters", "anchors": ["bdld/actions/bussi_parinello_ld.py:48-124", "bdld/actions/overdamped_ld.py:44-105", "bdld/actions/birth_death.py:138-264", "bdld/actions/birth_death.py:413-481", "bdld/potential/potential.py:128-179", "bdld/actions/fes_action.py:186-208"]}
{"id": "C99", "title": "Good samples give good free energies", "statement": "If the numbers of samples in the bins follow the Boltzmann distribution of the potential up to a relative error d, every value of the free energy surface is finite and within kt ln((1+d)/(1-d)) of the reference surface calculated from the potential, and every free energy difference between states with at least one bin is within the same distance of -kt ln of the ratio of the Boltzmann weights of the states. Exact samples give exact results, and any accuracy is reached by samples that are good enough.", "quantifier": "all energies, bins, kt > 0, counts, states and errors 0 <= d < 1", "why_tests_cant": "samples of a test never follow the distribution exactly, so a test compares with a tolerance that hides a wrong factor or a wrong reference state", "anchors": ["bdld/actions/fes_action.py:186-208", "bdld/actions/delta_f_action.py:148-166", "bdld/potential/potential.py:61-73"]}
{"id": "C100", "title": "Free energy differences in double precision", "statement": "In float64 arithmetic the free energy differences calculated from a histogram via the free energy surface are -kt ln(N/N1) with the numbers of samples N of the state and N1 of the first state, with an error of at most 2^-29 kt; a state without samples gets +inf, with an empty first state the differences are -inf, and nan if both are empty; there are no other nans or infinities, and no exception. A mask of another length than the surface raises IndexError.", "quantifier": "all histograms with 1 to 2^20 bins and counts up to 2^53, all kt between 2^-100 and 2^100, all states, all orders of summation, all exp and log functions with a relative error of 2^-50", "why_tests_cant": "the surface is exponentiated again after taking logarithms: whether rare bins lose their digits depends on the counts, and tests use a few small histograms", "anchors": ["bdld/actions/delta_f_action.py:148-166", "bdld/actions/fes_action.py:186-208"]}
{"id": "C101", "title": "Equilibrium in a harmonic well", "statement": "In a harmonic well with force -k x, averaged over random numbers that have unit variance and are not correlated, the Langevin dynamics has exactly one equilibrium: <p^2> = m kt (equipartition), <x p> = 0 and <x^2> = kt/k / (1 - k dt^2/(4 m)), for every friction coefficient and every time step with k dt^2 < 4 m. Walkers that start with these averages keep them at every step, and with friction the averages of any other start come as close to them as one likes. For the overdamped dynamics <x^2> goes to 1/k / (1 - k dt/2) by a factor (1 - k dt)^2 per step. The code thus samples the temperature it is given, up to a known error of the time step.", "quantifier": "all spring constants, masses, temperatures, time steps below the limit of stability, friction coefficients, axes, numbers of steps, averages and generators with uncorrelated numbers of unit variance", "why_tests_cant": "averages over random numbers are known in a test only up to a statistical error, which hides a wrong factor in the noise or friction; the equilibrium after many steps cannot be enumerated", "anchors": ["bdld/actions/bussi_parinello_ld.py:48-124", "bdld/actions/overdamped_ld.py:44-105", "bdld/potential/polynomial.py:70-84"]}
{"id": "C102", "title": "Birth-death steps follow the birth-death equation", "statement": "In the default (bulk) mode a birth-death step changes the sum of any quantity f over the n walkers, averaged over the random numbers, by -tau n/(n-1) times the sum of beta_i (f_i - mean of f), where tau is the time between birth-death steps times the rate factor and beta_i the rate of walker i, with an error of at most 6 max|f| (tau times the sum of |beta_i|)^2. In particular the mean number of walkers in a region falls in proportion to the amount by which their rates exceed the average rate, and grows if they are below. All interactions between simultaneous events are of second order in the time step.", "quantifier": "all walkers (two or more), quantities, regions, time steps, rate factors, potentials and correction variants; all generators whose numbers lead to events with the given probabilities, pairwise independently, and to equally likely partners", "why_tests_cant": "the statement is about an average over all random numbers; tests run single seeds, where the change of one step is dominated by noise", "anchors": ["bdld/actions/birth_death.py:154-195", "bdld/actions/birth_death.py:221-264"]}
{"id": "C103", "title": "Recalculating the rates keeps the birth-death equation", "statement": "With recalculate-probs a birth-death step follows the birth-death equation, too: averaged over the random numbers, the number of walkers in a region changes by -tau n/(n-1) times the sum of beta_i - mean of beta over these walkers, up to second order in the time step. (False of the code: the events of this mode are swapped, so to first order the mean change has exactly the opposite sign; regions whose walkers have too large rates fill up.)", "quantifier": "all walkers (two or more), quantities, regions, time steps, rate factors, potentials and correction variants with a bound on the rates of all sets of copies of the walkers; all generators whose numbers lead to events with the given probabilities, pairwise independently, and to equally likely partners", "why_tests_cant": "the statement is about an average over all random numbers; single seeded steps are dominated by noise, and walkers still look plausible after a step in the wrong direction", "anchors": ["bdld/actions/birth_death.py:196-219", "bdld/actions/birth_death.py:221-264"]}
{"id": "C104", "title": "Diffusion and drift", "statement": "Without force and walls, walkers of the Langevin dynamics diffuse: the mean square displacement along an axis after n steps is 2 D n dt, up to a constant that does not depend on n, for any distribution of the initial momentum. D is Einstein's kt/(mass friction), exact up to a relative error of (friction dt)^2/12. A constant force F makes them drift with the mean velocity F D/kt, with the same D at every time step (Einstein relation). In the overdamped dynamics the mean displacement is F n dt and its variance 2 n dt exactly (diffusion coefficient and kt are fixed to 1).", "quantifier": "all numbers of steps, time steps, frictions, masses, temperatures, forces, dimensions and initial distributions; all generators whose numbers have mean 0 and variance 1 and are not correlated with each other and the start", "why_tests_cant": "statements about averages over all random numbers and about arbitrarily long runs; a sampled mean square displacement has large statistical errors that hide wrong prefactors of the noise", "anchors": ["bdld/actions/bussi_parinello_ld.py:64-70", "bdld/actions/bussi_parinello_ld.py:83-131", "bdld/actions/overdamped_ld.py:55-112"]}
{"id": "C105", "title": "Densities and rates of more than 10000 walkers in double precision", "statement": "Above 10000 walkers the densities are calculated by a different method. With either method the densities in float64 arithmetic are finite and strictly positive with a relative error of at most n * 2^-43, the rates of all three variants are finite with the same error bound as for few walkers, and the two methods agree up to rounding, so crossing the limit of 10000 walkers does not change the simulated dynamics.", "quantifier": "all sets of 1 to 2^30 walkers in one to three dimensions with coordinates up to 2^200, all bandwidths and temperatures between 2^-100 and 2^100, all orders of summation, all exp, log and power functions with a relative error of 2^-50", "why_tests_cant": "rounding errors, underflow and overflow depend on all inputs, and nobody tests with more than 10000 walkers because the cost grows with the square of their number", "anchors": ["bdld/actions/birth_death.py:397-446", "bdld/actions/birth_death.py:222-244"]}
{"id": "C106", "title": "Without friction the simulation follows Newton's equation of motion", "statement": "Langevin dynamics with friction 0 and without walls solves Newton's equation of motion with second order in the time step: as long as n dt <= T, the position and the velocity of the walker after n steps differ from the exact solution with the same start by at most C dt^2, with a constant C that depends on the mass, on T, on the steepness of the force and on the smoothness of the motion, but not on dt. So with a sufficiently small time step the whole trajectory up to T is as close to the exact one as desired, for any random numbers and any kt. For the polynomial and Mueller-Brown potentials this needs no condition besides the existence of the exact motion until T.", "quantifier": "all potentials, dimensions, masses, times T, time steps up to 1, numbers of steps and exact motions with a twice differentiable acceleration near which the force is Lipschitz continuous", "why_tests_cant": "the order of convergence is a limit for time steps going to 0 over all potentials and start values; a scheme of first order, or one with a wrong half step, looks the same in a short run", "anchors": ["bdld/actions/bussi_parinello_ld.py:64-70", "bdld/actions/bussi_parinello_ld.py:83-131"]}
{"id": "C107", "title": "Every walker of a population moves like a walker simulated alone", "statement": "In a simulation with many walkers every walker moves exactly as if it were simulated alone with its own random numbers; no random number is used for two walkers or for two steps. So every walker has the canonical mean square position and momentum in a harmonic well and reaches them from every start in a number of steps that does not depend on the number of walkers, the average kinetic energy over the walkers is kt / 2 per axis, walkers with uncorrelated starts stay uncorrelated so that the average position of m walkers fluctuates with 1 / m of the variance of a single one, and without force every walker diffuses with the same coefficient.", "quantifier": "all numbers of walkers and steps, generators, starts and, for the first part, both kinds of dynamics, all potentials and boundary conditions", "why_tests_cant": "the independence of the walkers is a statement about all sequences of random numbers and all numbers of walkers; a generator reset between walkers gives trajectories that look right one by one", "anchors": ["bdld/actions/bussi_parinello_ld.py:83-131", "bdld/actions/overdamped_ld.py:55-112"]}
{"id": "C108", "title": "The dynamics conserves areas in phase space up to the friction", "statement": "One step of Langevin dynamics without walls multiplies the area between two neighbouring changes of positions and momenta by exp(-friction dt), for fixed random numbers; after n steps the factor is exp(-friction n dt). In one dimension the determinant of the partial derivatives of position and momentum after n steps with respect to the start has this value (Liouville's theorem). Without friction the map is exactly symplectic for every time step, which is why the energy error does not drift. This holds for all polynomial potentials and the Mueller-Brown potential.", "quantifier": "all random numbers, numbers of steps, time steps, masses, temperatures, frictions and start states, and all potentials in any number of dimensions whose force has a symmetric matrix of derivatives", "why_tests_cant": "the statement is about derivatives with respect to the start and holds for any time step and trajectory; a non-symplectic scheme gives the same short trajectories up to the discretisation error", "anchors": ["bdld/actions/bussi_parinello_ld.py:64-70", "bdld/actions/bussi_parinello_ld.py:83-99"]}
{"id": "C109", "title": "Overdamped runs forget their start", "statement": "Two simulations with overdamped dynamics, the same random numbers and different start positions approach each other in every potential whose curvature is between k and L: the squared distance of corresponding walkers shrinks at least by the factor 1 - 2 k dt + L^2 dt^2 in every step. With dt < 2 k / L^2 all walkers end up in the same place up to any tolerance, after a number of steps that depends only on the initial distance and the tolerance, not on the random numbers or the number of walkers. So with this bound on the time step the results do not depend on the initial positions.", "quantifier": "all random numbers, numbers of walkers and steps, start positions, dimensions and potentials with curvature between k and L", "why_tests_cant": "the statement compares all pairs of runs for all sequences of random numbers; the bound on the time step is a limit that single runs do not reveal", "anchors": ["bdld/actions/overdamped_ld.py:55-81"]}
