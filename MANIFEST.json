{
 "claims": [
  {
   "property": "C01",
   "status": "proved",
   "theorems": [
    "C01_trajectory_files",
    "C01_no_filename"
   ],
   "note": ""
  },
  {
   "property": "C02",
   "status": "proved",
   "theorems": [
    "C02_get_valid_data",
    "C02_get_valid_data_stale"
   ],
   "note": "Holds when the current buffer cycle has a row; the exceptional case named in the property is characterised exactly by C02_get_valid_data_stale."
  },
  {
   "property": "C03",
   "status": "partial",
   "theorems": [
    "C03_delta_f_file_partial",
    "C03_delta_f_file_refuted",
    "C03_exact",
    "C03_no_stride",
    "C56_surfaces"
   ],
   "note": "REFUTED in general: when 0 < n_steps mod write_stride < stride the final write adds superfluous rows. Proved for all other n_steps; the behaviour in the bad case is proved exactly (C03_exact). C56_surfaces gives the rows for whole runs of the program."
  },
  {
   "property": "C04",
   "status": "partial",
   "theorems": [
    "C04_particle_distribution_partial",
    "C04_particle_distribution_refuted",
    "C04_exact",
    "C04_no_stride",
    "C56_distribution"
   ],
   "note": "REFUTED in general: when 0 < n_steps mod write_stride < stride the final write repeats stale rows. Proved for all other n_steps; the behaviour in the bad case is proved exactly (C04_exact). C56_distribution gives the rows for whole runs of the program."
  },
  {
   "property": "C05",
   "status": "partial",
   "theorems": [
    "C05_during_run_exact",
    "C05_during_run_partial",
    "C05_during_run_refuted"
   ],
   "note": "REFUTED without trajectory file when the histogram stride does not divide the update stride. Exact content proved for all strides, resets and with/without file."
  },
  {
   "property": "C06",
   "status": "partial",
   "theorems": [
    "C06_final_exact",
    "C06_final_partial",
    "C06_final_refuted"
   ],
   "note": "REFUTED: with trajectory file the last batch is counted twice (n multiple of the write stride) or the rest is missing; without file the last batch is doubled for multiples. Exact final content proved for all cases."
  },
  {
   "property": "C07",
   "status": "partial",
   "theorems": [
    "C07_new_histogram_exact",
    "C07_new_histogram_empty_partial",
    "C07_new_histogram_empty_refuted"
   ],
   "note": "REFUTED if the ranges contain the origin (one spurious count in its cell); exact initial content proved for all ranges."
  },
  {
   "property": "C08",
   "status": "proved",
   "theorems": [
    "C08_add_counts",
    "C08_cells_are_entries",
    "C08_batches",
    "C08_order",
    "C08_clear",
    "C08_wrong_dimension"
   ],
   "note": ""
  },
  {
   "property": "C09",
   "status": "partial",
   "theorems": [
    "C09_reset_exact",
    "C09_reset_partial",
    "C09_reset_refuted"
   ],
   "note": "REFUTED for reset steps that are no multiple of the trajectory write stride: samples before the reset enter with the next update. Exact content proved."
  },
  {
   "property": "C10",
   "status": "proved",
   "theorems": [
    "C10_fes_from_histogram"
   ],
   "note": ""
  },
  {
   "property": "C11",
   "status": "proved",
   "theorems": [
    "C11_delta_f"
   ],
   "note": ""
  },
  {
   "property": "C12",
   "status": "partial",
   "theorems": [
    "C12_few_states",
    "C12_refuted",
    "C12_partial"
   ],
   "note": "REFUTED: in two or more dimensions the setup of the delta-f action always raises ValueError, because the shape check compares each state mask with the wrong shape. Proved: in one dimension the setup succeeds for every number of states and the states are the given ones."
  },
  {
   "property": "C13",
   "status": "partial",
   "theorems": [
    "C13_refuted",
    "C13_partial",
    "C13_exact"
   ],
   "note": "REFUTED: the kt option of the [fes] section is ignored. Exact behaviour proved: every FES file written holds the FES of the histogram at some step at the kt of the dynamics (1 for overdamped dynamics), the last one that of the final histogram."
  },
  {
   "property": "C14",
   "status": "proved",
   "theorems": [
    "C14_conservation",
    "C14_bulk_succeeds"
   ],
   "note": "Copies are of all attributes of a walker; sharing of array objects is C22."
  },
  {
   "property": "C15",
   "status": "proved",
   "theorems": [
    "C15_random_other",
    "C15_fails_only_alone"
   ],
   "note": ""
  },
  {
   "property": "C16",
   "status": "proved",
   "theorems": [
    "C16_bulk_events"
   ],
   "note": ""
  },
  {
   "property": "C17",
   "status": "partial",
   "theorems": [
    "C17_recalculate_refuted",
    "C17_recalculate_exact",
    "C17_unbound"
   ],
   "note": "REFUTED: the event tuple is swapped in this mode, a walker with positive rate is duplicated. Exact behaviour proved for every run, including rates of exactly zero."
  },
  {
   "property": "C18",
   "status": "proved",
   "theorems": [
    "C18_successes",
    "C18_bulk",
    "C18_recalculate"
   ],
   "note": ""
  },
  {
   "property": "C19",
   "status": "proved",
   "theorems": [
    "C19_original",
    "C19_multiplicative",
    "C19_additive",
    "C19_energy_shift",
    "C19_permutation",
    "C19_single"
   ],
   "note": "griddata is assumed to interpolate each point independently of the others (predicate griddata_pointwise)."
  },
  {
   "property": "C20",
   "status": "proved",
   "theorems": [
    "C20_event_probability",
    "C20_parameters"
   ],
   "note": ""
  },
  {
   "property": "C21",
   "status": "proved",
   "theorems": [
    "C21_walker_density"
   ],
   "note": ""
  },
  {
   "property": "C22",
   "status": "proved",
   "theorems": [
    "C22_independent_objects"
   ],
   "note": "heap model with references: every history of add/remove/Langevin steps/birth-death moves simulates the value model, no sharing, caller's arrays untouched"
  },
  {
   "property": "C23",
   "status": "proved",
   "theorems": [
    "C23_energies_current"
   ],
   "note": ""
  },
  {
   "property": "C24",
   "status": "proved",
   "theorems": [
    "C24_reflective",
    "C24_always_inside",
    "C24_step_succeeds"
   ],
   "note": ""
  },
  {
   "property": "C25",
   "status": "partial",
   "theorems": [
    "C25_periodic_refuted",
    "C25_periodic_partial",
    "C25_periodic_exact",
    "C25_periodic_too_far"
   ],
   "note": "REFUTED for coordinates further than one period outside (only one shift is made). Proved within one period; exact behaviour proved for all positions."
  },
  {
   "property": "C26",
   "status": "proved",
   "theorems": [
    "C26_noise_free",
    "C26_reversible",
    "C26_added_walkers"
   ],
   "note": "Over the reals; no boundary condition."
  },
  {
   "property": "C27",
   "status": "proved",
   "theorems": [
    "C27_fluctuation_dissipation",
    "C27_added_walkers"
   ],
   "note": ""
  },
  {
   "property": "C28",
   "status": "proved",
   "theorems": [
    "C28_independent",
    "C28_bussi_parrinello",
    "C28_overdamped"
   ],
   "note": ""
  },
  {
   "property": "C29",
   "status": "proved",
   "theorems": [
    "C29_polynomial",
    "C29_rejected"
   ],
   "note": "For every order per dimension; one-dimensional to three-dimensional."
  },
  {
   "property": "C30",
   "status": "proved",
   "theorems": [
    "C30_force",
    "C30_evaluate"
   ],
   "note": ""
  },
  {
   "property": "C31",
   "status": "partial",
   "theorems": [
    "C31_scaling_refuted",
    "C31_shared_refuted",
    "C31_zero",
    "C31_single_partial",
    "C31_scaling_exact"
   ],
   "note": "REFUTED: the constant shift is not scaled, factors of all potentials accumulate in a global array, factor 0 is ignored. Exact behaviour proved for every construction history."
  },
  {
   "property": "C32",
   "status": "partial",
   "theorems": [
    "C32_density_partial",
    "C32_density_refuted",
    "C32_density_exact",
    "C32_wrong_dimension"
   ],
   "note": "REFUTED in three dimensions (entries are permuted because of the order of points()). Proved for dimension <= 2; exact permuted layout proved for every dimension."
  },
  {
   "property": "C33",
   "status": "partial",
   "theorems": [
    "C33_points_partial",
    "C33_points_refuted",
    "C33_points_exact",
    "C33_set_from_func"
   ],
   "note": "REFUTED in three dimensions; proved for dimension <= 2; the exact order is proved for every dimension."
  },
  {
   "property": "C34",
   "status": "partial",
   "theorems": [
    "C34_from_stepsizes",
    "C34_single_step",
    "C34_shrink_partial",
    "C34_shrink_refuted",
    "C34_shrink_exact"
   ],
   "note": "Proved without shrink. REFUTED with shrink if the step fits exactly (one point too few); otherwise proved, and the exact last point is proved for all steps."
  },
  {
   "property": "C35",
   "status": "proved",
   "theorems": [
    "C35_number",
    "C35_function",
    "C35_array",
    "C35_grid",
    "C35_reject",
    "C35_reject_other",
    "C35_new_grid",
    "C35_set_data",
    "C35_wrong_size",
    "C35_wrong_dimension",
    "C35_equality"
   ],
   "note": "Elements have an arbitrary type and the operator is an arbitrary function."
  },
  {
   "property": "C36",
   "status": "proved",
   "theorems": [
    "C36_valid_convolution",
    "C36_different_spacing",
    "C36_same_convolution",
    "C36_equal_size"
   ],
   "note": "Proved in every dimension for grids of which one has more points in every dimension (no grid with the same spacing exists otherwise, see C36_equal_size)."
  },
  {
   "property": "C37",
   "status": "proved",
   "theorems": [
    "C37_total",
    "C37_linear",
    "C37_constant",
    "C37_multilinear"
   ],
   "note": ""
  },
  {
   "property": "C38",
   "status": "proved",
   "theorems": [
    "C38_kernel_grid",
    "C38_few_bandwidths"
   ],
   "note": ""
  },
  {
   "property": "C39",
   "status": "proved",
   "theorems": [
    "C39_option",
    "C39_section"
   ],
   "note": "the condition of n_dim is the subject of C41"
  },
  {
   "property": "C40",
   "status": "proved",
   "theorems": [
    "C40_accepted_usable"
   ],
   "note": "for all sections delivered by configparser and all readers of numbers"
  },
  {
   "property": "C41",
   "status": "partial",
   "theorems": [
    "C41_refuted",
    "C41_partial",
    "C41_exact"
   ],
   "note": "REFUTED: every n_dim > 0 is accepted (x > 0 & x < 4 is a chained comparison with 0 & x); exact behaviour proved"
  },
  {
   "property": "C42",
   "status": "proved",
   "theorems": [
    "C42_section",
    "C42_dict",
    "C42_states"
   ],
   "note": ""
  },
  {
   "property": "C43",
   "status": "partial",
   "theorems": [
    "C43_refuted",
    "C43_partial",
    "C43_exact"
   ],
   "note": "REFUTED: a maximum with the dimension of the first minimum is accepted although its own minimum has another one; exact behaviour proved"
  },
  {
   "property": "C44",
   "status": "partial",
   "theorems": [
    "C44_refuted",
    "C44_partial",
    "C44_exact",
    "C44_setup"
   ],
   "note": "REFUTED: only some bad values give an error message with exit status 1; a bad element of a list, a misspelled variant, a wrong number of bandwidths and a negative seed end in a traceback, an unknown boundary condition is ignored. Exact classification proved."
  },
  {
   "property": "C45",
   "status": "partial",
   "theorems": [
    "C45_refuted",
    "C45_partial",
    "C45_exact"
   ],
   "note": "REFUTED: [fes] without [histogram] and [delta-f] without [fes] end in a traceback; only [histogram] without [trajectories] gives the error message. A program with a missing dependency never finishes. Exact behaviour proved."
  },
  {
   "property": "C46",
   "status": "proved",
   "theorems": [
    "C46_fractions_pos"
   ],
   "note": "Real-number arithmetic; with the rounding of double precision the claim fails, see C73."
  },
  {
   "property": "C47",
   "status": "proved",
   "theorems": [
    "C47_random_global",
    "C47_random_pos"
   ],
   "note": "Generator contract rng_ok."
  },
  {
   "property": "C48",
   "status": "partial",
   "theorems": [
    "C48_backup",
    "C48_initialize",
    "C48_run_partial",
    "C48_run_prefix_partial",
    "C48_refuted"
   ],
   "note": "REFUTED for whole runs: saving a plot overwrites an existing file without backup (C48_refuted). Proved: backups and new output files for all file systems and names; every run without plots (finished or failed anywhere) keeps all content in up to two dimensions, and never loses lines in any dimension."
  },
  {
   "property": "C49",
   "status": "partial",
   "theorems": [
    "C49_columns_partial",
    "C49_delta_f_exact",
    "C49_distribution_exact",
    "C49_refuted"
   ],
   "note": "REFUTED: the headers of the delta-f and particle-distribution files do not name the time column (exact numbers proved). Proved for statistics, trajectories, histograms and free energies of every finished run."
  },
  {
   "property": "C50",
   "status": "proved",
   "theorems": [
    "C50_pos_inside_ranges",
    "C50_count_particles",
    "C50_disjoint_states"
   ],
   "note": ""
  },
  {
   "property": "C51",
   "status": "proved",
   "theorems": [
    "C51_call_sequence",
    "C51_once",
    "C51_frame"
   ],
   "note": ""
  },
  {
   "property": "C52",
   "status": "partial",
   "theorems": [
    "C52_entropy_partial",
    "C52_refuted",
    "C52_memory_partial",
    "C52_memory_refuted"
   ],
   "note": "REFUTED: the birth-death seed 0 counts as no seed, so that two seeded runs can end with different walkers; and a delta-f or particle-distribution action with a stride larger than the number of steps writes uninitialised memory into its file. Proved for all other inputs: seeded runs do not depend on the entropy of the operating system, and finished runs do not depend on uninitialised memory."
  },
  {
   "property": "C53",
   "status": "partial",
   "theorems": [
    "C53_with_stride_partial",
    "C53_without_stride_refuted",
    "C53_reports_exact",
    "C53_screen"
   ],
   "note": "REFUTED without stats-stride: one report is written at the end. Proved with stats-stride; exact reports proved for all settings."
  },
  {
   "property": "C54",
   "status": "partial",
   "theorems": [
    "C54_coefficient_file_partial",
    "C54_file_potential_partial",
    "C54_coefficient_file_refuted",
    "C54_single_line_exact"
   ],
   "note": "REFUTED for files with a single line (IndexError). Proved for two or more lines in every dimension."
  },
  {
   "property": "C55",
   "status": "proved",
   "theorems": [
    "C55_ordinals"
   ],
   "note": ""
  },
  {
   "property": "C56",
   "status": "partial",
   "theorems": [
    "C56_composition",
    "C56_completes_partial",
    "C56_trajectories",
    "C56_histogram",
    "C56_fes",
    "C56_surfaces",
    "C56_distribution",
    "C56_refuted"
   ],
   "note": "REFUTED as stated: an accepted input can still fail during the run (C56_refuted: Mueller-Brown potential with n_dim = 1 and a particle-distribution; others: a single walker with birth-death). Proved: the program is exactly the composition of its separate parts for every accepted input that can be set up, it finishes under the explicit conditions of runnable, and every finished run has the stated trajectory files, histogram and FES."
  },
  {
   "property": "C57",
   "status": "partial",
   "theorems": [
    "C57_plain_names_partial",
    "C57_answers_exact",
    "C57_stepped_name_exact",
    "C57_refuted"
   ],
   "note": "REFUTED: with plot-stride and a plot-filename with extension the program asks at the terminal for another name at every intermediate plot, and ends with an EOFError in batch mode. Proved for names without extension; the number of answers needed is proved exactly."
  },
  {
   "property": "C58",
   "status": "partial",
   "theorems": [
    "C58_documented_refuted",
    "C58_documented_exact"
   ],
   "note": "REFUTED: third amplitude is -175 in the code and -170 in the documentation, plus a constant. Exact formula proved."
  },
  {
   "property": "C59",
   "status": "partial",
   "theorems": [
    "C59_refuted",
    "C59_partial",
    "C59_exact"
   ],
   "note": "REFUTED: '%' is interpolated by configparser, the documented fmt values end in InterpolationSyntaxError; doubling '%' is proved to be the way around"
  },
  {
   "property": "C60",
   "status": "partial",
   "theorems": [
    "C60_histogram_partial",
    "C60_fes_partial",
    "C60_three_dimensions_exact",
    "C60_refuted"
   ],
   "note": "REFUTED in three dimensions: nothing is written (proved for every such run). Proved in one and two dimensions for every file of every finished run."
  },
  {
   "property": "C61",
   "status": "proved",
   "theorems": [
    "C61_files"
   ],
   "note": ""
  },
  {
   "property": "C62",
   "status": "proved",
   "theorems": [
    "C62_rate_differences",
    "C62_equilibrium",
    "C62_multiplicative",
    "C62_additive",
    "C62_no_events"
   ],
   "note": ""
  },
  {
   "property": "C63",
   "status": "proved",
   "theorems": [
    "C63_no_drift"
   ],
   "note": ""
  },
  {
   "property": "C64",
   "status": "partial",
   "theorems": [
    "C64_centered_partial",
    "C64_displacement_exact",
    "C64_refuted"
   ],
   "note": "REFUTED: the kernel is displaced by up to half a grid spacing unless ten bandwidths are an even number of spacings (exact displacement proved for one and two dimensions)."
  },
  {
   "property": "C65",
   "status": "proved",
   "theorems": [
    "C65_additive",
    "C65_multiplicative",
    "C65_average"
   ],
   "note": "griddata is assumed to be exact at data points"
  },
  {
   "property": "C66",
   "status": "proved",
   "theorems": [
    "C66_short",
    "C66_sparsify",
    "C66_common_points"
   ],
   "note": "griddata is assumed to be exact at data points"
  },
  {
   "property": "C67",
   "status": "proved",
   "theorems": [
    "C67_outputs"
   ],
   "note": ""
  },
  {
   "property": "C68",
   "status": "proved",
   "theorems": [
    "C68_longer"
   ],
   "note": "rng_ok is the contract of the generator (Spec_rng.v)"
  },
  {
   "property": "C69",
   "status": "proved",
   "theorems": [
    "C69_minimum",
    "C69_boltzmann",
    "C69_empty"
   ],
   "note": ""
  },
  {
   "property": "C70",
   "status": "partial",
   "theorems": [
    "C70_rates_partial",
    "C70_refuted",
    "C70_single_refuted"
   ],
   "note": "REFUTED: in two or more dimensions the function always raises ValueError, with a single walker IndexError. Proved for one dimension and at least two walkers."
  },
  {
   "property": "C71",
   "status": "proved",
   "theorems": [
    "C71_current",
    "C71_exact"
   ],
   "note": "rng_ok is the contract of the generator; the phantom count at the origin (C07) and the batch borders of resets (C09) are part of the statement"
  },
  {
   "property": "C72",
   "status": "partial",
   "theorems": [
    "C72_explained_partial",
    "C72_refuted",
    "C72_finished",
    "C72_levels",
    "C72_unknown"
   ],
   "note": "REFUTED: with --log-level critical the program ends with exit status 1 without any message. Proved for all other names."
  },
  {
   "property": "C73",
   "status": "partial",
   "theorems": [
    "C73_counts_partial",
    "C73_exact",
    "C73_refuted"
   ],
   "note": "REFUTED: fractions 7 and 15 with 22 walkers give 8 and 14. Proved for every order of summation: the sum is right, all counts are non-negative and at most one off, and exact unless number*fraction is an integer up to rounding. np.sum is any function that adds in some order (Spec_f64.v)."
  },
  {
   "property": "C74",
   "status": "proved",
   "theorems": [
    "C74_reflective",
    "C74_run",
    "C74_short"
   ],
   "note": "Flocq binary64"
  },
  {
   "property": "C75",
   "status": "partial",
   "theorems": [
    "C75_periodic_partial",
    "C75_refuted",
    "C75_short"
   ],
   "note": "REFUTED: range (-0.5, 1.7), the first float64 below -0.5 ends above 1.7. Proved: shifted by the period up to 2^-51 (|min|+|max|), unchanged inside."
  },
  {
   "property": "C76",
   "status": "proved",
   "theorems": [
    "C76_no_bins",
    "C76_fes",
    "C76_empty"
   ],
   "note": "log_ok is the contract of np.log (Spec_f64.v)"
  },
  {
   "property": "C77",
   "status": "proved",
   "theorems": [
    "C77_time",
    "C77_increasing"
   ],
   "note": "Flocq binary64"
  },
  {
   "property": "C78",
   "status": "partial",
   "theorems": [
    "C78_probability",
    "C78_accuracy",
    "C78_accepted",
    "C78_refuted"
   ],
   "note": "REFUTED: for beta*dt that underflows the probability is 0. Everything else proved; exp_ok is the contract of np.exp (Spec_f64.v)."
  },
  {
   "property": "C79",
   "status": "proved",
   "theorems": [
    "C79_dynamics",
    "C79_potential",
    "C79_walkers",
    "C79_birth_death",
    "C79_outputs"
   ],
   "note": "input without percent signs (no interpolation); rng_ok is the contract of the generator; counts of fractions-pos in detail in C47 and C73, contents of the bins in C07"
  },
  {
   "property": "C80",
   "status": "proved",
   "theorems": [
    "C80_values",
    "C80_required"
   ],
   "note": "input without percent signs (no interpolation)"
  },
  {
   "property": "C81",
   "status": "partial",
   "theorems": [
    "C81_refuted",
    "C81_covered_refuted",
    "C81_points_partial"
   ],
   "note": "REFUTED: (0.1,0.4) with steps of 0.1 has five points instead of four; (0,0.030000000000000002) with steps of 0.01 is not covered. Proved: at most one point off, ends exact up to rounding, exact number unless the quotient is an integer up to rounding."
  },
  {
   "property": "C82",
   "status": "proved",
   "theorems": [
    "C82_edges",
    "C82_same_bins",
    "C82_counts",
    "C82_centers",
    "C82_limit"
   ],
   "note": "Flocq binary64; up to 2^53 counts, C82_limit shows that the bound is sharp"
  },
  {
   "property": "C83",
   "status": "proved",
   "theorems": [
    "C83_constants",
    "C83_run",
    "C83_polynomial"
   ],
   "note": "Flocq binary64; np.exp with a relative error of at most 2^-50 (exp_ok); reflective boundary only"
  },
  {
   "property": "C84",
   "status": "proved",
   "theorems": [
    "C84_energy",
    "C84_force"
   ],
   "note": "Flocq binary64, Horner scheme of numpy.polynomial"
  },
  {
   "property": "C85",
   "status": "proved",
   "theorems": [
    "C85_layout",
    "C85_repeated_option",
    "C85_repeated_section",
    "C85_no_section",
    "C85_no_delimiter",
    "C85_outcome"
   ],
   "note": "configparser of the python standard library read from its source (3.11), ASCII texts; example_input is the example"
  },
  {
   "property": "C86",
   "status": "proved",
   "theorems": [
    "C86_integers",
    "C86_numbers"
   ],
   "note": "ASCII; the exact decimal value, rounding to float64 left out except for overflow"
  },
  {
   "property": "C87",
   "status": "proved",
   "theorems": [
    "C87_unknown",
    "C87_parameters"
   ],
   "note": ""
  },
  {
   "property": "C88",
   "status": "proved",
   "theorems": [
    "C88_completes"
   ],
   "note": "'sensible' is spelled out in Spec_complete.v on the parsed options"
  },
  {
   "property": "C89",
   "status": "proved",
   "theorems": [
    "C89_example"
   ],
   "note": "real arithmetic; file formats at the level of rows of numbers"
  },
  {
   "property": "C90",
   "status": "partial",
   "theorems": [
    "C90_number",
    "C90_exact",
    "C90_ordered",
    "C90_aligned",
    "C90_times_partial",
    "C90_times_refuted",
    "C90_formats"
   ],
   "note": "REFUTED for time steps below a unit of the last decimal: the texts of the times of steps 1 and 2 agree for dt=1e-10 in %14.9f. Proved for all larger time steps; the other parts hold for all numbers up to 1e300. Formats other than %w.pf and %d are not modelled."
  },
  {
   "property": "C91",
   "status": "proved",
   "theorems": [
    "C91_table",
    "C91_run",
    "C91_statistics"
   ],
   "note": "formats %w.pf; numbers up to 1e300; str() of floats and states is one line"
  },
  {
   "property": "C92",
   "status": "proved",
   "theorems": [
    "C92_table",
    "C92_line",
    "C92_coefficients"
   ],
   "note": "ASCII; the exact decimal value, rounding to float64 left out except for overflow"
  },
  {
   "property": "C93",
   "status": "proved",
   "theorems": [
    "C93_density",
    "C93_rates"
   ],
   "note": "distance-matrix branch (up to 10000 walkers); the values interpolated from the correction grid are given; exp and log are assumed to have a relative error of 2^-50"
  },
  {
   "property": "C94",
   "status": "proved",
   "theorems": [
    "C94_run",
    "C94_polynomial",
    "C94_zero"
   ],
   "note": "two walkers or more, at most 10000 (distance-matrix branch); values interpolated from the correction grid are given and bounded; normal random numbers below 2^10; the recalculation mode needs random numbers that are not exactly 0, C94_zero shows why"
  },
  {
   "property": "C95",
   "status": "proved",
   "theorems": [
    "C95_bulk",
    "C95_recalculate",
    "C95_step"
   ],
   "note": "limits as in C94; M bounds the energies in units of kt and the corrections"
  },
  {
   "property": "C96",
   "status": "proved",
   "theorems": [
    "C96_energy",
    "C96_force",
    "C96_evaluate",
    "C96_scaled",
    "C96_run"
   ],
   "note": "amplitudes up to 2^100; positions inside the ranges of the potential; np.exp with a relative error of at most 2^-50 for arguments up to 600, the square with at most 2^-51; one constructor call (see C31 for more)"
  },
  {
   "property": "C97",
   "status": "proved",
   "theorems": [
    "C97_langevin",
    "C97_overdamped",
    "C97_run"
   ],
   "note": "reflecting boxes up to 2^200; the noise of a step is bounded by 2^10; within the error of the boundary either sign of the momentum is possible"
  },
  {
   "property": "C98",
   "status": "proved",
   "theorems": [
    "C98_langevin",
    "C98_birth_death",
    "C98_new_walker",
    "C98_evolution",
    "C98_same_numbers",
    "C98_history",
    "C98_polynomial",
    "C98_free_energies"
   ],
   "note": "over the real numbers; for the variants with a correction grid the interpolated correction is assumed to be the same at corresponding positions"
  },
  {
   "property": "C99",
   "status": "proved",
   "theorems": [
    "C99_surface",
    "C99_delta_f",
    "C99_exact",
    "C99_consistent"
   ],
   "note": "over the real numbers; the energy of a bin is that at the position given to calculate_reference (for a histogram its bin centre)"
  },
  {
   "property": "C100",
   "status": "proved",
   "theorems": [
    "C100_delta_f",
    "C100_bad_mask",
    "C100_no_states"
   ],
   "note": "np.exp and np.log of -inf, 0, inf and nan as documented by numpy"
  },
  {
   "property": "C101",
   "status": "proved",
   "theorems": [
    "C101_equilibrium",
    "C101_only",
    "C101_reached",
    "C101_overdamped",
    "C101_polynomial",
    "C101_runs",
    "C101_runs_overdamped"
   ],
   "note": "over the real numbers; averages are linear positive functionals and no measure theory is needed; a single walker without birth-death moves and without boundary"
  },
  {
   "property": "C102",
   "status": "proved",
   "theorems": [
    "C102_mean_change",
    "C102_region"
   ],
   "note": "default mode only: with recalculate-probs the events are swapped (see C17); the generator is assumed to give events with probability equal to the threshold, pairwise independently"
  },
  {
   "property": "C103",
   "status": "partial",
   "theorems": [
    "C103_recalculate_refuted",
    "C103_exact",
    "C103_region_exact"
   ],
   "note": "REFUTED: in recalculate mode the two walkers of an event are swapped, so the mean change is that of the birth-death equation with opposite sign; C103_exact gives the law that holds, with an error of second order"
  },
  {
   "property": "C104",
   "status": "proved",
   "theorems": [
    "C104_diffusion",
    "C104_coefficient",
    "C104_drift",
    "C104_overdamped_drift",
    "C104_overdamped_diffusion",
    "C104_polynomial"
   ],
   "note": "over the real numbers; a single walker without birth-death moves and without boundary; averages as in C101"
  },
  {
   "property": "C105",
   "status": "proved",
   "theorems": [
    "C105_density",
    "C105_rates",
    "C105_methods_agree"
   ],
   "note": "the values interpolated from the correction grid are given; exp, log and Python's power are assumed to have a relative error of 2^-50; extends C93 beyond 10000 walkers"
  },
  {
   "property": "C106",
   "status": "proved",
   "theorems": [
    "C106_second_order",
    "C106_walkers",
    "C106_limit",
    "C106_polynomial",
    "C106_mueller_brown"
   ],
   "note": "over the real numbers; without birth-death moves and without boundary, any number of dimensions; an exact motion is assumed to exist until T; the conditions on the force are proved for the polynomials and the Mueller-Brown potential"
  },
  {
   "property": "C107",
   "status": "proved",
   "theorems": [
    "C107_alone",
    "C107_numbers",
    "C107_equilibrium",
    "C107_reached",
    "C107_averages",
    "C107_uncorrelated",
    "C107_center",
    "C107_diffusion",
    "C107_overdamped",
    "C107_overdamped_drift",
    "C107_overdamped_diffusion",
    "C107_runs",
    "C107_runs_overdamped"
   ],
   "note": "over the real numbers; without birth-death moves; C107_alone and C107_numbers with all boundary conditions, the averages without boundary; averages as in C101"
  },
  {
   "property": "C108",
   "status": "proved",
   "theorems": [
    "C108_area",
    "C108_determinant",
    "C108_polynomial",
    "C108_mueller_brown"
   ],
   "note": "over the real numbers; a single walker (with C107 every walker), without birth-death moves and without boundary; in more than one dimension the symplectic form summed over the axes, in one dimension the determinant"
  },
  {
   "property": "C109",
   "status": "proved",
   "theorems": [
    "C109_forget",
    "C109_meet",
    "C109_convex"
   ],
   "note": "over the real numbers; overdamped dynamics without birth-death moves and without boundary; the condition on the potential is reduced to the derivative of the force in one dimension"
  }
 ]
}