{
 "claims": [
  {
   "property": "C01",
   "status": "proved",
   "theorems": [
    "C01_search_exact"
   ],
   "note": "Guards: 0 < h, 2h < L, coordinates in [0,L]."
  },
  {
   "property": "C02",
   "status": "proved",
   "theorems": [
    "C02_search_sound",
    "C02_large_smoothing_refuted"
   ],
   "note": "Soundness without the guard; the guard 2h < L of C01 shown necessary by a family of counterexamples."
  },
  {
   "property": "C03",
   "status": "proved",
   "theorems": [
    "C03_schedule_independent",
    "C03_near_lines_exact",
    "C03_many_particles_refuted"
   ],
   "note": "At most 2^31 particles; the bound is shown necessary."
  },
  {
   "property": "C04",
   "status": "proved",
   "theorems": [
    "C04_schedule_independent",
    "C04_near_particles_exact"
   ],
   "note": "At most 2^31 particles."
  },
  {
   "property": "C05",
   "status": "proved",
   "theorems": [
    "C05_lines_independent",
    "C05_any_schedule",
    "C05_any_interleaving"
   ],
   "note": "For sizes below the int index limits. The interleaving theorem holds for any addition operation, so also for rounded floating point addition."
  },
  {
   "property": "C06",
   "status": "proved",
   "theorems": [
    "C06_sum_over_particles",
    "C06_segments_and_ranks",
    "C06_any_split",
    "C06_single_file",
    "C06_loaded_first",
    "C06_voronoi_refuted",
    "C06_overflow_refuted"
   ],
   "note": "Exact arithmetic, particles inside the box with smoothing length below half the box; the refutations show the kernel and size guards are needed."
  },
  {
   "property": "C07",
   "status": "proved",
   "theorems": [
    "C07_tophat_conserved",
    "C07_voronoi_conserved"
   ],
   "note": ""
  },
  {
   "property": "C08",
   "status": "proved",
   "theorems": [
    "C08_in_bounds",
    "C08_tophat_pixels",
    "C08_voronoi_pixels",
    "C08_sph_pixels",
    "C08_untouched",
    "C08_outside_kernel",
    "C08_never_decreases"
   ],
   "note": ""
  },
  {
   "property": "C09",
   "status": "proved",
   "theorems": [
    "C09_shift",
    "C09_shift_voronoi",
    "C09_whole_box"
   ],
   "note": "The Voronoi case as long as both segments end within two boxes."
  },
  {
   "property": "C10",
   "status": "proved",
   "theorems": [
    "C10_pixels",
    "C10_window",
    "C10_rotation"
   ],
   "note": ""
  },
  {
   "property": "C100",
   "status": "proved",
   "theorems": [
    "C100_loaded",
    "C100_ignored",
    "C100_unchecked_refuted",
    "C100_roundtrip"
   ],
   "note": ""
  },
  {
   "property": "C101",
   "status": "proved",
   "theorems": [
    "C101_place",
    "C101_given",
    "C101_absolute",
    "C101_distinct",
    "C101_moved_refuted"
   ],
   "note": ""
  },
  {
   "property": "C102",
   "status": "proved",
   "theorems": [
    "C102_exists",
    "C102_denser",
    "C102_brighter",
    "C102_hotter"
   ],
   "note": "Balance is stated as gains equal to losses, not with the closed formulas of the code. The temperature limits are those up to which the fits are monotone (collisional fits of Voronov) or one formula (He+ recombination of Verner)."
  },
  {
   "property": "C103",
   "status": "proved",
   "theorems": [
    "C103_exists",
    "C103_unique",
    "C103_denser",
    "C103_energy",
    "C103_solver"
   ],
   "note": "Existence by the intermediate value theorem, uniqueness from a bound 3 Y/(4(1-Y)) on the growth of the electrons in balance with the electrons assumed; that the solver returns at all is not claimed (C40 states what holds when it does)."
  },
  {
   "property": "C104",
   "status": "proved",
   "theorems": [
    "C104_total",
    "C104_allowance",
    "C104_many",
    "C104_moved",
    "C104_column_density",
    "C104_cut",
    "C104_one_pixel_refuted"
   ],
   "note": "Gaussian profile (exact for zero damping by C97_gauss); exact real arithmetic; error bound proved by an Euler-Maclaurin argument, the Gaussian integral is proved. The comparison with the column density array is for the top hat and Voronoi kernels; for the splines both sides are trapezium sums with different nodes."
  },
  {
   "property": "C105",
   "status": "proved",
   "theorems": [
    "C105_column",
    "C105_depth",
    "C105_mirror",
    "C105_far_side_refuted",
    "C105_unmatched_refuted"
   ],
   "note": "Whole pipeline from particles on ranks to reduced arrays; exact real arithmetic, positions on an integer lattice of any spacing. Mirror statement for one particle (sums by C06). Voronoi weights excluded as in C06."
  },
  {
   "property": "C106",
   "status": "proved",
   "theorems": [
    "C106_unit_of_length",
    "C106_linear",
    "C106_more_gas",
    "C106_cut_refuted"
   ],
   "note": "Exact real arithmetic; units finer by a whole factor (the lattice of positions is arbitrary)."
  },
  {
   "property": "C107",
   "status": "proved",
   "theorems": [
    "C107_plain",
    "C107_held",
    "C107_one_threshold",
    "C107_runs",
    "C107_higher",
    "C107_mean",
    "C107_leak_refuted",
    "C107_lower_refuted",
    "C107_rescale_refuted"
   ],
   "note": "heap of arrays with references, on top of the models of masking, rescaling and statistics; the object has no save file (C18-C23 have that side); the guards are shown necessary by the three refutations"
  },
  {
   "property": "C108",
   "status": "proved",
   "theorems": [
    "C108_spectrum",
    "C108_centre",
    "C108_offset_refuted",
    "C108_density"
   ],
   "note": "real arithmetic; a plot is the list of its points; the unit of the offset is refuted"
  },
  {
   "property": "C109",
   "status": "proved",
   "theorems": [
    "C109_raises",
    "C109_drawn",
    "C109_cache",
    "C109_history",
    "C109_velocity_refuted"
   ],
   "note": "numpy's view semantics and its rule for assigning arrays to selected elements are modelled; the velocity itself is an argument"
  },
  {
   "property": "C11",
   "status": "proved",
   "theorems": [
    "C11_tail",
    "C11_gap_refuted"
   ],
   "note": ""
  },
  {
   "property": "C110",
   "status": "proved",
   "theorems": [
    "C110_width",
    "C110_exact",
    "C110_pdf",
    "C110_power",
    "C110_screen",
    "C110_effective"
   ],
   "note": "Uses the models of the flux statistics and of equivalent_width; optical depths and fluxes are real numbers. Theorem C110_pdf holds for the factor s which the rescaling finds, see C15 for the mean flux it attains."
  },
  {
   "property": "C111",
   "status": "proved",
   "theorems": [
    "C111_limit",
    "C111_thin",
    "C111_atoms",
    "C111_growth",
    "C111_blend"
   ],
   "note": "C111_atoms combines equivalent_width with the deposit of particles (C104) for purely thermal lines without tail cut."
  },
  {
   "property": "C112",
   "status": "proved",
   "theorems": [
    "C112_counts",
    "C112_every_host_refuted",
    "C112_close",
    "C112_field"
   ],
   "note": "The claim that every host is counted is refuted for all inputs with a spread above 0.1 km/s."
  },
  {
   "property": "C113",
   "status": "proved",
   "theorems": [
    "C113_fractions",
    "C113_bounds",
    "C113_first_halo_refuted",
    "C113_largest_refuted",
    "C113_same",
    "C113_errors"
   ],
   "note": "Absorbers of halo 0 and the largest value are never counted: refuted."
  },
  {
   "property": "C114",
   "status": "proved",
   "theorems": [
    "C114_counts",
    "C114_volume"
   ],
   "note": "Right density only for a volume of (25/0.7)^3."
  },
  {
   "property": "C115",
   "status": "proved",
   "theorems": [
    "C115_points",
    "C115_mean"
   ],
   "note": "Sightlines without a dense pixel have a NaN and are left out."
  },
  {
   "property": "C116",
   "status": "proved",
   "theorems": [
    "C116_counts",
    "C116_total",
    "C116_errors",
    "C116_mass",
    "C116_complete",
    "C116_velocity",
    "C116_every_host_refuted"
   ],
   "note": "Sightlines of halo 0 are left out of the plots against the mass."
  },
  {
   "property": "C117",
   "status": "proved",
   "theorems": [
    "C117_metallicity",
    "C117_ratio",
    "C117_units",
    "C117_all_sightlines_refuted"
   ],
   "note": ""
  },
  {
   "property": "C118",
   "status": "proved",
   "theorems": [
    "C118_plain",
    "C118_moment"
   ],
   "note": ""
  },
  {
   "property": "C119",
   "status": "proved",
   "theorems": [
    "C119_cen",
    "C119_verner",
    "C119_badnell",
    "C119_continuous",
    "C119_blend_refuted"
   ],
   "note": "exact real arithmetic"
  },
  {
   "property": "C12",
   "status": "proved",
   "theorems": [
    "C12_cubic",
    "C12_quintic",
    "C12_splines",
    "C12_tophat"
   ],
   "note": ""
  },
  {
   "property": "C120",
   "status": "proved",
   "theorems": [
    "C120_kwh",
    "C120_nyx",
    "C120_continuous",
    "C120_gaunt_refuted",
    "C120_branches_refuted",
    "C120_holes_refuted"
   ],
   "note": "exact real arithmetic"
  },
  {
   "property": "C121",
   "status": "proved",
   "theorems": [
    "C121_axes",
    "C121_simple",
    "C121_simpleplot",
    "C121_electrons",
    "C121_neplot",
    "C121_collis",
    "C121_collisplot",
    "C121_electrons_temperature",
    "C121_electrons_energy",
    "C121_hydrogen_only",
    "C121_collisions_refuted"
   ],
   "note": "Real arithmetic. The plots are modelled up to the numbers given to plt.contour. C121_collisions_refuted is the gas in which collisions leave more hydrogen neutral."
  },
  {
   "property": "C122",
   "status": "proved",
   "theorems": [
    "C122_helium_refuted",
    "C122_heplot_refuted",
    "C122_hydrogen_refuted",
    "C122_hplot_refuted"
   ],
   "note": "The titles are refuted at every point; the exact factors are part of the statements."
  },
  {
   "property": "C123",
   "status": "proved",
   "theorems": [
    "C123_complete",
    "C123_density_refuted",
    "C123_short_refuted",
    "C123_errors",
    "C123_agree",
    "C123_missing_refuted",
    "C123_scratch_refuted"
   ],
   "note": "GadgetReader is the header and blocks it hands over; the interpolation and byte encodings are arbitrary functions"
  },
  {
   "property": "C124",
   "status": "proved",
   "theorems": [
    "C124_order",
    "C124_waits",
    "C124_pairs",
    "C124_merged_refuted",
    "C124_vanish_refuted",
    "C124_verbose",
    "C124_blank_refuted",
    "C124_empty_refuted"
   ],
   "note": "Pool.map is modelled after CPython: pieces, results stored by piece, arrival in any order; the fit of one spectrum is an arbitrary function (for the last theorem, do_fit with arbitrary minimisers)"
  },
  {
   "property": "C125",
   "status": "proved",
   "theorems": [
    "C125_search",
    "C125_list",
    "C125_pairs",
    "C125_lost_refuted"
   ],
   "note": "Exponents have no upper bound in the model; infinities and NaN are not modelled"
  },
  {
   "property": "C126",
   "status": "proved",
   "theorems": [
    "C126_column",
    "C126_pixels",
    "C126_lost_refuted",
    "C126_overflow_refuted"
   ],
   "note": "Top hat kernel; floating point with unbounded largest exponent; no fused operations."
  },
  {
   "property": "C127",
   "status": "proved",
   "theorems": [
    "C127_first",
    "C127_fails",
    "C127_same",
    "C127_change_refuted",
    "C127_named_refuted",
    "C127_ions",
    "C127_mass",
    "C127_species"
   ],
   "note": "Reading and parsing the file is the model of C34/C51; parsing of decimal numbers is an arbitrary function. Python dictionaries are modelled by reference, so that sharing is visible."
  },
  {
   "property": "C128",
   "status": "proved",
   "theorems": [
    "C128_all",
    "C128_load",
    "C128_bigfile_refuted",
    "C128_velocities_refuted"
   ],
   "note": "On top of the particle arrays of C45; the search is an arbitrary function naming existing particles (C01-C04, C125 are about it). Conversion to 32 bit floats left out."
  },
  {
   "property": "C129",
   "status": "proved",
   "theorems": [
    "C129_density",
    "C129_damping",
    "C129_wings",
    "C129_lost",
    "C129_constants",
    "C129_mass_refuted",
    "C129_shielding_refuted"
   ],
   "note": "Real arithmetic; the Voigt profile is an arbitrary function. The optical depth of a pixel in C129_wings is that of one particle without the early exit of tautail. C129_shielding_refuted is about the default GasProperties class."
  },
  {
   "property": "C13",
   "status": "proved",
   "theorems": [
    "C13_sph_trapezium",
    "C13_tophat_low",
    "C13_voronoi_low",
    "C13_narrow_bin",
    "C13_bin_mean",
    "C13_column_trapezium"
   ],
   "note": ""
  },
  {
   "property": "C130",
   "status": "proved",
   "theorems": [
    "C130_agree",
    "C130_close_refuted",
    "C130_factor_refuted"
   ],
   "note": "Real arithmetic; the opacity and rate of the background are arbitrary and taken to be the same in both classes (each reads its own table)."
  },
  {
   "property": "C14",
   "status": "proved",
   "theorems": [
    "C14_cells_tile_the_line",
    "C14_nearest_is_an_arc",
    "C14_middle_refuted",
    "C14_exit_refuted",
    "C14_no_cells_refuted"
   ],
   "note": "Exact under the stated guard; the three refutations show each guard is needed. Grid and segment arithmetic over the reals (float rounding not modelled)."
  },
  {
   "property": "C15",
   "status": "proved",
   "theorems": [
    "C15_converges",
    "C15_monotone",
    "C15_distance",
    "C15_solution_exists",
    "C15_solution_unique",
    "C15_floor_refuted",
    "C15_no_absorption_refuted",
    "C15_no_pixels_refuted"
   ],
   "note": "Exact arithmetic; solution at least 1e-10 (the refutation shows the floor of the code otherwise wins)."
  },
  {
   "property": "C16",
   "status": "proved",
   "theorems": [
    "C16_only_unmasked_pixels"
   ],
   "note": "Exact arithmetic; every division of the pixels between threads, anew in each iteration."
  },
  {
   "property": "C17",
   "status": "proved",
   "theorems": [
    "C17_sequential",
    "C17_in_range",
    "C17_no_false_alarm",
    "C17_can_finish",
    "C17_race_refuted"
   ],
   "note": "Sequentially consistent memory accesses; the race theorem gives a losing interleaving for every two-thread division with one good thread."
  },
  {
   "property": "C18",
   "status": "proved",
   "theorems": [
    "C18_roundtrip",
    "C18_single_element_refuted",
    "C18_velocity",
    "C18_wavelength"
   ],
   "note": "compute_spectra and the interpolation of derived quantities are arguments; HDF5 modelled as named datasets; num_important (never filled) left out."
  },
  {
   "property": "C19",
   "status": "proved",
   "theorems": [
    "C19_resave",
    "C19_lost_refuted"
   ],
   "note": "As C18."
  },
  {
   "property": "C20",
   "status": "proved",
   "theorems": [
    "C20_crash",
    "C20_history"
   ],
   "note": "shutil.move is an atomic rename; an interrupted write leaves a file that cannot be read."
  },
  {
   "property": "C21",
   "status": "proved",
   "theorems": [
    "C21_transparent",
    "C21_reload",
    "C21_unread_refuted",
    "C21_single_element_refuted",
    "C21_statistic_refuted"
   ],
   "note": "As C18; sightlines fixed."
  },
  {
   "property": "C22",
   "status": "proved",
   "theorems": [
    "C22_result",
    "C22_running",
    "C22_consistent",
    "C22_axes_refuted",
    "C22_too_many_refuted"
   ],
   "note": "compute_spectra is an argument (modelled by the Pipeline part); exact arithmetic, the int(float) division for the discarded count is exact."
  },
  {
   "property": "C23",
   "status": "proved",
   "theorems": [
    "C23_replaced",
    "C23_species_refuted",
    "C23_saved"
   ],
   "note": "As C18 and C22."
  },
  {
   "property": "C24",
   "status": "proved",
   "theorems": [
    "C24_choice"
   ],
   "note": "Exact arithmetic; the optical depth of each line is an argument (modelled by the Absorption and Pipeline parts); a non-positive resolution is outside the theorem."
  },
  {
   "property": "C25",
   "status": "proved",
   "theorems": [
    "C25_exact",
    "C25_array",
    "C25_effective",
    "C25_off",
    "C25_low_threshold_refuted"
   ],
   "note": "Exact arithmetic."
  },
  {
   "property": "C26",
   "status": "proved",
   "theorems": [
    "C26_counts",
    "C26_top_refuted"
   ],
   "note": "Exact arithmetic; numpy histogram and arange modelled by their algorithms."
  },
  {
   "property": "C27",
   "status": "proved",
   "theorems": [
    "C27_density",
    "C27_defined",
    "C27_all_counted",
    "C27_order"
   ],
   "note": "Exact arithmetic; numpy histogram modelled by its algorithm. calc_pdf of the C tool is treated under C49."
  },
  {
   "property": "C28",
   "status": "proved",
   "theorems": [
    "C28_batches",
    "C28_average",
    "C28_three_blocks",
    "C28_other_sizes"
   ],
   "note": "Exact arithmetic; FFT by definition of the discrete Fourier transform."
  },
  {
   "property": "C29",
   "status": "proved",
   "theorems": [
    "C29_nonnegative",
    "C29_shift",
    "C29_order",
    "C29_parseval",
    "C29_window"
   ],
   "note": "Exact arithmetic; FFT by definition of the discrete Fourier transform."
  },
  {
   "property": "C30",
   "status": "proved",
   "theorems": [
    "C30_roll_to_peak",
    "C30_roll_all",
    "C30_roll_pixels",
    "C30_roll_none_refuted"
   ],
   "note": ""
  },
  {
   "property": "C31",
   "status": "proved",
   "theorems": [
    "C31_files_partitioned",
    "C31_balanced",
    "C31_few_files_refuted"
   ],
   "note": "Fewer files than ranks starves rank 0."
  },
  {
   "property": "C32",
   "status": "proved",
   "theorems": [
    "C32_rank_shares",
    "C32_complete_iff",
    "C32_default_chunk_refuted"
   ],
   "note": ""
  },
  {
   "property": "C33",
   "status": "proved",
   "theorems": [
    "C33_right_file",
    "C33_no_spurious_error",
    "C33_after_failure_refuted"
   ],
   "note": ""
  },
  {
   "property": "C34",
   "status": "proved",
   "theorems": [
    "C34_canonical",
    "C34_accepts_iff",
    "C34_species_parsed",
    "C34_malformed_refuted",
    "C34_long_numeral_refuted"
   ],
   "note": ""
  },
  {
   "property": "C35",
   "status": "proved",
   "theorems": [
    "C35_regions_exact",
    "C35_combine_exact",
    "C35_combine_off",
    "C35_combine_covers",
    "C35_empty_refuted"
   ],
   "note": "The mask must not be empty (an empty one raises)."
  },
  {
   "property": "C36",
   "status": "proved",
   "theorems": [
    "C36_selection_exact",
    "C36_periodic_refuted"
   ],
   "note": ""
  },
  {
   "property": "C37",
   "status": "proved",
   "theorems": [
    "C37_grid_complete",
    "C37_grid_order",
    "C37_grid_inside",
    "C37_other_axis_rejected"
   ],
   "note": "At least one sightline per side."
  },
  {
   "property": "C38",
   "status": "proved",
   "theorems": [
    "C38_fractions",
    "C38_equilibrium",
    "C38_decreasing",
    "C38_unique",
    "C38_temperature",
    "C38_cut_refuted",
    "C38_switch_refuted"
   ],
   "note": "Exact real arithmetic; photoionisation rates are arbitrary powers of ten."
  },
  {
   "property": "C39",
   "status": "proved",
   "theorems": [
    "C39_balance",
    "C39_density",
    "C39_background",
    "C39_tables",
    "C39_starforming",
    "C39_hydrogen_density_refuted",
    "C39_temperature",
    "C39_shielding",
    "C39_attenuation",
    "C39_rates",
    "C39_background_values"
   ],
   "note": "Exact real arithmetic; the star formation threshold and unit conversion are arbitrary positive numbers."
  },
  {
   "property": "C40",
   "status": "proved",
   "theorems": [
    "C40_solution",
    "C40_neutral",
    "C40_per_hydrogen",
    "C40_calls",
    "C40_fixed_point",
    "C40_affine",
    "C40_raises"
   ],
   "note": "Exact real arithmetic; arrays of one shape."
  },
  {
   "property": "C41",
   "status": "proved",
   "theorems": [
    "C41_friends_of_friends",
    "C41_column_conserved",
    "C41_single_component",
    "C41_position_refuted"
   ],
   "note": "Components at different positions (equal positions fail the assertion in the code)."
  },
  {
   "property": "C42",
   "status": "proved",
   "theorems": [
    "C42_uniform_accepted",
    "C42_accepted_uniform",
    "C42_mixed_refuted"
   ],
   "note": ""
  },
  {
   "property": "C43",
   "status": "proved",
   "theorems": [
    "C43_sections",
    "C43_section_maximum",
    "C43_bad_size_rejected",
    "C43_lost_pixel_refuted"
   ],
   "note": "Positive flux, at least two pixels."
  },
  {
   "property": "C44",
   "status": "proved",
   "theorems": [
    "C44_noise_all",
    "C44_noise_one",
    "C44_refused",
    "C44_history",
    "C44_default_refuted",
    "C44_twice_refuted",
    "C44_delta_all",
    "C44_delta_one",
    "C44_range",
    "C44_unique",
    "C44_independent_refuted"
   ],
   "note": "The generator is arbitrary; exact real arithmetic. The number of redraws is a parameter, CLoops when exhausted."
  },
  {
   "property": "C45",
   "status": "proved",
   "theorems": [
    "C45_read",
    "C45_all",
    "C45_nonneg",
    "C45_cache",
    "C45_hii_refuted"
   ],
   "note": "Exact real arithmetic; the gas properties and the selection of particles are arbitrary (C35, C38, C39 treat them)."
  },
  {
   "property": "C46",
   "status": "proved",
   "theorems": [
    "C46_table"
   ],
   "note": "The interpolation inside the table is C17."
  },
  {
   "property": "C47",
   "status": "proved",
   "theorems": [
    "C47_files_refuted",
    "C47_single_refuted",
    "C47_broken_refuted",
    "C47_no_gas"
   ],
   "note": "The statement is what the code does; it refutes the title. Directory contents are an arbitrary function from names to files."
  },
  {
   "property": "C48",
   "status": "proved",
   "theorems": [
    "C48_window",
    "C48_short",
    "C48_range",
    "C48_constant",
    "C48_edge_refuted",
    "C48_even_refuted"
   ],
   "note": "Reads and writes outside the arrays are modelled as failures. smooth_kernel is never called and not modelled."
  },
  {
   "property": "C49",
   "status": "proved",
   "theorems": [
    "C49_power",
    "C49_short_refuted",
    "C49_zero_refuted",
    "C49_pdf",
    "C49_main",
    "C49_total",
    "C49_twice_refuted",
    "C49_columns_refuted",
    "C49_repeat_refuted"
   ],
   "note": "The Fourier transform is an arbitrary function; real arithmetic; printing to the output files is not modelled."
  },
  {
   "property": "C50",
   "status": "proved",
   "theorems": [
    "C50_table",
    "C50_table_inside",
    "C50_random",
    "C50_random_ends",
    "C50_axis_refuted",
    "C50_stream"
   ],
   "note": "Well formed table lines; exact real arithmetic instead of float."
  },
  {
   "property": "C51",
   "status": "proved",
   "theorems": [
    "C51_lookup_last",
    "C51_collision_refuted",
    "C51_reads"
   ],
   "note": ""
  },
  {
   "property": "C52",
   "status": "proved",
   "theorems": [
    "C52_edge_cell_refuted"
   ],
   "note": "The theorem proves the defect for all inputs."
  },
  {
   "property": "C53",
   "status": "proved",
   "theorems": [
    "C53_line_of_sight_refuted"
   ],
   "note": "The refutation of the intended behaviour, for every estimator; nbodykit is an argument."
  },
  {
   "property": "C54",
   "status": "proved",
   "theorems": [
    "C54_conserved",
    "C54_gaussian",
    "C54_shift",
    "C54_linear"
   ],
   "note": "Exact arithmetic; scipy gaussian_filter1d modelled by its algorithm."
  },
  {
   "property": "C55",
   "status": "proved",
   "theorems": [
    "C55_formula",
    "C55_bounds",
    "C55_monotone",
    "C55_shift_refuted"
   ],
   "note": "Exact arithmetic."
  },
  {
   "property": "C56",
   "status": "proved",
   "theorems": [
    "C56_line_density",
    "C56_density",
    "C56_omega",
    "C56_additive",
    "C56_eq_width",
    "C56_rho_DLA",
    "C56_rho_DLA_refuted"
   ],
   "note": "Exact arithmetic."
  },
  {
   "property": "C57",
   "status": "proved",
   "theorems": [
    "C57_converges",
    "C57_emission",
    "C57_transparent_refuted"
   ],
   "note": "Real arithmetic: underflow of the derivative for huge optical depths is not modelled."
  },
  {
   "property": "C58",
   "status": "proved",
   "theorems": [
    "C58_path",
    "C58_hubble",
    "C58_same_counts"
   ],
   "note": "Exact arithmetic."
  },
  {
   "property": "C59",
   "status": "proved",
   "theorems": [
    "C59_absorbers",
    "C59_within",
    "C59_same_refuted",
    "C59_narrow_refuted"
   ],
   "note": "Exact arithmetic; the documented equality with omega_abs is refuted, the deviation bounded."
  },
  {
   "property": "C60",
   "status": "proved",
   "theorems": [
    "C60_counts",
    "C60_too_many_refuted",
    "C60_no_spectra_refuted"
   ],
   "note": "Exact arithmetic; the fit of one spectrum is an arbitrary function."
  },
  {
   "property": "C61",
   "status": "proved",
   "theorems": [
    "C61_search",
    "C61_objective",
    "C61_one_hump_refuted"
   ],
   "note": "Real arithmetic; the profile shape is an arbitrary function of width and pixel distance with its maximum 1 at distance 0; the scalar minimiser is arbitrary within its bounds."
  },
  {
   "property": "C62",
   "status": "proved",
   "theorems": [
    "C62_refit",
    "C62_quality",
    "C62_do_fit",
    "C62_worse_refuted"
   ],
   "note": "The simplex minimiser is an arbitrary function returning as many numbers as it is given; numpy division by zero is modelled."
  },
  {
   "property": "C63",
   "status": "proved",
   "theorems": [
    "C63_ranges",
    "C63_profile",
    "C63_last_pixel_refuted",
    "C63_density",
    "C63_recovered",
    "C63_sign_refuted",
    "C63_pairs",
    "C63_twice_refuted"
   ],
   "note": "Real arithmetic; merging of systems closer than the limit is C41."
  },
  {
   "property": "C64",
   "status": "proved",
   "theorems": [
    "C64_cutoff",
    "C64_empty",
    "C64_round",
    "C64_lone"
   ],
   "note": "Real arithmetic; the minimiser is an arbitrary function; systems given as pairs."
  },
  {
   "property": "C65",
   "status": "proved",
   "theorems": [
    "C65_energy",
    "C65_sign",
    "C65_heating",
    "C65_helium",
    "C65_collisions",
    "C65_excitation_refuted",
    "C65_compton",
    "C65_compton_refuted",
    "C65_hot_refuted",
    "C65_shielding_refuted"
   ],
   "note": "Real arithmetic; the photoheating rates read from the UVB table are arbitrary logarithms. C65_compton_refuted: the Compton term is off by a factor ne. C65_shielding_refuted: photoheating is not reduced by the self-shielding that reduces photoionisation."
  },
  {
   "property": "C66",
   "status": "proved",
   "theorems": [
    "C66_fraction",
    "C66_temp",
    "C66_split",
    "C66_empty_refuted",
    "C66_node",
    "C66_direct",
    "C66_clamp_refuted",
    "C66_eos"
   ],
   "note": "Real arithmetic (no float32 rounding of the logarithms); the GSL interpolator is an arbitrary function, in C66_node one that reproduces the table. Splitting fails for segments of star forming gas only (C66_empty_refuted)."
  },
  {
   "property": "C67",
   "status": "proved",
   "theorems": [
    "C67_scale",
    "C67_override_refuted",
    "C67_grid",
    "C67_nbins",
    "C67_both_refuted",
    "C67_reload",
    "C67_reload_refuted",
    "C67_check",
    "C67_units_refuted"
   ],
   "note": "exact reals; the float32 rounding of rscale is not modelled. The refuted theorems record where the obvious expectation fails: units argument, nbins beside the default res, reload of fewer than 100 pixels, units not in the file."
  },
  {
   "property": "C68",
   "status": "proved",
   "theorems": [
    "C68_temp",
    "C68_temp_range",
    "C68_species",
    "C68_species_refuted",
    "C68_velocity",
    "C68_velocity_refuted",
    "C68_three_refuted",
    "C68_ranks_refuted",
    "C68_voronoi_refuted",
    "C68_bigfile_refuted"
   ],
   "note": "The mean is proved pixel by pixel from C06; the guards (kernel, one rank, not three pixels, no particle without the ion, HDF5) are each shown necessary by a refutation. The single precision of the arrays is not modelled."
  },
  {
   "property": "C69",
   "status": "proved",
   "theorems": [
    "C69_ends",
    "C69_result",
    "C69_added",
    "C69_errors",
    "C69_knots",
    "C69_last_refuted",
    "C69_knots_refuted"
   ],
   "note": "LSQUnivariateSpline is a parameter apart from its check that the knots increase inside the data. Exact real arithmetic; a constant segment gives nan in numpy, modelled as no gain."
  },
  {
   "property": "C70",
   "status": "proved",
   "theorems": [
    "C70_curvature",
    "C70_determined",
    "C70_parabola",
    "C70_line",
    "C70_symmetric",
    "C70_rescaled",
    "C70_featureless",
    "C70_continuum",
    "C70_gap_refuted",
    "C70_order_refuted",
    "C70_long_refuted"
   ],
   "note": "Exact real arithmetic; np.gradient by its formulas; the flux (exp(-tau) or the spline fit of the noisy flux) is an argument. The rescaling theorem builds on C15."
  },
  {
   "property": "C71",
   "status": "proved",
   "theorems": [
    "C71_files",
    "C71_formats",
    "C71_ranks",
    "C71_number",
    "C71_names",
    "C71_length_hdf",
    "C71_length_big",
    "C71_number_refuted",
    "C71_foreign_refuted",
    "C71_directory_refuted",
    "C71_shadow_refuted",
    "C71_length_refuted"
   ],
   "note": "Directories are lists of names with the result of is_hdf5; the limits are proved as *_refuted. Characters special to glob in the directory name are not modelled."
  },
  {
   "property": "C72",
   "status": "proved",
   "theorems": [
    "C72_temperature",
    "C72_temperature_unique",
    "C72_network",
    "C72_velocity",
    "C72_smooth",
    "C72_cell_mass",
    "C72_big_kernel",
    "C72_npart",
    "C72_omega",
    "C72_units_refuted",
    "C72_kernel_refuted",
    "C72_omega_refuted"
   ],
   "note": "Arrays are lists of reals, equal lengths required; negative volumes (nan in numpy) are not modelled."
  },
  {
   "property": "C73",
   "status": "proved",
   "theorems": [
    "C73_regions",
    "C73_inside",
    "C73_whole",
    "C73_shift",
    "C73_seam_refuted",
    "C73_empty_refuted"
   ],
   "note": "column densities are integers in the model; guard: thresholds and densities not negative"
  },
  {
   "property": "C74",
   "status": "proved",
   "theorems": [
    "C74_assign",
    "C74_nearest",
    "C74_kept",
    "C74_stale_refuted",
    "C74_zero_refuted",
    "C74_periodic_refuted",
    "C74_floats_refuted"
   ],
   "note": ""
  },
  {
   "property": "C75",
   "status": "proved",
   "theorems": [
    "C75_circular",
    "C75_order",
    "C75_lookup",
    "C75_empty",
    "C75_min_mass",
    "C75_hubble_refuted",
    "C75_subhalo_refuted"
   ],
   "note": ""
  },
  {
   "property": "C76",
   "status": "proved",
   "theorems": [
    "C76_parts",
    "C76_complete",
    "C76_aligned",
    "C76_calls",
    "C76_load",
    "C76_unreadable",
    "C76_none_refuted",
    "C76_order_refuted",
    "C76_floats_refuted",
    "C76_nosub_refuted"
   ],
   "note": "HDF5 files as lists of named datasets with integer flag, trailing shape and rows; the third, unused total of the header is left out"
  },
  {
   "property": "C77",
   "status": "proved",
   "theorems": [
    "C77_chosen",
    "C77_within",
    "C77_reach",
    "C77_edge_refuted",
    "C77_associated_refuted"
   ],
   "note": "over exact reals; the random generator is an arbitrary sequence of numbers in [0,1)"
  },
  {
   "property": "C78",
   "status": "proved",
   "theorems": [
    "C78_saves",
    "C78_complete_refuted",
    "C78_crash_refuted",
    "C78_outcome",
    "C78_survives",
    "C78_gap_refuted",
    "C78_width_refuted"
   ],
   "note": "disk as save file and backup; torn files left out (they are in C18-C21)"
  },
  {
   "property": "C79",
   "status": "proved",
   "theorems": [
    "C79_inside"
   ],
   "note": "double precision as Flocq's FLT format; proved with the gap below a double"
  },
  {
   "property": "C80",
   "status": "proved",
   "theorems": [
    "C80_comoving",
    "C80_accurate",
    "C80_ratios",
    "C80_size"
   ],
   "note": "exact real arithmetic"
  },
  {
   "property": "C81",
   "status": "proved",
   "theorems": [
    "C81_modulus",
    "C81_five",
    "C81_zero",
    "C81_stars",
    "C81_bands",
    "C81_emflux_refuted",
    "C81_again_refuted"
   ],
   "note": "the state of C81_again_refuted is only reached by writing to the dictionary from outside, as C81_emflux_refuted shows"
  },
  {
   "property": "C82",
   "status": "proved",
   "theorems": [
    "C82_density",
    "C82_arguments",
    "C82_threshold",
    "C82_ratenetwork_refuted",
    "C82_units_refuted",
    "C82_mpc_refuted"
   ],
   "note": "exact reals; the neutral fraction above the threshold is that of C39"
  },
  {
   "property": "C83",
   "status": "proved",
   "theorems": [
    "C83_powerlaw",
    "C83_overdensity",
    "C83_fit",
    "C83_normal",
    "C83_order",
    "C83_heated",
    "C83_few",
    "C83_median",
    "C83_degenerate_refuted",
    "C83_network_refuted",
    "C83_mpc_refuted"
   ],
   "note": "leastsq is any routine that minimises; the histogram and plot are left out"
  },
  {
   "property": "C84",
   "status": "proved",
   "theorems": [
    "C84_total",
    "C84_window",
    "C84_error",
    "C84_between",
    "C84_moved",
    "C84_wide",
    "C84_ion",
    "C84_asymmetric_refuted",
    "C84_narrow_refuted"
   ],
   "note": "exact reals; the densities are arguments"
  },
  {
   "property": "C85",
   "status": "proved",
   "theorems": [
    "C85_counts",
    "C85_none",
    "C85_strongest_refuted",
    "C85_close_refuted"
   ],
   "note": "exact reals; the equivalent widths are those of C55"
  },
  {
   "property": "C86",
   "status": "proved",
   "theorems": [
    "C86_complete",
    "C86_count",
    "C86_determinate",
    "C86_absent",
    "C86_missing_refuted"
   ],
   "note": "A failing read jumps to the exit label which returns the number of positions."
  },
  {
   "property": "C87",
   "status": "proved",
   "theorems": [
    "C87_hubble",
    "C87_velfac",
    "C87_curved_refuted",
    "C87_density",
    "C87_neutral",
    "C87_temperature",
    "C87_units_refuted",
    "C87_velocity_refuted",
    "C87_header"
   ],
   "note": "The refuted theorems give the exact disagreement."
  },
  {
   "property": "C88",
   "status": "proved",
   "theorems": [
    "C88_roundtrip",
    "C88_statistics",
    "C88_short_refuted",
    "C88_options"
   ],
   "note": "Byte encodings of doubles and ints are any invertible encodings of 8 and 4 bytes."
  },
  {
   "property": "C89",
   "status": "proved",
   "theorems": [
    "C89_near_outcome",
    "C89_near_safe",
    "C89_near_refuted",
    "C89_interp_outcome",
    "C89_interp_safe",
    "C89_interp_refuted",
    "C89_rows",
    "C89_rows_refuted",
    "C89_scale",
    "C89_table",
    "C89_package"
   ],
   "note": "which particles are near a line and which bins they fill are arguments (C01, C07); allocations succeed"
  },
  {
   "property": "C90",
   "status": "proved",
   "theorems": [
    "C90_near",
    "C90_interp",
    "C90_scale",
    "C90_table_refuted"
   ],
   "note": "calls with fewer dimensions than the function looks at are undefined and excluded"
  },
  {
   "property": "C91",
   "status": "proved",
   "theorems": [
    "C91_serial",
    "C91_split",
    "C91_ranks",
    "C91_first",
    "C91_monotone",
    "C91_order_refuted",
    "C91_type_refuted"
   ],
   "note": "rounding to nearest even with gradual underflow; no fused operations or wider registers; the contributions themselves are arguments"
  },
  {
   "property": "C92",
   "status": "proved",
   "theorems": [
    "C92_range",
    "C92_transparent",
    "C92_error",
    "C92_many_refuted"
   ],
   "note": "fluxes are arguments; one rounding in the division"
  },
  {
   "property": "C93",
   "status": "proved",
   "theorems": [
    "C93_positive",
    "C93_stop",
    "C93_nan",
    "C93_masked",
    "C93_clear",
    "C93_order_refuted"
   ],
   "note": "termination of the loop is not claimed"
  },
  {
   "property": "C94",
   "status": "proved",
   "theorems": [
    "C94_resave",
    "C94_keyerror_refuted",
    "C94_lost_refuted"
   ],
   "note": "emission save on the model of the cache and the save file; refutations for unread weighted quantities and single-element column densities"
  },
  {
   "property": "C95",
   "status": "proved",
   "theorems": [
    "C95_base",
    "C95_emission",
    "C95_backup_refuted",
    "C95_directory_refuted"
   ],
   "note": "states of the disk under any subset of refused steps; the unguarded claim for emission spectra is refuted"
  },
  {
   "property": "C96",
   "status": "proved",
   "theorems": [
    "C96_base",
    "C96_emission",
    "C96_one_by_one_refuted"
   ],
   "note": "interleavings of four steps per process on files with two names; a second writer is not refused"
  },
  {
   "property": "C97",
   "status": "proved",
   "theorems": [
    "C97_ends",
    "C97_even",
    "C97_mirror",
    "C97_gauss",
    "C97_wing",
    "C97_positive",
    "C97_far",
    "C97_lorentz",
    "C97_bell"
   ],
   "note": "real arithmetic; the sign of the profile for |x| < 10 with small damping is not claimed"
  },
  {
   "property": "C98",
   "status": "proved",
   "theorems": [
    "C98_centre",
    "C98_truth",
    "C98_constant"
   ],
   "note": "real arithmetic, the literals of the table taken as decimal numbers"
  },
  {
   "property": "C99",
   "status": "proved",
   "theorems": [
    "C99_built",
    "C99_errors",
    "C99_none_refuted",
    "C99_length_refuted",
    "C99_gridded",
    "C99_gridargs",
    "C99_rand",
    "C99_randload_refuted"
   ],
   "note": ""
  }
 ]
}