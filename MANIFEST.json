{
 "claims": [
  {
   "property": "C01",
   "status": "proved",
   "theorems": [
    "C01_unwrapping_recovers_true_displacement"
   ],
   "note": "For every stride k of used frames; exact real arithmetic."
  },
  {
   "property": "C02",
   "status": "partial",
   "theorems": [
    "C02_periodic_images_do_not_matter",
    "C02_variable_cell_refuted",
    "C02_variable_cell_partial"
   ],
   "note": "Fixed cell: proved in full. Variable cell: refuted by a witness (C02_variable_cell_refuted); strongest true part C02_variable_cell_partial."
  },
  {
   "property": "C03",
   "status": "proved",
   "theorems": [
    "C03_steps_are_minimum_images",
    "C03_minimum_image_is_unique"
   ],
   "note": "Existence of the step and its uniqueness."
  },
  {
   "property": "C04",
   "status": "proved",
   "theorems": [
    "C04_shape_and_zero_start",
    "C04_later_frames_do_not_matter",
    "C04_other_atoms_do_not_matter"
   ],
   "note": "Shape and zero start, causality, locality."
  },
  {
   "property": "C05",
   "status": "proved",
   "theorems": [
    "C05_no_framework_unchanged",
    "C05_subtracts_framework_mean",
    "C05_framework_mean_is_zero",
    "C05_uniform_drift_removed",
    "C05_relative_displacements_kept",
    "C05_idempotent"
   ],
   "note": "Explicit formula plus the five consequences."
  },
  {
   "property": "C06",
   "status": "proved",
   "theorems": [
    "C06_multi_origin_windows"
   ],
   "note": "For every interval, trajectory length and atom selection."
  },
  {
   "property": "C07",
   "status": "partial",
   "theorems": [
    "C07_changing_cell_partial",
    "C07_changing_cell_unwrapped_partial",
    "C07_observations_span_interval_refuted",
    "C07_ase_partial",
    "C07_pymatgen_partial",
    "C07_mdanalysis_partial"
   ],
   "note": "Refuted: the first frame is duplicated, so the first multi-origin observation of an interval of m frames spans m-1 (C07_observations_span_interval_refuted). Proved for all three parsers: every other observation spans exactly m, in a fixed cell with steps below half a cell, and in changing cells along the path of C92 (the true one when positions are stored unwrapped). Missing: the first observation (false)."
  },
  {
   "property": "C08",
   "status": "partial",
   "theorems": [
    "C08_single_origin_interval_refuted",
    "C08_single_origin_interval_partial"
   ],
   "note": "False in general (C08_single_origin_interval_refuted: the loop counter is used instead of the interval). Proved: the k-th array is always accumulated entry k, so the claim holds for intervals n = k+1."
  },
  {
   "property": "C09",
   "status": "partial",
   "theorems": [
    "C09_alignment",
    "C09_descending_refuted"
   ],
   "note": "Proved for all options in the documented ranges, both samplings; refuted for max_dt < min_dt (C09_descending_refuted)."
  },
  {
   "property": "C10",
   "status": "proved",
   "theorems": [
    "C10_linear_intervals",
    "C10_single_step"
   ],
   "note": "n_steps >= 2; a single step returns the minimum only."
  },
  {
   "property": "C11",
   "status": "partial",
   "theorems": [
    "C11_default_intervals_distinct",
    "C11_user_max_refuted",
    "C11_user_min_refuted",
    "C11_user_partial"
   ],
   "note": "Default bounds: proved. User bounds: refuted (two witnesses), with the strongest simple condition proved."
  },
  {
   "property": "C12",
   "status": "proved",
   "theorems": [
    "C12_logarithmic_intervals"
   ],
   "note": "geomspace modelled with real exp/ln."
  },
  {
   "property": "C13",
   "status": "partial",
   "theorems": [
    "C13_min_dt_too_large_rejected",
    "C13_accepted_inputs_run_partial",
    "C13_max_dt_beyond_refuted",
    "C13_max_dt_beyond_always_fails"
   ],
   "note": "min_dt rejection proved; in-range max_dt runs; max_dt beyond the trajectory refuted, and shown always to fail."
  },
  {
   "property": "C14",
   "status": "proved",
   "theorems": [
    "C14_too_large_is_refused",
    "C14_success_is_within_the_limit",
    "C14_estimate_is_exact"
   ],
   "note": "Exact byte counts; success implies within the limit for both samplings."
  },
  {
   "property": "C15",
   "status": "proved",
   "theorems": [
    "C15_independent_observations"
   ],
   "note": ""
  },
  {
   "property": "C16",
   "status": "proved",
   "theorems": [
    "C16_unknown_dtype",
    "C16_known_dtype",
    "C16_unknown_spacing_rejected",
    "C16_unknown_sampling_rejected",
    "C16_unknown_dimension_rejected"
   ],
   "note": "dtype: for every parser and trajectory; spacing, sampling and dimension in PropertiesParser / PropertiesStats."
  },
  {
   "property": "C17",
   "status": "proved",
   "theorems": [
    "C17_selection_function",
    "C17_ase_and_pymatgen",
    "C17_mdanalysis"
   ],
   "note": "For the selection function and for each parser's output."
  },
  {
   "property": "C18",
   "status": "partial",
   "theorems": [
    "C18_specie_indices_partial",
    "C18_specie_indices_mdanalysis_partial",
    "C18_framework_indices_always_fail",
    "C18_framework_indices_refuted"
   ],
   "note": "Proved when framework_indices is not given as a list. With it the code raises AttributeError (refuted, and shown to fail always)."
  },
  {
   "property": "C19",
   "status": "partial",
   "theorems": [
    "C19_range",
    "C19_images",
    "C19_translation_refuted",
    "C19_translation_partial",
    "C19_narrow_has_direction"
   ],
   "note": "Range and image independence proved for all inputs. Equivariance is refuted in exact arithmetic for molecules whose mean direction vanishes (atoms half a cell apart); proved whenever a mean direction exists, which holds for molecules below half a cell with positive masses. Exact reals, atan2(0,0) = 0."
  },
  {
   "property": "C20",
   "status": "proved",
   "theorems": [
    "C20_centre_of_mass",
    "C20_ase",
    "C20_pymatgen",
    "C20_mdanalysis"
   ],
   "note": "Per frame, and for whole ASE, pymatgen and MDAnalysis runs with a fixed cell. Exact reals."
  },
  {
   "property": "C21",
   "status": "partial",
   "theorems": [
    "C21_mdanalysis",
    "C21_pymatgen",
    "C21_ase_refuted",
    "C21_ase_partial"
   ],
   "note": "MDAnalysis and pymatgen proved; ASE refuted for sub_sample_traj > 1 (reported time is the true one divided by k, C21_ase_partial)."
  },
  {
   "property": "C22",
   "status": "partial",
   "theorems": [
    "C22_picoseconds",
    "C22_integer_time_step_refuted",
    "C22_integer_time_step_never_succeeds"
   ],
   "note": "Float time_step proved; an int time_step always raises UFuncTypeError."
  },
  {
   "property": "C23",
   "status": "partial",
   "theorems": [
    "C23_replicas_stacked",
    "C23_msd_is_average",
    "C23_sizes_refuted",
    "C23_other_sizes_rejected"
   ],
   "note": "Proved for replicas with the same frames and atoms (any number of them, three parsers, any selection); replicas of different sizes refuted (a one-atom replica is silently repeated) or rejected."
  },
  {
   "property": "C24",
   "status": "proved",
   "theorems": [
    "C24_pieces_equal_whole",
    "C24_universe_refused"
   ],
   "note": "For every parser and every way of splitting; universes refuse the option."
  },
  {
   "property": "C25",
   "status": "proved",
   "theorems": [
    "C25_msd_is_mean",
    "C25_succeeds",
    "C25_never_negative",
    "C25_zero_iff",
    "C25_quadratic_scaling",
    "C25_order_irrelevant",
    "C25_sum_of_axes"
   ],
   "note": "With block=False. Intervals with at most one value are shown to be a suffix that is left out."
  },
  {
   "property": "C26",
   "status": "proved",
   "theorems": [
    "C26_msd_axes",
    "C26_mstd_axes",
    "C26_mscd_axes",
    "C26_other_strings_rejected"
   ],
   "note": "For all three classes; str and bytes; every other string raises KeyError."
  },
  {
   "property": "C27",
   "status": "partial",
   "theorems": [
    "C27_aligned_partial",
    "C27_n_o_aligned_refuted"
   ],
   "note": "Proved for sub_sample_dt = 1. Refuted for sub_sample_dt = 2: n_o is truncated, not sub-sampled."
  },
  {
   "property": "C28",
   "status": "partial",
   "theorems": [
    "C28_matching_n_o_refuted",
    "C28_variance_partial"
   ],
   "note": "Refuted for sub_sample_dt = 2. General formula proved (n_o of interval i with displacements of interval i*k), which is the claim for sub_sample_dt = 1."
  },
  {
   "property": "C29",
   "status": "proved",
   "theorems": [
    "C29_mstd_is_mean",
    "C29_succeeds",
    "C29_one_atom"
   ],
   "note": ""
  },
  {
   "property": "C30",
   "status": "partial",
   "theorems": [
    "C30_chosen_axes_refuted",
    "C30_mscd_is_mean_partial",
    "C30_succeeds",
    "C30_scalar_is_equal_charges",
    "C30_quadratic_in_charge",
    "C30_unit_charges_give_mstd"
   ],
   "note": "The chosen axes are ignored (refuted for dimension x); all other parts proved, along all three axes."
  },
  {
   "property": "C31",
   "status": "proved",
   "theorems": [
    "C31_bound_and_equality",
    "C31_scale_invariant"
   ],
   "note": "For mean squared displacement different from zero (NaN otherwise in NumPy)."
  },
  {
   "property": "C32",
   "status": "proved",
   "theorems": [
    "C32_ngp_max",
    "C32_nothing_analysed"
   ],
   "note": "Over real numbers (no NaN)."
  },
  {
   "property": "C33",
   "status": "proved",
   "theorems": [
    "C33_covariance_entries",
    "C33_failure"
   ],
   "note": "Entries where the count in the denominator is not zero (0 divides to inf/nan in NumPy)."
  },
  {
   "property": "C34",
   "status": "partial",
   "theorems": [
    "C34_semidefinite_iff",
    "C34_msd_semidefinite_partial",
    "C34_mstd_semidefinite_partial",
    "C34_mscd_semidefinite_partial",
    "C34_msd_sub_sample_partial",
    "C34_mstd_sub_sample_partial",
    "C34_mscd_sub_sample_partial",
    "C34_sub_sample_refuted"
   ],
   "note": "The iff is proved in full. End to end (parser, bootstrap, random-walk model): proved for sub_sample_dt = 1 always, and for every sub_sample_dt > 0 with either spacing when the intervals are distinct (always so for logarithmic spacing); refuted for sub_sample_dt = 3 when the requested intervals repeat (C34_sub_sample_refuted)."
  },
  {
   "property": "C35",
   "status": "partial",
   "theorems": [
    "C35_condition_number_refuted",
    "C35_condition_number_partial"
   ],
   "note": "Refuted: eigenvalues are not sorted. Proved: bound cond_max * largest/first eigenvalue."
  },
  {
   "property": "C36",
   "status": "proved",
   "theorems": [
    "C36_fit_uses_suffix",
    "C36_increasing_times",
    "C36_no_data"
   ],
   "note": ""
  },
  {
   "property": "C37",
   "status": "proved",
   "theorems": [
    "C37_diffusion_units",
    "C37_jump_units",
    "C37_conductivity_units",
    "C37_conductivity_scaling",
    "C37_D_of_axes",
    "C37_D_J_of_atoms",
    "C37_sigma_of_cell"
   ],
   "note": ""
  },
  {
   "property": "C38",
   "status": "proved",
   "theorems": [
    "C38_sampler_keeps_sign",
    "C38_gradient_not_negative",
    "C38_D_not_negative",
    "C38_DJ_not_negative",
    "C38_sigma_not_negative",
    "C38_start_condition_needed",
    "C38_gradient_any_optimiser",
    "C38_D_any_optimiser",
    "C38_DJ_any_optimiser",
    "C38_sigma_any_optimiser"
   ],
   "note": "For every proposal/acceptance sequence; the condition on the start is shown to be needed, and is derived from the optimiser never ending above its start (C38_*_any_optimiser), whatever the sign of the regression slope."
  },
  {
   "property": "C39",
   "status": "partial",
   "theorems": [
    "C39_terminates",
    "C39_number_of_resamples",
    "C39_warning_refuted"
   ],
   "note": "Termination, counts and early stop proved; the warning part is refuted."
  },
  {
   "property": "C40",
   "status": "proved",
   "theorems": [
    "C40_bootstrap_within_data"
   ],
   "note": ""
  },
  {
   "property": "C41",
   "status": "partial",
   "theorems": [
    "C41_round_trip",
    "C41_analyzer_round_trip",
    "C41_any_sub_sample",
    "C41_sub_sample_refuted"
   ],
   "note": "Identity proved for sub_sample_dt = 1 in every reachable state, Bootstrap and analyser; for larger values everything but displacements and delta_t is proved preserved and the identity is refuted. Assumes uravu round-trips its own dictionaries."
  },
  {
   "property": "C42",
   "status": "partial",
   "theorems": [
    "C42_round_trip",
    "C42_identical",
    "C42_analyzer",
    "C42_later_calls",
    "C42_text_refuted",
    "C42_null_text_refuted",
    "C42_empty_list_refuted",
    "C42_none_in_list_refuted",
    "C42_list_of_nested_dicts_refuted",
    "C42_key_list_refuted",
    "C42_key_slash_refuted",
    "C42_nothing_analysed",
    "C42_one_interval_refuted"
   ],
   "note": "for supported values (no empty list or dictionary, no None or list inside a list, dictionaries in lists hold atoms only, key names without '/', not taken for a list); text returns as bytes, ints as NumPy scalars; the excluded cases are refuted by C42_*_refuted; uravu's Distribution.to_dict/from_dict are an assumption (dist_dicts); analysers for sub_sample_dt = 1 (C41 covers the rest)"
  },
  {
   "property": "C43",
   "status": "partial",
   "theorems": [
    "C43_never_overwrites",
    "C43_existing_refused",
    "C43_other_files",
    "C43_load_reads",
    "C43_extension_replaced",
    "C43_extension_added",
    "C43_directory_refuted"
   ],
   "note": "the part about the given directory is false (C43_directory_refuted): a dot in a directory name and none in the file name"
  },
  {
   "property": "C44",
   "status": "proved",
   "theorems": [
    "C44_independent_of_global_state",
    "C44_methods",
    "C44_seed_only",
    "C44_repeated_calls"
   ],
   "note": "G stands for NumPy's global generator; emcee copies its state at construction."
  },
  {
   "property": "C45",
   "status": "proved",
   "theorems": [
    "C45_range",
    "C45_increases_with_temperature",
    "C45_decreases_with_energy",
    "C45_proportional_to_prefactor",
    "C45_log_linear",
    "C45_energy_recovered",
    "C45_hot_limit",
    "C45_cold_limit",
    "C45_super_at_zero",
    "C45_super_below",
    "C45_units",
    "C45_constant"
   ],
   "note": ""
  },
  {
   "property": "C46",
   "status": "partial",
   "theorems": [
    "C46_without_earlier_default",
    "C46_any_history",
    "C46_refuted",
    "C46_callers_list",
    "C46_tuple",
    "C46_explicit"
   ],
   "note": "False as stated: the default list is shared and modified in place, so the first object built without bounds fixes the T0 bound of all later ones (C46_refuted, C46_any_history). Proved when no earlier call omitted bounds."
  },
  {
   "property": "C47",
   "status": "partial",
   "theorems": [
    "C47_fresh_objects",
    "C47_data_never_changed",
    "C47_last_success",
    "C47_none_before_success",
    "C47_failed_call",
    "C47_results_available_partial",
    "C47_jump_results_available_partial",
    "C47_sigma_results_available_partial",
    "C47_results_available_refuted",
    "C47_no_intercept"
   ],
   "note": "All parts proved over arbitrary histories of calls; flatchain/distribution only with fit_intercept=True, refuted otherwise."
  },
  {
   "property": "C48",
   "status": "partial",
   "theorems": [
    "C48_posterior_predictive_partial",
    "C48_no_intercept_refuted",
    "C48_one_point_refuted",
    "C48_after_failed_fit_refuted"
   ],
   "note": "Proved after a successful fit with intercept unless one point is fitted and n_predictive_samples > 1; the other cases refuted."
  },
  {
   "property": "C49",
   "status": "partial",
   "theorems": [
    "C49_partial",
    "C49_binary_fractions",
    "C49_refuted",
    "C49_documentation_refuted",
    "C49_distinct",
    "C49_logarithmic_partial",
    "C49_logarithmic_binary_fractions",
    "C49_logarithmic_refuted"
   ],
   "note": "Equality is false in double precision (C49_refuted, C49_documentation_refuted, C49_logarithmic_refuted: time step 0.7, and 0.0012 with step_skip 100, and an interval is then analysed twice). Proved for both spacings: never exceeds the trajectory length, at most one frame short, exact for binary fractions, distinct exactly when there is room (linear) or always (logarithmic). For logarithmic spacing np.geomspace is any function accurate to 2^-44 with exact end points, up to 2^40 frames."
  },
  {
   "property": "C50",
   "status": "partial",
   "theorems": [
    "C50_partial",
    "C50_exact",
    "C50_refuted",
    "C50_logarithmic_partial",
    "C50_logarithmic_exact"
   ],
   "note": "False in double precision (C50_refuted: time step 0.1, min_dt 0.3 starts at 2). Proved for both spacings: at most one frame short, never long, exact when nothing is rounded."
  },
  {
   "property": "C51",
   "status": "partial",
   "theorems": [
    "C51_n_i_readable_refuted",
    "C51_n_i_never_readable"
   ],
   "note": "Refuted: AttributeError for every object."
  },
  {
   "property": "C52",
   "status": "proved",
   "theorems": [
    "C52_sub_sampling_keeps_every_kth_atom",
    "C52_rejected_with_specie_indices",
    "C52_coordinates_are_fractional"
   ],
   "note": "Stated as equality with parsing the trajectory of the kept atoms."
  },
  {
   "property": "C53",
   "status": "partial",
   "theorems": [
    "C53_no_displacement",
    "C53_no_displacement_mda",
    "C53_statistics_zero",
    "C53_molecules_partial",
    "C53_molecules_mda_partial",
    "C53_molecules_refuted"
   ],
   "note": "Fixed cell, arbitrary common motion and images, without block averaging. Atomic selections proved; molecules proved when they have a mean direction and refuted otherwise."
  },
  {
   "property": "C54",
   "status": "proved",
   "theorems": [
    "C54_likelihood_is_normal_density",
    "C54_maximised_by_gls",
    "C54_maximiser_unique",
    "C54_no_intercept",
    "C54_negative_gradient"
   ],
   "note": ""
  },
  {
   "property": "C55",
   "status": "partial",
   "theorems": [
    "C55_mstd_variance_partial",
    "C55_mscd_variance_partial"
   ],
   "note": "Formula proved for every sub_sample_dt; as in C28 the n_o is the matching one only for sub_sample_dt = 1."
  },
  {
   "property": "C56",
   "status": "partial",
   "theorems": [
    "C56_save_after_load_refuted"
   ],
   "note": "the property is false; C56_save_after_load_refuted shows that the second save always raises ValueError"
  },
  {
   "property": "C57",
   "status": "proved",
   "theorems": [
    "C57_one_value_per_sample",
    "C57_measured_temperatures",
    "C57_below_prefactor",
    "C57_increases_with_temperature",
    "C57_super"
   ],
   "note": ""
  },
  {
   "property": "C58",
   "status": "proved",
   "theorems": [
    "C58_sample_count",
    "C58_burn_in_and_thinning"
   ],
   "note": ""
  },
  {
   "property": "C59",
   "status": "proved",
   "theorems": [
    "C59_ase",
    "C59_pymatgen",
    "C59_mdanalysis",
    "C59_trajectories",
    "C59_universes",
    "C59_analysis",
    "C59_fits",
    "C59_rotations_keep_volume"
   ],
   "note": "Exact real arithmetic. For MDAnalysis the statement is about the frames as the parser receives them (cell matrix and Cartesian positions); MDAnalysis itself stores cells in a standard orientation, so for it only the maps keeping that orientation (e.g. scalings) arise."
  },
  {
   "property": "C60",
   "status": "proved",
   "theorems": [
    "C60_trajectories",
    "C60_universes",
    "C60_msd",
    "C60_mstd",
    "C60_mscd",
    "C60_non_gaussian"
   ],
   "note": "Exact real arithmetic; without block averaging. The fitted coefficients are not covered (they go through the optimiser and sampler oracles)."
  },
  {
   "property": "C61",
   "status": "proved",
   "theorems": [
    "C61_ase",
    "C61_mdanalysis",
    "C61_pymatgen",
    "C61_trajectories",
    "C61_analysis",
    "C61_regime"
   ],
   "note": "Exact real arithmetic. The fitted coefficients are not covered (optimiser and sampler are oracles); that the same points are fitted is."
  },
  {
   "property": "C62",
   "status": "proved",
   "theorems": [
    "C62_msd",
    "C62_mstd",
    "C62_mscd",
    "C62_succeeds",
    "C62_fits"
   ],
   "note": "The converse (bootstrap=True never fails) is proved for the MSD without block averaging."
  },
  {
   "property": "C63",
   "status": "proved",
   "theorems": [
    "C63_thinned_beforehand",
    "C63_replicas"
   ],
   "note": "The ASE parser keeps step_skip, which is the defect recorded under C21. For dtype='consecutive' thinning happens after joining the pieces (C24)."
  },
  {
   "property": "C64",
   "status": "proved",
   "theorems": [
    "C64_ase",
    "C64_pymatgen",
    "C64_mdanalysis"
   ],
   "note": ""
  },
  {
   "property": "C65",
   "status": "proved",
   "theorems": [
    "C65_ase",
    "C65_pymatgen",
    "C65_mdanalysis",
    "C65_indices",
    "C65_diffusion",
    "C65_jump_diffusion",
    "C65_conductivity",
    "C65_bootstrap",
    "C65_fits"
   ],
   "note": ""
  },
  {
   "property": "C66",
   "status": "proved",
   "theorems": [
    "C66_ase_pymatgen",
    "C66_mdanalysis"
   ],
   "note": ""
  },
  {
   "property": "C67",
   "status": "proved",
   "theorems": [
    "C67_one_best_line",
    "C67_one_best_line_no_intercept",
    "C67_linear_data",
    "C67_linear_data_no_intercept",
    "C67_posterior_is_truncated_normal",
    "C67_posterior_no_intercept",
    "C67_information_positive",
    "C67_falling_data",
    "C67_scale_of_weights",
    "C67_added_line"
   ],
   "note": ""
  },
  {
   "property": "C68",
   "status": "partial",
   "theorems": [
    "C68_replica_order_partial",
    "C68_same_volume",
    "C68_volume_is_first",
    "C68_volume_refuted",
    "C68_single_replica"
   ],
   "note": "Times, counts and displacement series are proved independent of the order; the volume is that of the first replica, so it depends on the order when volumes differ (C68_volume_refuted)."
  },
  {
   "property": "C69",
   "status": "partial",
   "theorems": [
    "C69_mdanalysis",
    "C69_ase_partial",
    "C69_ase_sub_sample",
    "C69_mdanalysis_data",
    "C69_ase_data"
   ],
   "note": "MDAnalysis and pymatgen agree for all parameters with sub_sample_atoms=1; ASE agrees when sub_sample_traj=1. With sub_sample_traj>1 the ASE parser omits the factor in the times (C21_ase_refuted); C69_ase_sub_sample says which step_skip makes it agree."
  },
  {
   "property": "C70",
   "status": "proved",
   "theorems": [
    "C70_atoms",
    "C70_molecules"
   ],
   "note": ""
  },
  {
   "property": "C71",
   "status": "proved",
   "theorems": [
    "C71_series",
    "C71_msd_is_weighted_mean"
   ],
   "note": ""
  },
  {
   "property": "C72",
   "status": "proved",
   "theorems": [
    "C72_mstd",
    "C72_mscd",
    "C72_trajectory"
   ],
   "note": ""
  },
  {
   "property": "C73",
   "status": "proved",
   "theorems": [
    "C73_weighted_means",
    "C73_within_data",
    "C73_one_sample",
    "C73_affine",
    "C73_single_value",
    "C73_runs"
   ],
   "note": ""
  },
  {
   "property": "C74",
   "status": "partial",
   "theorems": [
    "C74_unwrapping_in_double_partial",
    "C74_any_inverse_partial",
    "C74_inverse",
    "C74_near_half_refuted"
   ],
   "note": "Proved for fixed orthorhombic cells when no step comes within 2^-47 of half a cell, with an explicit error bound, for the modelled inverse and for any diagonal inverse accurate to 8 units of 2^-53. Refuted for steps just below half a cell: 0.49999999999999994 of a cell is unwrapped the wrong way. Triclinic and changing cells are C97."
  },
  {
   "property": "C75",
   "status": "proved",
   "theorems": [
    "C75_best_line",
    "C75_best_line_no_intercept",
    "C75_likelihood",
    "C75_likelihood_no_intercept",
    "C75_covariance",
    "C75_covariance_time",
    "C75_reconditioning",
    "C75_inverse",
    "C75_fit_length",
    "C75_fit_time"
   ],
   "note": ""
  },
  {
   "property": "C76",
   "status": "partial",
   "theorems": [
    "C76_cross_terms",
    "C76_jump_diffusion",
    "C76_conductivity",
    "C76_copies_jump_diffusion",
    "C76_copies_conductivity",
    "C76_copies_covariance",
    "C76_copies_fit",
    "C76_copies_coefficient",
    "C76_charges_per_ion",
    "C76_copies_averaged_refuted",
    "C76_uncorrelated_conductivity_refuted"
   ],
   "note": "Proved: the pair formula, the bounds by and equality with the values of the single replicas, the exact scaling for copies (means, variances, covariance, fit, coefficient, volume) and the rejection of per-ion charges. Refuted: that replicas are averaged (C76_copies_averaged_refuted) and that uncorrelated replicas leave the mean squared charge displacement unchanged (C76_uncorrelated_conductivity_refuted): the code sums collective displacements across replicas and divides by the volume of one."
  },
  {
   "property": "C77",
   "status": "partial",
   "theorems": [
    "C77_unit_charges",
    "C77_nernst_einstein",
    "C77_sign",
    "C77_equal_charges",
    "C77_one_atom",
    "C77_chosen_axes_refuted"
   ],
   "note": "Proved for dimension xyz (equality of objects, Nernst-Einstein relation sample by sample, sign, equal charges, one atom). Refuted for fewer axes (C77_chosen_axes_refuted): the charge displacement uses all three axes whatever the dimension."
  },
  {
   "property": "C78",
   "status": "partial",
   "theorems": [
    "C78_displacements",
    "C78_statistics",
    "C78_origins_refuted",
    "C78_origins",
    "C78_variances"
   ],
   "note": "Proved for displacements, times, means, non-Gaussian parameters and distances. Refuted for the number of independent observations and hence the variances, which are tied to the longest interval analysed (n_o = N*max/n); the exact ratio is proved."
  },
  {
   "property": "C79",
   "status": "proved",
   "theorems": [
    "C79_reported_means",
    "C79_any_order"
   ],
   "note": ""
  },
  {
   "property": "C80",
   "status": "proved",
   "theorems": [
    "C80_variance_and_non_gaussian"
   ],
   "note": ""
  },
  {
   "property": "C81",
   "status": "partial",
   "theorems": [
    "C81_bias_bound",
    "C81_true_average_refuted",
    "C81_reported_msd_partial",
    "C81_one_frame",
    "C81_expected",
    "C81_diffusive"
   ],
   "note": "Refuted (C81_true_average_refuted): the parser's extra leading row of zeros adds one window of m-1 frames to the average over windows of m frames. Proved: the exact value reported, the factor (T-1)/T for one-frame intervals, and the mean bias -c/(T-m+1) for diffusive motion; the error is at most B/(T-m+1) (C81_bias_bound)."
  },
  {
   "property": "C82",
   "status": "partial",
   "theorems": [
    "C82_time_reversal_refuted",
    "C82_difference_partial"
   ],
   "note": "Refuted (C82_time_reversal_refuted) because of the same extra leading window. Proved: the times agree and the exact difference between forward and backward reports, which involves the first and last m frames only."
  },
  {
   "property": "C83",
   "status": "proved",
   "theorems": [
    "C83_displacements",
    "C83_diffusion",
    "C83_collective"
   ],
   "note": ""
  },
  {
   "property": "C84",
   "status": "partial",
   "theorems": [
    "C84_parsers_accept",
    "C84_within_memory",
    "C84_observations",
    "C84_analysers_succeed",
    "C84_nothing_to_analyse",
    "C84_one_atom_refuted"
   ],
   "note": "Proved: the parsers accept all documented input (only MemoryError can occur, and not below a stated size) and the three analysers are built exactly when there is an observation to analyse. Refuted (C84_one_atom_refuted): a single atom with a shortest interval of more than half the trajectory is accepted by the parser, and every analyser then raises IndexError."
  },
  {
   "property": "C85",
   "status": "partial",
   "theorems": [
    "C85_true_average_refuted",
    "C85_reported_mstd_partial",
    "C85_reported_mscd_partial",
    "C85_diffusive"
   ],
   "note": "Proved: the reported collective displacement of an interval of m frames is ((T-m) true average + one window of m-1 frames)/(T-m+1), for total and charge displacements, and its expectation for diffusive ensembles. Refuted (C85_true_average_refuted): it is not the time average, because the first frame is counted twice."
  },
  {
   "property": "C86",
   "status": "proved",
   "theorems": [
    "C86_jump",
    "C86_conductivity"
   ],
   "note": ""
  },
  {
   "property": "C87",
   "status": "proved",
   "theorems": [
    "C87_right_on_average",
    "C87_right_on_average_no_intercept",
    "C87_width_is_real_spread",
    "C87_width_is_real_spread_no_intercept",
    "C87_least_spread",
    "C87_least_spread_no_intercept"
   ],
   "note": ""
  },
  {
   "property": "C88",
   "status": "partial",
   "theorems": [
    "C88_positions_to_msd_partial",
    "C88_mean_with_underflow",
    "C88_any_cell",
    "C88_changing_cells"
   ],
   "note": "Proved for steps that stay 2^-47 (orthorhombic cells) or 68 rho^2 2^-44 (cells of any shape, fixed or changing: C88_any_cell, C88_changing_cells) away from a tie between images, numpy's sums taken left to right in the framework average. Nearer to half a cell the claim is false (C74: a step just below half a cell can be put in the wrong image)."
  },
  {
   "property": "C89",
   "status": "partial",
   "theorems": [
    "C89_law",
    "C89_mstd_law",
    "C89_mscd_law",
    "C89_whole_run_calibrated",
    "C89_single_origin_law",
    "C89_variance_too_small_refuted",
    "C89_variance_too_large_refuted",
    "C89_single_origin_refuted"
   ],
   "note": "Proved: the exact expectation of the reported variance for all three displacements, the calibrated case (whole run, multi-origin) and the single-origin bias. Refuted: reported variances are neither upper nor lower bounds of the real ones (random walk; n_o = atoms * longest / n is not the number of independent observations)."
  },
  {
   "property": "C90",
   "status": "partial",
   "theorems": [
    "C90_matrix_is_true_covariance",
    "C90_variance_model_is_true",
    "C90_fit_is_calibrated",
    "C90_overlapping_windows_refuted"
   ],
   "note": "Proved: exact for windows lying side by side and nested intervals (matrix, variance model, width of the fit). Refuted for the overlapping windows kinisi uses (two atoms, three steps, true variances put in)."
  },
  {
   "property": "C91",
   "status": "partial",
   "theorems": [
    "C91_msd_bootstrap_agrees",
    "C91_mstd_bootstrap_agrees",
    "C91_mscd_bootstrap_agrees",
    "C91_equal_variances_refuted"
   ],
   "note": "Proved: n_bootstrap is n on average, v_bootstrap is v times (K-1)/K times n_o/int(n_o) on average, for all three analyses when no further resamples are drawn. Refuted: equality of the two variances. Not covered here: further resamples until the normality test passes (their number depends on the values drawn); for them C129 shows that exact agreement is false and bounds the difference of the averages of one resampling."
  },
  {
   "property": "C92",
   "status": "partial",
   "theorems": [
    "C92_crossing_refuted",
    "C92_displacements_partial",
    "C92_unwrapped",
    "C92_fixed_cell",
    "C92_never_crossing",
    "C92_reported_msd_partial",
    "C92_volume_is_first",
    "C92_resting_atoms_refuted"
   ],
   "note": "Proved: the exact reported displacement and mean squared displacement for changing cells, its special cases (unwrapped storage, fixed cell, no crossing), and the volume kept. Refuted: that the true displacements are reported, that resting atoms have zero MSD, and that the mean volume is used. The ASE interface calls get_scaled_positions, which folds positions into the cell, so unwrapped storage does not help there."
  },
  {
   "property": "C93",
   "status": "partial",
   "theorems": [
    "C93_msd_is_stable",
    "C93_mstd_is_stable",
    "C93_mscd_is_stable",
    "C93_caged_atoms",
    "C93_caged_atoms_together",
    "C93_half_cell_steps_refuted"
   ],
   "note": "Proved for all pairs of trajectories with steps below half a cell (MSD, MSTD, MSCD, vibrating atoms). Refuted without that condition. Atoms chosen one by one; molecules are covered by C95."
  },
  {
   "property": "C94",
   "status": "proved",
   "theorems": [
    "C94_order_of_molecules",
    "C94_order_of_atoms",
    "C94_mass_units",
    "C94_equal_masses",
    "C94_single_atoms"
   ],
   "note": ""
  },
  {
   "property": "C95",
   "status": "proved",
   "theorems": [
    "C95_molecules_as_atoms",
    "C95_faithful",
    "C95_reported_msd",
    "C95_reported_mstd",
    "C95_internal_motion",
    "C95_msd_is_stable",
    "C95_mstd_is_stable",
    "C95_mscd_is_stable"
   ],
   "note": ""
  },
  {
   "property": "C96",
   "status": "partial",
   "theorems": [
    "C96_gaussian_refuted",
    "C96_gaussian_partial",
    "C96_immobile",
    "C96_reported_ngp",
    "C96_one_frame"
   ],
   "note": "Refuted for one and two axes (C96_gaussian_refuted: 4/5 along x): the factor 3/5 is used whatever the dimension. Proved: the value (6-2D)/(5D) for D axes, hence 0 exactly for xyz; the effect of resting atoms; the parameter reported for a true trajectory."
  },
  {
   "property": "C97",
   "status": "proved",
   "theorems": [
    "C97_same_images",
    "C97_fixed_cell",
    "C97_any_inverse",
    "C97_inverse"
   ],
   "note": ""
  },
  {
   "property": "C98",
   "status": "proved",
   "theorems": [
    "C98_total_displacement",
    "C98_charge_displacement",
    "C98_positions_to_mstd",
    "C98_any_cell",
    "C98_changing_cells"
   ],
   "note": "From displacement arrays on for total and charge displacements; from positions on for the total displacement, in cells of any shape (for charge displacements this is C123). The distance of steps from half a cell is needed (C74)."
  },
  {
   "property": "C99",
   "status": "proved",
   "theorems": [
    "C99_msd",
    "C99_mstd",
    "C99_mscd",
    "C99_msd_long_enough",
    "C99_mstd_long_enough",
    "C99_mscd_long_enough",
    "C99_more_atoms",
    "C99_random_walk"
   ],
   "note": ""
  },
  {
   "property": "C100",
   "status": "proved",
   "theorems": [
    "C100_line",
    "C100_line_origin",
    "C100_slope",
    "C100_slope_origin",
    "C100_weights",
    "C100_runs",
    "C100_runs_origin",
    "C100_msd",
    "C100_mstd",
    "C100_mscd",
    "C100_msd_long_enough",
    "C100_mstd_long_enough",
    "C100_mscd_long_enough",
    "C100_random_walk"
   ],
   "note": ""
  },
  {
   "property": "C101",
   "status": "proved",
   "theorems": [
    "C101_with_intercept",
    "C101_through_origin",
    "C101_calls_with_intercept",
    "C101_calls_through_origin"
   ],
   "note": ""
  },
  {
   "property": "C102",
   "status": "proved",
   "theorems": [
    "C102_neutral_ions",
    "C102_combined_charges",
    "C102_two_kinds"
   ],
   "note": ""
  },
  {
   "property": "C103",
   "status": "proved",
   "theorems": [
    "C103_times",
    "C103_ase",
    "C103_mdanalysis",
    "C103_pymatgen",
    "C103_as_written",
    "C103_order",
    "C103_start",
    "C103_too_late",
    "C103_start_refuted"
   ],
   "note": "The distance of start_dt from the exact times is part of the statement; C103_start_refuted shows that it is needed."
  },
  {
   "property": "C104",
   "status": "proved",
   "theorems": [
    "C104_D",
    "C104_D_J",
    "C104_sigma",
    "C104_conversion_of_model",
    "C104_literal"
   ],
   "note": ""
  },
  {
   "property": "C105",
   "status": "proved",
   "theorems": [
    "C105_no_number",
    "C105_nan",
    "C105_reported_number",
    "C105_unused"
   ],
   "note": "Multi-origin sampling and atom selections; a NaN in a cell and molecules are not covered."
  },
  {
   "property": "C106",
   "status": "proved",
   "theorems": [
    "C106_parameters_determined",
    "C106_super_parameters_determined",
    "C106_two_temperatures_refuted",
    "C106_interpolation",
    "C106_samples",
    "C106_extrapolation",
    "C106_extrapolation_sharp",
    "C106_slope_is_energy",
    "C106_super_slope",
    "C106_super_slope_above",
    "C106_super_slope_falls"
   ],
   "note": ""
  },
  {
   "property": "C107",
   "status": "partial",
   "theorems": [
    "C107_default_bounds_partial",
    "C107_arrhenius_bounds",
    "C107_descending_refuted",
    "C107_earlier_object_refuted",
    "C107_above_prefactor"
   ],
   "note": "Refuted for temperatures that do not start with the lowest (C107_descending_refuted) and after an earlier object with default bounds (C107_earlier_object_refuted). Proved when the first temperature is the lowest, and for the Arrhenius law."
  },
  {
   "property": "C108",
   "status": "proved",
   "theorems": [
    "C108_factor",
    "C108_between_ratios",
    "C108_exact",
    "C108_covariance",
    "C108_shape_fixed",
    "C108_best_line_fixed"
   ],
   "note": "For the covariance matrix before reconditioning (C35 describes the reconditioning)."
  },
  {
   "property": "C109",
   "status": "proved",
   "theorems": [
    "C109_never_narrower",
    "C109_little_wider",
    "C109_untouched",
    "C109_weights",
    "C109_uncertainty_not_smaller",
    "C109_uncertainty_not_smaller_origin",
    "C109_smaller_weights_wider_fit",
    "C109_smaller_weights_wider_fit_origin"
   ],
   "note": ""
  },
  {
   "property": "C110",
   "status": "proved",
   "theorems": [
    "C110_predictions",
    "C110_predictions_after_fit"
   ],
   "note": ""
  },
  {
   "property": "C111",
   "status": "proved",
   "theorems": [
    "C111_counts",
    "C111_symmetric",
    "C111_diagonal",
    "C111_entries",
    "C111_semidefinite",
    "C111_fit"
   ],
   "note": ""
  },
  {
   "property": "C112",
   "status": "proved",
   "theorems": [
    "C112_msd",
    "C112_mstd",
    "C112_mscd",
    "C112_fit",
    "C112_slope",
    "C112_slope_origin",
    "C112_uniform"
   ],
   "note": ""
  },
  {
   "property": "C113",
   "status": "partial",
   "theorems": [
    "C113_refuted",
    "C113_partial",
    "C113_whole_steps",
    "C113_within_one_frame"
   ],
   "note": "False for some default runs (C113_refuted: 136 frames, n_steps=100); C113_partial says exactly when and by how much an interval can differ from the exact one, C113_whole_steps and C113_within_one_frame follow."
  },
  {
   "property": "C114",
   "status": "partial",
   "theorems": [
    "C114_jump_partial",
    "C114_refuted",
    "C114_charge_ignores_axes",
    "C114_sigma"
   ],
   "note": "True for jump diffusion (C114_jump_partial); false for charge displacements (C114_refuted); C114_charge_ignores_axes and C114_sigma prove what happens instead, for all data."
  },
  {
   "property": "C115",
   "status": "proved",
   "theorems": [
    "C115_moves",
    "C115_balance",
    "C115_determinant"
   ],
   "note": ""
  },
  {
   "property": "C116",
   "status": "proved",
   "theorems": [
    "C116_read",
    "C116_exists",
    "C116_unique",
    "C116_shorter",
    "C116_same",
    "C116_images",
    "C116_alias",
    "C116_bound",
    "C116_thinning",
    "C116_undersampled_refuted"
   ],
   "note": ""
  },
  {
   "property": "C117",
   "status": "proved",
   "theorems": [
    "C117_msd",
    "C117_mstd",
    "C117_mscd",
    "C117_plain_ballistic_bound_refuted"
   ],
   "note": ""
  },
  {
   "property": "C118",
   "status": "proved",
   "theorems": [
    "C118_read",
    "C118_msd",
    "C118_mstd",
    "C118_mscd",
    "C118_set_of_indices_refuted"
   ],
   "note": ""
  },
  {
   "property": "C119",
   "status": "proved",
   "theorems": [
    "C119_msd",
    "C119_mstd",
    "C119_mscd",
    "C119_slope",
    "C119_through_origin_refuted",
    "C119_same_shift_refuted"
   ],
   "note": ""
  },
  {
   "property": "C120",
   "status": "proved",
   "theorems": [
    "C120_msd",
    "C120_mstd",
    "C120_mscd",
    "C120_bounds",
    "C120_even",
    "C120_repeated_frames",
    "C120_uneven_frames_refuted"
   ],
   "note": ""
  },
  {
   "property": "C121",
   "status": "proved",
   "theorems": [
    "C121_mstd",
    "C121_mscd",
    "C121_equal_masses",
    "C121_centre_of_mass_refuted"
   ],
   "note": ""
  },
  {
   "property": "C122",
   "status": "proved",
   "theorems": [
    "C122_line",
    "C122_origin",
    "C122_any_order",
    "C122_choice",
    "C122_relative_refuted"
   ],
   "note": ""
  },
  {
   "property": "C123",
   "status": "proved",
   "theorems": [
    "C123_box",
    "C123_any_cell",
    "C123_changing_cells",
    "C123_relative_refuted"
   ],
   "note": ""
  },
  {
   "property": "C124",
   "status": "proved",
   "theorems": [
    "C124_msd",
    "C124_mstd",
    "C124_mscd",
    "C124_increments",
    "C124_straight",
    "C124_no_memory",
    "C124_fit",
    "C124_windows",
    "C124_from_origin_refuted"
   ],
   "note": ""
  },
  {
   "property": "C125",
   "status": "proved",
   "theorems": [
    "C125_pairs",
    "C125_groups",
    "C125_parallelogram",
    "C125_self",
    "C125_additive_refuted"
   ],
   "note": ""
  },
  {
   "property": "C126",
   "status": "proved",
   "theorems": [
    "C126_pieces",
    "C126_bound",
    "C126_discard",
    "C126_replicas",
    "C126_average_refuted"
   ],
   "note": ""
  },
  {
   "property": "C127",
   "status": "proved",
   "theorems": [
    "C127_any_guess",
    "C127_centre",
    "C127_displacements",
    "C127_bad_guess_refuted"
   ],
   "note": ""
  },
  {
   "property": "C128",
   "status": "proved",
   "theorems": [
    "C128_identity",
    "C128_bound",
    "C128_diffusive",
    "C128_one_refuted"
   ],
   "note": ""
  },
  {
   "property": "C129",
   "status": "proved",
   "theorems": [
    "C129_total",
    "C129_square",
    "C129_any_statistic",
    "C129_spread",
    "C129_bias",
    "C129_variance",
    "C129_defaults",
    "C129_unbiased_refuted"
   ],
   "note": "Both identities for the stopped sum, the bound on the bias, its value for the defaults and the example of a biased average. About one call of sample_until_normal; the generator state at later intervals of an analysis enters through the family of states."
  },
  {
   "property": "C130",
   "status": "proved",
   "theorems": [
    "C130_samples",
    "C130_covariance",
    "C130_fit",
    "C130_diffusion",
    "C130_jump",
    "C130_conductivity",
    "C130_predictions"
   ],
   "note": "Exact arithmetic. That the minimiser ends at the same line is a contract: the code starts the intercept at 1e-20 in whatever unit, so an iterative minimiser agrees only up to its tolerance."
  }
 ]
}