# Formal model of kinisi in Rocq (Coq 8.16.1)

## 1. Shape of the development

* `Base.v` – Python/NumPy primitives used by the code: exceptions as values (`Res`), indexing with
  negative wrap-around, slices, strides, broadcasting; the number class `Num` with three instances:
  exact reals `R` (theorems), rationals `Q` (executable tests), IEEE binary64 as `spec_float`
  (theorems about rounding).
* `Model*.v` – the code, function by function; every definition cites file and lines of `/repo`.
* `Spec*.v` – small vocabulary used in the theorem statements, written without the model's helpers.
* `Lemmas.v`, `Proofs*.v` – lemmas.
* `Properties*.v` – one theorem (group) per property `Cnn`, closed by `exact`, with `Print Assumptions`
  beneath and a concrete instance satisfying the hypotheses beside it.
* `Tests.v` – `vm_compute` runs of the model on the values of the repository's unit tests (tests, not proofs).

Conventions. A theorem with suffix `_refuted` shows a concrete input, run through the model, on which the
English statement fails. A theorem with suffix `_partial` proves the statement under an extra condition or for
a part of it; the comment above it says what is missing. A property with a refuted part has status
`partial` in `MANIFEST.json`.

Build: `cd rocq && coq_makefile -f _CoqProject -o Makefile && make -j4`.

## 2. Trusted base

* The Coq 8.16.1 kernel (with `vm_compute` for tests and witnesses), its parser and printer.
* The standard-library axioms below. No axiom, parameter, admitted proof, functor, module type or plugin is
  added; no kernel check is switched off. mathcomp, Coquelicot, Interval are not used; Flocq is used for lemmas
  about `spec_float` in the `Proofs*.v` files of the binary64 properties only and adds no axiom.
* That the model says what the Python code does: section 4 lists what is modelled, section 5 the contracts of
  the libraries, section 6 what is left out.
* That the English statements in `properties.jsonl` are what the theorems say. `Spec*.v` is the part to read.

## 3. Axioms per theorem (`Print Assumptions`)

Abbreviations: **D** = `ClassicalDedekindReals.sig_forall_dec`, **N** = `ClassicalDedekindReals.sig_not_dec`,
**F** = `FunctionalExtensionality.functional_extensionality_dep`, **C** = `Classical_Prop.classic`. D, N and F come
with Coq's real numbers; C comes with the standard library's results on limits, trigonometry and powers.

* **D F** (303): `C01_unwrapping_recovers_true_displacement`, `C02_periodic_images_do_not_matter`, `C02_variable_cell_partial`, `C02_variable_cell_refuted`, `C03_minimum_image_is_unique`, `C03_steps_are_minimum_images`, `C04_later_frames_do_not_matter`, `C04_other_atoms_do_not_matter`, `C04_shape_and_zero_start`, `C05_framework_mean_is_zero`, `C05_idempotent`, `C05_relative_displacements_kept`, `C05_subtracts_framework_mean`, `C05_uniform_drift_removed`, `C06_multi_origin_windows`, `C100_line`, `C100_line_origin`, `C100_runs`, `C100_runs_origin`, `C100_slope`, `C100_slope_origin`, `C100_weights`, `C101_calls_through_origin`, `C101_calls_with_intercept`, `C101_through_origin`, `C101_with_intercept`, `C102_combined_charges`, `C102_two_kinds`, `C103_order`, `C105_nan`, `C105_no_number`, `C105_reported_number`, `C108_best_line_fixed`, `C108_between_ratios`, `C108_covariance`, `C108_exact`, `C108_factor`, `C108_shape_fixed`, `C109_little_wider`, `C109_never_narrower`, `C109_smaller_weights_wider_fit`, `C109_smaller_weights_wider_fit_origin`, `C109_uncertainty_not_smaller`, `C109_uncertainty_not_smaller_origin`, `C109_untouched`, `C109_weights`, `C10_linear_intervals`, `C10_single_step`, `C110_predictions`, `C110_predictions_after_fit`, `C112_slope`, `C112_slope_origin`, `C114_charge_ignores_axes`, `C114_jump_partial`, `C114_refuted`, `C114_sigma`, `C115_determinant`, `C116_alias`, `C116_exists`, `C116_shorter`, `C116_thinning`, `C116_unique`, `C119_slope`, `C119_through_origin_refuted`, `C11_default_intervals_distinct`, `C11_user_partial`, `C120_bounds`, `C120_even`, `C120_repeated_frames`, `C121_equal_masses`, `C124_fit`, `C124_increments`, `C124_no_memory`, `C124_straight`, `C124_windows`, `C125_additive_refuted`, `C125_groups`, `C125_pairs`, `C125_parallelogram`, `C125_self`, `C127_bad_guess_refuted`, `C129_any_statistic`, `C129_bias`, `C129_defaults`, `C129_spread`, `C129_square`, `C129_total`, `C129_unbiased_refuted`, `C129_variance`, `C130_conductivity`, `C130_covariance`, `C130_diffusion`, `C130_fit`, `C130_jump`, `C130_predictions`, `C130_samples`, `C13_max_dt_beyond_always_fails`, `C14_estimate_is_exact`, `C14_too_large_is_refused`, `C16_unknown_dimension_rejected`, `C16_unknown_spacing_rejected`, `C18_framework_indices_always_fail`, `C23_msd_is_average`, `C23_other_sizes_rejected`, `C23_replicas_stacked`, `C25_msd_is_mean`, `C25_never_negative`, `C25_order_irrelevant`, `C25_quadratic_scaling`, `C25_succeeds`, `C25_sum_of_axes`, `C25_zero_iff`, `C26_mscd_axes`, `C26_msd_axes`, `C26_mstd_axes`, `C26_other_strings_rejected`, `C27_n_o_aligned_refuted`, `C28_matching_n_o_refuted`, `C28_variance_partial`, `C29_mstd_is_mean`, `C29_one_atom`, `C29_succeeds`, `C30_chosen_axes_refuted`, `C30_mscd_is_mean_partial`, `C30_quadratic_in_charge`, `C30_scalar_is_equal_charges`, `C30_succeeds`, `C30_unit_charges_give_mstd`, `C31_bound_and_equality`, `C31_scale_invariant`, `C32_ngp_max`, `C32_nothing_analysed`, `C33_covariance_entries`, `C33_failure`, `C34_semidefinite_iff`, `C35_condition_number_partial`, `C36_fit_uses_suffix`, `C36_increasing_times`, `C36_no_data`, `C37_D_of_axes`, `C37_conductivity_scaling`, `C37_conductivity_units`, `C37_diffusion_units`, `C37_jump_units`, `C38_DJ_any_optimiser`, `C38_DJ_not_negative`, `C38_D_any_optimiser`, `C38_D_not_negative`, `C38_gradient_any_optimiser`, `C38_gradient_not_negative`, `C38_sampler_keeps_sign`, `C38_sigma_any_optimiser`, `C38_sigma_not_negative`, `C39_number_of_resamples`, `C39_terminates`, `C40_bootstrap_within_data`, `C41_analyzer_round_trip`, `C41_any_sub_sample`, `C41_round_trip`, `C41_sub_sample_refuted`, `C42_analyzer`, `C42_later_calls`, `C42_nothing_analysed`, `C42_one_interval_refuted`, `C44_independent_of_global_state`, `C44_methods`, `C44_repeated_calls`, `C44_seed_only`, `C45_constant`, `C47_data_never_changed`, `C47_failed_call`, `C47_fresh_objects`, `C47_jump_results_available_partial`, `C47_last_success`, `C47_no_intercept`, `C47_none_before_success`, `C47_results_available_partial`, `C47_sigma_results_available_partial`, `C48_posterior_predictive_partial`, `C51_n_i_readable_refuted`, `C52_coordinates_are_fractional`, `C52_rejected_with_specie_indices`, `C52_sub_sampling_keeps_every_kth_atom`, `C54_maximised_by_gls`, `C54_maximiser_unique`, `C54_negative_gradient`, `C54_no_intercept`, `C55_mscd_variance_partial`, `C55_mstd_variance_partial`, `C56_save_after_load_refuted`, `C58_burn_in_and_thinning`, `C58_sample_count`, `C59_analysis`, `C59_ase`, `C59_fits`, `C59_mdanalysis`, `C59_pymatgen`, `C59_rotations_keep_volume`, `C59_trajectories`, `C59_universes`, `C60_mscd`, `C60_msd`, `C60_mstd`, `C60_non_gaussian`, `C60_trajectories`, `C60_universes`, `C61_analysis`, `C61_ase`, `C61_mdanalysis`, `C61_pymatgen`, `C61_regime`, `C61_trajectories`, `C62_fits`, `C62_mscd`, `C62_msd`, `C62_mstd`, `C62_succeeds`, `C63_replicas`, `C63_thinned_beforehand`, `C65_bootstrap`, `C65_conductivity`, `C65_diffusion`, `C65_fits`, `C65_jump_diffusion`, `C66_ase_pymatgen`, `C66_mdanalysis`, `C67_added_line`, `C67_falling_data`, `C67_information_positive`, `C67_linear_data`, `C67_linear_data_no_intercept`, `C67_one_best_line`, `C67_one_best_line_no_intercept`, `C67_posterior_is_truncated_normal`, `C67_posterior_no_intercept`, `C67_scale_of_weights`, `C68_replica_order_partial`, `C68_same_volume`, `C68_single_replica`, `C68_volume_is_first`, `C69_ase_data`, `C69_ase_partial`, `C69_ase_sub_sample`, `C69_mdanalysis`, `C69_mdanalysis_data`, `C70_atoms`, `C70_molecules`, `C71_series`, `C73_affine`, `C73_one_sample`, `C73_runs`, `C73_single_value`, `C73_weighted_means`, `C73_within_data`, `C75_best_line`, `C75_best_line_no_intercept`, `C75_covariance`, `C75_covariance_time`, `C75_fit_length`, `C75_fit_time`, `C75_inverse`, `C75_likelihood`, `C75_likelihood_no_intercept`, `C75_reconditioning`, `C76_copies_coefficient`, `C76_copies_covariance`, `C76_copies_fit`, `C76_copies_jump_diffusion`, `C76_cross_terms`, `C77_chosen_axes_refuted`, `C77_equal_charges`, `C77_nernst_einstein`, `C77_one_atom`, `C77_sign`, `C77_unit_charges`, `C78_displacements`, `C78_origins`, `C84_nothing_to_analyse`, `C87_least_spread`, `C87_least_spread_no_intercept`, `C87_right_on_average`, `C87_right_on_average_no_intercept`, `C87_width_is_real_spread`, `C87_width_is_real_spread_no_intercept`, `C89_law`, `C89_mscd_law`, `C89_mstd_law`, `C90_fit_is_calibrated`, `C90_matrix_is_true_covariance`, `C90_variance_model_is_true`, `C91_equal_variances_refuted`, `C91_mscd_bootstrap_agrees`, `C91_msd_bootstrap_agrees`, `C91_mstd_bootstrap_agrees`, `C92_crossing_refuted`, `C92_displacements_partial`, `C92_fixed_cell`, `C92_never_crossing`, `C92_unwrapped`, `C94_order_of_molecules`, `C96_gaussian_partial`, `C96_gaussian_refuted`, `C96_immobile`.
* **D N F C** (283): `C07_ase_partial`, `C07_changing_cell_partial`, `C07_changing_cell_unwrapped_partial`, `C07_mdanalysis_partial`, `C07_observations_span_interval_refuted`, `C07_pymatgen_partial`, `C08_single_origin_interval_partial`, `C08_single_origin_interval_refuted`, `C09_alignment`, `C09_descending_refuted`, `C100_mscd`, `C100_mscd_long_enough`, `C100_msd`, `C100_msd_long_enough`, `C100_mstd`, `C100_mstd_long_enough`, `C100_random_walk`, `C102_neutral_ions`, `C103_as_written`, `C103_ase`, `C103_mdanalysis`, `C103_pymatgen`, `C103_start`, `C103_start_refuted`, `C103_times`, `C103_too_late`, `C104_D`, `C104_D_J`, `C104_literal`, `C104_sigma`, `C106_extrapolation`, `C106_extrapolation_sharp`, `C106_interpolation`, `C106_parameters_determined`, `C106_samples`, `C106_slope_is_energy`, `C106_super_parameters_determined`, `C106_super_slope`, `C106_super_slope_above`, `C106_super_slope_falls`, `C107_above_prefactor`, `C107_arrhenius_bounds`, `C107_default_bounds_partial`, `C107_descending_refuted`, `C107_earlier_object_refuted`, `C111_counts`, `C111_diagonal`, `C111_entries`, `C111_fit`, `C111_semidefinite`, `C112_fit`, `C112_mscd`, `C112_msd`, `C112_mstd`, `C112_uniform`, `C113_partial`, `C113_whole_steps`, `C113_within_one_frame`, `C115_moves`, `C116_bound`, `C116_images`, `C116_read`, `C116_same`, `C116_undersampled_refuted`, `C117_mscd`, `C117_msd`, `C117_mstd`, `C117_plain_ballistic_bound_refuted`, `C118_mscd`, `C118_msd`, `C118_mstd`, `C118_read`, `C118_set_of_indices_refuted`, `C119_mscd`, `C119_msd`, `C119_mstd`, `C119_same_shift_refuted`, `C11_user_max_refuted`, `C11_user_min_refuted`, `C120_mscd`, `C120_msd`, `C120_mstd`, `C120_uneven_frames_refuted`, `C121_centre_of_mass_refuted`, `C121_example`, `C121_mscd`, `C121_mstd`, `C122_any_order`, `C122_choice`, `C122_example`, `C122_line`, `C122_origin`, `C122_relative_refuted`, `C123_any_cell`, `C123_box`, `C123_changing_cells`, `C123_relative_refuted`, `C124_from_origin_refuted`, `C124_mscd`, `C124_msd`, `C124_mstd`, `C126_average_refuted`, `C126_bound`, `C126_discard`, `C126_pieces`, `C126_replicas`, `C127_any_guess`, `C127_centre`, `C127_displacements`, `C128_bound`, `C128_diffusive`, `C128_identity`, `C128_one_refuted`, `C12_logarithmic_intervals`, `C13_accepted_inputs_run_partial`, `C13_max_dt_beyond_refuted`, `C13_min_dt_too_large_rejected`, `C14_success_is_within_the_limit`, `C15_independent_observations`, `C16_unknown_sampling_rejected`, `C17_ase_and_pymatgen`, `C17_mdanalysis`, `C18_framework_indices_refuted`, `C18_specie_indices_mdanalysis_partial`, `C18_specie_indices_partial`, `C19_images`, `C19_range`, `C19_translation_partial`, `C19_translation_refuted`, `C20_ase`, `C20_centre_of_mass`, `C20_mdanalysis`, `C20_pymatgen`, `C21_ase_partial`, `C21_ase_refuted`, `C21_mdanalysis`, `C21_pymatgen`, `C22_integer_time_step_never_succeeds`, `C22_integer_time_step_refuted`, `C22_picoseconds`, `C23_sizes_refuted`, `C34_mscd_semidefinite_partial`, `C34_mscd_sub_sample_partial`, `C34_msd_semidefinite_partial`, `C34_msd_sub_sample_partial`, `C34_mstd_semidefinite_partial`, `C34_mstd_sub_sample_partial`, `C34_sub_sample_refuted`, `C37_D_J_of_atoms`, `C37_sigma_of_cell`, `C38_start_condition_needed`, `C39_warning_refuted`, `C45_cold_limit`, `C45_decreases_with_energy`, `C45_energy_recovered`, `C45_hot_limit`, `C45_increases_with_temperature`, `C45_log_linear`, `C45_range`, `C45_super_below`, `C47_results_available_refuted`, `C48_after_failed_fit_refuted`, `C48_no_intercept_refuted`, `C48_one_point_refuted`, `C49_binary_fractions`, `C49_distinct`, `C49_documentation_refuted`, `C49_logarithmic_binary_fractions`, `C49_logarithmic_partial`, `C49_logarithmic_refuted`, `C49_partial`, `C49_refuted`, `C50_exact`, `C50_logarithmic_exact`, `C50_logarithmic_partial`, `C50_partial`, `C50_refuted`, `C53_molecules_mda_partial`, `C53_molecules_partial`, `C53_molecules_refuted`, `C53_no_displacement`, `C53_no_displacement_mda`, `C53_statistics_zero`, `C54_likelihood_is_normal_density`, `C57_below_prefactor`, `C57_increases_with_temperature`, `C57_super`, `C64_ase`, `C64_mdanalysis`, `C64_pymatgen`, `C65_ase`, `C65_indices`, `C65_mdanalysis`, `C65_pymatgen`, `C68_volume_refuted`, `C71_msd_is_weighted_mean`, `C72_trajectory`, `C74_any_inverse_partial`, `C74_inverse`, `C74_near_half_refuted`, `C74_unwrapping_in_double_partial`, `C76_charges_per_ion`, `C76_conductivity`, `C76_copies_averaged_refuted`, `C76_copies_conductivity`, `C76_uncorrelated_conductivity_refuted`, `C78_origins_refuted`, `C78_statistics`, `C78_variances`, `C79_any_order`, `C79_reported_means`, `C80_variance_and_non_gaussian`, `C81_bias_bound`, `C81_diffusive`, `C81_expected`, `C81_one_frame`, `C81_reported_msd_partial`, `C81_true_average_refuted`, `C82_difference_partial`, `C82_time_reversal_refuted`, `C83_collective`, `C83_diffusion`, `C83_displacements`, `C84_analysers_succeed`, `C84_observations`, `C84_one_atom_refuted`, `C84_parsers_accept`, `C84_within_memory`, `C85_diffusive`, `C85_reported_mscd_partial`, `C85_reported_mstd_partial`, `C85_true_average_refuted`, `C86_conductivity`, `C86_jump`, `C88_any_cell`, `C88_changing_cells`, `C88_mean_with_underflow`, `C88_positions_to_msd_partial`, `C89_single_origin_law`, `C89_single_origin_refuted`, `C89_variance_too_large_refuted`, `C89_variance_too_small_refuted`, `C89_whole_run_calibrated`, `C90_overlapping_windows_refuted`, `C92_reported_msd_partial`, `C92_resting_atoms_refuted`, `C92_volume_is_first`, `C93_caged_atoms`, `C93_caged_atoms_together`, `C93_mscd_is_stable`, `C93_msd_is_stable`, `C93_mstd_is_stable`, `C94_equal_masses`, `C94_mass_units`, `C94_order_of_atoms`, `C94_single_atoms`, `C95_faithful`, `C95_internal_motion`, `C95_molecules_as_atoms`, `C95_mscd_is_stable`, `C95_msd_is_stable`, `C95_mstd_is_stable`, `C95_reported_msd`, `C95_reported_mstd`, `C96_one_frame`, `C96_reported_ngp`, `C97_any_inverse`, `C97_fixed_cell`, `C97_inverse`, `C97_same_images`, `C98_any_cell`, `C98_changing_cells`, `C98_charge_displacement`, `C98_positions_to_mstd`, `C98_total_displacement`, `C99_more_atoms`, `C99_mscd`, `C99_mscd_long_enough`, `C99_msd`, `C99_msd_long_enough`, `C99_mstd`, `C99_mstd_long_enough`, `C99_random_walk`.
* **none (closed under the global context)** (32): `C05_no_framework_unchanged`, `C105_unused`, `C111_symmetric`, `C113_refuted`, `C16_known_dtype`, `C16_unknown_dtype`, `C17_selection_function`, `C24_pieces_equal_whole`, `C24_universe_refused`, `C42_empty_list_refuted`, `C42_identical`, `C42_key_list_refuted`, `C42_key_slash_refuted`, `C42_list_of_nested_dicts_refuted`, `C42_none_in_list_refuted`, `C42_null_text_refuted`, `C42_round_trip`, `C42_text_refuted`, `C43_directory_refuted`, `C43_existing_refused`, `C43_extension_added`, `C43_extension_replaced`, `C43_load_reads`, `C43_never_overwrites`, `C43_other_files`, `C46_any_history`, `C46_callers_list`, `C46_explicit`, `C46_refuted`, `C46_tuple`, `C46_without_earlier_default`, `C51_n_i_never_readable`.
* **D N F** (14): `C106_two_temperatures_refuted`, `C115_balance`, `C19_narrow_has_direction`, `C27_aligned_partial`, `C35_condition_number_refuted`, `C45_proportional_to_prefactor`, `C45_super_at_zero`, `C45_units`, `C57_measured_temperatures`, `C57_one_value_per_sample`, `C72_mscd`, `C72_mstd`, `C76_jump_diffusion`, `C93_half_cell_steps_refuted`.
* **D** (1): `every_rectangular_array_is_a_table`.

## 4. What is modelled

| code | model | remarks |
|------|-------|---------|
| parser.py 23-222 `Parser` | `ModelParser`: `get_disp`, `correct_drift`, `get_time_intervals`, `get_disps`, `parser_init` | every branch; the `continue` in 205/215; MemoryError estimate; `np.linspace`, `np.unique` from the NumPy sources; the triclinic warning is a boolean |
| parser.py 225-356 `ASEParser` | `ase_parser`, `get_structure_coords_latt`, `get_indices` | frames start at what `get_scaled_positions`, `cell`, `get_chemical_symbols` return |
| parser.py 359-508 `PymatgenParser` | `pymatgen_parser` | same; an int `time_step` makes line 439 fail |
| parser.py 511-671 `MDAnalysisParser` | `mda_parser`, `get_structure_coords_latt_mda` | Cartesian positions, `triclinic_dimensions` |
| parser.py 674-738 `_get_molecules` | `get_molecules`, `molecule_axis`, `circular_mean_R`, `atan2` | exact reals; molecules of equal length |
| parser.py 741-764 `_get_framework` | `get_framework` | the AttributeError of `ndarray.append` |
| diffusion.py 24-39 table | `DIMENSIONALITY` | str and bytes keys |
| diffusion.py 54-87, 179-240 | `bootstrap_init`, `Boot`, `getattr`, `n_i` | `_iterator` and three write-only attributes omitted |
| diffusion.py 89-177 `to_dict`/`from_dict` | `ModelAnalyzer`: `boot_to_dict`, `boot_from_dict` | |
| diffusion.py 258-303 | `sample_until_normal`, `ngp_calculation` | loop with fuel, shown sufficient (C39) |
| diffusion.py 305-425 `bootstrap_GLS` | `bootstrap_GLS`, `generate_covariance_matrix`, `log_likelihood`, `sample_gls` | state after failures is kept |
| diffusion.py 427-490 | `diffusion`, `jump_diffusion`, `conductivity` | |
| diffusion.py 492-521 | `posterior_predictive` | |
| diffusion.py 524-780 | `msd_bootstrap`, `mstd_bootstrap`, `mscd_bootstrap`, `boot_step` | the three loop bodies are one definition with parameters |
| diffusion.py 783-888 | `bootstrap_n`, `populate_covariance_matrix`, `straight_line`, `minimum_eigenvalue_method` | |
| diffusion.py 804-835 `_bayesian_bootstrap` | `ModelBayes` | called nowhere in the package; an empty array is excluded by hypotheses |
| emcee (default move) | `run_mcmc`, `half_step`, `accepts`, `get_chain` | proposals arbitrary |
| analyzer.py 14-82, 86-290 | `from_frames`, `from_universe`, `identical`, `stack_trajectories` | |
| analyzer.py 292-348 | `distribution`, `an_flatchain`, `ngp_max` | plain getters are the record fields |
| analyzer.py 33-67, 362-427 | `ModelHdf`: `save`, `load`, `dict_to_group`, `group_to_dict` | HDF5 file = tree of groups and datasets |
| diffusion_/jump_diffusion_/conductivity_analyzer.py | `diffusion_analyzer`, `jump_diffusion_analyzer`, `conductivity_analyzer`, `an_diffusion`, … | constructors differ only in the parser |
| arrhenius.py 20-22, 62-93, 112-120, 143-174 | `ModelArrhenius` | the mutable default argument is a heap cell |

Simplifications inside the model:

* Arithmetic is exact except in C49, C50, C74, C79, C80, C88, C97, C98, C103, C104, C105, C111, C113, C122, C123 and C127 (binary64, round to nearest even). `np.sum` and `np.mean` sum left to right; C79 also covers every other order of summation.
* `np.linalg.inv` is the cofactor inverse. C74 also covers any inverse accurate to 8 units of 2^-53.
* `atan2(0, 0) = 0` and signed zeros are dropped.
* `int(nan)` is OverflowError in the model (ValueError in Python).
* In the binary64 instance an int `time_step` is first rounded to a double, whereas Python multiplies ints exactly.
* In the binary64 instance (C104) `x**2` is `x*x`, and the literal `1e-24` is the quotient of 1 and 10^24, which is off by one unit in the last place; C104_literal covers the literal itself.
* Means of empty arrays (NaN in NumPy) and divisions by zero in NumPy (inf or NaN) are excluded by hypotheses or unreachable.
* Molecules without atoms are excluded by hypotheses.
* A uravu `Distribution` is the list of its samples.
* `np.linalg.eig` returns real eigenvalues; nothing is assumed about their order or about the eigenvectors.
* `int()` of a list name accepts decimal digits only.
* Which exception a trajectory of the wrong kind for its dtype raises is not tracked (AttributeError stands for it).

## 5. Library contracts

The record `Ext` holds the numerical libraries; theorems hold for every value of it. Where a theorem needs more,
it is an explicit hypothesis:

* `starts_positive`: the optimiser returns a non-negative gradient and `np.random.randn` nothing below -1000, so
  that walkers start at non-negative gradients (C38; the condition is shown to be needed).
* `draws_enough`: a resample has at least one element (C40).
* `randints_ok`, `mvn_shape`, `matrix_shapes`: random indices come in the requested number and range; scipy and
  NumPy return arrays of the documented sizes (C48).
* `draws_rows`: Dirichlet rows are non-negative and add up to 1, a multinomial row of one draw has one 1 (C73).
* `draws_in_range`: random indices are below the number asked for (C62, C84).
* `fair_draws`, `independent_lists`, `fair_predictions`: the random numbers, over a weighted family of generator
  states, are uniform and uncorrelated (C91), uniform and independent (C129), normal in their first two moments
  (C110). Each is met by an exhibited generator.
* `x_normaltest` is total: scipy's refusal of fewer than eight values is not modelled (C39, C129).
* `fits_factor`: curve_fit returns a minimiser over factors that are not negative (C108, exhibited).
* `eigendecomposition`: what `eig` returned decomposes the matrix (C35, C109, exhibited).
* `ignores_constants`: the optimiser is not affected by a constant added to its objective (C115, exhibited).
* `moves_convert`, `finds_converted`, `algebra_converts`, `reconditioning_converts`, `model_converts`, `draws_convert`:
  emcee's moves, the optimiser, the matrix inverse, eigenvalues, nearest covariance matrix, curve_fit and multivariate
  normal draws commute with a change of units
  (C130, exhibited).
* `fair_circ`: the circular mean of one coordinate is good to three digits (C127).
* `dist_dicts`: uravu's `Distribution.from_dict` undoes `to_dict` (C42, C56; C41 assumes it directly).
* `G` is the state of NumPy's global generator; the emcee sampler copies it (C44).

## 6. Not modelled

File readers (pymatgen, ASE, MDAnalysis), plotting, tqdm progress, pyblock, the internals of
scipy/emcee/sklearn/statsmodels, h5py beyond the group/dataset tree, `uravu.Relationship` (fitting of the Arrhenius
models), `analyze.py` (re-exports),
floating-point rounding outside C49/C50/C74/C79/C80/C88/C97/C98/C103/C104/C105/C111/C113/C122/C123/C127.

## 7. Plan per property

| id | model | proof |
|----|-------|-------|
| C01 | `get_disp` over `R`, 3x3 cells, cofactor inverse | floor of (integer + small) ; induction over frames |
| C02 | same | integer shifts commute with floor; NPT: refuted with a witness |
| C03 | same | floor bounds; uniqueness of representative in [-1/2,1/2) |
| C04 | same + duplicated first frame of `get_structure_coords_latt` | induction over frames |
| C05 | `correct_drift` | linearity of the mean |
| C06 | `get_disps`, multi-origin branch | list index lemmas |
| C07 | parsers end to end | refuted (first window spans n-1 frames) + partial (all other windows) |
| C08 | `get_disps`, single-origin branch | refuted + partial (interval i is i+1) |
| C09 | `get_disps` loop incl. `continue` | induction with monotone intervals |
| C10-C12 | `get_time_intervals`, `linspace`, `geomspace`, `unique` | floor monotonicity, exp/ln |
| C11 | `Parser.__init__` clamp | arithmetic; refuted for user max_dt / min_dt |
| C13 | `Parser.__init__` | refuted for max_dt; proved when max_dt <= length |
| C14 | memory loop | arithmetic over list sums |
| C15 | `n_samples` | order arithmetic |
| C16 | string dispatches | case analysis |
| C17,C18 | `get_indices`, `_get_framework`, `_get_molecules` | induction; refutations |
| C19,C20 | `_get_molecules` over `R` with atan2 | mod-1 algebra; cone argument for circular mean |
| C21,C22,C52 | three parsers | unfolding + stride lemmas; ASE refuted |
| C23,C24 | `Analyzer._from_*`, `_stack_trajectories` | list lemmas |
| C25-C30 | `MSDBootstrap`, `MSTDBootstrap`, `MSCDBootstrap` | sums, permutation, invariants of the loop |
| C31 | `ngp_calculation` | Cauchy-Schwarz |
| C32 | `ngp_max` | argmax induction |
| C33,C34 | `_populate_covariance_matrix` | Green's-matrix decomposition, induction; with sub_sample_dt > 1 floor arithmetic on the linear grid (ProofsSub.v) and ratio bounds for the truncated geometric grid without repetitions (ProofsGeom.v), refuted when intervals repeat |
| C35 | `minimum_eigenvalue_method`, eigendecomposition as oracle | spectral bound; refuted for unordered spectra |
| C36,C37,C47 | `bootstrap_GLS` bookkeeping, optimiser/sampler as oracle | state machine |
| C38 | emcee Metropolis acceptance as transition system, proposals and random numbers arbitrary; start of the walkers from the clamped regression slope and an optimiser that never ends above its start | invariant |
| C39,C40 | `sample_until_normal`, `_bootstrap`, RNG and normality test as oracles | induction |
| C41 | `to_dict`/`from_dict` | case analysis; refuted for sub_sample_dt > 1 |
| C42,C43 | HDF5 tree with string paths | induction over trees; refutations |
| C44 | RNG state threading | determinism |
| C45 | real functions | exp monotonicity |
| C46 | Python default-argument cell as state | history induction; refuted |
| C48 | index bookkeeping | induction |
| C49,C50 | binary64 instance, Flocq for the universal bound | error analysis; refuted witnesses by vm_compute ; np.geomspace by its accuracy (SpecLog) |
| C51 | attribute lookup | refuted |
| C53 | composition of parser and bootstrap | from C01, C05, C25 |
| C54 | `log_likelihood` | completing the square |
| C58 | `sample_gls`, `get_chain` (emcee `get_chain(discard, thin, flat)`) | stride of a concatenation of equal blocks; coupling of two runs with the same generator |

| C59 | whole pipeline: parsers, analysers, fits | commutation with a linear map: `inv (Q cell)` undoes Q, so wrapping happens in the same fractional coordinates; statistics depend on squared lengths only |
| C60 | same, `Q = c I` | parser part from C59; statistics from the run reports |
| C61 | parsers, analysers, `find_regime` | commutation with multiplying all times |
| C62 | constructors with `bootstrap` true / false, fits | simulation of the two loops; totality of the resampling |
| C63 | `py_stride` in the three readers | the stride of the stride 1 |
| C64 | parsers | closed form of the displacements (C01) plus drift correction (C05) |
| C65 | parsers, statistics, fits | rows permuted at every step; sums over the reals do not depend on order |
| C66 | `get_disp_warns`, readers | equivalence by the stride specification |
| C67 | `log_likelihood` | completing the square; Cramer for the 2x2 normal equations; positive definiteness |
| C68 | `identical`, `stack_trajectories`, parsers | columns of the stacked arrays (C23) permuted; volume of the first replica only: refuted when volumes differ |
| C69 | the three parsers | Cartesian positions scaled back by the inverse cell; time unit by C61; ASE with sub_sample_traj > 1 differs (C21) |
| C70 | the three parsers | displacements, drift and selection only read the named rows |
| C71 | the three parsers, `MSDBootstrap` | selection of the union is a permutation of the two selections; windows are row-wise; MSD by C25 |
| C72 | `MSDBootstrap`, `MSTDBootstrap`, `MSCDBootstrap` | Cauchy-Schwarz on lists, order of the double sum over atoms and observations |
| C73 | `_bayesian_bootstrap`, Dirichlet and multinomial draws as oracles | weighted sums by list induction |
| C74 | `get_disp`, `minv` in binary64 | Flocq error analysis of one step, floor stable away from half a cell, induction over the running sum; refuted just below half a cell (vm_compute) |
| C75 | `generate_covariance_matrix`, `minimum_eigenvalue_method`, `log_likelihood` | bilinear forms under scaling; combines with C60 and C61 |
| C76 | `_flatten_list`/`_stack_trajectories` with MSTD and MSCD | collective displacement of stacked arrays as a double sum, Cauchy-Schwarz; refuted: averaging over replicas |
| C77 | `MSTDBootstrap`, `MSCDBootstrap`, `jump_diffusion`, `conductivity` | extensionality of the loop in the reported quantity, one fit feeding both conversions; refuted for fewer axes |
| C78 | `get_time_intervals`, `get_disps`, `MSDBootstrap`, `MSTDBootstrap`, `MSCDBootstrap` | windows of one interval are a function of the corrected displacements only; left-out intervals form a suffix because the observation count decreases; refuted for n_o and variances |
| C79 | `MSDBootstrap` (loop body, `np.sum`, `np.mean`) in binary64 | relative closeness `(1±2^-53)^k`, closed under rounding, addition in any grouping, division; tiny sums are exact (Flocq) |
| C80 | `MSDBootstrap` (`np.var`, `ngp_calculation`) in binary64 | C79's calculus extended to products and quotients; deviations from the computed mean lie on a common grid, so no underflow; Minkowski's inequality for the standard error |
| C81 | all three parsers (`get_disp`, `correct_drift`, `get_disps`), `MSDBootstrap`, `DiffusionAnalyzer` end to end | displacements of every interface equal those of the true trajectory; the windows are the T-m true ones and one of m-1 frames; means exchanged; refuted as an exact time average |
| C82 | as C81 | as C81 applied to the reversed frames; sums over windows re-indexed; refuted as an exact symmetry |
| C83 | as C81, `get_indices`, `MSTDBootstrap`, `MSCDBootstrap` | indices of the supercell are the shifted indices of the cell; framework mean over copies unchanged; rows of the displacement arrays repeated; statistics of repeated lists |
| C84 | all three parsers, `Parser.__init__`, `_get_molecules`, `_get_framework`, `MSDBootstrap`, `MSTDBootstrap`, `MSCDBootstrap`, the analysers' constructors | success of every step (strides, inverses, index look-ups, molecule centres, windows, memory estimate, loops over intervals) from one record of documented conditions; refuted for one followed atom whose shortest interval is more than half the trajectory |
| C85 | as C81, `MSTDBootstrap`, `MSCDBootstrap`, jump and conductivity analysers end to end | as C81 with the sum over atoms taken before squaring; refuted as an exact time average |
| C86 | as C81 and C85 | the square of the sum expanded into scalar products of pairs of atoms; cross terms vanish on average; sums over runs, windows and atoms exchanged |
| C87 | `Bootstrap.bootstrap_GLS`, its `log_likelihood` | the maximum of the likelihood solves the normal equations (C67); deviations from the true line are linear in the data; covariances of linear combinations through the inverse matrix; the competitor differs from the fit by something uncorrelated with it (Gauss-Markov). The hypothesis that the covariance is the real one is a hypothesis about the data, not proved for kinisi's estimate |
| C88 | `get_disp`, `correct_drift`, `get_disps` (multi-origin), `MSDBootstrap` on spec_float | C74 for the unwrapped coordinates; absolute error bounds through means and differences (framework average, windows); mean of squares with underflow; Minkowski's inequality turns component errors into an error of the root mean square. Near-half steps as in C74; any fixed or changing cell by C97, with positions in units of a power of two above 16 times the largest cell component; summation order left to right in the drift average |
| C89 | `get_disps` (n_o), `MSDBootstrap`, `MSTDBootstrap`, `MSCDBootstrap` (mean and variance) | sums over runs and observations exchanged; the sample variance written about the true average; covariances vanish for uncorrelated observations. Counterexamples: all 64 outcomes of a random walk of two atoms, evaluated exactly |
| C90 | `_populate_covariance_matrix`, `_model_variance`, the likelihood; `get_disps`/`MSDBootstrap` in the refutation | a window of the longer interval is the sum of windows of the shorter one and an independent rest, so covariances inside it equal variances and others vanish; second and fourth moments of sums of independent steps by induction on the number of steps; C87 for the fit. Windows side by side, not kinisi's overlapping ones, for which the claim is refuted by the 64-outcome walk |
| C91 | `_bootstrap`, `sample_until_normal` (without further resamples), the loops of `MSDBootstrap`, `MSTDBootstrap`, `MSCDBootstrap` | the loop asks the generator for one list of indices per resample, in order; each resample mean has the average of the observations and their population variance over int(n_o), different resamples are uncorrelated (pairwise independent draws), then the laws of C89 for the sample variance. The generator is an arbitrary external routine with the stated fairness. Counterexample and example: four coins, 16 outcomes |
| C92 | `get_disp` with one cell per frame, `get_structure_coords_latt` of the three interfaces, `finish_parse`, `MSDBootstrap` | each step is the minimum image in the new cell (C03), which is unique, and the step of the stated path is one; then the pipeline of C81 with that path. Refuted by a cell growing along x: a quarter-cell walker crossing the boundary, resting atoms |
| C93 | everything from reading to `MSDBootstrap`, `MSTDBootstrap`, `MSCDBootstrap` through the exact formulas of C81 and C85 | triangle inequality for relative displacements, then Minkowski's inequality over atoms and over windows; vibrating atoms compared with resting ones. Refuted without the small-step condition by a step of half a cell give or take eps/2 |
| C94 | `_get_molecules`, the selection branch of the three parsers, `get_disp`, `Parser.__init__` | the centre depends on the weighted atoms only up to order and common factor (`pairs_alike`); molecules in another order renumber the sites, which `get_disp` and `Parser.__init__` carry through; the centre of one atom is a periodic image of the atom, which C02 makes irrelevant in a fixed cell |
| C95 | `_get_molecules` and `_get_framework`, the selection branch of the three parsers, `get_disp`, `Parser.__init__`; for reported values `MSDBootstrap`, `MSTDBootstrap`, `MSCDBootstrap` | in every used frame the computed centre is a periodic image of the true centre of mass (C20), images do not matter in a fixed cell (C02), and the remaining sites are the framework atoms in order, so the two parses are equal; C81, C85 and C93 then apply to the centres, and centres of mass are no farther apart than the atoms |
| C96 | `Bootstrap.ngp_calculation` through `MSDBootstrap`; for trajectories everything from reading on (C81) | the fourth moment of the squared length is a sum over pairs of axes, giving (6-2D)/(5D); the parameter depends on number, sum and sum of squares only, which resting displacements change in number alone; the reported windows are a permutation of the true ones and the extra one |
| C97 | `get_disp` on spec_float for any sequence of cells, with `minv` by cofactors or with any near inverse | error of a three-term product, of Cartesian positions, of the computed inverse (relative to exact cofactors over the exact volume) and of the fractional step; the margin keeps the floor at the exact image; running sum by induction. Compared with `get_disp` on the reals, hence C01 to C03 and C92 carry over |
| C98 | `MSTDBootstrap`, `MSCDBootstrap` on spec_float; for trajectories `get_disp` and the parser as in C88 | the error of a rounded sum is relative to the sum of the sizes, which is at most the root of N times the sum of squares; a general lemma compares the root mean square of computed totals with any exact totals; the chain of C88 supplies the deviation of every displacement |
| C99 | everything from reading on (C81, C85) | mean square error = variance + squared bias; of K windows each is correlated with at most 2(m+gap)-1, and covariances are at most the largest variance; Chebyshev's inequality; for random walks the fourth moment of a displacement by induction over the steps (as in C90, with an inequality) |
| C100 | log_likelihood of bootstrap_GLS (C67), everything from reading on (C99) | the most likely line minimises a convex quadratic over slopes >= 0; along the segment to the true line the derivative is not negative, so the weighted distance of the lines is at most the weighted misfit of the true line; the condition number turns weighted into plain sums of squares; C99 for the mean square errors, Chebyshev's inequality |
| C101 | bootstrap_GLS from the optimiser's start to the stored chain, with diffusion, jump_diffusion and conductivity | the length of a position is an invariant of the walkers; chains whose rows have two (one) entries are determined by their columns. Assumed of the libraries: the number of parameters is kept. The same file continues C37 from the trajectory to the coefficients: axes named, atoms followed, volume of the frames |
| C102 | Parser and ConductivityAnalyzer from the frames to the charge displacements; MSCDBootstrap with several sets of charges | a common vector added to all displacements contributes (sum of the charges) times that vector; the square of a sum of two charge displacements is expanded observation by observation. Refuted by example: ions whose charges do not add up to zero |
| C103 | Parser.get_disps' delta_t, the three parsers and the search for start_dt in IEEE double precision | relative errors of two (pymatgen four) rounded operations; neighbouring intervals differ by more than the errors. Refuted: a start_dt equal to the time of an interval may leave that interval out (time_step 0.7, start_dt 2.1) |
| C104 | Bootstrap.diffusion, jump_diffusion and conductivity in IEEE double precision | divisors 20000 dims (atoms) are exact, so one rounding; the conversion to a conductivity is a chain of 10 rounded operations with ranges tracked. Simplified: x**2 is x*x, 1e-24 is 1/10^24 (C104_literal covers the literal) |
| C105 | the three parsers and the three analysers in IEEE double precision, on coordinates that may be NaN or infinite | a property of doubles that no sum, difference, product or quotient removes is followed from the coordinate to the averages; unused atoms as in C70, for any arithmetic. Simplified: the floor of a NaN or infinity is 0 in the model (NumPy keeps it), which only makes the statement harder. Not covered: NaN in a cell, molecules, single-origin sampling |
| C106 | arrhenius, super_arrhenius, extrapolate | ln D is affine in 1/T; for three parameters a polynomial of degree two with three roots vanishes; errors at other temperatures are an affine mixture of those at two temperatures |
| C107 | SuperArrhenius.__init__ with the default list, super_arrhenius | as C45 when the first temperature is the lowest. Refuted: temperatures in descending order, or an earlier object with higher temperatures (C46), admit T0 above a measured temperature, where the law exceeds its prefactor. Not modelled: uravu's sampling; only the bounds handed to it |
| C108 | generate_covariance_matrix with model=True up to the first covariance matrix | the misfit is a quadratic polynomial in the factor; inverse matrices of multiples are multiples. Assumed of curve_fit: it returns a minimiser over factors that are not negative (an instance is exhibited) |
| C109 | minimum_eigenvalue_method, log_likelihood | eigenvalues only rise, so quadratic forms do; the inverse is antitone because u^T S u - 2 u^T x is minimal at u = S^-1 x, applied to the covariance matrix and again to the 2x2 information matrix. Assumed of eig: an orthonormal decomposition. Not covered: cov_nearest, which follows, and best slopes that are not above zero |
| C110 | Bootstrap.posterior_predictive | the rows are written as line of the picked sample plus noise; means and covariances over a finite set of generator states, by linearity. Assumed of the generator (an instance with 16 states is exhibited): uniform pairwise independent picks, noise of mean 0 whatever was picked, covariance cov, uncorrelated between vectors |
| C111 | get_disps (n_o), _populate_covariance_matrix, generate_covariance_matrix with model=False up to the first matrix, over spec_float | every entry is one division and one product; the backward error of the quadratic form is bounded by Cauchy-Schwarz since entries of the exact matrix are at most sqrt(v_i v_j). Not covered: intervals skipped by get_disps (counts), curve_fit, the reconditioning |
| C112 | parser (get_disps, correct_drift), MSDBootstrap, MSTDBootstrap, MSCDBootstrap, the log-likelihood of bootstrap_GLS | from C81/C85 (what is reported in terms of true displacements) each reported value is an average of squares within the cage; the best line fits at least as well as the constant r^2/2, which bounds its slope through the condition number of the weights. The maximiser is taken as such (not scipy) |
| C113 | Parser.__init__, get_time_intervals (np.linspace with dtype=int) over spec_float | error of the three roundings of linspace below 2^-26 (lemma lin_error of C49) against the gap 1/(N-1) to the next whole number; exact arithmetic when the step is whole. The counterexample is a run of the model on doubles |
| C114 | MSTDBootstrap, MSCDBootstrap, bootstrap_GLS, conductivity | MSTD: squares split over axes. MSCD: the runs with two `dimension` strings are shown to agree in every field bootstrap_GLS reads, and bootstrap_GLS to depend on nothing else; only `dims` in the final division differs |
| C115 | log_likelihood, emcee acceptance rule (modelled), bootstrap_GLS | acceptance in IEEE-log form is shown equal to the rule in terms of weights; two runs whose log-likelihoods differ by a constant are related walker by walker through the whole chain, then through sample_gls and bootstrap_GLS. The library contract (minimiser not affected by constants) is a hypothesis, met by an example |
| C116 | Parser.get_disp, parsers, MSDBootstrap | the shortest path is built frame by frame with the nearest whole number of cells; the handed-over images differ by whole cells, so the reading is a faithful reading of it and C81 applies. Bound: at most half a cell per component and used frame, through the cell matrix, framework average and window average |
| C117 | Parser.get_disps, MSDBootstrap, MSTDBootstrap, MSCDBootstrap | every observation is the difference of a padded path at two indices, so n(m) times the reported value is a sum of squares over windows; Minkowski over windows, atoms and axes plus monotonicity in the set of windows. The bound without the numbers of windows is refuted |
| C118 | parsers with specie_indices, Bootstrap classes | the two readings share framework, displacements and intervals, since the framework depends on the set of indices only; the rows are the old rows copied, so means of squares stay, sums are multiplied by c and sample variances change by (M-1)/(cM-1). That only the set of indices matters is refuted |
| C119 | parsers, Bootstrap classes, generalised least squares | relative displacements split into those of the underlying trajectory and the errors of the two end frames; in the average over runs the cross terms vanish, so each window with different ends gains twice the mean square error. A constant leaves the residuals of the line unchanged when the intercept takes it up. That all intervals gain the same (not so for one frame, because of the empty window of C81), and that a line through the origin is unaffected, are refuted |
| C120 | parsers, Bootstrap classes | the average over runs of the report is the report formula of C81/C85 applied to the averages of the windows, here c times the real time between their ends; the time spanned is bounded by telescoping sums. That unevenly stored frames do no harm is refuted |
| C121 | parsers, MSTDBootstrap, MSCDBootstrap | with the centre of mass at rest the mean framework displacement is minus the mass-weighted sum of the followed displacements over the framework mass; put into the report formula of C85 this changes the weights of the atoms. That the reports are those of the centre-of-mass frame is refuted |
| C122 | log_likelihood, _straight_line in IEEE doubles | every intermediate number carries an exact value and a size; each rounding adds 2^-52 of the size; sums may be taken in any order. Fused multiply-adds, which a BLAS may use, are not modelled. That the error is small relative to the misfit is refuted |
| C123 | parser.get_disps, MSCDBootstrap in IEEE doubles | C98 from displacement arrays on, joined by Minkowski's inequality with the errors of unwrapping, drift correction and windows (C74, C88, C97), weighted by the charges. That the error is small relative to the MSCD is refuted |
| C124 | parsers, Bootstrap classes | displacements add up, so squares grow by the products of steps; averaged over runs these are C, and the report formula of C81/C85 is linear in the windows. That a line from the origin gives the slope is refuted |
| C125 | MSCDBootstrap, MSDBootstrap, analysers | C30 gives the mean of squared charge sums; squares of sums are sums over pairs (bilinear), the bound is the discriminant of a nonnegative quadratic. That conductivities of groups add up is refuted |
| C126 | parser and analysers on a run and on its pieces; dtype 'identical' | windows of the whole run split into those of the pieces and those across the cuts, by induction on the number of pieces |
| C127 | `_get_molecules` (718-731) and `get_disp` with NumSF: `pseudo_com`, `molecule_centre`, `get_molecules`; the circular mean is any routine good to three digits | absolute rounding-error analysis of shift, remainders, weighted average; exact final remainder (Sterbenz); the computed centres are an exact path close to the true one, to which C74 applies |
| C128 | `get_structure_coords_latt` (sub_sample_traj), `get_disps`, the three bootstraps | windows of the whole run sorted by the remainder of their first frame; exact identity between reported values, bound, averages over runs; a run with motion only in a frame not used refutes equality |
| C129 | sample_until_normal and _bootstrap over families of generator states | Wald's two identities for the stopped sum (independence of each list of indices from those before it), Cauchy-Schwarz for the bias; all lists of random numbers as an example; a test on the first value as the counter-example |
| C130 | `sample_gls`, `run_mcmc`, `get_chain`, `bootstrap_GLS`, `diffusion` | the converted chain is followed step by step: the converted likelihood differs by a constant (C75), so every acceptance is the same; libraries enter through contracts (`moves_convert`, `finds_converted`, `algebra_converts`), which are shown to hold for libraries exact on one data point |
| C55 | `MSTDBootstrap`, `MSCDBootstrap` variances | loop invariant |
| C56 | Python types in dictionaries that were loaded | refuted by running save, load, save |
| C57 | `extrapolate`, `distribution` | list lemmas over C45 |

## 8. Mutation tests

`seeded/LOG.jsonl`: one line per wrong variant of a model definition that was tried in a scratch copy. For each
variant every proof that no longer checks is admitted in that copy, and a theorem counts as failed when it
depends on such a proof.
