{"claims": [
  {"property": "C01", "status": "proved", "theorems": ["C01_context_context_pointwise", "C01_context_number_pointwise", "C01_number_context_pointwise"], "note": "All operators, all contexts a program can build, over arbitrary number operations."},
  {"property": "C02", "status": "proved", "theorems": ["C02_programs_refine_maps"], "note": ""},
  {"property": "C03", "status": "proved", "theorems": ["C03_not_values", "C03_not_table", "C03_not_not_is_zero", "C03_not_involutive_refuted"], "note": "Value table of ~a proved for every id; involution refuted."},
  {"property": "C04", "status": "proved", "theorems": ["C04_refcounts_exact", "C04_deletion_exact"], "note": ""},
  {"property": "C05", "status": "proved", "theorems": ["C05_set_then_get", "C05_set_changes_nothing_else", "C05_unknown_name_rejected", "C05_rejected_value_unchanged_refuted"], "note": "The clause that a rejected set changes nothing holds for unknown names and is refuted for values of the wrong type."},
  {"property": "C06", "status": "proved", "theorems": ["C06_global_weight_shared", "C06_set_global_weight_exact", "C06_weight_is_product", "C06_clear_global_weights"], "note": ""},
  {"property": "C07", "status": "proved", "theorems": ["C07_context_id_is_swapped", "C07_context_agrees_refuted"], "note": "Agreement as documented is refuted; the actual correspondence (event and particle swapped) is proved."},
  {"property": "C08", "status": "proved", "theorems": ["C08_deepcopy_faithful", "C08_pickle_faithful"], "note": ""},
  {"property": "C09", "status": "proved", "theorems": ["C09_copy_effect_on_others", "C09_copy_leaves_others_alone_refuted"], "note": "Refuted as stated: copying writes to track (0,0,0); everything else proved untouched."},
  {"property": "C10", "status": "proved", "theorems": ["C10_mass_shell_energy", "C10_mass_shell_px", "C10_mass_shell_py", "C10_mass_shell_pz", "C10_mass_shell_p", "C10_mass_shell_p_failure_keeps_hit_refuted", "C10_mass_shell_idempotent", "C10_mass_shell_other_names"], "note": ""},
  {"property": "C11", "status": "proved", "theorems": ["C11_pz_never_negative", "C11_size_kept", "C11_direction_kept_refuted"], "note": ""},
  {"property": "C12", "status": "proved", "theorems": ["C12_set_p", "C12_set_slopes", "C12_set_time_slope", "C12_time_slope_error_keeps_hit_refuted", "C12_set_ct", "C12_set_kinetic_energy"], "note": ""},
  {"property": "C13", "status": "proved", "theorems": ["C13_translate_adds", "C13_translate_composes", "C13_translate_inverts", "C13_translate_then_mass_shell"], "note": ""},
  {"property": "C14", "status": "proved", "theorems": ["C14_abelian_formula", "C14_abelian_composes", "C14_abelian_identity", "C14_abelian_inverts"], "note": ""},
  {"property": "C15", "status": "proved", "theorems": ["C15_core_in_step", "C15_append", "C15_setitem", "C15_out_of_range_unchanged", "C15_del_effect", "C15_del_in_step_refuted"], "note": "del is refuted; its exact effect is proved."},
  {"property": "C16", "status": "proved", "theorems": ["C16_negative_index_exact", "C16_negative_index_in_step_iff", "C16_negative_index_refuted"], "note": "Refuted as stated; exact mapping and the indices for which it holds are proved."},
  {"property": "C17", "status": "proved", "theorems": ["C17_split_partition", "C17_list_sorted"], "note": ""},
  {"property": "C18", "status": "proved", "theorems": ["C18_cut_exact", "C18_cut_several", "C18_paths_agree", "C18_cut_after_context_switch_refuted", "C18_failed_cut_unchanged_refuted"], "note": "Proved for programs that never switch the weight context; without that condition refuted. Failing comparators: refuted."},
  {"property": "C19", "status": "proved", "theorems": ["C19_remove_exact", "C19_nsigma_thresholds", "C19_nsigma_same_selection_refuted"], "note": "Removal exact; the equivalence of the n sigma thresholds is refuted and the exact thresholds are proved."},
  {"property": "C20", "status": "proved", "theorems": ["C20_transmission_integer", "C20_test_order_irrelevant", "C20_idempotent", "C20_transmission_bounds", "C20_tolerance_refuted"], "note": "Exact for integer variables; for real variables two-sided bounds, exact tolerance refuted."},
  {"property": "C21", "status": "proved", "theorems": ["C21_mean_is_average", "C21_moment_is_average", "C21_central_moment_is_average", "C21_order_irrelevant", "C21_zero_weight_irrelevant", "C21_weight_scale_irrelevant", "C21_coordinate_scale", "C21_translation"], "note": "For programs that never switch the weight context. Real arithmetic."},
  {"property": "C22", "status": "proved", "theorems": ["C22_paths_agree", "C22_zero_weight_raises", "C22_missing_mean_is_zero", "C22_missing_mean_fallback_raises", "C22_missing_mean_is_bunch_mean_refuted", "C22_paths_agree_after_context_switch_refuted", "C22_mean_after_del_refuted"], "note": "Agreement proved for complete dicts without context switches; missing means, context switches and del refuted."},
  {"property": "C23", "status": "proved", "theorems": ["C23_entries_symmetric", "C23_entries_are_moments", "C23_positive_semidefinite", "C23_variance_and_cauchy_schwarz"], "note": ""},
  {"property": "C24", "status": "proved", "theorems": ["C24_index_by_power", "C24_index_by_power_domain", "C24_moment_tensor", "C24_moment_tensor_fails"], "note": ""},
  {"property": "C25", "status": "proved", "theorems": ["C25_period_folds", "C25_period_idempotent", "C25_period_identifies"], "note": ""},
  {"property": "C26", "status": "proved", "theorems": ["C26_icool_bijection", "C26_mars_restores_pdg", "C26_mars_number_restored_refuted", "C26_mass_and_charge_found", "C26_charge_complete_refuted", "C26_charge_conjugation", "C26_nucleus_charge_refuted"], "note": "icool: proved in full. mars: restoring pdg numbers proved, restoring mars numbers refuted; charge of -311 missing and nucleus charges 0 (both refuted)."},
  {"property": "C27", "status": "proved", "theorems": ["C27_line_written", "C27_unknown_particle", "C27_write_then_read", "C27_on_shell_restored", "C27_g4bl_unit_refuted"], "note": "All five text formats, all reachable hits; energy restored for on-shell hits. After set_g4bl_unit('cm') refuted."},
  {"property": "C28", "status": "proved", "theorems": ["C28_file_written", "C28_comment_refuted", "C28_unknown_format"], "note": "Proved in full; a comment with a newline is refuted to be readable."},
  {"property": "C29", "status": "proved", "theorems": ["C29_read", "C29_failing_line", "C29_left_out", "C29_malformed_skipped_refuted", "C29_reads_no_further", "C29_user_format", "C29_written_file_read"], "note": "Exact result including the failing case; 'malformed lines are skipped' refuted for lines with the right number of words."},
  {"property": "C30", "status": "proved", "theorems": ["C30_bin_contents", "C30_total_contents", "C30_one_bin", "C30_one_dimension", "C30_default_weights"], "note": "Proved in full for increasing edges."},
  {"property": "C31", "status": "proved", "theorems": ["C31_min_max", "C31_min_max_user", "C31_edges", "C31_top_value_lost", "C31_caller_list_refuted"], "note": "Edges, automatic range and min_max proved; the largest value of an automatic range is lost, and a short weight list changes the caller's list (both refuted expectations, proved universally)."},
  {"property": "C32", "status": "proved", "theorems": ["C32_multisort", "C32_short_list"], "note": "Proved for rectangular tables and any strict weak order; shorter lists fail."},
  {"property": "C33", "status": "proved", "theorems": ["C33_user_values", "C33_automatic", "C33_one_dimension", "C33_two_axes_refuted", "C33_two_axes", "C33_user_limits_refuted"], "note": "n_bins proved; the automatic two dimensional histogram always raises, and user limits are scaled by the unit (refuted expectations, proved universally)."},
  {"property": "C34", "status": "proved", "theorems": ["C34_grid", "C34_box", "C34_single"], "note": "Proved for all dimensions and n >= 2; n = 1 separately."},
  {"property": "C35", "status": "proved", "theorems": ["C35_normalise", "C35_normalise_rejects", "C35_on_ellipse", "C35_count", "C35_single_refuted"], "note": "Proved for positive definite ellipses and any correct inverse, n >= 2; documented count needs (n-1)^2 < 10^9 and is refuted for n = 1."},
  {"property": "C36", "status": "proved", "theorems": ["C36_order", "C36_terminates", "C36_progress", "C36_exceptions"], "note": "All schedules of any number of workers; termination and progress included."},
  {"property": "C37", "status": "proved", "theorems": ["C37_ellipse_2d", "C37_rejects", "C37_negative_momentum_refuted", "C37_emittance_round_trip"], "note": "Proved for positive beta, emittance, p and mass; negative p gives a matrix that is no ellipse (refuted); emittance of the ellipse is the one asked for."},
  {"property": "C38", "status": "proved", "theorems": ["C38_penn_ellipse", "C38_unit_charge", "C38_rejects", "C38_negative_momentum_refuted", "C38_angular_momentum", "C38_angular_momentum_negative_refuted", "C38_emittance_round_trip"], "note": "Proved for charge 1 or -1; angular momentum relation proved for positive charge and refuted for negative charge; negative p refuted."},
  {"property": "C39", "status": "proved", "theorems": ["C39_covariance_list", "C39_picker", "C39_axis_names"], "note": "Proved for all axis lists."},
  {"property": "C40", "status": "proved", "theorems": ["C40_groups", "C40_tree", "C40_virtual_documents", "C40_primary_documents"], "note": "Groups and trees for arbitrary paths and hit lists; exact documents for virtual hits and primaries; IOError iff two primaries share event and particle number."},
  {"property": "C41", "status": "proved", "theorems": ["C41_cut", "C41_boundary", "C41_rejects", "C41_one_point_refuted"], "note": "numpy.linalg.inv is an argument with its specification as hypothesis."},
  {"property": "C42", "status": "proved", "theorems": ["C42_targets", "C42_rejects", "C42_unique_refuted", "C42_constructor", "C42_weights", "C42_moments", "C42_single", "C42_proportional", "C42_total", "C42_several_refuted", "C42_pole_one_refuted"], "note": "numpy.linalg.inv is an argument with its specification as hypothesis. Hits with weights of their own; a sum of factors of 0 (weights inf or nan) is an error in the model. C42_several_refuted: several targets are missed."},
  {"property": "C43", "status": "proved", "theorems": ["C43_constructor", "C43_mean_refuted", "C43_weights", "C43_shared_refuted", "C43_edge", "C43_python3_refuted", "C43_empty"], "note": "Python 2 semantics for the positive theorem; scipy Voronoi and Delaunay are arguments, the theorem assumes that the numbers they return are in range. Hits with weights of their own; C43_shared_refuted says what happens to the others."},
  {"property": "C44", "status": "proved", "theorems": ["C44_constructor", "C44_track_one", "C44_identity", "C44_compose", "C44_track_many"], "note": "Constructor, each tracked hit, identity, composition by matrix product, track_many."},
  {"property": "C45", "status": "proved", "theorems": ["C45_chunks", "C45_some", "C45_early", "C45_all", "C45_returns", "C45_python3"], "note": "Under Python 3 as written track_many always raises (C45_python3). With that mended: chunks, early and final results for every schedule of the children."},
  {"property": "C46", "status": "proved", "theorems": ["C46_result", "C46_only", "C46_fresh", "C46_not_yet", "C46_completes", "C46_start_twice", "C46_kill", "C46_python3", "C46_stale_refuted", "C46_reset_refuted", "C46_truncated_refuted"], "note": "Refuted parts: stale result (C46_stale_refuted), set_hit_list after start (C46_reset_refuted), truncated output (C46_truncated_refuted), Python 3 text mode pickle (C46_python3). Positive theorems over all call sequences and all schedules."},
  {"property": "C47", "status": "proved", "theorems": ["C47_peaks"], "note": "uphill_peaks is the set of strict interior local maxima, in increasing order; floats read as reals"},
  {"property": "C48", "status": "proved", "theorems": ["C48_window_peaks", "C48_isolated", "C48_errors", "C48_pedestal_refuted"], "note": "exact characterisation of the peaks found for every window size and step, completeness for isolated peaks, the rejected inputs; C48_pedestal_refuted records that the threshold is not invariant under a pedestal (F46)"},
  {"property": "C49", "status": "proved", "theorems": ["C49_init", "C49_value", "C49_between", "C49_constant", "C49_linear", "C49_reverse", "C49_constant_refuted"], "note": "the smoothed value as weighted mean, bounds, constants, linearity, reversal; without adjust constants are not preserved at the ends (C49_constant_refuted, as documented by the class)"},
  {"property": "C50", "status": "proved", "theorems": ["C50_python3_refuted", "C50_aligned", "C50_window", "C50_short_refuted", "C50_errors", "C50_shared_refuted", "C50_signal"], "note": "with integer division (repaired dialect) all columns lose the same rows and exactly those far from the mean of their window; as written Python 3 raises (C50_python3_refuted); shared column objects and short tables refuted"},
  {"property": "C51", "status": "proved", "theorems": ["C51_grid", "C51_axes", "C51_grid_refuted"], "note": "the full statement is false: C51_grid_refuted gives what is visited if the last axis meets its end; C51_grid proves the whole grid in lexicographic order if no inner axis meets its end; ends with StopIteration inside a generator (RuntimeError)"},
  {"property": "C52", "status": "proved", "theorems": ["C52_sigma", "C52_mean", "C52_permutation", "C52_empty"], "note": "sigma is the root of the mean squared deviation, never negative; mean and sigma do not depend on the order; empty lists raise"},
  {"property": "C53", "status": "proved", "theorems": ["C53_optics", "C53_one_plane", "C53_periodic", "C53_trace", "C53_emittance_refuted", "C53_uncoupled_refuted", "C53_rejects", "C53_length", "C53_python3", "C53_phase_refuted", "C53_transpose_refuted"], "note": "Python 2 semantics (C53_python3: never constructed under Python 3). numpy.linalg.eig and inv are arguments with their specification as hypothesis; numbers that are not finite end the construction in the model."},
  {"property": "C54", "status": "proved", "theorems": ["C54_hits", "C54_unique", "C54_unique_refuted", "C54_out_of_range", "C54_python37_refuted"], "note": "Hits of accepted track points (before PEP 479); injective for digits; refuted at the accepted value 10; ValueError out of range; no event readable from Python 3.7."},
  {"property": "C55", "status": "proved", "theorems": ["C55_equality_meaning", "C55_reflexive", "C55_symmetric", "C55_not_equal_is_negation", "C55_transitive_refuted"], "note": ""},
  {"property": "C56", "status": "proved", "theorems": ["C56_first_call", "C56_empty", "C56_again_refuted", "C56_linear_map"], "note": "one value in [0,1) per pair of neighbours; a second call accumulates (C56_again_refuted); for points that follow a linear map preserving the ellipse every value is theta/2pi with 2 cos theta = trace. The Cholesky factor and its inverse are arguments constrained by the matrix equations"},
  {"property": "C57", "status": "proved", "theorems": ["C57_hit_shell"], "note": "All dimensions, any correct inverse; energy mass shell."},
  {"property": "C58", "status": "proved", "theorems": ["C58_kinetic", "C58_kinetic_geometric", "C58_canonical", "C58_additive", "C58_rotation_invariant"], "note": "Kinetic, canonical, additivity and rotation invariance; the geometric variant multiplies by mean pz."},
  {"property": "C59", "status": "proved", "theorems": ["C59_emittance", "C59_amplitude"], "note": "Emittance is a number for non-negative weights in any dimension; mean amplitude is 2n times emittance; non-negative for positive definite covariance."},
  {"property": "C60", "status": "proved", "theorems": ["C60_result", "C60_semidefinite", "C60_exceptions", "C60_small_refuted", "C60_empty_refuted", "C60_affine", "C60_dimension_refuted"], "note": "numpy.linalg.inv is an argument with its specification as hypothesis; coordinates and weights are Python floats; positive weights."},
  {"property": "C61", "status": "proved", "theorems": ["C61_polar", "C61_lengths", "C61_slopes"], "note": "All derived variables."},
  {"property": "C62", "status": "proved", "theorems": ["C62_stored", "C62_origin_ignored_refuted", "C62_recalculate_refuted"], "note": "Frozen values proved; recalculation by a second call and use of the origin refuted."},
  {"property": "C63", "status": "proved", "theorems": ["C63_twiss", "C63_geometric_argument_refuted"], "note": "One axis; geometric argument different from class variable refuted with the exact factor."},
  {"property": "C64", "status": "proved", "theorems": ["C64_covariance", "C64_emittance", "C64_default_origin_refuted"], "note": "Any dimension, any matrix; documented default origin refuted."},
  {"property": "C65", "status": "proved", "theorems": ["C65_clear_local_weights", "C65_clear_weights", "C65_get_hits", "C65_get_hits_raises"], "note": "Exact effect with frame; get_hits characterised."},
  {"property": "C66", "status": "proved", "theorems": ["C66_round_trip", "C66_kept", "C66_event_number_refuted", "C66_python3", "C66_primaries"], "note": "For the reader with items() in place of iteritems(); with Python 3 as is, AttributeError. Event number refuted."},
  {"property": "C67", "status": "proved", "theorems": ["C67_virtual", "C67_primary", "C67_first_type_only", "C67_all_types_refuted", "C67_files", "C67_limit_refuted", "C67_stops_silently"], "note": "Files built of spills with events (virtual hits and primary) and other documents; one type exact; several types, limits and silent stop refuted."},
  {"property": "C68", "status": "proved", "theorems": ["C68_root_primary", "C68_charge_refuted"], "note": "Everything but the charge agrees with the JSON reader; charge refuted."},
  {"property": "C69", "status": "proved", "theorems": ["C69_dispersion", "C69_exact_line", "C69_monochromatic", "C69_prime", "C69_rsquared", "C69_rsquared_refuted"], "note": "Least squares, exact lines and the ZeroDivisionError are proved. The documented r-squared dispersion uses raw moments; the code subtracts central moments of x and y, so it is off by (<x>^2+<y>^2)<E>^2/var(E) (refuted)."},
  {"property": "C70", "status": "proved", "theorems": ["C70_target", "C70_emittance", "C70_about_origin", "C70_origin_refuted"], "note": "eigh and inv are arguments with their specification as hypothesis; the covariance of the beam and the target are positive definite. C70_origin_refuted: any origin other than the mean misses the target in two dimensions or more."},
  {"property": "C71", "status": "proved", "theorems": ["C71_simplex", "C71_tiles", "C71_python3_refuted"], "note": "Python 2 semantics; scipy Delaunay is an argument. C71_python3_refuted: NameError under Python 3."},
  {"property": "C72", "status": "proved", "theorems": ["C72_rounds", "C72_evaluated", "C72_tolerances", "C72_affine", "C72_limits", "C72_tolerance_refuted", "C72_singular_refuted", "C72_limits_refuted"], "note": "numpy.linalg.inv is an argument with its specification as hypothesis; the function to be solved is pure."},
  {"property": "C73", "status": "proved", "theorems": ["C73_points", "C73_noise", "C73_whole", "C73_generator", "C73_start", "C73_end", "C73_check", "C73_fixed_refuted", "C73_lost_refuted", "C73_forever_refuted", "C73_stop_refuted", "C73_singular_refuted"], "note": "The tracking, the hits and their equality (reflexive) are arbitrary. C73_noise/C73_whole use numpy.linalg.inv as an argument that inverts; reals instead of floats. Five documented behaviours are refuted with exact replacements (C73_end lists every way the generator can end)."},
  {"property": "C74", "status": "proved", "theorems": ["C74_result", "C74_no_peaks", "C74_tone", "C74_tone_refuted", "C74_stale_refuted", "C74_even", "C74_default", "C74_refine", "C74_refined", "C74_valley_refuted", "C74_slope_refuted", "C74_sorted_refuted", "C74_tracking"], "note": "numpy.fft.rfft is an argument met by its definition (is_rfft, dft_ok); refinement proved for every transform with one hill, and for get_tune with one peak. Recursion depth limit of Python is the fuel."},
  {"property": "C75", "status": "proved", "theorems": ["C75_fired", "C75_seeds", "C75_seeds_distinct", "C75_spills", "C75_events", "C75_first", "C75_failed", "C75_unknown", "C75_copy", "C75_copies_refuted", "C75_cards", "C75_cards_refuted"], "note": "json texts are the documents they hold; the simulation is any function of the running cards and of the primaries given, possibly raising"},
  {"property": "C76", "status": "proved", "theorems": ["C76_quality", "C76_bite_refuted", "C76_found", "C76_radius", "C76_top", "C76_maximum_refuted", "C76_exact", "C76_errors", "C76_indices", "C76_separate", "C76_separate_refuted", "C76_python3_refuted"], "note": "ROOT's fit and its covariance matrix are functions of the points; theorems about exactness assume a least squares fit, which is constructed"},
  {"property": "C77", "status": "proved", "theorems": ["C77_new_from_hits", "C77_deepcopy", "C77_weights", "C77_weights_refuted", "C77_equal", "C77_hit_equality", "C77_copy_equal", "C77_symmetric_refuted", "C77_covariances_refuted", "C77_tolerance_refuted"], "note": "the text of __repr__ is taken to evaluate to the dictionaries of the hits; comparison at tolerance 1 or more is not stated"},
  {"property": "C78", "status": "proved", "theorems": ["C78_get_moments", "C78_get_unknown", "C78_get_twiss", "C78_get_optics", "C78_mean_ignored_refuted", "C78_list_get", "C78_list_get_nothing", "C78_list_get_error", "C78_columns", "C78_units", "C78_units_refuted", "C78_lists_agree", "C78_amplitudes"], "note": "axes of amplitude names are read as words separated by spaces; list_get is stated for quantities that are numbers (not nan)"},
  {"property": "C79", "status": "proved", "theorems": ["C79_lines", "C79_round_trip", "C79_unknown_particle", "C79_separator", "C79_separator_one_column", "C79_columns_refuted", "C79_units_written", "C79_units_refuted", "C79_integer_unit_refuted", "C79_dictionary", "C79_bunch_file", "C79_dictionary_comment_refuted"], "note": "separators are white space or text that is neither white space nor part of a number; columns are stored variables (derived ones as r or x' are not in the round trip)"},
  {"property": "C80", "status": "proved", "theorems": ["C80_load", "C80_dict", "C80_list", "C80_errors", "C80_no_variable", "C80_round_trip", "C80_stations", "C80_stations_refuted"], "note": "hits of lines that do not pass the test are not allocated in the model (they are garbage)"},
  {"property": "C81", "status": "proved", "theorems": ["C81_read", "C81_types", "C81_default", "C81_files", "C81_primaries_stop", "C81_unknown_step", "C81_python37_refuted", "C81_default_refuted", "C81_files_limit_refuted", "C81_unknown_type_first", "C81_unknown_type_refuted", "C81_unknown_type_stale", "C81_no_files"], "note": ""},
  {"property": "C82", "status": "proved", "theorems": ["C82_compare", "C82_compare_ne", "C82_compare_refuted"], "note": ""},
  {"property": "C83", "status": "proved", "theorems": ["C83_replaced", "C83_template", "C83_copy", "C83_missing", "C83_in_place_refuted", "C83_newline_refuted", "C83_carriage_refuted", "C83_dos", "C83_empty", "C83_simultaneous_refuted"], "note": ""},
  {"property": "C84", "status": "proved", "theorems": ["C84_weight", "C84_moment", "C84_mean", "C84_central", "C84_covariance", "C84_variance_sign", "C84_order_refuted"], "note": ""},
  {"property": "C85", "status": "proved", "theorems": ["C85_status_text", "C85_status", "C85_submit", "C85_one_job", "C85_kill", "C85_value", "C85_join", "C85_join_returns", "C85_forgotten", "C85_hits", "C85_errors", "C85_python3", "C85_held_refuted", "C85_value_held_refuted", "C85_stale_refuted", "C85_lost_refuted", "C85_wrapped_refuted"], "note": "Text level parsing and life cycle; the queue and its printing are arguments of the theorems."},
  {"property": "C86", "status": "proved", "theorems": ["C86_histogram", "C86_histogram_2d", "C86_contents", "C86_top_refuted", "C86_short_weights_refuted", "C86_graph", "C86_graph_error", "C86_multigraph", "C86_names", "C86_clear", "C86_clear_refuted", "C86_bunch_histogram", "C86_bunch_histogram_2d", "C86_draw_refuted", "C86_empty_refuted", "C86_scatter", "C86_weightless_refuted", "C86_bunch_graph"], "note": "What is handed to ROOT is modelled; bins as TAxis::FindBin has them. Drawing, colours and legends are not."},
  {"property": "C87", "status": "proved", "theorems": ["C87_graph", "C87_graph_error", "C87_sort_refuted", "C87_caller_lists_refuted", "C87_multigraph", "C87_scatter", "C87_label_refuted", "C87_figures", "C87_figures_refuted", "C87_histogram", "C87_last_bin_refuted", "C87_bunch_histogram", "C87_small_bunch_refuted", "C87_bunch_hexbin", "C87_hexbin_refuted", "C87_bunch_scatter", "C87_bunch_graph", "C87_ratio", "C87_ratio_shape"], "note": "What is handed to pyplot is modelled; numpy.histogram and hist2d with edges and weights as documented, hexbin by what a hexagon shows."},
  {"property": "C88", "status": "proved", "theorems": ["C88_comments", "C88_words"], "note": "Files read by name and glob are parameters; plots by what they raise."},
  {"property": "C89", "status": "proved", "theorems": ["C89_lines", "C89_make", "C89_new", "C89_bunch", "C89_warned", "C89_generator_refuted", "C89_generator"], "note": "Text factories; generators for any factory. The weights of the context do not change between calls."},
  {"property": "C90", "status": "proved", "theorems": ["C90_started", "C90_root_refuted", "C90_kill", "C90_failed_start_refuted", "C90_close_refuted", "C90_wait_refuted", "C90_exit", "C90_flag_refuted", "C90_show"], "note": "Calls in the process that imported xboa; signals act at once."},
  {"property": "C91", "status": "proved", "theorems": ["C91_edges_given", "C91_edges", "C91_weights", "C91_counts", "C91_total", "C91_greatest_refuted", "C91_below_greatest_refuted", "C91_distinct_refuted", "C91_same_refuted", "C91_overflow_refuted"], "note": "Rounding of binary64; data, weights and edges are floats."},
  {"property": "C92", "status": "proved", "theorems": ["C92_library_ex", "C92_energy", "C92_component", "C92_p", "C92_p_below_refuted", "C92_check", "C92_on_shell", "C92_check_refuted", "C92_check_weak_refuted", "C92_check_raises_refuted"], "note": "Rounding of binary64; the C library's pow is a parameter assumed right to two units in the last place (plain_accurate shows such a function exists)."},
  {"property": "C93", "status": "proved", "theorems": ["C93_copy", "C93_no_drift", "C93_exact_refuted"], "note": "Rounding of binary64; lines are lists of numbers, as float(str(x)) is x for Python 3 (assumed). For the time in MARS files repeated copies are bounded one by one, not shown to be stable."},
  {"property": "C94", "status": "proved", "theorems": ["C94_peaks", "C94_parabola", "C94_vertex_refuted", "C94_scale", "C94_local", "C94_one_by_one", "C94_outside", "C94_narrow_refuted"], "note": "TGraph.Fit is a parameter assumed to find a least squares line with the fixed parameters kept (plain_fits shows that such a fit exists); the reported error is whatever the fit reports; reals."},
  {"property": "C95", "status": "proved", "theorems": ["C95_period", "C95_bunch", "C95_again", "C95_edge_refuted", "C95_zero_raises", "C95_never_raises", "C95_translate", "C95_back", "C95_back_refuted"], "note": "Rounding of binary64; variables stored by the core. The C library's pow is a parameter as in C92."},
  {"property": "C96", "status": "proved", "theorems": ["C96_get", "C96_slopes", "C96_zero_raises", "C96_l_kin", "C96_set_slope", "C96_slope_raises", "C96_set_tP", "C96_set_ct", "C96_set_ek", "C96_exact_refuted", "C96_slow_refuted", "C96_tP_changes_refuted"], "note": "Rounding of binary64. phi and pphi (atan2) are left out; set_p is C92. The C library's pow is a parameter as in C92."},
  {"property": "C97", "status": "proved", "theorems": ["C97_runs", "C97_weights", "C97_cuts", "C97_order", "C97_total", "C97_less", "C97_order_refuted", "C97_clear_order_refuted"], "note": "Cuts on derived variables (amplitudes depend on the weights) are not covered; the weights are real numbers."},
  {"property": "C98", "status": "proved", "theorems": ["C98_abelian", "C98_shell", "C98_shape", "C98_bunch", "C98_stops", "C98_plain", "C98_identity", "C98_origin_refuted", "C98_inverse_refuted"], "note": "Rounding of binary64. numpy's scalar product is a parameter, assumed within 4n*2^-53 of the sizes; adding up from the left is proved to be such a one (C98_plain)."},
  {"property": "C99", "status": "proved", "theorems": ["C99_header", "C99_whole", "C99_cut", "C99_kept", "C99_wrong_refuted", "C99_fails_refuted", "C99_words"], "note": "The texts of numbers are parameters, assumed to be words from which the number is read again (legible); for every file there are such texts (legible_file)."},
  {"property": "C100", "status": "proved", "theorems": ["C100_emittance", "C100_twiss", "C100_plain", "C100_nan", "C100_line_refuted"], "note": "numpy.linalg.det and ** are parameters, assumed accurate (good_det, good_root); elimination with pivots and correctly rounded roots satisfy this (C100_plain). How accurate the covariances themselves are is C84. Emittance of one axis, geometric momentum off."},
  {"property": "C101", "status": "proved", "theorems": ["C101_emittance", "C101_twiss", "C101_far_refuted"], "note": "On top of C84 and C100. The reported covariance of position and momentum is assumed zero or at least 2^-200 in size. One axis, geometric momentum off; beta and gamma relative to the mean momentum reported."},
  {"property": "C102", "status": "proved", "theorems": ["C102_emittance", "C102_twiss"], "note": "Covariances as the bunch reports them (their own rounding is C84). The class variable decides, the argument geometric is left out."},
  {"property": "C103", "status": "proved", "theorems": ["C103_dispersion", "C103_prime", "C103_zero", "C103_hits"], "note": "For the bound against the hits the reported covariance with the energy is assumed zero or at least 2^-200 in size."},
  {"property": "C104", "status": "proved", "theorems": ["C104_arrays", "C104_order", "C104_nan_refuted"], "note": "ROOT.TMath.KolmogorovTest is a parameter that sees values only. The samples are floats already."}
]}
