{
 "claims": [
  {
   "property": "C01",
   "status": "proved",
   "theorems": [
    "localize_gives_blocks",
    "localize_globalize_round_trip",
    "localize_globalize_total",
    "local_index_names_rows"
   ],
   "note": "Blocks, round trip and local index for every P, every set of present arrays."
  },
  {
   "property": "C02",
   "status": "proved",
   "theorems": [
    "sample_counts_exact",
    "sample_counts_balanced",
    "random_sample_set_count"
   ],
   "note": "Both forms of the count used in the code."
  },
  {
   "property": "C03",
   "status": "proved",
   "theorems": [
    "strided_cells_each_once"
   ],
   "note": "The geometry of a single cell volume (scipy.spatial) is an oracle function of the cell index."
  },
  {
   "property": "C04",
   "status": "proved",
   "theorems": [
    "check_num_accepts_iff",
    "check_num_length_error_iff",
    "check_num_dim_error_iff",
    "check_num_local_sum"
   ],
   "note": ""
  },
  {
   "property": "C05",
   "status": "proved",
   "theorems": [
    "clip_keeps_first_samples"
   ],
   "note": "Sets with global values; slices with n >= 0."
  },
  {
   "property": "C06",
   "status": "proved",
   "theorems": [
    "merge_samples",
    "merge_rejects_other_dimension",
    "merge_rejects_other_domain",
    "merge_parallel_order_refuted"
   ],
   "note": "The order first-then-second is proved for one process and refuted for two; all attributes except the values are dropped."
  },
  {
   "property": "C07",
   "status": "partial",
   "theorems": [
    "query_uses_current_values_refuted",
    "query_uses_current_values_partial",
    "query_detects_new_length"
   ],
   "note": "REFUTED: set_values with the same number of samples keeps the old search tree, so query answers for the old values. Partial: holds for histories that call set_kdtree after each set_values once a tree exists; a changed number of samples is detected."
  },
  {
   "property": "C08",
   "status": "partial",
   "theorems": [
    "normalize_undo_partial",
    "normalize_affine_partial",
    "unit_coordinates_in_unit_box",
    "normalize_undo_refuted",
    "normalize_caller_array_refuted",
    "normalize_twice_loses_domain"
   ],
   "note": "REFUTED: normalize_domain works in place, so arrays shared between attributes (or with the caller) are scaled twice or changed behind the caller's back, and a second normalization loses the saved domain. Partial: with unshared arrays and one normalization, undo restores values and domain exactly, and the stored coordinates are the affine unit coordinates."
  },
  {
   "property": "C09",
   "status": "partial",
   "theorems": [
    "copy_compares_equal_partial",
    "copy_compares_equal_refuted",
    "copy_with_objects_refuted",
    "equality_detects_difference_partial",
    "equality_decides_partial",
    "equality_detects_difference_refuted",
    "equality_missing_array_refuted",
    "equality_clusters_refuted",
    "equality_symmetric_refuted",
    "array_difference_symmetric"
   ],
   "note": "REFUTED: a nan entry or a kernel-density object in a field makes a copy unequal; broadcasting makes sets of different sizes equal; None against an array of two or more entries raises in one direction and is False in the other, an empty array passes for None; further cluster maps are ignored on one side and raise on the other. Partial: plain contents copy to an equal set; between fields of the same shapes the comparison is True exactly for equal contents."
  },
  {
   "property": "C10",
   "status": "partial",
   "theorems": [
    "globalize_keeps_latest_refuted",
    "globalize_restores_old_array",
    "globalize_keeps_latest_partial"
   ],
   "note": "REFUTED: local_to_global overwrites a newer global array with the older local blocks. Partial: an array without local blocks is kept."
  },
  {
   "property": "C100",
   "status": "partial",
   "theorems": [
    "merge_succeeds_partial",
    "merge_needs_emulated_sets",
    "merge_succeeds_refuted"
   ],
   "note": "REFUTED: merge also merges the emulated sets and raises AttributeError if one of the first operand is absent. Proved if the emulated sets can be merged too."
  },
  {
   "property": "C101",
   "status": "proved",
   "theorems": [
    "bounds_repeat_the_domain",
    "bounds_of_other_number",
    "bounds_commute_with_localize",
    "local_bounds_are_blocks",
    "relative_coordinates_in_unit_cube"
   ],
   "note": "Voronoi sets with a domain whose sides have positive length (last clause)."
  },
  {
   "property": "C102",
   "status": "partial",
   "theorems": [
    "append_adds_rows",
    "append_consistent_iff",
    "append_after_query_refuted",
    "append_to_boxes_refuted",
    "append_then_rebuild_partial"
   ],
   "note": "REFUTED: after any query the stored tree values have the old length, so every query after an append raises length_not_matching; rectangle and ball sets ignore the call. Proved instead: the rows are appended, the exact condition for consistency, and correct answers after set_kdtree."
  },
  {
   "property": "C103",
   "status": "partial",
   "theorems": [
    "bounding_box_refuted",
    "bounding_box_stays",
    "bounding_box_partial"
   ],
   "note": "REFUTED: the box is cached and never follows later values. Partial: smallest box for histories that call set_bounding_box between a change and the next question."
  },
  {
   "property": "C104",
   "status": "partial",
   "theorems": [
    "radii_are_largest_distances_partial",
    "radii_returned_iff",
    "radii_layout_independent_partial",
    "radii_process_count_refuted",
    "radii_few_points_refuted"
   ],
   "note": "REFUTED: np.max of an empty selection raises as soon as one process draws no point in some cell, so success depends on the distribution; with fewer points than processes the call always fails. Proved instead: the exact condition for success, and the stated values and their independence of the distribution whenever the call returns."
  },
  {
   "property": "C105",
   "status": "proved",
   "theorems": [
    "radii_never_exceed_true_radius"
   ],
   "note": "For every norm, whenever the call returns."
  },
  {
   "property": "C106",
   "status": "proved",
   "theorems": [
    "radii_and_volumes",
    "radii_and_volumes_returned_iff",
    "monte_carlo_shares_add_up"
   ],
   "note": "Whenever the call returns; the condition for returning is that of C104."
  },
  {
   "property": "C107",
   "status": "partial",
   "theorems": [
    "normal_parameters_partial",
    "normal_parameters_array_number_refuted",
    "normal_parameters_array_list_refuted",
    "normal_parameters_array_arrays_partial",
    "normal_parameters_numpy_integer_refuted",
    "normal_parameters_wrong_length_accepted"
   ],
   "note": "REFUTED: for data given as an array with two or more columns, the default std raises IndexError and lists raise dim_not_matching; numpy integers are not broadcast. Proved for sample sets and discretizations, and for arrays as arguments."
  },
  {
   "property": "C108",
   "status": "partial",
   "theorems": [
    "rectangle_support_partial",
    "rectangle_support_onto_partial",
    "rectangle_size_list_refuted",
    "regular_rectangle_arguments",
    "rectangle_data_rejected",
    "rectangle_size_rejected"
   ],
   "note": "REFUTED: the documented list of sizes raises TypeError in the uniform partition (1.5 * list). Proved for numbers and arrays, and for all kinds of sizes in the regular partition."
  },
  {
   "property": "C109",
   "status": "proved",
   "theorems": [
    "rectangle_scaled_sizes",
    "rectangle_scaled_constant_column",
    "rectangle_scaled_no_data"
   ],
   "note": "Together with C108 this gives the support. A constant column raises wrong_argument_type, no data raises ValueError."
  },
  {
   "property": "C11",
   "status": "partial",
   "theorems": [
    "get_returns_last_set_partial",
    "unchecked_setters_accept",
    "setters_check_shape",
    "get_after_set_refuted",
    "rejected_values_stored_refuted"
   ],
   "note": "REFUTED: set_error_id_local writes the error_local attribute; values that fit neither way raise but are stored. Partial: all other setters are read back and touch nothing else."
  },
  {
   "property": "C110",
   "status": "proved",
   "theorems": [
    "rectangle_domain_support",
    "regular_domain_box",
    "rectangle_domain_rows"
   ],
   "note": "The documented shape (2, mdim). One row per coordinate is understood as well, except for mdim = 2."
  },
  {
   "property": "C111",
   "status": "partial",
   "theorems": [
    "local_volumes_partial",
    "local_radii",
    "local_hits",
    "local_volumes_processes",
    "local_volumes_limit_refuted"
   ],
   "note": "REFUTED for max_num_emulate <= 10 (or num_emulate_local = 0): no point is drawn and every volume is nan; the same holds if no point falls in its cell. Proved for larger limits when some cell with a positive radius is hit, for every number of processes."
  },
  {
   "property": "C112",
   "status": "partial",
   "theorems": [
    "local_volumes_repeat_refuted"
   ],
   "note": "REFUTED: the first call enlarges the estimated radii by 1.5 but stores them unenlarged, so the second call uses smaller balls. The witness changes a volume from 0 to 2/3."
  },
  {
   "property": "C113",
   "status": "proved",
   "theorems": [
    "fallback_is_one_process",
    "package_calls_replaceable",
    "replaceable_iff",
    "fresh_buffer_not_filled",
    "replacement_versions",
    "searches_need_old_python",
    "reduce_copy_sums",
    "reduce_copy_max",
    "reduce_number_everywhere",
    "reduce_lists_joined",
    "reduce_copy_misfit",
    "reduce_different_operations",
    "global_values_joins",
    "search_best_everywhere"
   ],
   "note": "Programs are sequences of collective calls with arbitrary computations between them; the communication patterns of the package are listed in Comm_Model. replaceable_iff gives the exact calls for which the replacement is faithful. Copying of objects by mpi4py (identity) is not modelled. The property is stated for the Python versions the project tests (3.6-3.8): from Python 3.10 on collections.Iterable is gone and the replacement's scatter raises AttributeError; replacement_versions and searches_need_old_python say exactly which programs that affects."
  },
  {
   "property": "C114",
   "status": "partial",
   "theorems": [
    "ball_volumes",
    "ball_volumes_partial",
    "ball_volumes_overlap_refuted"
   ],
   "note": "REFUTED for overlapping balls (a ball given twice has twice the volume although query never answers the second; the rest becomes negative); the code only logs a warning. Proved: the formula and the sum for every norm, and the full claim for disjoint balls in the domain when balls are cubes (p = inf in every dimension, any p on the line). Missing: that unit * r^d is the volume of a p-ball for other p in two or more dimensions."
  },
  {
   "property": "C115",
   "status": "partial",
   "theorems": [
    "exact_volume_2D_correct",
    "full_reflection_suffices",
    "extended_list_acceptable",
    "exact_volume_2D_refuted",
    "cells_have_room"
   ],
   "note": "REFUTED: only samples within side_ratio widths of a side are reflected. If no sample is that close to some side (default 0.25: all samples in the middle half), the sample nearest to that side has an unbounded cell and gets volume 0 although its cell contains a square of the domain. Proved: the claim holds for every ratio for which each cell that reaches a side belongs to a reflected sample, in particular for side_ratio >= 1, given scipy's diagram (an oracle that tiles bounded cells by triangles)."
  },
  {
   "property": "C116",
   "status": "proved",
   "theorems": [
    "rectangle_setup_accepts",
    "ball_setup_accepts",
    "rectangle_values_are_middles",
    "ball_values_are_centers",
    "rectangle_query_own_value",
    "ball_query_own_value"
   ],
   "note": "Rectangles of positive width, balls containing their center."
  },
  {
   "property": "C117",
   "status": "partial",
   "theorems": [
    "luq_inversion_partial",
    "luq_every_sample_transformed",
    "luq_labels_refuted",
    "luq_processes_refuted",
    "luq_observed_series_refuted"
   ],
   "note": "REFUTED: every process stores the whole label array as its local part, so on P >= 2 processes the labels appear P times and invert raises ValueError; without an observation set the observed set is never made global, generate_output_kdes replaces all labels by 0 and invert raises ValueError. Proved: the claim on one process with an observation set and at least two clusters."
  },
  {
   "property": "C118",
   "status": "partial",
   "theorems": [
    "random_set_draws",
    "random_set_domain",
    "random_set_accepts",
    "random_set_rejects_unchanged",
    "random_set_rejects_with",
    "random_set_consistent_partial",
    "random_set_consistent_refuted",
    "random_set_twice",
    "random_set_twice_refuted",
    "random_set_rejects_refuted",
    "random_sample_set_inputs",
    "random_sample_set_inputs_rejected"
   ],
   "note": "REFUTED in three points: a local array of another length makes the call raise after the set has been changed; arrays left from an earlier sample (such as volumes) stay, so the returned set can have arrays of different lengths; and the domain is replaced by the support, so sampling a set twice by name uses other parameters (for 'norm' location -inf and scale inf: no sample is finite). Everything else is proved; consistency for sets without such arrays."
  },
  {
   "property": "C119",
   "status": "partial",
   "theorems": [
    "fitted_names",
    "fitted_sampling_partial",
    "fitted_usable",
    "fitted_sampling_refuted"
   ],
   "note": "REFUTED for every distribution whose shapes are not called a, or a and b (lognorm, chi2, t, weibull_min, ...): sampling the stored fit raises. Proved for the others."
  },
  {
   "property": "C12",
   "status": "proved",
   "theorems": [
    "emulated_volumes_are_fractions",
    "emulated_volumes_sum_to_one",
    "emulated_volumes_layout_independent",
    "mc_volumes_are_fractions",
    "mc_assumption_volumes"
   ],
   "note": "The query is an arbitrary function of the point; points are an arbitrary type."
  },
  {
   "property": "C120",
   "status": "partial",
   "theorems": [
    "reference_mapped_iff",
    "reference_skipped_iff",
    "reference_partial",
    "reference_scalar_partial",
    "reference_rows_refuted",
    "reference_rows_only_flat",
    "reference_tuple_refuted"
   ],
   "note": "REFUTED: a model that returns one row per sample makes the whole evaluation raise (dim_not_matching for the shape (1, out), which is not a ValueError and so is not caught, or the model's own IndexError), and so does a model that returns error estimates or Jacobians (AttributeError). Proved: exactly when it works; in particular for models that map flat points to flat values."
  },
  {
   "property": "C121",
   "status": "partial",
   "theorems": [
    "disc_copy_equal_partial",
    "disc_equality_detects_partial",
    "disc_equality_decides_partial",
    "disc_equality_kinds_refuted",
    "disc_equality_list_array_refuted",
    "disc_equality_lists_refuted"
   ],
   "note": "REFUTED: comparing raises TypeError if one side lacks a set, AttributeError for list pointers; proved where the same sets and array pointers are present."
  },
  {
   "property": "C122",
   "status": "proved",
   "theorems": [
    "compare_accepts_iff",
    "compare_rejects",
    "comparison_points_iff",
    "comparison_points_rejected",
    "evaluate_pdfs_correct",
    "evaluate_pdfs_refreshes"
   ],
   "note": "The methods pdf and pdf_init are arguments."
  },
  {
   "property": "C123",
   "status": "partial",
   "theorems": [
    "marginal_tv_error",
    "marginal_tv_agrees_with_quad",
    "marginal_euclid_error",
    "marginal_hell_error",
    "marginal_euclid_agrees_with_quad",
    "marginal_hell_agrees_with_quad",
    "quad_euclid_exact",
    "quad_euclid_symmetric",
    "quad_euclid_triangle",
    "quad_hell_triangle",
    "quad_tv_bounded",
    "quad_tv_triangle",
    "quad_tv_zero_iff",
    "quad_hell_bounded",
    "quad_kl_nonnegative",
    "quad_norm_refuted",
    "marginal_norm_refuted"
   ],
   "note": "REFUTED for 'norm' in both methods. Proved for the others under Lipschitz continuity."
  },
  {
   "property": "C124",
   "status": "partial",
   "theorems": [
    "smooth_is_distribution_partial",
    "smooth_one_bin_refuted",
    "smooth_rejects_lengths",
    "smooth_centred_odd_refuted",
    "smooth_centred_even_refuted"
   ],
   "note": "REFUTED: fftshift leaves the centre of the kernel at index -1 (odd number of bins) or -1/2 (even), so smoothing moves the marginal to the left; one bin gives nan. Proved: a probability vector for two or more bins. The transforms are modelled as circular convolution; smooth_marginals_2D is the subject of C125."
  },
  {
   "property": "C125",
   "status": "partial",
   "theorems": [
    "smooth2_is_distribution_partial",
    "smooth2_independent",
    "smooth2_one_column_refuted",
    "smooth2_one_row",
    "smooth2_one_col",
    "smooth2_refused",
    "smooth2_centred_refuted"
   ],
   "note": "REFUTED: moved by one bin in both directions for odd numbers of bins; one column gives nan. Proved: a table of probabilities for two or more bins in both directions, and independent variables are smoothed separately (with C124 this gives the displacement for all parities)."
  },
  {
   "property": "C126",
   "status": "partial",
   "theorems": [
    "plot_1D_lines_cover_cells",
    "plot_1D_accepts",
    "plot_1D_heights_refuted",
    "plot_1D_measure_refuted",
    "plot_1D_rejects",
    "plot_1D_gathers"
   ],
   "note": "REFUTED: heights use the probability of the smallest sample; right iff all probabilities are equal. Proved: one line per sample, over exactly its Voronoi cell; checks of the argument."
  },
  {
   "property": "C127",
   "status": "partial",
   "theorems": [
    "polygons_lie_in_cells",
    "finite_cells_unchanged",
    "infinite_cells_closed",
    "polygons_cover_refuted"
   ],
   "note": "REFUTED: the polygons need not cover the samples. Proved: vertices lie in the cells, finite cells unchanged, infinite cells closed by one point on each infinite ridge. The contract of scipy.spatial.Voronoi is a hypothesis; the sort by angle is any permutation, so the counterclockwise order is not proved."
  },
  {
   "property": "C128",
   "status": "partial",
   "theorems": [
    "plot_2D_colours_partial",
    "plot_2D_labels_refuted",
    "plot_2D_all_zero_refuted",
    "plot_2D_zero_volume_refuted",
    "plot_2D_rejects"
   ],
   "note": "REFUTED: labels raise UnboundLocalError; all-zero probabilities give nan. Proved: colours are proportional to the densities, with largest value 1; checks of the argument."
  },
  {
   "property": "C129",
   "status": "proved",
   "theorems": [
    "emulated_volumes_agree_with_emulated_samples",
    "emulated_volumes_formula",
    "emulated_volumes_total",
    "emulated_volumes_without_points",
    "emulated_volumes_process_independent"
   ],
   "note": "The nearest-sample query is an argument."
  },
  {
   "property": "C13",
   "status": "proved",
   "theorems": [
    "exact_1D_volumes",
    "exact_1D_volumes_distinct",
    "exact_1D_volumes_reorder",
    "exact_1D_one_sample"
   ],
   "note": "argsort is any sorting permutation. The statement's bound of two samples is sharp: one sample raises IndexError."
  },
  {
   "property": "C130",
   "status": "partial",
   "theorems": [
    "scatter_shows_samples",
    "scatter_succeeds",
    "scatter_caption",
    "scatter_rejects",
    "named_colours_partial",
    "array_colours",
    "normalized_radii_refuted",
    "scatter_3D_of_discretization_refuted",
    "extension_added_partial",
    "extension_refuted"
   ],
   "note": "REFUTED: the name 'normalized radii' (compared by identity) is never recognised; scatter_3D_input and scatter_3D_output call themselves with a sample set and raise; no extension is added to a path with a dot. The rest is proved. Interning of string literals as in CPython is modelled."
  },
  {
   "property": "C131",
   "status": "partial",
   "theorems": [
    "rhoD_projections",
    "rhoD_all_coordinates",
    "rhoD_whole_set",
    "rhoD_zero_refuted",
    "rhoD_label_refuted",
    "rhoD_extension_refuted",
    "rhoD_default_refuted",
    "rhoD_set_refuted"
   ],
   "note": "REFUTED: label_char and (mostly) file_extension have no effect; coordinate 0 shows the last one; one dimension raises; more than three dimensions plot nothing by default; colours of sample sets. Proved: projections, colours, labels and file names for discretizations."
  },
  {
   "property": "C132",
   "status": "partial",
   "theorems": [
    "multi_all_pairs",
    "multi_one_coordinate_refuted",
    "multi_folder",
    "multi_reference_refuted",
    "multi_input_refuted",
    "multi_output_refuted",
    "multi_output_named"
   ],
   "note": "REFUTED: a coordinate is plotted against itself, the reference value of the set is not used, and the versions for discretizations raise NameError (inputs always, outputs unless the colour is a name). Proved: one plot per pair, with labels and files named after the coordinates."
  },
  {
   "property": "C133",
   "status": "partial",
   "theorems": [
    "domain_all_pairs",
    "domain_one_coordinate",
    "domain_defaults",
    "domain_many_references_refuted",
    "domain_eight_references_refuted"
   ],
   "note": "REFUTED for more reference values than markers or (seven default) colours. The rest is proved."
  },
  {
   "property": "C134",
   "status": "partial",
   "theorems": [
    "plot_1D_shows_density_partial",
    "plot_1D_middles_refuted",
    "plot_1D_other_bins_refuted",
    "plot_2D_shows_density",
    "contours_show_density_partial",
    "contours_one_bin_refuted",
    "images_no_bins",
    "marginal_plots_reject_other_objects"
   ],
   "note": "REFUTED: points of curves are not at the middles of the bins (they lie over their bin), curves ignore the interval of the bins, contours need two bins in each direction. Proved: heights, pixels, marks, labels, file names. The work of matplotlib is not modelled, except that contour rejects arrays with one row or column and plot rejects different lengths."
  },
  {
   "property": "C135",
   "status": "partial",
   "theorems": [
    "densities_show_sets",
    "densities_cover_samples",
    "densities_default_names_partial",
    "densities_same_names_refuted",
    "densities_num_points_refuted",
    "densities_reject_other_objects"
   ],
   "note": "REFUTED: num_points has no effect without interval; sets with equal parameter labels give curves of the same name. The rest is proved. The densities themselves are arguments (they are modelled in Updated_*)."
  },
  {
   "property": "C136",
   "status": "proved",
   "theorems": [
    "regular_cells",
    "regular_cells_cover",
    "regular_mc_exact",
    "regular_1D_volumes",
    "regular_box_volumes",
    "regular_cells_inf_partial",
    "regular_cells_inf_refuted"
   ],
   "note": "The distance is compared by its p-th power. For p = inf one direction holds (_partial) and the other fails (_refuted), as the statement says."
  },
  {
   "property": "C137",
   "status": "partial",
   "theorems": [
    "workflow_solution_partial",
    "workflow_local",
    "workflow_same",
    "workflow_renumber",
    "workflow_push_forward",
    "workflow_flat_outputs",
    "workflow_late_volumes_refuted"
   ],
   "note": "REFUTED: volumes given after the evaluation (the local volumes stay undefined, prob raises TypeError). Everything else of the statement is proved; _partial has the hypothesis that given volumes are set first."
  },
  {
   "property": "C138",
   "status": "proved",
   "theorems": [
    "prob_rounding",
    "prob_rounding_processes",
    "prob_rounding_totals",
    "transfer_rounding",
    "close_error"
   ],
   "note": "Agreement up to e means a (1 - e) <= b and b (1 - e) <= a; close_error gives the usual bound e / (1 - e). Rounding to 53 binary digits (round_to_rounding) and left-to-right sums meet the hypotheses. Underflow is not modelled."
  },
  {
   "property": "C139",
   "status": "proved",
   "theorems": [
    "schedule_irrelevant",
    "outcome_unique",
    "hang_is_no_end",
    "prob_any_schedule",
    "prob_globalize_any_schedule",
    "transfer_any_schedule",
    "volume_emulated_any_schedule",
    "marginals_any_schedule",
    "check_num_any_schedule",
    "local_to_global_any_schedule",
    "global_to_local_any_schedule"
   ],
   "note": "Every process runs its own program and meets the others only in barrier, allreduce, Allreduce and allgather; a process may be ahead of one that has not yet left the last call. The lock-step results are those of the other files. For check_num and global_to_local the hypothesis is that check_num does not raise in lock step (see C140)."
  },
  {
   "property": "C14",
   "status": "proved",
   "theorems": [
    "rectangle_volumes",
    "cartesian_volumes"
   ],
   "note": "Disjointness of half-open boxes implies the total-volume bound by induction on the dimension."
  },
  {
   "property": "C140",
   "status": "partial",
   "theorems": [
    "prob_error_hangs_refuted",
    "transfer_error_hangs_refuted",
    "check_num_error_hangs_refuted",
    "plot_error_hangs_refuted",
    "local_to_global_mixes_refuted",
    "prob_error_everywhere_partial",
    "plot_any_schedule_partial"
   ],
   "note": "REFUTED: an error on some of the processes blocks the others for ever (prob, prob_from_sample_set, check_num, plots of marginals), for every schedule; different local arrays on the processes are mixed without an error."
  },
  {
   "property": "C141",
   "status": "proved",
   "theorems": [
    "apart_independent",
    "references_like_values",
    "setters_like_values"
   ],
   "note": "A store of sets and discretizations with references into it; exceptions keep the state reached. references_like_values and setters_like_values link the store to the model with sets as values (Disc_*), so the theorems about it hold for discretizations whose places hold distinct objects."
  },
  {
   "property": "C142",
   "status": "partial",
   "theorems": [
    "shared_input_refuted",
    "shared_input_last_wins",
    "shared_input_solve_again_partial"
   ],
   "note": "REFUTED: the second solution overwrites the first one, which lies in the same input set (witness, and for all inputs in shared_input_last_wins). Proved: solving again restores the probabilities."
  },
  {
   "property": "C143",
   "status": "partial",
   "theorems": [
    "copy_same_problem",
    "copy_independent",
    "clip_new_sets",
    "clip_solve_keeps_partial",
    "merge_new_sets",
    "clip_emulated_refuted"
   ],
   "note": "REFUTED: prob_on_emulated_samples on a clip overwrites the emulated probabilities of the original. Proved for copy with any history, for prob on a clip, and which sets clip and merge share with the originals."
  },
  {
   "property": "C144",
   "status": "partial",
   "theorems": [
    "random_new_set",
    "lhs_new_set",
    "regular_new_set",
    "random_keeps_old_refuted",
    "lhs_keeps_old_refuted",
    "regular_keeps_old_refuted",
    "random_length_refuted",
    "lhs_then_random_refuted"
   ],
   "note": "REFUTED for given sets: everything except the samples (and the bounds, for lhs) stays, so that volumes and probabilities of the old samples are attached to the new ones; with another number of samples the call raises after it has changed the set, or (after lhs) only the later evaluation of the model raises. Proved for a dimension or a domain."
  },
  {
   "property": "C145",
   "status": "partial",
   "theorems": [
    "discretization_kept_partial",
    "input_resampled_refuted"
   ],
   "note": "REFUTED: random_sample_set changes the given set, so that an earlier discretization with this set as input gets new inputs with its old outputs. Proved for all histories that do not reach the discretization: the sampler has gone on to another set and another discretization, and no call is given one of its sets."
  },
  {
   "property": "C146",
   "status": "partial",
   "theorems": [
    "create_random_pairs",
    "outputs_in_order",
    "compute_flat_outputs",
    "globalize_later",
    "create_without_number_refuted"
   ],
   "note": "REFUTED: without num_samples the call raises AttributeError (a sampler has no attribute num_samples). The rest is proved. The requested number of rows is in random_new_set (C144)."
  },
  {
   "property": "C147",
   "status": "proved",
   "theorems": [
    "sampler_copy_same",
    "sampler_copy_apart"
   ],
   "note": "deepcopy with one memo table for the whole sampler."
  },
  {
   "property": "C148",
   "status": "partial",
   "theorems": [
    "object_marginals_1D",
    "object_marginals_2D",
    "marginal_errors",
    "marginals_stale_refuted",
    "emulated_marginals_refuted",
    "numpy_bins_refuted"
   ],
   "note": "REFUTED: global probabilities set after local ones exist are ignored; an emulated input set without probabilities hides those of the input set (missing_attribute); numpy integers as number of bins raise IndexError. The rest is proved."
  },
  {
   "property": "C149",
   "status": "partial",
   "theorems": [
    "object_sorted_partial",
    "object_selected_partial",
    "object_highest_partial",
    "object_lowest_partial",
    "object_sort_refuted"
   ],
   "note": "REFUTED: probabilities that are only local raise TypeError, discretizations without outputs AttributeError. Proved for all objects with global arrays in which no sample has probability and volume zero. argsort is any function that sorts."
  },
  {
   "property": "C15",
   "status": "partial",
   "theorems": [
    "local_volume_budget_refuted",
    "local_volume_positive_refuted",
    "local_volume_budget_partial",
    "local_volume_positive_partial",
    "local_volume_normalized_partial",
    "local_volume_scale_free",
    "local_points_bound",
    "local_points_limit_refuted"
   ],
   "note": "REFUTED: the budget is tested before the draw is multiplied by ten (a budget of 5000 draws 10000 points in one go), and a budget of at most 10 draws nothing, giving nan volumes. Proved instead: termination for every outcome, draws below ten times the budget, normalization when some estimate is positive."
  },
  {
   "property": "C150",
   "status": "proved",
   "theorems": [
    "solution_marginals_1D",
    "solution_marginals_2D",
    "solution_selected"
   ],
   "note": "Volumes by Monte Carlo, or given before the evaluation (C137). argsort is any function that sorts."
  },
  {
   "property": "C151",
   "status": "partial",
   "theorems": [
    "density_weights",
    "density_pdf_partial",
    "density_pdf_refuted",
    "density_processes",
    "density_again",
    "density_renumbered",
    "density_observed_refuted",
    "density_labels_refuted"
   ],
   "note": "REFUTED: with a label between the used ones that no sample has, the inversion succeeds and every evaluation of the density raises TypeError; observations that are only distributed raise TypeError because the observed set is not made global; distributed labels of the outputs without labels of the observations give one cluster in the first inversion and TypeError in the next. The rest is proved. gaussian_kde is any function."
  },
  {
   "property": "C152",
   "status": "partial",
   "theorems": [
    "input_initial_weights_refuted",
    "output_initial_weights",
    "density_weights"
   ],
   "note": "REFUTED: initial weights of the input set have no effect on any discretization. Those of the output set weight the predicted density (density_weights, with a case in which the result differs)."
  },
  {
   "property": "C153",
   "status": "proved",
   "theorems": [
    "sensitivity_measure",
    "sensitivity_skewness",
    "sensitivity_same_answer",
    "sensitivity_large"
   ],
   "note": "Singular values and row lengths are arguments with the properties of a volume (order of rows, Hadamard). argsort and the order of Python sets are arbitrary."
  },
  {
   "property": "C154",
   "status": "proved",
   "theorems": [
    "luq_object_history",
    "luq_object_failure",
    "luq_object_early",
    "luq_object_discs",
    "luq_object_inversion"
   ],
   "note": "LUQ and the model are arguments. Number of weights under the assumption that the model gives one series per sample and LUQ one label per series."
  },
  {
   "property": "C155",
   "status": "partial",
   "theorems": [
    "luq_object_by_hand_refuted",
    "luq_object_stale_refuted",
    "luq_object_saved_partial",
    "luq_object_saved_refuted",
    "luq_object_distributed_refuted"
   ],
   "note": "REFUTED: setup evaluates the observation set in any case, so it raises AttributeError without one and replaces observations set by hand with one; samples exchanged after the predictions get the labels of the old ones; local_to_global of the object does nothing, so a saved distributed prediction set comes back as copies of one process's part; local arrays are not evaluated. Proved: saving and loading on one process."
  },
  {
   "property": "C156",
   "status": "partial",
   "theorems": [
    "given_accepted",
    "given_stored",
    "given_history",
    "given_appended",
    "given_append_rejected",
    "given_either_way",
    "given_square_refuted",
    "given_rejected_refuted"
   ],
   "note": "REFUTED: as many points as dimensions are read by rows even if they were given by columns; an input that does not fit is stored by set_values before it raises dim_not_matching. The rest is proved; append_values rejects without a change."
  },
  {
   "property": "C157",
   "status": "partial",
   "theorems": [
    "volumes_last_partial",
    "volumes_ignored_refuted",
    "volumes_lost_refuted",
    "volumes_missing_refuted"
   ],
   "note": "REFUTED: exact_volume_lebesgue, exact_volume of balls and set_volumes change only the global array, which prob does not read: it uses the volumes before them (or raises TypeError). set_volumes_local is overwritten by older global volumes at the next global_to_local. Proved: exactly when the volumes of the last call are used; in all these cases prob is the solution for them."
  },
  {
   "property": "C158",
   "status": "partial",
   "theorems": [
    "gmm_moments_partial",
    "gmm_undefined_refuted",
    "gmm_pdf_partial",
    "gmm_gap_refuted",
    "gmm_processes"
   ],
   "note": "REFUTED: a cluster whose ratios are not all finite or all vanish gets nan as mean and covariance and the inversion succeeds; with a label that no sample has the marginals raise TypeError. Proved: fractions, moments and the mixture density in all other cases; the result does not depend on processes or earlier inversions."
  },
  {
   "property": "C159",
   "status": "partial",
   "theorems": [
    "gaussian_moments_partial",
    "gaussian_mixture_partial",
    "gaussian_mixture_refuted",
    "gaussian_gap_refuted",
    "fit_copies_partial",
    "fit_undefined_refuted",
    "fitted_variables_partial",
    "variables_refused"
   ],
   "note": "REFUTED: every cluster counts by its fraction times the sum of its ratios, so mean and covariance are those of the mixture only if these sums agree; a label without samples raises TypeError and undefined or vanishing weights raise ValueError. Proved: the exact moments, equality with the mixture for equal sums, and the numbers of copies up to rounding."
  },
  {
   "property": "C16",
   "status": "proved",
   "theorems": [
    "rectangle_query_first"
   ],
   "note": ""
  },
  {
   "property": "C160",
   "status": "partial",
   "theorems": [
    "rejection_ranks_partial",
    "rejection_processes_partial",
    "rejection_processes_refuted",
    "rejection_gap_refuted"
   ],
   "note": "REFUTED: every process draws its own numbers and keeps its own samples, so the global arrays differ and the local parts can hold a sample twice or miss one; a label that no sample has raises AttributeError. Proved: what each process holds, and one sample set in P blocks if all processes draw the same numbers."
  },
  {
   "property": "C161",
   "status": "partial",
   "theorems": [
    "learned_values",
    "learned_weights_partial",
    "learned_kde_partial",
    "learned_gmm_partial",
    "learned_gaussian_partial",
    "learned_fit_partial",
    "learned_rejection_partial",
    "learned_one_cluster_refuted"
   ],
   "note": "REFUTED: with a single learned cluster no density is estimated (the number of maps is tested instead of the number of samples) and every inversion raises TypeError. Proved for two or more clusters with two outputs and two observations each, exceptions included."
  },
  {
   "property": "C162",
   "status": "partial",
   "theorems": [
    "measure_history_partial",
    "measure_processes_partial",
    "measure_atomic_refuted",
    "measure_labels_refuted"
   ],
   "note": "REFUTED: an inversion that raises after invert has replaced the weights but keeps the old measure; an inversion without labels stores labels in the outputs, which count when labelled observations follow. Proved for all histories in which all observed sets have labels and the outputs too, or no observed set has."
  },
  {
   "property": "C163",
   "status": "proved",
   "theorems": [
    "resampled_density",
    "resampled_kde_partial",
    "resampled_gmm_partial",
    "variables_density",
    "resampled_refused"
   ],
   "note": "Values of the new set are drawn by an oracle (C74, C40). resampled_kde_partial and resampled_gmm_partial give the density explicitly for kernel density estimates and Gaussian mixtures without empty clusters, variables_density for random variables."
  },
  {
   "property": "C164",
   "status": "proved",
   "theorems": [
    "model_error_answers",
    "model_error_processes",
    "model_error_needs_estimates",
    "model_error_needs_regions"
   ],
   "note": "Consistent state: trees and local arrays belong to the present global arrays, stored pointers to the present sets, volumes are not negative. nan, inf and ZeroDivisionError are part of the specification of the answers."
  },
  {
   "property": "C165",
   "status": "partial",
   "theorems": [
    "model_error_keeps_data_partial",
    "model_error_keeps_data_refuted"
   ],
   "note": "REFUTED: volumes set after the old ones were distributed are overwritten with the old ones by the next question about a region. Proved for consistent states and all questions."
  },
  {
   "property": "C166",
   "status": "partial",
   "theorems": [
    "model_error_changes_partial",
    "model_error_later_emulated_refuted",
    "model_error_later_probability_set_refuted",
    "model_error_later_volumes_refuted"
   ],
   "note": "REFUTED: an emulated set given later makes questions about regions raise AttributeError; another output probability set is compared with pointers into the old one; new volumes are ignored once the old ones were distributed. Proved for new probabilities in any history of questions."
  },
  {
   "property": "C167",
   "status": "partial",
   "theorems": [
    "surrogate_built_and_old_kept",
    "surrogate_linear_exact_refuted"
   ],
   "note": "REFUTED for order 1: the difference is taken as old sample minus new sample, so an affine map with exact Jacobians gets twice the old output minus the right one, for all inputs. The rest is proved for all histories of calls; order 1 is stated as coded."
  },
  {
   "property": "C168",
   "status": "partial",
   "theorems": [
    "surrogate_answers",
    "surrogate_given_set",
    "surrogate_answers_any_processes",
    "surrogate_given_volumes_refuted"
   ],
   "note": "REFUTED: volumes set after the values of the given set were distributed are ignored and equal volumes are used. Proved for all histories of calls when the ranks have the volumes or none are given."
  },
  {
   "property": "C169",
   "status": "partial",
   "theorems": [
    "surrogate_update",
    "surrogate_update_lasts_refuted"
   ],
   "note": "REFUTED: only the global probabilities are set, and probabilities that the processes hold from an earlier calculation overwrite them at the next local_to_global, for instance when another surrogate is built. The values stored by the update are proved for all histories."
  },
  {
   "property": "C17",
   "status": "partial",
   "theorems": [
    "rectangle_k_query_distinct_refuted",
    "ball_k_query_distinct_refuted",
    "k_query_distinct_refuted",
    "k_query_distinct_partial"
   ],
   "note": "REFUTED: for every k >= 3 some cell is listed twice, for all rectangle and ball sets. Proved instead: distinctness for k = 2 when the point is inside a rectangle."
  },
  {
   "property": "C170",
   "status": "partial",
   "theorems": [
    "sampling_error_answers_partial",
    "sampling_error_order_refuted",
    "sampling_error_refuses"
   ],
   "note": "REFUTED: on the line the neighbour table is computed for the sorted samples and used for the stored ones, so the bounds depend on the order in which the same samples are stored. Proved for all sequences of questions and process numbers, in several dimensions for every Delaunay triangulation, on the line when the sorting permutation is its own inverse."
  },
  {
   "property": "C171",
   "status": "partial",
   "theorems": [
    "sampling_error_processes",
    "sampling_error_keeps_data_partial",
    "sampling_error_keeps_data_refuted"
   ],
   "note": "REFUTED: volumes set after the old ones were distributed are overwritten with the old ones by the next question about a region. Process independence and the kept data are proved for consistent states (same neighbour tables as C170)."
  },
  {
   "property": "C172",
   "status": "partial",
   "theorems": [
    "sampling_error_changes_partial",
    "sampling_error_later_probability_set_refuted",
    "sampling_error_later_emulated_refuted"
   ],
   "note": "REFUTED: a new output probability set is compared with the global pointer into the old one, also by an object built anew; a new emulated set is used with the cells of the old points if their pointer was computed. Proved for new probabilities and new emulated sets in any history without these pointers."
  },
  {
   "property": "C173",
   "status": "partial",
   "theorems": [
    "sampling_bounds_bracket_partial",
    "sampling_bounds_bracket_refuted"
   ],
   "note": "REFUTED: if the estimated volumes of the touching cells of the event are zero and those of its neighbours are not, both bounds are minus the probability, so the upper bound is negative. Proved when the touching cells of the event have volume or no cell touching it has."
  },
  {
   "property": "C174",
   "status": "proved",
   "theorems": [
    "model_error_is_change",
    "model_error_is_change_of_solution"
   ],
   "note": ""
  },
  {
   "property": "C175",
   "status": "partial",
   "theorems": [
    "contour_error_is_gain_partial",
    "contour_error_bounds_change_refuted"
   ],
   "note": "REFUTED: the estimate is the corrected probability of the samples that come into the event; samples that leave it for other events keep probability from those, so the probability of the event's samples can grow while the estimate is 0. Proved: what the estimate is, and that it bounds the loss of the event."
  },
  {
   "property": "C176",
   "status": "proved",
   "theorems": [
    "sampling_bounds_enclose"
   ],
   "note": "The neighbour table is that of C170 (on the line: samples in an order whose sorting permutation is its own inverse)."
  },
  {
   "property": "C177",
   "status": "partial",
   "theorems": [
    "sampling_lower_bound_partial",
    "sampling_upper_bound_refuted"
   ],
   "note": "REFUTED: the upper bound looks at the event alone; other events that reach into its cells add probability there. The lower bound is proved, with volumes estimated from the emulated points."
  },
  {
   "property": "C178",
   "status": "proved",
   "theorems": [
    "solution_stable",
    "solution_linear"
   ],
   "note": "Volumes set before the evaluation of the model, or Monte Carlo volumes (others raise, C137)."
  },
  {
   "property": "C179",
   "status": "proved",
   "theorems": [
    "solution_volume_unit",
    "solution_even_volumes",
    "solution_finer_samples"
   ],
   "note": ""
  },
  {
   "property": "C18",
   "status": "proved",
   "theorems": [
    "cartesian_partition"
   ],
   "note": ""
  },
  {
   "property": "C180",
   "status": "partial",
   "theorems": [
    "data_samples_solution",
    "data_samples_even_partial",
    "data_samples_total",
    "data_samples_even_refuted"
   ],
   "note": "REFUTED: a nearest-neighbour query answers with one of several equal outputs, so the cells of the others stay empty; whenever two samples have the same output the total probability is (number of different outputs)/n < 1. Proved: the exact probabilities and their total for all models, and the claim when all outputs differ."
  },
  {
   "property": "C181",
   "status": "partial",
   "theorems": [
    "batches_one_run_partial",
    "batches_one_run_refuted"
   ],
   "note": "REFUTED: merge joins the local arrays of the two runs, estimate_volume_mc with globalize splits the input set anew but not the output set; unless the number of processes divides the size of one of the batches, prob raises IndexError. Proved: the claim with globalize=False for all sizes, and with globalize when one batch can be split evenly."
  },
  {
   "property": "C182",
   "status": "partial",
   "theorems": [
    "chosen_same_solution_partial",
    "chosen_volumes_refuted"
   ],
   "note": "REFUTED: choose_inputs_outputs copies values, error estimates and Jacobians but not volumes, so if the volumes were defined before the choice (in any of the ways) and some output cell has a positive probability, prob raises TypeError (chosen_volumes_refuted, for all such problems). Proved: with volumes estimated after the choice the probabilities are those of the problem whose model computes only the chosen outputs."
  },
  {
   "property": "C183",
   "status": "partial",
   "theorems": [
    "restart_same_solution_partial",
    "restart_pointers_refuted",
    "restart_unlocalized_refuted"
   ],
   "note": "REFUTED: every process writes its own object to the same file and only the global arrays agree. Saved after the output probabilities, the local pointers of the last writer are on every process of the second run and prob uses them: IndexError whenever a block of the second run has another size than the writer's (so always from one process to several), other numbers silently when the sizes agree (example). Without localize the local arrays of the samples are the writer's as well, and the answer is that for copies of its block. True part: one process in both runs, or localize=True and pointers computed in the second run."
  },
  {
   "property": "C184",
   "status": "proved",
   "theorems": [
    "clipped_same_as_first",
    "clipped_solution_kept"
   ],
   "note": "Volumes set before the evaluation of the model, or Monte Carlo volumes (others raise, C137). c = 0 is left out: scipy decides about a tree without points."
  },
  {
   "property": "C185",
   "status": "partial",
   "theorems": [
    "emulated_solution_partial",
    "emulated_cells_partial",
    "emulated_stored_refuted"
   ],
   "note": "REFUTED: output probabilities stored with set_output_probability_set or by simpleFunP set only the local pointer, and prob_on_emulated_samples renews the pointers only if the local one is missing, so it subscripts None: TypeError for all such problems. Proved: both claims when the discretization is constructed with the probability set or set_io_ptr/globalize_ptrs is called before."
  },
  {
   "property": "C186",
   "status": "partial",
   "theorems": [
    "moved_sums",
    "moved_solution",
    "moved_points",
    "moved_again_partial",
    "moved_again_refuted"
   ],
   "note": "REFUTED in its last sentence: the moved probabilities are stored only in the global array. A new set that already has distributed values and probabilities passes on its own old local probabilities in the next move, and one with local values but no local probabilities raises TypeError. Proved: all other sentences, and chains when the middle set has no local values."
  },
  {
   "property": "C187",
   "status": "partial",
   "theorems": [
    "points_moved",
    "points_moved_some",
    "points_none",
    "points_own",
    "points_back",
    "points_solved_first",
    "points_local_refuted",
    "points_stale_refuted"
   ],
   "note": "REFUTED in its last clause: this function reads the global probabilities of the old set and prob_from_sample_set its local ones. After prob(globalize=False) it raises TypeError where the other works, and for a set into which probabilities were moved although it had local ones (C186) the two move different numbers. Proved: everything else, and the last clause for sets whose local and global probabilities agree."
  },
  {
   "property": "C188",
   "status": "partial",
   "theorems": [
    "refined_partial",
    "refined_runs",
    "refined_refuted",
    "refined_number_refuted"
   ],
   "note": "REFUTED: a run that starts with the evaluation of the model uses the samples distributed before (compute_qoi only distributes a set without local values), and local_to_global then overwrites the replaced or added samples. Once a solution exists, a different number of samples raises length_not_matching. Proved for all histories: with global_to_local or estimate_volume_mc first, and the number of samples changed at most before the first solution, every run equals a new calculation; and in general which samples each run uses."
  },
  {
   "property": "C189",
   "status": "partial",
   "theorems": [
    "lp_uniform_scales",
    "lp_beta_scales_partial",
    "lp_normal_scales_partial",
    "lp_normal_scale_refuted",
    "lp_infinite_refuted",
    "lp_uniform_balls",
    "lp_uniform_balls_infinite",
    "lp_beta_balls",
    "lp_mirrored"
   ],
   "note": "REFUTED: Lp_generalized_normal multiplies by scale**(1/p), which is the scale only for p = 1; for p = inf it returns the corners of a fixed cube whatever the scale, and Lp_generalized_beta raises ValueError. Proved: the scaling of the uniform sampler for all p and of the beta sampler for finite p, and both statements about balls, from the density of the beta distribution. Over the reals; draws with all coordinates 0 are excluded."
  },
  {
   "property": "C19",
   "status": "proved",
   "theorems": [
    "ball_query_first_ball",
    "ball_query_norms"
   ],
   "note": "For every norm (the comparison norm(v) < r is a parameter), and for p = 1, 2, inf with the norms written out over the reals."
  },
  {
   "property": "C190",
   "status": "partial",
   "theorems": [
    "extended_rows",
    "extended_check",
    "extended_shape_refused",
    "extended_missing_refused",
    "extended_distributed_partial",
    "extended_lost_refuted",
    "extended_fixed_refuted"
   ],
   "note": "REFUTED in its last sentence: local_to_global after appending to a distributed set brings back the old arrays and loses all appended rows, and rectangle and ball sets ignore all three calls without an error. Proved: everything else, and that nothing is lost if global_to_local is called after appending."
  },
  {
   "property": "C191",
   "status": "proved",
   "theorems": [
    "volumes_rounding",
    "solution_rounding",
    "mc_rounding",
    "emulated_rounding",
    "emulated_points_rounding",
    "moved_rounding",
    "rounding_chain",
    "within_close"
   ],
   "note": "Roundings without underflow or overflow; the numbers of points in the cells are taken as exact (integers below 2^53)."
  },
  {
   "property": "C192",
   "status": "partial",
   "theorems": [
    "finer_cells_partial",
    "finer_cells_less",
    "finer_cells_refuted",
    "finer_cells_same"
   ],
   "note": "REFUTED: a part of positive probability that no output hits takes its probability away from the contour event (proved in general; the loss is at least the probability of the part). Proved: the sum stays if all parts of positive probability are hit by samples of positive volume; it never grows; and exactly when single samples keep their probability."
  },
  {
   "property": "C193",
   "status": "partial",
   "theorems": [
    "finer_partition_partial",
    "finer_partition_less",
    "finer_partition_refuted",
    "finer_partition_nested"
   ],
   "note": "REFUTED: a new cell that no sample of positive volume hits takes its probability, one over the number of new cells, away from the contour event of an old cell (proved in general). Proved: the new partition subdivides the old one, with the sums of the probabilities and in agreement with both queries; the probability stays if every new cell is hit; it never grows."
  },
  {
   "property": "C194",
   "status": "partial",
   "theorems": [
    "units_queries",
    "units_pointers",
    "units_domain",
    "units_scaled",
    "units_draws",
    "units_common_factor",
    "units_voronoi_refuted",
    "units_sign_refuted"
   ],
   "note": "REFUTED for Voronoi cells (uniform partitions, data samples): different factors change the nearest cell, for every nearest neighbour search; and for negative factors with regular partitions, because the cells contain their upper edge only. Proved: regular partitions with positive factors give the same probabilities, the same answers to every query and the same pointers, in any dimension; domains and sizes scaled from the data convert; the same draws give converted bins and points; a common factor keeps the nearest values."
  },
  {
   "property": "C195",
   "status": "partial",
   "theorems": [
    "parameter_units_samples",
    "parameter_units_volumes_1D",
    "parameter_units_rectangles",
    "parameter_units_marginals",
    "parameter_units_emulated_refuted"
   ],
   "note": "REFUTED for emulated volumes of Voronoi cells: different factors change the nearest samples, for every nearest neighbour search (a common factor keeps them, C194). Proved for all inputs: samples convert; exact volumes in one dimension (numpy.argsort answering the same permutation, which is an argsort of both) and volumes of rectangles stay; one- and two-dimensional marginals stay."
  },
  {
   "property": "C196",
   "status": "partial",
   "theorems": [
    "gradient_units_forward_partial",
    "gradient_units_centered_partial",
    "gradient_units_normalized_refuted"
   ],
   "note": "REFUTED with normalize=True, the default: the gradients are divided by their 1-norm, which does not convert. Proved with normalize=False for every model, any dimension, centers and radii, for forward and centered differences."
  },
  {
   "property": "C20",
   "status": "proved",
   "theorems": [
    "meshgrid_is_product",
    "meshgrid_rows",
    "meshgrid_beyond_ten"
   ],
   "note": "Beyond ten vectors the extra ones are silently dropped (third theorem)."
  },
  {
   "property": "C21",
   "status": "partial",
   "theorems": [
    "fix_vector_shape",
    "fix_2darray_vector",
    "fix_2darray_other",
    "fix_2darray_idempotent",
    "fix_domain_arrays",
    "fix_domain_shape",
    "fix_domain_shape_refuted",
    "fix_data_no_dim",
    "fix_data_shape_partial",
    "fix_data_shape_refuted"
   ],
   "note": "REFUTED for two inputs: a domain given as a nested list of two pairs becomes an array with three axes, and fix_dimensions_data(data, dim) transposes (on every call) instead of rejecting data none of whose axes has length dim. All other clauses are proved."
  },
  {
   "property": "C22",
   "status": "proved",
   "theorems": [
    "clean_data_entries",
    "clean_data_all_finite",
    "clean_data_idempotent"
   ],
   "note": ""
  },
  {
   "property": "C23",
   "status": "partial",
   "theorems": [
    "load_returns_last_save_partial",
    "crash_keeps_old_or_new_refuted",
    "globalized_save_load_partial"
   ],
   "note": "REFUTED (crash clause): save_object opens the target with 'wb', so a crash between opening and writing leaves EOFError for both objects. Proved: the store clauses for every history on one process, and for every interleaving of P writers with globalize that all ranks load the object of one rank. Byte-level interleaving of two dumps into the same file is not modelled."
  },
  {
   "property": "C24",
   "status": "partial",
   "theorems": [
    "per_process_save_load_partial",
    "per_process_directory_refuted",
    "per_process_directory_files",
    "per_process_similar_name_refuted",
    "per_process_old_file_refuted"
   ],
   "note": "REFUTED for every name with a directory (load looks for proc0_dir/f instead of dir/proc0_f), and when a file with a similar name or an old plain file exists. Proved for plain names without interfering files, every P and every interleaving."
  },
  {
   "property": "C25",
   "status": "proved",
   "theorems": [
    "prob_spreads",
    "prob_process_independent",
    "prob_fails_iff"
   ],
   "note": ""
  },
  {
   "property": "C26",
   "status": "partial",
   "theorems": [
    "prob_total_one_refuted",
    "prob_total_partial"
   ],
   "note": "REFUTED: an output cell of positive probability without inputs of positive volume loses its mass. Proved instead: the total never exceeds the output total and equals it exactly when no such cell exists."
  },
  {
   "property": "C27",
   "status": "proved",
   "theorems": [
    "emulated_spreads",
    "emulated_process_independent"
   ],
   "note": "The composition io_ptr[emulated_ii_ptr_local]; the history problem of the global pointer is C66."
  },
  {
   "property": "C28",
   "status": "proved",
   "theorems": [
    "transfer_per_cell",
    "transfer_conserves",
    "transfer_nonnegative"
   ],
   "note": "One model for both functions: the query of the new set is an arbitrary pointer array."
  },
  {
   "property": "C29",
   "status": "proved",
   "theorems": [
    "transfer_emulated_conserves",
    "transfer_emulated_process_independent",
    "transfer_emulated_all_missed"
   ],
   "note": "The last theorem records the remaining case: nothing hit gives nan."
  },
  {
   "property": "C30",
   "status": "proved",
   "theorems": [
    "binned_probabilities",
    "user_partition_probabilities",
    "normal_partition_probabilities",
    "normal_partition_process_independent",
    "data_samples_uniform"
   ],
   "note": "Draws, query and the normal density are arbitrary functions."
  },
  {
   "property": "C31",
   "status": "proved",
   "theorems": [
    "regular_partition_uniform",
    "regular_partition_breakpoints",
    "regular_partition_rejects_sizes"
   ],
   "note": ""
  },
  {
   "property": "C32",
   "status": "proved",
   "theorems": [
    "contour_bounds",
    "boundary_sets_meaning"
   ],
   "note": "B, C and A intersected with C are any listings of the interior, touching and common cells. For a fresh object; for the effect of earlier calls see C36."
  },
  {
   "property": "C33",
   "status": "partial",
   "theorems": [
    "connectivity_1D_refuted",
    "connectivity_1D_partial",
    "connectivity_nD"
   ],
   "note": "REFUTED for every argsort: the code uses argsort as if it were the rank, so unsorted samples get wrong neighbours. Proved when the sorting permutation is its own inverse (e.g. increasing samples), and for more dimensions relative to the triangulation."
  },
  {
   "property": "C34",
   "status": "proved",
   "theorems": [
    "model_error_contour",
    "model_error_process_independent"
   ],
   "note": "Zero event volume before or after gives nan (last clause)."
  },
  {
   "property": "C35",
   "status": "partial",
   "theorems": [
    "region_errors_cancel_partial",
    "region_error_bounded",
    "region_error_zero_estimates",
    "region_error_process_independent",
    "region_error_defined_refuted"
   ],
   "note": "REFUTED without points of an event of positive probability before or after the perturbation: ZeroDivisionError (inf in the mc version), even for zero error estimates. Proved in all other cases."
  },
  {
   "property": "C36",
   "status": "partial",
   "theorems": [
    "contour_history_refuted",
    "contour_history_partial",
    "region_history_partial"
   ],
   "note": "REFUTED: reading the defaultdict for a region inserts an empty interior set, so the contour bounds of events without interior cells change from nan to (inf, -p). Proved for all other events and for region queries, for every history."
  },
  {
   "property": "C37",
   "status": "proved",
   "theorems": [
    "weighted_mean_bounds",
    "weighted_cov_semidefinite",
    "weighted_scale_invariant",
    "weighted_moments"
   ],
   "note": "Weights of sum zero give None (nan in the code)."
  },
  {
   "property": "C38",
   "status": "partial",
   "theorems": [
    "rejection_subset_partial",
    "rejection_empty_cluster_refuted"
   ],
   "note": "REFUTED: a label number without samples makes invert_rejection_sampling raise AttributeError although invert succeeds. All clauses are proved when no cluster is empty and each has a positive ratio. The density ratios are an arbitrary function."
  },
  {
   "property": "C39",
   "status": "proved",
   "theorems": [
    "invert_weights",
    "invert_weights_maps"
   ],
   "note": "The ratio is an arbitrary function of cluster and value; the second theorem covers cluster maps."
  },
  {
   "property": "C40",
   "status": "partial",
   "theorems": [
    "updated_count_refuted",
    "updated_count_partial",
    "updated_count_process_independent",
    "gmm_1D_refuted"
   ],
   "note": "REFUTED: clusters are rounded separately (two equal clusters: 1 requested gives 0, 3 requested give 4, for every P), and a mixture in one dimension raises unless every cluster gets exactly one sample. Proved: the deviation is at most half the number of clusters, zero if all products are integers."
  },
  {
   "property": "C41",
   "status": "proved",
   "theorems": [
    "surrogate0_piecewise_constant",
    "surrogate_error_estimates",
    "surrogate0_interpolates",
    "surrogate_process_independent"
   ],
   "note": "The Voronoi query is an arbitrary function into the indices; interpolation for every nearest-neighbour query of a metric and distinct samples."
  },
  {
   "property": "C42",
   "status": "partial",
   "theorems": [
    "surrogate1_reflects",
    "surrogate1_exact_partial",
    "surrogate1_refuted"
   ],
   "note": "REFUTED: the difference has the wrong sign. Proved in general: for an affine map the surrogate returns twice the value at the cell's sample minus the true value; it is exact only where the two agree."
  },
  {
   "property": "C43",
   "status": "proved",
   "theorems": [
    "regular_is_grid",
    "regular_inside_domain",
    "regular_count"
   ],
   "note": ""
  },
  {
   "property": "C44",
   "status": "partial",
   "theorems": [
    "lhs_latin_partial",
    "lhs_parallel_refuted"
   ],
   "note": "REFUTED in parallel: every process draws its own hypercube and the blocks are joined. Proved when all processes draw the same hypercube, in particular for one process."
  },
  {
   "property": "C45",
   "status": "proved",
   "theorems": [
    "compute_qoi_pairs",
    "compute_qoi_pairs_local"
   ],
   "note": ""
  },
  {
   "property": "C46",
   "status": "partial",
   "theorems": [
    "sort_by_rho_partial",
    "sort_by_rho_refuted"
   ],
   "note": "REFUTED: a sample with probability and volume zero has density nan, is returned first and a sample of positive probability is dropped. Proved for all other inputs and every argsort."
  },
  {
   "property": "C47",
   "status": "partial",
   "theorems": [
    "sample_prob_partial",
    "sample_highest_prob_partial",
    "sample_lowest_prob_partial",
    "sample_prob_unsorted_refuted"
   ],
   "note": "REFUTED for sort=False (always UnboundLocalError). Proved for sort=True, both directions, without samples of zero volume and zero probability."
  },
  {
   "property": "C48",
   "status": "proved",
   "theorems": [
    "marginal_1D_bins",
    "marginal_2D_bins",
    "marginal_1D_conserves",
    "marginal_2D_sums_to_1D"
   ],
   "note": ""
  },
  {
   "property": "C49",
   "status": "proved",
   "theorems": [
    "tv_is_metric",
    "tv_normalized_is_bounded_metric"
   ],
   "note": "With normalize the distance is zero exactly for proportional densities; sums of zero (nan) are excluded."
  },
  {
   "property": "C50",
   "status": "partial",
   "theorems": [
    "compare_box_refuted",
    "compare_box_actual",
    "compare_box_partial"
   ],
   "note": "REFUTED: the range of the last dimension is used for all dimensions and the upper end is not enlarged. Proved for one dimension and factor 0."
  },
  {
   "property": "C51",
   "status": "partial",
   "theorems": [
    "distance_history_partial",
    "distance_history_normalized_partial",
    "distance_history_refuted"
   ],
   "note": "REFUTED: a call with normalize=True replaces the stored densities, a later call without normalize uses the normalized ones. Proved: all histories without a normalized call before an unnormalized one."
  },
  {
   "property": "C52",
   "status": "proved",
   "theorems": [
    "ffd_is_forward_difference",
    "cfd_is_centered_difference",
    "ffd_exact_on_affine",
    "cfd_exact_on_quadratic",
    "quadratic_partial_is_derivative",
    "ffd_normalized_rows",
    "cfd_normalized_rows"
   ],
   "note": "All dimensions >= 1, any positive number of centers, non-zero radii (one for all coordinates or one each). Exact arithmetic."
  },
  {
   "property": "C53",
   "status": "proved",
   "theorems": [
    "rbf_dxi_is_derivative"
   ],
   "note": "Over the reals, zero distance included. Uses the axioms of the standard library's real numbers."
  },
  {
   "property": "C54",
   "status": "proved",
   "theorems": [
    "unique_vecs_maximal"
   ],
   "note": "Over the reals; the order in which Python lists sets is arbitrary."
  },
  {
   "property": "C55",
   "status": "proved",
   "theorems": [
    "choose_finds_best"
   ],
   "note": "The criterion (average skewness or measure) is an arbitrary function of sets of QoIs, possibly inf; every sorting permutation for argsort; Jacobians and SVD are behind the criterion."
  },
  {
   "property": "C56",
   "status": "proved",
   "theorems": [
    "good_sets_complete"
   ],
   "note": "Extensions by a larger index, which is how sets are enumerated without repetition."
  },
  {
   "property": "C57",
   "status": "partial",
   "theorems": [
    "clip_keeps_pairs",
    "merge_keeps_pairs_partial",
    "merge_keeps_pairs_refuted"
   ],
   "note": "clip proved. REFUTED for merge when the local blocks of the input and the output set of an operand have different sizes on some rank. Proved for equal layouts, up to the order of the pairs."
  },
  {
   "property": "C58",
   "status": "partial",
   "theorems": [
    "choose_selects_columns_partial",
    "choose_flat_errors_refuted",
    "choose_default_refuted"
   ],
   "note": "REFUTED for error estimates of the documented shape (num,), which raise IndexError, and for the default arguments None, which raise TypeError. Proved for sets whose arrays have a column per dimension and nonempty index lists in range: values, error estimates, Jacobians, domain, reference value, p-norm."
  },
  {
   "property": "C59",
   "status": "partial",
   "theorems": [
    "localize_sets_partial",
    "globalize_sets_partial",
    "localize_sets_refuted",
    "globalize_sets_refuted"
   ],
   "note": "REFUTED: global_to_local names the method of the emulated output set without calling it, and the observed set is skipped by both. Proved for the other sets."
  },
  {
   "property": "C60",
   "status": "partial",
   "theorems": [
    "pointers_agree_partial",
    "pointers_agree_refuted"
   ],
   "note": "REFUTED: set_io_ptr(globalize=False), also called by set_output_probability_set, leaves an older global pointer in place. Proved for histories in which no pointer is recomputed only locally after a global one may exist."
  },
  {
   "property": "C61",
   "status": "partial",
   "theorems": [
    "probability_setter_rejects_partial",
    "emulated_output_setter_rejects",
    "emulated_input_setter_rejects",
    "constructor_checks_counts",
    "constructor_rejects_refuted",
    "failed_setter_unchanged_refuted"
   ],
   "note": "REFUTED: the constructor compares only numbers of samples, and set_output_probability_set without an output set raises AttributeError after it has stored its argument. Proved: all setters reject other dimensions and leave the discretization as it was."
  },
  {
   "property": "C62",
   "status": "partial",
   "theorems": [
    "set_densities_integrate",
    "set_densities_integrate_no_domain",
    "pdf_integrates_refuted"
   ],
   "note": "REFUTED for pdf: its density integrates to the domain volume times the total. Proved for set_densities."
  },
  {
   "property": "C63",
   "status": "partial",
   "theorems": [
    "clip_weights_refuted"
   ],
   "note": "REFUTED: clip leaves _weights at the original length, because it is not in array_names. Nothing positive is claimed."
  },
  {
   "property": "C64",
   "status": "partial",
   "theorems": [
    "globalized_own_object_refuted",
    "globalized_save_load_partial"
   ],
   "note": "REFUTED: all ranks read the object of the rank that wrote last, so local arrays belong to another rank; attributes on which the ranks agree are correct (second theorem)."
  },
  {
   "property": "C65",
   "status": "partial",
   "theorems": [
    "prob_uses_current_sets_partial",
    "emulated_uses_current_sets_partial",
    "prob_uses_current_sets_refuted",
    "emulated_uses_current_sets_refuted",
    "emulated_other_size_refuted"
   ],
   "note": "REFUTED: set_input_sample_set and set_output_sample_set keep pointers of the replaced set. Proved for histories that replace no set after a pointer depending on it was computed (the output probability set may always be replaced for prob)."
  },
  {
   "property": "C66",
   "status": "partial",
   "theorems": [
    "prob_then_emulated_refuted",
    "emulated_then_prob_partial",
    "any_order_partial"
   ],
   "note": "REFUTED for every discretization without a global io pointer: prob sets only the local pointer, after which prob_on_emulated_samples raises TypeError. Proved: the other order, and both orders after set_io_ptr(globalize=True)."
  },
  {
   "property": "C67",
   "status": "partial",
   "theorems": [
    "normal_partition_fractions_refuted"
   ],
   "note": "REFUTED: the probability is proportional to count * sum(1/pdf), not to the count."
  },
  {
   "property": "C68",
   "status": "proved",
   "theorems": [
    "rectangle_domain_box"
   ],
   "note": ""
  },
  {
   "property": "C69",
   "status": "partial",
   "theorems": [
    "boundary_sets_meaning",
    "event_enclosed_refuted"
   ],
   "note": "REFUTED: a cell whose neighbours all lie in other events is in its own event but not in the touching set. The rest is proved."
  },
  {
   "property": "C70",
   "status": "partial",
   "theorems": [
    "region_bounds_refuted",
    "region_bounds_partial"
   ],
   "note": "REFUTED by an isolated cell (see C69): the bounds (-1/4,-1/4). Proved if every cell of an event of positive probability has a neighbour in its own event."
  },
  {
   "property": "C71",
   "status": "proved",
   "theorems": [
    "mc_version"
   ],
   "note": "In the case of inf the indicators are not finite; this is the Raise case of the emulated version."
  },
  {
   "property": "C72",
   "status": "partial",
   "theorems": [
    "cluster_weights_total_refuted",
    "cluster_weights_total_partial"
   ],
   "note": "REFUTED when some observation has a label no prediction has. Proved: the sum is one exactly if all observed labels are clusters of the prediction."
  },
  {
   "property": "C73",
   "status": "partial",
   "theorems": [
    "reweighted_count_refuted",
    "reweighted_count_partial"
   ],
   "note": "REFUTED: more than 2*num_reweighted samples of equal weight give no points at all. Proved: each count is the nearest integer, total within half the number of samples, exact for integers."
  },
  {
   "property": "C74",
   "status": "partial",
   "theorems": [
    "kde_columns_partial",
    "kde_columns_refuted"
   ],
   "note": "REFUTED when a rank draws as many samples as there are dimensions: the array is not transposed. Proved otherwise."
  },
  {
   "property": "C75",
   "status": "partial",
   "theorems": [
    "kde_density_partial",
    "kde_density_refuted",
    "gmm_density"
   ],
   "note": "REFUTED for kde with two clusters and dimensions: pdf is the product of mixtures, the gap is given exactly. Proved for one dimension or one cluster, and for gmm."
  },
  {
   "property": "C76",
   "status": "partial",
   "theorems": [
    "marginal_density_partial",
    "marginal_density_one_column",
    "marginal_density_refuted"
   ],
   "note": "REFUTED for Voronoi measures with two or more columns (ValueError). Proved for the other types."
  },
  {
   "property": "C77",
   "status": "partial",
   "theorems": [
    "pdf_current_refuted",
    "pdf_current_partial",
    "pdf_global_only_refuted"
   ],
   "note": "REFUTED: after the first call the stored densities are used for ever; probabilities set only globally raise TypeError. Proved for the first call."
  },
  {
   "property": "C78",
   "status": "partial",
   "theorems": [
    "labels_kept_refuted",
    "labels_kept_partial"
   ],
   "note": "REFUTED: if only one set has labels they are overwritten by zeros. Kept if both have labels."
  },
  {
   "property": "C79",
   "status": "partial",
   "theorems": [
    "fit_weights_partial",
    "fit_weights_refuted"
   ],
   "note": "REFUTED for labellings with an empty cluster (TypeError). Proved otherwise."
  },
  {
   "property": "C80",
   "status": "partial",
   "theorems": [
    "invert_succeeds",
    "invert_one_map_refuted"
   ],
   "note": "REFUTED for cluster maps: with exactly one cluster map invert always raises TypeError (the code tests the number of maps instead of their length). Proved as an equivalence without cluster maps."
  },
  {
   "property": "C81",
   "status": "proved",
   "theorems": [
    "uniform_in_domain"
   ],
   "note": ""
  },
  {
   "property": "C82",
   "status": "partial",
   "theorems": [
    "qoi_at_current_samples_refuted",
    "compute_qoi_pairs"
   ],
   "note": "REFUTED: set_values leaves the local values of an earlier run, the model is run at those and they replace the new values. True if there are no local values."
  },
  {
   "property": "C83",
   "status": "partial",
   "theorems": [
    "model_outputs_partial",
    "model_outputs_refuted"
   ],
   "note": "REFUTED: a pair without flags, a pair with both flags and an array with a flag raise UnboundLocalError. Proved for the matching combinations and triples."
  },
  {
   "property": "C84",
   "status": "proved",
   "theorems": [
    "surrogate_update_conserves",
    "region_probabilities_total"
   ],
   "note": ""
  },
  {
   "property": "C85",
   "status": "partial",
   "theorems": [
    "distance_at_current_points_refuted"
   ],
   "note": "REFUTED: once a distance was computed the stored densities are used, new points are ignored."
  },
  {
   "property": "C86",
   "status": "partial",
   "theorems": [
    "hell_is_metric",
    "hell_bounded",
    "hell_normalize_refuted",
    "euclid_is_metric",
    "euclid_is_root_of_scaled_squares",
    "hell_uses"
   ],
   "note": "REFUTED for 'hell' with normalize=True: it is too small by the factor sqrt(n), because the recursive call drops normalize. Metric axioms and bounds proved over the reals."
  },
  {
   "property": "C87",
   "status": "proved",
   "theorems": [
    "kl_nonnegative"
   ],
   "note": ""
  },
  {
   "property": "C88",
   "status": "partial",
   "theorems": [
    "marginal_interval_actual",
    "marginal_interval_refuted",
    "marginal_interval_partial"
   ],
   "note": "REFUTED: only the domain of the first set is used, and sets with different numbers of samples raise ValueError. Proved for equal numbers of samples without domains."
  },
  {
   "property": "C89",
   "status": "partial",
   "theorems": [
    "ffd_center_values",
    "cfd_center_values_shifted",
    "cfd_center_values_refuted"
   ],
   "note": "REFUTED for calculate_gradients_cfd: it returns the outputs of the first stencil points, because data was replaced by data[num_centers:]. Proved for calculate_gradients_ffd."
  },
  {
   "property": "C90",
   "status": "partial",
   "theorems": [
    "gradient_data_kept_partial",
    "gradient_data_kept_refuted"
   ],
   "note": "REFUTED: clean_data replaces nan and inf in the caller's array. Proved for finite output values."
  },
  {
   "property": "C91",
   "status": "partial",
   "theorems": [
    "rbf_gradient_partial",
    "rbf_gradient_refuted"
   ],
   "note": "REFUTED for shape parameters other than 1: the interpolation matrix is built without ep. Proved for ep None or 1, all kernels. numpy.linalg.solve and the neighbour query are arguments."
  },
  {
   "property": "C92",
   "status": "proved",
   "theorems": [
    "lp_uniform_in_ball",
    "lp_beta_in_ball",
    "linf_uniform_in_ball",
    "linf_uniform_onto"
   ],
   "note": "Over the reals; the normal draw is not the zero vector."
  },
  {
   "property": "C93",
   "status": "proved",
   "theorems": [
    "lp_ball_clusters",
    "lp_ball_terminates",
    "lp_ball_zero_points"
   ],
   "note": "num_close = 0 raises UnboundLocalError (lp_ball_zero_points)."
  },
  {
   "property": "C94",
   "status": "partial",
   "theorems": [
    "choose_values_aligned_partial",
    "choose_values_aligned_refuted"
   ],
   "note": "REFUTED for two or more processes: the gathered array of shape (size, centers, qois, k) is reshaped to (centers, qois, k*size). Proved for one process."
  },
  {
   "property": "C95",
   "status": "partial",
   "theorems": [
    "good_sets_complete",
    "best_sets_ties_refuted"
   ],
   "note": "REFUTED: np.unique keeps one set per value, so sets that tie are dropped and fewer rows are returned. Proved: rows are acceptable, sorted, have different values, and the first one is optimal."
  },
  {
   "property": "C96",
   "status": "proved",
   "theorems": [
    "large_finds_optimum"
   ],
   "note": ""
  },
  {
   "property": "C97",
   "status": "proved",
   "theorems": [
    "avg_measure_value",
    "avg_measure_scales",
    "avg_skewness_value"
   ],
   "note": "Singular values, volumes and norms are arguments; Hadamard's inequality is a hypothesis."
  },
  {
   "property": "C98",
   "status": "partial",
   "theorems": [
    "avg_condnum_value_partial",
    "avg_condnum_singvals_partial",
    "avg_condnum_singvals_changed",
    "avg_condnum_refuted"
   ],
   "note": "REFUTED: if some but not all centers are singular their entries come back overwritten, and for one QoI a zero gradient is counted as condition number 1. Proved: the value for two or more QoIs, and the array if no center is singular."
  },
  {
   "property": "C99",
   "status": "partial",
   "theorems": [
    "stored_then_emulated_refuted"
   ],
   "note": "REFUTED for every discretization without a global io pointer: simpleFunP sets the io pointer with globalize=False and prob_on_emulated_samples subscripts the missing global pointer."
  }
 ]
}