{"id": "C01", "title": "Localizing and globalizing an array loses nothing, for any number of processes", "statement": "Calling global_to_local and then local_to_global on a sample set gives back exactly the arrays that went in. The local arrays are contiguous blocks of the global array, in rank order, and the block lengths on different ranks differ by at most one.", "quantifier": "every number of processes P >= 1, every array of every length (also shorter than P, also empty), every row type", "why_tests_cant": "The test suite runs with one or a handful of MPI processes and fixed array sizes; the claim is about all P and all lengths.", "anchors": ["bet/sample.py:sample_set_base.global_to_local", "bet/sample.py:sample_set_base.local_to_global", "bet/util.py:get_global_values"]}
{"id": "C02", "title": "A request for n samples is split over ranks without losing or adding a sample", "statement": "When n samples are requested on P processes, the per-rank sample counts add up to exactly n and any two ranks' counts differ by at most one; so random_sample_set and the simple-function constructors generate exactly the number of points asked for.", "quantifier": "every n >= 0 and every P >= 1", "why_tests_cant": "The split depends on n mod P; a test can only sample a few (n,P) pairs.", "anchors": ["bet/sampling/basicSampling.py:random_sample_set", "bet/calculateP/simpleFunP.py:uniform_partition_uniform_distribution_rectangle_size"]}
{"id": "C03", "title": "Strided work sharing of exact 2D volumes fills every cell exactly once", "statement": "In exact_volume_2D every rank computes the cells rank, rank+P, rank+2P, ...; after the gather the volume array holds, in position i, the volume computed for cell i: no cell is left at zero, overwritten or shifted, for any P.", "quantifier": "every number of cells, every P >= 1, every per-cell volume function", "why_tests_cant": "Scatter-by-index bugs appear only for particular (num, P) combinations; tests fix them.", "anchors": ["bet/sample.py:voronoi_sample_set.exact_volume_2D"]}
{"id": "C04", "title": "check_num accepts a sample set exactly when its arrays have matching lengths", "statement": "If at least one global array is present, check_num returns n if and only if every present global array has n rows and the value rows have the declared dimension (with local arrays only, it returns the sum of the ranks' local lengths); if two present arrays differ in length it raises length_not_matching, and if only the width of the values is wrong it raises dim_not_matching. It never changes the object.", "quantifier": "every combination of present/absent arrays of every length", "why_tests_cant": "There are 2^14 presence patterns times all lengths; tests use a few.", "anchors": ["bet/sample.py:sample_set_base.check_num", "bet/sample.py:sample_set_base.set_values"]}
{"id": "C05", "title": "clip keeps the first n samples of every attribute together", "statement": "clip(n) on a valid sample set returns a set in which every present per-sample array is the first n rows of the original (all rows if n is larger), absent arrays stay absent (except the search-tree array, which clip builds), and if the set was localized then for every P the local arrays of the clipped set are again the contiguous split of the global ones.", "quantifier": "every valid sample set, every n >= 0, every P >= 1", "why_tests_cant": "Row pairing must survive for all sizes, presence patterns and process counts.", "anchors": ["bet/sample.py:sample_set_base.clip"]}
{"id": "C06", "title": "merge keeps exactly the samples of both sets", "statement": "merge of two valid sample sets of equal dimension and compatible domains yields a set whose samples are exactly the samples of both (each as often as it occurs in the two together) on every number of processes, in the order first set, then second set in a serial run; it keeps the domain of the first set that has one; it rejects different dimensions and disagreeing domains.", "quantifier": "every two valid sample sets, localized or not, every P >= 1", "why_tests_cant": "The merge is done on local blocks, so the claim depends on the process count and on all lengths.", "anchors": ["bet/sample.py:voronoi_sample_set.merge"]}
{"id": "C07", "title": "A Voronoi query answers with respect to the current sample values", "statement": "After any sequence of set_values / set_kdtree / query calls, query(x) returns the index of a sample that is nearest to x among the sample values currently stored.", "quantifier": "every history of set_values, set_kdtree and query calls", "why_tests_cant": "The claim is about histories: the search tree is cached and only built when absent.", "anchors": ["bet/sample.py:voronoi_sample_set.query", "bet/sample.py:sample_set_base.set_kdtree", "bet/sample.py:sample_set_base.set_values"]}
{"id": "C08", "title": "Normalizing a domain and undoing it restores the sample set", "statement": "normalize_domain maps every sample into [0,1]^dim coordinates affinely, and undo_normalize_domain restores the values, left/right bounds, reference value, Jacobians and domain that were there before.", "quantifier": "every sample set with a non-degenerate domain, including sets whose local arrays were produced by global_to_local (shared memory in serial)", "why_tests_cant": "The in-place arithmetic interacts with array aliasing; tests use sets without aliased local arrays.", "anchors": ["bet/sample.py:sample_set_base.normalize_domain", "bet/sample.py:sample_set_base.undo_normalize_domain", "bet/sample.py:sample_set_base.global_to_local"]}
{"id": "C09", "title": "A copy of a sample set compares equal to the original", "statement": "For every sample set s, s == s.copy() is True; equality is symmetric and detects any differing per-sample entry.", "quantifier": "every sample set, including ball and rectangle sets whose last row holds nan/inf", "why_tests_cant": "Needs all contents, including non-finite entries.", "anchors": ["bet/sample.py:sample_set_base.__eq__", "bet/sample.py:sample_set_base.copy", "bet/sample.py:ball_sample_set.setup"]}
{"id": "C10", "title": "Saving with globalize keeps the most recently assigned data", "statement": "If a user assigns a global array (for instance the probabilities computed by prob_from_sample_set) and then calls local_to_global or save(globalize=True), the object still holds the array that was assigned last.", "quantifier": "every sequence of global setters, local setters, global_to_local and local_to_global", "why_tests_cant": "The loss depends on the order of operations in a history.", "anchors": ["bet/sample.py:sample_set_base.local_to_global", "bet/sample.py:sample_set_base.set_probabilities", "bet/calculateP/calculateP.py:prob_from_sample_set", "bet/util.py:save_object"]}
{"id": "C11", "title": "Every setter is read back by its getter and touches nothing else", "statement": "For every per-sample attribute, get after set returns the array that was set, and getting any other attribute is unaffected by the set.", "quantifier": "every attribute pair, every value, every prior state", "why_tests_cant": "Quadratic number of attribute pairs over all states.", "anchors": ["bet/sample.py:sample_set_base.set_error_id_local", "bet/sample.py:sample_set_base.get_error_id_local", "bet/sample.py:sample_set_base"]}
{"id": "C12", "title": "Emulated volumes are the exact fractions of emulated points per cell", "statement": "estimate_volume_emulated assigns to each cell the fraction of emulated points whose query lands in it. The volumes are non-negative, sum to one, and do not depend on how the points are distributed over processes.", "quantifier": "every list of emulated points (at least one), every query function with values below num, every P and every split of the points over ranks", "why_tests_cant": "Distribution over ranks and all point multisets.", "anchors": ["bet/sample.py:sample_set_base.estimate_volume_emulated", "bet/sample.py:sample_set_base.estimate_volume"]}
{"id": "C13", "title": "Exact 1D volumes are the normalized lengths of the Voronoi intervals", "statement": "For a one-dimensional Voronoi set with at least two samples, all in the domain, exact_volume_1D assigns to each sample the length of the set of domain points nearest to it divided by the domain length. The volumes are non-negative and sum to one, and reordering the samples reorders the volumes accordingly.", "quantifier": "every list of >= 2 samples in a non-degenerate interval, in every order, every P", "why_tests_cant": "Order-dependent argsort logic; all permutations and values.", "anchors": ["bet/sample.py:voronoi_sample_set.exact_volume_1D"]}
{"id": "C14", "title": "Rectangle set volumes are the box volumes and add up to the whole domain", "statement": "exact_volume_lebesgue gives each rectangle the volume of its box relative to the domain, the volumes (with the remainder cell) sum to one, and if the rectangles are disjoint sub-boxes of the domain the remainder is non-negative.", "quantifier": "every dimension, every list of boxes, every non-degenerate domain", "why_tests_cant": "All dimensions and box lists.", "anchors": ["bet/sample.py:rectangle_sample_set.exact_volume_lebesgue", "bet/sample.py:rectangle_sample_set.setup"]}
{"id": "C15", "title": "Local volume emulation respects its sample budget", "statement": "estimate_local_volume never draws more than max_num_emulate samples for a cell and always terminates with a positive volume estimate for every cell.", "quantifier": "every budget, every minimal hit count, every outcome of the random draws", "why_tests_cant": "Depends on the random outcome sequence and loop bound.", "anchors": ["bet/sample.py:voronoi_sample_set.estimate_local_volume"]}
{"id": "C16", "title": "A rectangle query returns the first rectangle containing the point", "statement": "query(x) returns the smallest index i such that left_i < x <= right_i in every coordinate, and the remainder index num-1 exactly when no rectangle contains x; the reported distance is 0 in both cases only for cells that the point belongs to.", "quantifier": "every list of boxes (overlapping or not), every point, every dimension", "why_tests_cant": "Boundary points and overlaps for all box lists.", "anchors": ["bet/sample.py:rectangle_sample_set.query"]}
{"id": "C17", "title": "A k-nearest query lists k different cells", "statement": "For rectangle and ball sets query(x, k) returns k pairwise different cell indices.", "quantifier": "every k <= number of cells", "why_tests_cant": "Only k = 1 is tested.", "anchors": ["bet/sample.py:rectangle_sample_set.query", "bet/sample.py:ball_sample_set.query"]}
{"id": "C18", "title": "A cartesian partition covers its box with disjoint cells", "statement": "cartesian_sample_set.setup with increasing breakpoints in each dimension creates exactly one cell per combination of consecutive breakpoints plus a remainder cell, each point of the half-open outer box lies in exactly one of them, and query finds that one.", "quantifier": "every dimension, every number of breakpoints per dimension", "why_tests_cant": "Combinatorial in the dimension.", "anchors": ["bet/sample.py:cartesian_sample_set.setup"]}
{"id": "C19", "title": "A ball query returns the first ball containing the point", "statement": "query(x) returns the smallest index i with ||x - c_i|| < r_i, and the remainder index when there is none.", "quantifier": "every list of balls, every point, every norm function", "why_tests_cant": "All overlaps and boundary points.", "anchors": ["bet/sample.py:ball_sample_set.query", "bet/sample.py:ball_sample_set.setup"]}
{"id": "C20", "title": "meshgrid_ndim lists the cartesian product in row-major order", "statement": "For n coordinate vectors meshgrid_ndim returns the list of all combinations, last coordinate fastest: its length is the product of the lengths, and a row is present iff each entry comes from the matching vector.", "quantifier": "every n up to the documented limit of 10 and every list of vectors (empty vectors included)", "why_tests_cant": "All n and vector lengths.", "anchors": ["bet/util.py:meshgrid_ndim"]}
{"id": "C21", "title": "Dimension fixing returns the promised shape without changing data", "statement": "fix_dimensions_vector returns shape (N,), fix_dimensions_vector_2darray shape (N,1) for vectors, fix_dimensions_domain shape (dim,2), fix_dimensions_data(data,dim) shape (N,dim); entries are preserved and a second application changes nothing.", "quantifier": "every scalar, list, 1d and 2d input of every shape", "why_tests_cant": "All shapes.", "anchors": ["bet/util.py:fix_dimensions_vector", "bet/util.py:fix_dimensions_vector_2darray", "bet/util.py:fix_dimensions_domain", "bet/util.py:fix_dimensions_data"]}
{"id": "C22", "title": "clean_data leaves only finite numbers and no finite entry is touched", "statement": "After clean_data every entry is finite, nan became 0, +inf/-inf became +/- the largest float, finite entries are unchanged, and cleaning twice is the same as cleaning once.", "quantifier": "every array of extended floats", "why_tests_cant": "All mixtures of finite and non-finite values.", "anchors": ["bet/util.py:clean_data"]}
{"id": "C23", "title": "save and load form a reliable store", "statement": "load_object(f) returns what the last completed save_object(f) wrote, saves to other names do not affect it, and a crash during a save leaves either the old or the new object readable.", "quantifier": "every sequence of saves and loads over every set of file names, every crash point, every P", "why_tests_cant": "Histories and crash points.", "anchors": ["bet/util.py:save_object", "bet/util.py:load_object"]}
{"id": "C24", "title": "Objects saved per process are found again by load_object", "statement": "If all ranks save with globalize=False under name f, then load_object(f) on the same number of processes gives each rank the object it saved.", "quantifier": "every file name (with and without directory), every P >= 2, every set of other files present", "why_tests_cant": "File name interactions.", "anchors": ["bet/util.py:save_object", "bet/util.py:load_object", "bet/util.py:load_object_parallel"]}
{"id": "C25", "title": "prob spreads each output probability over its contour event in proportion to volume", "statement": "After prob(disc), every input probability is non-negative; for every output cell that contains inputs of positive total volume, the probabilities of the inputs mapped to it sum to the cell's probability and each is proportional to its volume; inputs of zero-probability cells get zero. The result is the same for every distribution over processes.", "quantifier": "every io pointer, every non-negative volumes and probabilities, every P and every split", "why_tests_cant": "All pointer configurations and process counts.", "anchors": ["bet/calculateP/calculateP.py:prob"]}
{"id": "C26", "title": "prob returns a probability measure", "statement": "If the output probabilities sum to one, the input probabilities returned by prob sum to one.", "quantifier": "every discretization with non-negative volumes and output probabilities summing to one", "why_tests_cant": "Fails only for output cells without inputs.", "anchors": ["bet/calculateP/calculateP.py:prob"]}
{"id": "C27", "title": "prob_on_emulated_samples spreads each output probability evenly over the emulated points of its contour event", "statement": "After prob_on_emulated_samples the probability of each emulated point is the output probability of its cell divided by the number of emulated points in that cell over all ranks; mass per non-empty cell is conserved, for every P.", "quantifier": "every io pointer and emulated pointer, every P and split", "why_tests_cant": "All pointer compositions and process counts.", "anchors": ["bet/calculateP/calculateP.py:prob_on_emulated_samples"]}
{"id": "C28", "title": "Transferring probabilities to a new sample set conserves mass cell by cell", "statement": "prob_from_sample_set and prob_from_discretization_input give each new cell the sum of the probabilities of the old samples that fall in it; the total is unchanged, non-negativity is preserved, and the result is independent of P.", "quantifier": "every old probabilities, every query function, every P and split", "why_tests_cant": "All queries and splits.", "anchors": ["bet/calculateP/calculateP.py:prob_from_sample_set", "bet/calculateP/calculateP.py:prob_from_discretization_input"]}
{"id": "C29", "title": "Transferring probabilities with emulated volumes conserves total probability", "statement": "prob_from_sample_set_with_emulated_volumes returns non-negative probabilities that sum to the total old probability if every old cell of positive probability holds an emulated point, and to one if some do not but at least one does.", "quantifier": "every old probabilities, emulated points, query functions, every P and split", "why_tests_cant": "All configurations of empty cells.", "anchors": ["bet/calculateP/calculateP.py:prob_from_sample_set_with_emulated_volumes"]}
{"id": "C30", "title": "Binned simple-function approximations are probability vectors for every process count", "statement": "uniform_partition_uniform_distribution_rectangle_* and uniform_partition_normal_distribution give every cell the fraction of the num_d_emulate draws nearest to it; the probabilities are non-negative and sum to one for every P; normal_partition_normal_distribution is normalized to one; user_partition_user_distribution equals the serial fraction for every P.", "quantifier": "every M, num_d_emulate >= 1, every outcome of the draws, every P", "why_tests_cant": "Random outcomes and process counts.", "anchors": ["bet/calculateP/simpleFunP.py:uniform_partition_uniform_distribution_rectangle_size", "bet/calculateP/simpleFunP.py:uniform_partition_normal_distribution", "bet/calculateP/simpleFunP.py:normal_partition_normal_distribution", "bet/calculateP/simpleFunP.py:user_partition_user_distribution"]}
{"id": "C31", "title": "The regular partition represents the uniform density exactly", "statement": "regular_partition_uniform_distribution_rectangle_* gives each of the prod(cells_per_dimension) congruent cells the same probability, the remainder cell zero, and the probabilities sum to one.", "quantifier": "every dimension, center, positive sizes and positive cell counts", "why_tests_cant": "All dimensions and cell counts.", "anchors": ["bet/calculateP/simpleFunP.py:regular_partition_uniform_distribution_rectangle_size"]}
{"id": "C32", "title": "Sampling error bounds for a contour event bracket zero", "statement": "For each contour event sampling_error returns lower <= 0 <= upper whenever it returns numbers, both are zero for zero-probability events, and they are computed from the interior and boundary cell sets defined by the neighbour relation.", "quantifier": "every neighbour relation, io pointer, positive volumes and output probabilities", "why_tests_cant": "All graphs and volumes.", "anchors": ["bet/calculateP/calculateError.py:sampling_error.calculate_for_contour_events", "bet/calculateP/calculateError.py:boundary_sets"]}
{"id": "C33", "title": "One-dimensional cell connectivity links exactly the adjacent samples", "statement": "cell_connectivity_exact for a one-dimensional input set makes two cells neighbours iff no other sample lies between them.", "quantifier": "every list of distinct samples in every order", "why_tests_cant": "All orders; unit tests use a lucky order.", "anchors": ["bet/calculateP/calculateError.py:cell_connectivity_exact"]}
{"id": "C34", "title": "The model error of a contour event lies between zero and its probability", "statement": "model_error.calculate_for_contour_events returns, for each event, probability * (1 - volume kept / volume after perturbation); it lies in [0, probability], it is zero if the error estimates do not move any sample into the event's cell, and it does not depend on the split over processes.", "quantifier": "every pair of io pointers, every non-negative volumes with positive event volumes, every P", "why_tests_cant": "All pointers.", "anchors": ["bet/calculateP/calculateError.py:model_error.calculate_for_contour_events"]}
{"id": "C35", "title": "Model error estimates over a partition into regions cancel", "statement": "Summing calculate_for_sample_set_region over all regions of a partition gives zero; each estimate has absolute value at most the total output probability; and zero error estimates give zero.", "quantifier": "every set of regions, pointers, probabilities, P", "why_tests_cant": "All partitions.", "anchors": ["bet/calculateP/calculateError.py:model_error.calculate_for_sample_set_region", "bet/calculateP/calculateError.py:model_error.calculate_for_sample_set_region_mc"]}
{"id": "C36", "title": "Asking for an error bound does not change later answers", "statement": "The result of sampling_error.calculate_for_contour_events does not depend on which other queries were made on the object before.", "quantifier": "every history of calculate_for_contour_events and calculate_for_sample_set_region calls", "why_tests_cant": "History dependence.", "anchors": ["bet/calculateP/calculateError.py:sampling_error"]}
{"id": "C37", "title": "Weighted mean and covariance used by the Gaussian fits are valid", "statement": "For non-negative weights with positive sum, the mean lies between the smallest and largest sample in each coordinate and the covariance matrix is symmetric and positive semi-definite; scaling all weights changes nothing.", "quantifier": "every number of samples and dimension, every weights", "why_tests_cant": "Universally quantified linear algebra.", "anchors": ["bet/calculateP/calculateR.py:invert_to_gmm", "bet/calculateP/calculateR.py:invert_to_multivariate_gaussian"]}
{"id": "C38", "title": "Rejection sampling returns a non-empty subset of the initial samples", "statement": "invert_rejection_sampling only returns rows of the input samples, in each cluster keeps the samples of maximal ratio whatever the random draws, gives equal probabilities summing to one, and its domain contains all returned samples; a sample with ratio zero survives only on a zero draw.", "quantifier": "every clustering, ratios, draws in [0,1)", "why_tests_cant": "All random outcomes.", "anchors": ["bet/calculateP/calculateR.py:invert_rejection_sampling"]}
{"id": "C39", "title": "Inversion assigns each sample the density ratio of its own cluster", "statement": "After invert, the weight of every sample is the observed/predicted density ratio of the cluster its region label names, evaluated at that sample; labels outside 0..num_clusters-1 get weight zero; the cluster pointers partition the samples.", "quantifier": "every labelling and densities", "why_tests_cant": "All labellings.", "anchors": ["bet/calculateP/calculateR.py:invert", "bet/calculateP/calculateR.py:generate_output_kdes"]}
{"id": "C40", "title": "Sampling from an updated measure returns the requested number of samples", "statement": "sample_from_updated(set, n) returns n samples for kde and gmm measures.", "quantifier": "every n, every cluster weights summing to one, every P", "why_tests_cant": "Rounding of each weight.", "anchors": ["bet/sampling/basicSampling.py:sample_from_updated"]}
{"id": "C41", "title": "An order-0 surrogate is piecewise constant and interpolates the data", "statement": "generate_for_input_set(order=0) gives each new input the output (and error estimate) of the sample cell containing it; at the original samples it reproduces the original outputs; the result is independent of P.", "quantifier": "every discretization, new inputs, P", "why_tests_cant": "All inputs.", "anchors": ["bet/surrogates.py:piecewise_polynomial_surrogate.generate_for_input_set"]}
{"id": "C42", "title": "An order-1 surrogate with exact Jacobians reproduces affine maps", "statement": "If the outputs are an affine function of the inputs and the Jacobians are exact, the order-1 surrogate equals that function at every new input.", "quantifier": "every affine map, samples, new inputs", "why_tests_cant": "All maps.", "anchors": ["bet/surrogates.py:piecewise_polynomial_surrogate.generate_for_input_set"]}
{"id": "C43", "title": "regular_sample_set returns the cell midpoints of the uniform grid", "statement": "With n_i samples in dimension i the samples are exactly all combinations of a_i + (k - 1/2)(b_i - a_i)/n_i, k = 1..n_i, in row-major order, all in the interior of the domain.", "quantifier": "every dimension, domain, counts", "why_tests_cant": "All dimensions and counts.", "anchors": ["bet/sampling/basicSampling.py:regular_sample_set"]}
{"id": "C44", "title": "Latin hypercube samples hit every stratum exactly once", "statement": "lhs_sample_set(n) returns n samples such that in every dimension each of the n equal strata of the domain contains exactly one sample.", "quantifier": "every n, dimension, permutation drawn, P", "why_tests_cant": "Random permutations and process counts.", "anchors": ["bet/sampling/basicSampling.py:lhs_sample_set"]}
{"id": "C45", "title": "compute_qoi pairs each input with its own output", "statement": "For a model applied row by row, compute_qoi_and_create_discretization yields outputs such that row i of the output is the model at row i of the input, for every P, and equals the serial result.", "quantifier": "every model, inputs, P", "why_tests_cant": "Process counts.", "anchors": ["bet/sampling/basicSampling.py:sampler.compute_qoi_and_create_discretization"]}
{"id": "C46", "title": "sort_by_rho returns exactly the samples of positive probability by decreasing density", "statement": "The returned indices are pairwise different, are exactly the samples of positive probability, have non-increasing density, and all attributes are permuted consistently.", "quantifier": "every probabilities and volumes", "why_tests_cant": "All arrays; zero volumes.", "anchors": ["bet/postProcess/postTools.py:sort_by_rho"]}
{"id": "C47", "title": "sample_highest_prob returns the largest leading group within the percentile", "statement": "The number returned is the largest m such that the m highest density samples have total probability at most the percentile, and the returned probabilities sum to at most the percentile; sample_lowest_prob does the same from the other end; sort=False works on already sorted sets.", "quantifier": "every probabilities, percentile, flag combination", "why_tests_cant": "All arrays and flags.", "anchors": ["bet/postProcess/postTools.py:sample_prob", "bet/postProcess/postTools.py:sample_highest_prob", "bet/postProcess/postTools.py:sample_lowest_prob"]}
{"id": "C48", "title": "Marginal histograms conserve the probability inside the domain", "statement": "calculate_1D_marginal_probs and calculate_2D_marginal_probs cut the domain of each dimension into equal bins (closed below, the last one on both sides) and return, per dimension (pair), the total probability of the samples in every bin. The bin probabilities are non-negative and their sum is the total probability of the samples inside the domain, for every number of bins and every P; the 2D histogram summed over one axis is the 1D histogram of the samples whose other coordinate is in the domain.", "quantifier": "every samples, bins, P", "why_tests_cant": "All data.", "anchors": ["bet/postProcess/plotP.py:calculate_1D_marginal_probs", "bet/postProcess/plotP.py:calculate_2D_marginal_probs"]}
{"id": "C49", "title": "The total variation distance is a bounded metric", "statement": "distance('tv') is non-negative, symmetric, zero exactly for equal densities at the comparison points, satisfies the triangle inequality, and with normalize=True is at most one.", "quantifier": "every non-negative density vectors", "why_tests_cant": "All vectors.", "anchors": ["bet/postProcess/compareP.py:compare.distance"]}
{"id": "C50", "title": "Automatic comparison points cover both sample sets", "statement": "set_compare_set(n) draws from a box containing all values of both sets, enlarged by compare_factor in every direction.", "quantifier": "every two sets, every factor >= 0, every dimension", "why_tests_cant": "All dimensions.", "anchors": ["bet/postProcess/compareP.py:compare.set_compare_set"]}
{"id": "C51", "title": "Computing a distance does not change later distances", "statement": "The value of distance(functional) does not depend on which distances were computed before on the same object.", "quantifier": "every history of distance calls", "why_tests_cant": "History dependence.", "anchors": ["bet/postProcess/compareP.py:compare.distance"]}
{"id": "C52", "title": "Finite difference gradients are exact on affine and quadratic maps", "statement": "calculate_gradients_ffd is exact for affine maps, calculate_gradients_cfd for quadratic ones, when the samples come from pick_ffd_points / pick_cfd_points; with normalization each row has 1-norm one or is zero.", "quantifier": "every dimension, number of centers, radii, maps", "why_tests_cant": "All maps.", "anchors": ["bet/sensitivity/gradients.py:calculate_gradients_ffd", "bet/sensitivity/gradients.py:calculate_gradients_cfd", "bet/sensitivity/gradients.py:pick_ffd_points", "bet/sensitivity/gradients.py:pick_cfd_points"]}
{"id": "C53", "title": "radial_basis_function_dxi is the derivative of radial_basis_function", "statement": "For each kernel and shape parameter radial_basis_function_dxi(r, xi) is the partial derivative in the coordinate xi of the kernel evaluated at distance r.", "quantifier": "every kernel, shape parameter, r > 0, xi", "why_tests_cant": "Real analysis.", "anchors": ["bet/sensitivity/gradients.py:radial_basis_function", "bet/sensitivity/gradients.py:radial_basis_function_dxi"]}
{"id": "C54", "title": "find_unique_vecs keeps a maximal set of nearly independent QoIs", "statement": "The kept QoIs are pairwise below the similarity tolerance, all have non-zero gradients, and each dropped one has a zero gradient or is above the tolerance with a kept one.", "quantifier": "every gradient tensor, tolerance", "why_tests_cant": "All tensors.", "anchors": ["bet/sensitivity/chooseQoIs.py:find_unique_vecs"]}
{"id": "C55", "title": "The distributed search for optimal QoI sets finds the true optimum", "statement": "chooseOptQoIs_verbose returns the num_optsets_return best combinations of QoIs in order, for every number of processes.", "quantifier": "every measure on combinations, P, number to return", "why_tests_cant": "Process counts and measures.", "anchors": ["bet/sensitivity/chooseQoIs.py:chooseOptQoIs_verbose"]}
{"id": "C56", "title": "find_good_sets returns every acceptable set of QoIs", "statement": "find_good_sets returns all extensions of the given sets whose measure is below the tolerance.", "quantifier": "every measure", "why_tests_cant": "Ties and infinite values.", "anchors": ["bet/sensitivity/chooseQoIs.py:find_good_sets"]}
{"id": "C57", "title": "Clipping or merging a discretization keeps inputs and outputs paired", "statement": "After clip or merge, input i and output i of the result come from the same original sample; for every P.", "quantifier": "every discretization", "why_tests_cant": "All sizes and process counts.", "anchors": ["bet/sample.py:discretization.clip", "bet/sample.py:discretization.merge"]}
{"id": "C58", "title": "choose_inputs_outputs selects the named columns", "statement": "choose_inputs_outputs(inputs, outputs) returns a discretization with the selected columns of values (and Jacobians), in the given order, and the same rows.", "quantifier": "every index lists and discretization", "why_tests_cant": "All index lists.", "anchors": ["bet/sample.py:discretization.choose_inputs_outputs"]}
{"id": "C59", "title": "Localizing a discretization localizes all of its sample sets", "statement": "discretization.global_to_local localizes every sample set present, local_to_global globalizes every one.", "quantifier": "every presence pattern", "why_tests_cant": "All presence patterns.", "anchors": ["bet/sample.py:discretization.global_to_local", "bet/sample.py:discretization.local_to_global"]}
{"id": "C60", "title": "Input-output pointers always refer to the current output sets", "statement": "After any history of setters and set_io_ptr calls, the global and the local io pointer agree (the local one is the local part of the global one) whenever both are present.", "quantifier": "every history of set_io_ptr(globalize=...) and globalize_ptrs calls", "why_tests_cant": "History dependence.", "anchors": ["bet/sample.py:discretization.set_io_ptr", "bet/sample.py:discretization.globalize_ptrs"]}
{"id": "C61", "title": "Discretization setters reject inconsistent sets", "statement": "set_output_probability_set and the constructor reject sets of different dimension with an exception and leave the discretization unchanged.", "quantifier": "every state and argument", "why_tests_cant": "All states.", "anchors": ["bet/sample.py:discretization.set_output_probability_set", "bet/sample.py:discretization.set_emulated_input_sample_set"]}
{"id": "C62", "title": "Densities integrate to one over the domain", "statement": "The density assigned by set_densities, and the values returned by pdf, integrate to the total probability over the domain: sum over cells of density * volume * domain volume equals the total probability.", "quantifier": "every Voronoi set with positive volumes", "why_tests_cant": "All sets; the two code paths disagree.", "anchors": ["bet/sample.py:sample_set_base.set_densities", "bet/sample.py:voronoi_sample_set.pdf"]}
{"id": "C63", "title": "Clipping keeps the sample weights paired with the samples", "statement": "After clip(n) the weights array of the clipped set has one entry per remaining sample.", "quantifier": "every sample set with weights, every n", "why_tests_cant": "All sizes; the weights are not in the list of arrays that clip treats.", "anchors": ["bet/sample.py:sample_set_base.clip", "bet/sample.py:sample_set_base.set_weights"]}
{"id": "C64", "title": "Every process reads back its own object after a globalized save", "statement": "If P processes save a distributed object under one name with globalize=True and then load it, each process gets the object it had (global and local arrays).", "quantifier": "every P, every objects, every interleaving of the writes of the processes into the shared file", "why_tests_cant": "Interleavings of P writers to one file.", "anchors": ["bet/util.py:save_object", "bet/util.py:load_object"]}
{"id": "C65", "title": "Probability calculations use the current sets of the discretization", "statement": "After any history of replacing the input, output, emulated or probability sets, prob and prob_on_emulated_samples compute with pointers that belong to the sets currently stored.", "quantifier": "every history of set_* calls followed by prob or prob_on_emulated_samples", "why_tests_cant": "History dependence.", "anchors": ["bet/sample.py:discretization.set_output_sample_set", "bet/sample.py:discretization.set_emulated_input_sample_set", "bet/calculateP/calculateP.py:prob", "bet/calculateP/calculateP.py:prob_on_emulated_samples"]}
{"id": "C66", "title": "prob and prob_on_emulated_samples can be called in any order", "statement": "For a discretization with all sets present, calling prob first does not change whether prob_on_emulated_samples succeeds or what it returns.", "quantifier": "every discretization, both orders", "why_tests_cant": "History dependence.", "anchors": ["bet/calculateP/calculateP.py:prob", "bet/calculateP/calculateP.py:prob_on_emulated_samples"]}
{"id": "C67", "title": "The normal partition gives each cell the fraction of the draws in it", "statement": "normal_partition_normal_distribution, like uniform_partition_normal_distribution, gives each cell the fraction of the emulated draws that are nearest to it.", "quantifier": "every partition and every outcome of the draws", "why_tests_cant": "Random outcomes.", "anchors": ["bet/calculateP/simpleFunP.py:normal_partition_normal_distribution"]}
{"id": "C68", "title": "The rectangle_domain variants describe the rectangle they are given", "statement": "The center and lengths computed from a domain given by a row of lower and a row of upper bounds describe exactly that box, in every dimension.", "quantifier": "every two opposite corners", "why_tests_cant": "All dimensions and bounds.", "anchors": ["bet/calculateP/simpleFunP.py:regular_partition_uniform_distribution_rectangle_domain", "bet/calculateP/simpleFunP.py:uniform_partition_uniform_distribution_rectangle_domain"]}
{"id": "C69", "title": "The interior and boundary cell sets enclose each contour event", "statement": "boundary_sets returns, for each contour event, the cells all of whose neighbours are in the event (inside the event) and the cells touching it; interior cells belong to the event, and every cell of the event belongs to the touching cells.", "quantifier": "every neighbour table and io pointer", "why_tests_cant": "All geometries, in particular isolated cells.", "anchors": ["bet/calculateP/calculateError.py:boundary_sets"]}
{"id": "C70", "title": "Sampling error bounds for a region bracket zero", "statement": "sampling_error.calculate_for_sample_set_region returns lower <= 0 <= upper whenever it returns numbers.", "quantifier": "every neighbour table, region, emulated points, probabilities, P", "why_tests_cant": "All geometries and regions.", "anchors": ["bet/calculateP/calculateError.py:sampling_error.calculate_for_sample_set_region"]}
{"id": "C71", "title": "The error indicators of the cells add up to the error estimate", "statement": "After model_error.calculate_for_sample_set_region_mc the error indicators stored for the input cells, summed over all processes, equal the returned estimate, which equals the estimate of the emulated version on the same points.", "quantifier": "every region, pointers, probabilities, P", "why_tests_cant": "Sums over all cells and processes.", "anchors": ["bet/calculateP/calculateError.py:model_error.calculate_for_sample_set_region_mc"]}
{"id": "C72", "title": "The cluster weights of an updated measure sum to one", "statement": "invert_to_kde and invert_to_gmm return non-negative cluster weights, the fractions of observations in each cluster, that sum to one.", "quantifier": "every labelling of predictions and observations for which the inversion succeeds", "why_tests_cant": "Depends on which label numbers occur in which set.", "anchors": ["bet/calculateP/calculateR.py:invert_to_kde", "bet/calculateP/calculateR.py:invert_to_gmm"]}
{"id": "C73", "title": "invert_to_random_variable fits the requested number of points", "statement": "invert_to_random_variable(discretization, rv, num_reweighted) fits its distributions to num_reweighted points, each input sample repeated in proportion to its weight.", "quantifier": "every weights, number of samples, num_reweighted", "why_tests_cant": "Rounding errors add up over all samples.", "anchors": ["bet/calculateP/calculateR.py:invert_to_random_variable"]}
{"id": "C74", "title": "Coordinate j of a sample from an updated kde measure comes from marginal j", "statement": "sample_from_updated on a kde measure returns rows whose j-th entry was drawn from the j-th parameter marginal, and each row comes from one cluster.", "quantifier": "every dimension, counts, draws, P", "why_tests_cant": "Fails only when a local sample count meets the dimension.", "anchors": ["bet/sampling/basicSampling.py:sample_from_updated", "bet/util.py:fix_dimensions_data"]}
{"id": "C75", "title": "pdf of an updated measure is the density of the samples drawn from it", "statement": "For kde and gmm measures, pdf(x) equals the density of the distribution sample_from_updated draws from: choose a cluster by its weight, then draw from that cluster.", "quantifier": "every kernel densities, cluster weights, points", "why_tests_cant": "An identity between functions; finitely many points cannot establish it.", "anchors": ["bet/sample.py:evaluate_pdf", "bet/sample.py:evaluate_pdf_marginal", "bet/sampling/basicSampling.py:sample_from_updated"]}
{"id": "C76", "title": "marginal_pdf evaluates marginal i at column i", "statement": "evaluate_pdf_marginal(type, parameters, vals, i) with vals of shape (n, dim) returns the density of marginal i at the i-th entry of every row, for every probability type.", "quantifier": "every probability type, dimension, values", "why_tests_cant": "Must hold for each type and every shape.", "anchors": ["bet/sample.py:evaluate_pdf_marginal"]}
{"id": "C77", "title": "pdf of a Voronoi set uses the current probabilities", "statement": "pdf returns probability/volume of the cell containing the point, for the probabilities most recently set (globally or locally), whatever was evaluated before.", "quantifier": "every history of set_probabilities, set_probabilities_local and pdf calls", "why_tests_cant": "Depends on the history of calls.", "anchors": ["bet/sample.py:sample_set_base.pdf"]}
{"id": "C78", "title": "Inversion keeps the region labels of the user", "statement": "generate_output_kdes and the functions using it do not change region labels that are set.", "quantifier": "every labelling of the predicted and the observed set", "why_tests_cant": "Depends on which of the sets has labels.", "anchors": ["bet/calculateP/calculateR.py:generate_output_kdes"]}
{"id": "C79", "title": "Gaussian and random-variable fits weight samples by ratio times observed fraction", "statement": "invert_to_multivariate_gaussian and invert_to_random_variable weight sample k by its density ratio times the fraction of observations in the cluster of k, for every labelling accepted by invert.", "quantifier": "every labelling, ratios", "why_tests_cant": "Ranges over all labellings, including label numbers nobody has.", "anchors": ["bet/calculateP/calculateR.py:invert_to_multivariate_gaussian", "bet/calculateP/calculateR.py:invert_to_random_variable"]}
{"id": "C80", "title": "Inversion succeeds for every clustering with enough samples", "statement": "invert succeeds exactly if there is a predicted sample and every non-empty predicted cluster has at least two predicted and two observed samples, with and without cluster maps.", "quantifier": "every labelling, every cluster maps", "why_tests_cant": "Ranges over all labellings.", "anchors": ["bet/calculateP/calculateR.py:invert", "bet/calculateP/calculateR.py:generate_output_kdes"]}
{"id": "C81", "title": "Uniform random samples lie in the domain of the set", "statement": "random_sample_set('uniform', set, n) for a set with a domain returns n samples inside the domain and leaves the domain as it was.", "quantifier": "every domain, number of samples, draw of the generator", "why_tests_cant": "Ranges over all domains and all draws.", "anchors": ["bet/sampling/basicSampling.py:random_sample_set"]}
{"id": "C82", "title": "The model is evaluated at the samples last set", "statement": "compute_qoi_and_create_discretization(input set) evaluates the model at the values most recently given to the input set, whatever was done with the set before, and does not change them.", "quantifier": "every history of set_values, set_values_local, global_to_local and model runs", "why_tests_cant": "Depends on the history of the set.", "anchors": ["bet/sampling/basicSampling.py:sampler.compute_qoi_and_create_discretization", "bet/sample.py:sample_set_base.set_values"]}
{"id": "C83", "title": "Every output of the model is stored as the sampler's flags say", "statement": "If the model returns values, possibly with error estimates and Jacobians, the ones announced by the flags are stored and the others are ignored.", "quantifier": "every combination of flags and of returned tuples", "why_tests_cant": "All combinations matter; the tests use one.", "anchors": ["bet/sampling/basicSampling.py:sampler.compute_qoi_and_create_discretization"]}
{"id": "C84", "title": "Surrogate probabilities are moved to the original cells without loss", "statement": "calculate_prob_for_sample_set_region with update_input gives input cell i the total probability of the surrogate samples in cell i over all processes, so the total is conserved; the probabilities of disjoint regions covering all labels add up to the total.", "quantifier": "every distribution of surrogate samples over processes, pointers, probabilities, labels", "why_tests_cant": "Ranges over all distributions over processes.", "anchors": ["bet/surrogates.py:piecewise_polynomial_surrogate.calculate_prob_for_sample_set_region"]}
{"id": "C85", "title": "A distance is computed at the comparison points last set", "statement": "After set_compare_set(points), distance(...) returns the distance of the densities at these points, whatever was computed before.", "quantifier": "every history of set_compare_set and distance calls", "why_tests_cant": "History dependence.", "anchors": ["bet/postProcess/compareP.py:compare.set_compare_set", "bet/postProcess/compareP.py:compare.distance"]}
{"id": "C86", "title": "Hellinger and Euclidean distances are metrics; Hellinger is bounded by one", "statement": "distance('hell') and distance('2') are non-negative, symmetric, zero exactly for equal densities and satisfy the triangle inequality; with normalize=True the squared Hellinger distance is at most one and at most the total variation, and 'hell' is its square root.", "quantifier": "every non-negative density vectors of equal length, both values of normalize", "why_tests_cant": "All vectors of all lengths.", "anchors": ["bet/postProcess/compareP.py:compare.distance"]}
{"id": "C87", "title": "The Kullback-Leibler divergence is non-negative and vanishes only for equal measures", "statement": "distance('kl') is non-negative or infinite, and zero exactly if the two density vectors are proportional.", "quantifier": "every non-negative density vectors with positive sums", "why_tests_cant": "All vectors of all lengths.", "anchors": ["bet/postProcess/compareP.py:compare.distance"]}
{"id": "C88", "title": "The default interval of marginal distances covers both sets", "statement": "Without an interval argument distance_marginal uses an interval that contains the domains of both sets if they have finite domains, and otherwise all values of both sets, enlarged by compare_factor on both sides, for any numbers of samples.", "quantifier": "every two sets, domains and compare_factor >= 0", "why_tests_cant": "All pairs of sets.", "anchors": ["bet/postProcess/compareP.py:compare.distance_marginal", "bet/postProcess/compareP.py:compare.distance_marginal_quad"]}
{"id": "C89", "title": "Gradient calculations return the centers with their own output values", "statement": "The discretization returned by calculate_gradients_ffd / calculate_gradients_cfd pairs center number i with the output value the model has at center number i.", "quantifier": "every map, dimension, number of centers and radii", "why_tests_cant": "All maps and layouts; a test with one map compares only jacobians.", "anchors": ["bet/sensitivity/gradients.py:calculate_gradients_ffd", "bet/sensitivity/gradients.py:calculate_gradients_cfd"]}
{"id": "C90", "title": "Gradient calculations leave the given discretization unchanged", "statement": "After calculate_gradients_ffd / calculate_gradients_cfd the output values of the discretization passed in are what they were before.", "quantifier": "every discretization, with any output values including nan and inf", "why_tests_cant": "All inputs.", "anchors": ["bet/sensitivity/gradients.py:calculate_gradients_ffd", "bet/sensitivity/gradients.py:calculate_gradients_cfd", "bet/util.py:clean_data"]}
{"id": "C91", "title": "Radial basis gradients are the gradients of the interpolant", "statement": "calculate_gradients_rbf without normalization returns the exact partial derivatives, at each center, of the kernel interpolant through the nearest samples, for the chosen kernel and shape parameter.", "quantifier": "every kernel, shape parameter, samples, data, dimension and number of neighbors", "why_tests_cant": "All samples and shape parameters.", "anchors": ["bet/sensitivity/gradients.py:calculate_gradients_rbf"]}
{"id": "C92", "title": "Lp ball samples lie in the ball", "statement": "Lp_generalized_uniform and Lp_generalized_beta return points of the ball of the p-norm with the given scale and center, for 0 < p <= inf.", "quantifier": "every p, dimension, scale, center and random draws", "why_tests_cant": "All draws.", "anchors": ["bet/sampling/LpGeneralizedSamples.py:Lp_generalized_uniform", "bet/sampling/LpGeneralizedSamples.py:Lp_generalized_beta"]}
{"id": "C93", "title": "Clusters are complete, ordered and inside the domain", "statement": "sample_lp_ball returns the centers, then num_close points for the first center, then for the second and so on; each point lies in the ball around its own center and in the domain.", "quantifier": "every number of centers, cluster size, domain and random draws for which the loop ends", "why_tests_cant": "All draws and sizes.", "anchors": ["bet/sensitivity/gradients.py:sample_lp_ball"]}
{"id": "C94", "title": "The returned singular values belong to the returned QoI sets", "statement": "chooseOptQoIs_verbose returns an array whose slice number j holds the values computed for the set in row j, for every number of processes.", "quantifier": "every criterion, number of processes and of sets to return", "why_tests_cant": "Needs several processes and combinations.", "anchors": ["bet/sensitivity/chooseQoIs.py:chooseOptQoIs_verbose"]}
{"id": "C95", "title": "The table of best sets contains the best acceptable sets", "statement": "find_good_sets returns as best sets the num_optsets_return acceptable sets with the smallest values (all of them if there are fewer), in increasing order.", "quantifier": "every criterion including ties, number of processes", "why_tests_cant": "Ties are unlikely in tests with random gradients.", "anchors": ["bet/sensitivity/chooseQoIs.py:find_good_sets"]}
{"id": "C96", "title": "The incremental search finds the optimum of the exhaustive search", "statement": "With the default tolerance the first row of every table of chooseOptQoIs_large is an optimal choice of that many QoIs among all choices, for every number of processes.", "quantifier": "every criterion for which parts of an independent set are independent, all sizes", "why_tests_cant": "All criteria and sizes.", "anchors": ["bet/sensitivity/chooseQoIs.py:chooseOptQoIs_large", "bet/sensitivity/chooseQoIs.py:chooseOptQoIs_large_verbose", "bet/sensitivity/chooseQoIs.py:find_good_sets"]}
{"id": "C97", "title": "Average measure and skewness are infinite exactly for sets degenerate everywhere", "statement": "calculate_avg_measure and calculate_avg_skewness return inf exactly if the gradients are dependent at every center; otherwise the measure of the box divided by the mean volume, and the harmonic mean (at least 1) of the skewness of the centers, degenerate ones counting as inf.", "quantifier": "every list of singular values and norms", "why_tests_cant": "All data; degenerate centers are special cases of the code.", "anchors": ["bet/sensitivity/chooseQoIs.py:calculate_avg_measure", "bet/sensitivity/chooseQoIs.py:calculate_avg_skewness"]}
{"id": "C98", "title": "calculate_avg_condnum returns the harmonic mean of the condition numbers and the singular values", "statement": "The first result is the harmonic mean over the centers of largest divided by smallest singular value (inf if the smallest is zero); the second result is the array of singular values.", "quantifier": "every list of singular values", "why_tests_cant": "All data; degenerate centers are special cases of the code.", "anchors": ["bet/sensitivity/chooseQoIs.py:calculate_avg_condnum"]}
{"id": "C99", "title": "prob_on_emulated_samples works after the output probability has been defined by simpleFunP", "statement": "After one of the simpleFunP functions has stored the output probability of a discretization, prob_on_emulated_samples succeeds on that discretization.", "quantifier": "every discretization with emulated input samples whose pointers have not been set before", "why_tests_cant": "Needs the combination of two modules.", "anchors": ["bet/calculateP/calculateP.py:prob_on_emulated_samples", "bet/calculateP/simpleFunP.py:regular_partition_uniform_distribution_rectangle_size", "bet/sample.py:discretization.set_io_ptr"]}
{"id": "C100", "title": "Merging discretizations needs only mergeable input and output sets", "statement": "discretization.merge succeeds whenever the input sets can be merged with each other and the output sets with each other; sets that are absent from both stay absent.", "quantifier": "every pair of discretizations, presence pattern", "why_tests_cant": "All presence patterns.", "anchors": ["bet/sample.py:discretization.merge"]}
{"id": "C101", "title": "Pointwise bounds repeat the domain for every sample", "statement": "update_bounds stores for every sample the lower and upper bounds and the widths of the domain and changes nothing else; update_bounds_local gives every process the blocks of these arrays. A sample scaled with them lies in the unit cube exactly if it lies in the domain, and scaling back returns it.", "quantifier": "every consistent sample set, domain, process count", "why_tests_cant": "Sizes, dimensions and process counts are unbounded.", "anchors": ["bet/sample.py:sample_set_base.update_bounds", "bet/sample.py:sample_set_base.update_bounds_local"]}
{"id": "C102", "title": "Samples can be appended at any time and are then found by queries", "statement": "After append_values the set contains the old samples followed by the new ones, and query answers with the nearest of all of them.", "quantifier": "every sample set, type of set, history of queries and appends", "why_tests_cant": "Needs histories that mix queries and appends.", "anchors": ["bet/sample.py:sample_set_base.append_values", "bet/sample.py:voronoi_sample_set.query", "bet/sample.py:rectangle_sample_set.append_values"]}
{"id": "C103", "title": "The bounding box is the smallest box around the current samples", "statement": "get_bounding_box returns the smallest box that contains every current sample of the set.", "quantifier": "every history of set_values, append_values, set_bounding_box and get_bounding_box", "why_tests_cant": "Needs histories; the box is cached.", "anchors": ["bet/sample.py:sample_set_base.get_bounding_box", "bet/sample.py:sample_set_base.set_bounding_box"]}
{"id": "C104", "title": "Estimated radii are the largest distances to the drawn points of each cell, for every process count", "statement": "estimate_radii stores for every sample the largest distance to those drawn points whose nearest sample it is (in coordinates relative to the domain if normalize is set). Result and success depend only on the drawn points, not on how they are distributed over the processes.", "quantifier": "every set, norm, point draw, process count and distribution of the points", "why_tests_cant": "Random draws and process counts; a process that misses a cell is rare in small tests.", "anchors": ["bet/sample.py:voronoi_sample_set.estimate_radii"]}
{"id": "C105", "title": "Estimated radii never exceed the true radii", "statement": "A radius estimated by estimate_radii is at most every upper bound of the distances from the sample to the points of its Voronoi cell.", "quantifier": "every set, norm, draw, process count", "why_tests_cant": "The true radius is a supremum over a continuum.", "anchors": ["bet/sample.py:voronoi_sample_set.estimate_radii"]}
{"id": "C106", "title": "Radii and volumes estimated together agree with the separate estimates", "statement": "estimate_radii_and_volume stores the radii of estimate_radii for the same draws and, as volumes, the fractions of all drawn points in each cell; the volumes are non-negative and sum to one. The processes together draw the requested number of points.", "quantifier": "every set, norm, draw, process count", "why_tests_cant": "Random draws and process counts.", "anchors": ["bet/sample.py:voronoi_sample_set.estimate_radii_and_volume"]}
{"id": "C107", "title": "Normal simple function approximations use the given mean and deviation", "statement": "uniform_partition_normal_distribution and normal_partition_normal_distribution draw coordinate j from the normal distribution with mean Q_ref[j] (or the stored reference value if Q_ref is omitted) and standard deviation std[j]; a single number means the same value for every coordinate. This holds for every documented type of the first argument: sample set, discretization or array.", "quantifier": "all data dimensions, all documented kinds of data, reference value and deviation (numbers, lists, arrays)", "why_tests_cant": "The types and dimensions combine in many ways, the tests use a few of them.", "anchors": ["bet/calculateP/simpleFunP.py:check_type", "bet/calculateP/simpleFunP.py:infer_Q", "bet/calculateP/simpleFunP.py:normal_partition_normal_distribution", "bet/calculateP/simpleFunP.py:uniform_partition_normal_distribution"]}
{"id": "C108", "title": "rect_size and Q_ref determine the support of the uniform distribution", "statement": "uniform_partition_uniform_distribution_rectangle_size draws its points from exactly the box around Q_ref with side lengths rect_size (a number, list or array), and its bin centers from the box that is half as large again; regular_partition_uniform_distribution_rectangle_size partitions that box. A missing reference value, missing size or a size that is not positive raises wrong_argument_type.", "quantifier": "all dimensions, reference values, sizes and draws", "why_tests_cant": "Every size, type and draw is meant; a test checks a few points.", "anchors": ["bet/calculateP/simpleFunP.py:uniform_partition_uniform_distribution_rectangle_size", "bet/calculateP/simpleFunP.py:regular_partition_uniform_distribution_rectangle_size", "bet/calculateP/simpleFunP.py:check_inputs"]}
{"id": "C109", "title": "rect_scale scales the smallest box around the data", "statement": "The _rectangle_scaled variants behave like the _rectangle_size variants with the side lengths of the smallest box that contains all data, each multiplied by its scale factor. If a data column is constant they raise wrong_argument_type.", "quantifier": "all data sets, reference values and scale factors", "why_tests_cant": "A property of all data sets.", "anchors": ["bet/calculateP/simpleFunP.py:uniform_partition_uniform_distribution_rectangle_scaled", "bet/calculateP/simpleFunP.py:regular_partition_uniform_distribution_rectangle_scaled"]}
{"id": "C110", "title": "rect_domain is the support", "statement": "The _rectangle_domain variants use exactly the box whose opposite corners are the two rows of rect_domain, in any order, as the support of the distribution.", "quantifier": "all boxes in all dimensions", "why_tests_cant": "A property of all boxes and dimensions.", "anchors": ["bet/calculateP/simpleFunP.py:uniform_partition_uniform_distribution_rectangle_domain", "bet/calculateP/simpleFunP.py:regular_partition_uniform_distribution_rectangle_domain", "bet/util.py:fix_dimensions_data"]}
{"id": "C111", "title": "Local volume estimates are normalised cell fractions", "statement": "estimate_local_volume stores volumes that are not negative and sum to one. They are proportional to radius^dim times the fraction of the points drawn in the ball around a sample that lie in its cell and in the domain. They do not depend on the number of processes, and the local volumes are the blocks of the global ones.", "quantifier": "all sets, draws, radii, limits and process counts", "why_tests_cant": "The result depends on random draws and on a search that may take any number of rounds.", "anchors": ["bet/sample.py:voronoi_sample_set.estimate_local_volume"]}
{"id": "C112", "title": "A local volume estimate does not depend on earlier calls", "statement": "Calling estimate_local_volume twice with the same arguments and the same random draws stores the same volumes.", "quantifier": "all sets and draws", "why_tests_cant": "It relates two executions of the same call.", "anchors": ["bet/sample.py:voronoi_sample_set.estimate_local_volume"]}
{"id": "C113", "title": "Without mpi4py the package computes what it computes on one MPI process", "statement": "With the replacement communicator of bet.Comm every result is the one obtained with mpi4py on a single process, although the replacement neither reduces nor writes into receive buffers. On several processes the same operations give every process the same sum, the same joined array and the same best sets.", "quantifier": "all arrays, all sequences of collective calls the package makes, all process counts", "why_tests_cant": "Needs two installations and relates executions on different numbers of processes.", "anchors": ["bet/Comm.py:comm_for_no_mpi4py", "bet/util.py:get_global_values", "bet/sensitivity/chooseQoIs.py:chooseOptQoIs_large_verbose"]}
{"id": "C114", "title": "The volumes of a ball sample set are the volumes of its cells", "statement": "ball_sample_set.exact_volume stores, for each ball, the fraction of the domain whose points query assigns to it, and for the last cell the rest; the volumes are not negative and sum to one.", "quantifier": "all dimensions, domains, centers, radii and norms", "why_tests_cant": "A statement about the volumes of arbitrary families of balls.", "anchors": ["bet/sample.py:ball_sample_set.exact_volume", "bet/sample.py:ball_sample_set.query"]}
{"id": "C115", "title": "Exact volumes in the plane are the areas of the cells in the domain", "statement": "exact_volume_2D stores for every sample the fraction of the area of the domain that lies in its Voronoi cell, for every side_ratio and every number of processes.", "quantifier": "all samples inside all rectangles, all ratios, all process counts", "why_tests_cant": "A statement about the geometry of arbitrary point sets and their reflections.", "anchors": ["bet/sample.py:voronoi_sample_set.exact_volume_2D"]}
{"id": "C116", "title": "Sets of rectangles and balls contain their own values", "statement": "rectangle_sample_set.setup and ball_sample_set.setup accept exactly lists of matching lengths whose rows have dim entries, and raise length_not_matching otherwise. Row i of the values is the middle of rectangle (ball) i, the last row is inf (nan). If no two cells overlap, querying the value of a cell returns that cell.", "quantifier": "all dimensions, all lists of boxes or balls, all norms", "why_tests_cant": "A property of all families of boxes and balls.", "anchors": ["bet/sample.py:rectangle_sample_set.setup", "bet/sample.py:rectangle_sample_set.query", "bet/sample.py:ball_sample_set.setup", "bet/sample.py:ball_sample_set.query"]}
{"id": "C117", "title": "Clusters learned by LUQ can be inverted", "statement": "useLUQ.make_disc returns a discretization that carries the labels LUQ gave the predictions, and calculateR.invert on it gives each sample the density ratio of its cluster at its transformed data. This holds with an observation set or with an observed series set by hand, for every number of processes.", "quantifier": "all label arrays and cluster maps, all process counts, with and without observation set", "why_tests_cant": "The existing test runs on one process with one data set; labels, maps and the number of processes are unbounded.", "anchors": ["bet/sampling/useLUQ.py:useLUQ.make_disc", "bet/sample.py:discretization.local_to_global", "bet/calculateP/calculateR.py:generate_output_kdes", "bet/calculateP/calculateR.py:invert"]}
{"id": "C118", "title": "Random sample sets follow the requested distributions", "statement": "random_sample_set accepts exactly a name, a name with parameters, or a list with one (name, parameters) entry per dimension, for distributions that take these parameters; anything else raises and leaves the set unchanged. Entry i of every sample is a number drawn from the distribution asked for in dimension i, with location and scale of the domain if only a name is given. The set then has n samples, a consistent number of entries in all its arrays, the supports as domain, and the distributions as initial probability. Sampling a set again by the same name uses the same distribution.", "quantifier": "all formats of the argument, all distributions, sets, numbers of samples and processes", "why_tests_cant": "The formats, dimensions and earlier contents of the set are unbounded; the tests use fresh sets.", "anchors": ["bet/sampling/basicSampling.py:random_sample_set", "bet/sample.py:sample_set_base.check_num", "bet/sample.py:sample_set_base.set_domain"]}
{"id": "C119", "title": "A fitted random variable can be sampled", "statement": "After invert_to_random_variable, sample_from_updated draws from the fitted distributions: the fitted numbers are stored under the names of the parameters of the distribution, in every dimension and for every continuous distribution with at most two shape parameters.", "quantifier": "all distributions, fitted values, dimensions, numbers of samples and processes", "why_tests_cant": "Tests fit beta and uniform only; the distributions of scipy differ in the names of their parameters.", "anchors": ["bet/calculateP/calculateR.py:invert_to_random_variable", "bet/sampling/basicSampling.py:sample_from_updated"]}
{"id": "C120", "title": "The reference value is mapped by the model", "statement": "If the input set has a reference value, compute_qoi_and_create_discretization gives the output set the model's value at it, for every model that evaluates samples row by row, with or without error estimates and Jacobians; a model that cannot map it never makes the evaluation of the samples fail.", "quantifier": "all models, dimensions, reference values", "why_tests_cant": "The model is user code; the test uses one linear model.", "anchors": ["bet/sampling/basicSampling.py:sampler.compute_qoi_and_create_discretization", "bet/sample.py:sample_set_base.set_reference_value"]}
{"id": "C121", "title": "Comparing discretizations decides equality", "statement": "`d == e` for two discretizations is True exactly if they hold the same sets and the same pointers, False otherwise, and never raises; in particular a discretization equals its copy. (The first two parts hold if the same sets and pointers are present on both sides and pointers are arrays. If one of them has a set the other lacks, or the sets have different classes, the comparison raises TypeError instead of answering False; a pointer given as a list makes the comparison of a discretization with itself raise AttributeError, and passes for equal to any array of its length.)", "quantifier": "all pairs of discretizations: all combinations of present and absent sets, classes, fields and pointers", "why_tests_cant": "Tests compare a few discretizations with the same sets present.", "anchors": ["bet/sample.py: discretization.__eq__, discretization.copy, sample_set_base.__eq__"]}
{"id": "C122", "title": "A comparison uses the measures and points asked for", "statement": "compare(a, b, inputs, set1_init, set2_init) accepts exactly sample_sets of equal dimension and discretizations whose chosen (input or output) sets are such; otherwise it raises wrong_input or dim_not_matching. evaluate_pdfs evaluates the initial density of a set if asked to and the updated density otherwise, at the points last given to set_compare_set, and pdfs_zero is the number of points at which both vanish. set_compare_set accepts exactly sample_sets and two-dimensional arrays of the right dimension and integers.", "quantifier": "all arguments, all flags, all points and density functions", "why_tests_cant": "The choice depends on five arguments and their types.", "anchors": ["bet/postProcess/compareP.py: compare.__init__, compare.set_compare_set, compare.evaluate_pdfs"]}
{"id": "C123", "title": "Distances of marginals approximate distances of distributions", "statement": "distance_marginal with n points is within C/n of the distance given by the integrals over the interval, so it agrees with distance_marginal_quad for large n; for densities on the interval the total variation distance lies in [0, 1], is symmetric, satisfies the triangle inequality and is zero exactly for equal densities, the Hellinger distance lies in [0, 1] with its square at most the total variation, and the Kullback-Leibler divergence is not negative. (Proved for 'tv', '2', 'hell', 'kl'. Refuted for 'norm': distance_marginal_quad returns 0 for any two densities, since it integrates the signed difference, and distance_marginal returns a number that grows with the square root of n.)", "quantifier": "all intervals, numbers of points, Lipschitz continuous marginal densities and quadratures that are exact for the integrand", "why_tests_cant": "A limit over the number of points and over all densities.", "anchors": ["bet/postProcess/compareP.py: compare.distance_marginal, compare.distance_marginal_quad"]}
{"id": "C124", "title": "Smoothing keeps marginals distributions and does not move them", "statement": "smooth_marginals_1D returns for every marginal a probability vector on the same bins, and smoothing spreads the mass of a bin evenly to both sides, so that the smoothed version of a mass in one bin is largest in that bin. (The first part holds for two or more bins; with one bin the result is nan. The second part is refuted for every number of bins: the kernel is not centred, so everything is moved to the left by one bin if the number of bins is odd and by half a bin if it is even.)", "quantifier": "all numbers of bins, widths of bins and kernels, all marginals", "why_tests_cant": "Depends on the parity of the number of bins and on how the transform wraps around.", "anchors": ["bet/postProcess/plotP.py: smooth_marginals_1D"]}
{"id": "C125", "title": "Smoothing two-dimensional marginals", "statement": "smooth_marginals_2D returns for every pair of directions a table of probabilities with the same bins, smooths independent variables separately, each as smooth_marginals_1D does, and does not move mass. (Tables of probabilities: for two or more bins in both directions; with one column every entry is nan. Mass is moved: by one bin in both directions if the numbers of bins are odd.)", "quantifier": "all numbers of bins, widths of bins and kernels, all marginals", "why_tests_cant": "Depends on the parities of the numbers of bins and on how the transform wraps around.", "anchors": ["bet/postProcess/plotP.py: smooth_marginals_2D"]}
{"id": "C126", "title": "The one-dimensional Voronoi plot shows the density", "statement": "plot_1D_voronoi draws for every sample a line over exactly its Voronoi cell, at the height of the probability of that sample divided by the length of the cell (or at its probability). (The lines are proved to cover the cells. The heights are refuted: the probability of the smallest sample is used for all cells, so that the picture is right exactly if all probabilities are equal; without density there is one height for all lines.)", "quantifier": "all sets of distinct samples in an interval, all probabilities, all orders of the samples", "why_tests_cant": "A test with equal probabilities, or one that only checks that a file is written, passes.", "anchors": ["bet/postProcess/plotVoronoi.py: plot_1D_voronoi"]}
{"id": "C127", "title": "Polygons drawn for Voronoi cells", "statement": "voronoi_finite_polygons_2d returns one polygon for each point; all its vertices lie in the Voronoi cell of that point; finite cells are returned unchanged; an infinite cell keeps its finite vertices and gets, for each infinite ridge, one point on that ridge at distance radius from its finite end; and the polygons cover the region of the samples. (The last part is refuted: for three points that are nearly on a line all polygons of the default radius lie away from the samples, so that the plot is empty.)", "quantifier": "all diagrams that meet the contract of scipy.spatial.Voronoi, all radii", "why_tests_cant": "Depends on the geometry of the hull and on how far the vertices of the diagram are from the samples.", "anchors": ["bet/postProcess/plotVoronoi.py: voronoi_finite_polygons_2d"]}
{"id": "C128", "title": "Colours and labels of the two-dimensional Voronoi plot", "statement": "plot_2D_voronoi colours every cell by its density (or probability) relative to the largest one, so that cells are ordered by colour as by density, and labels the axes with the given labels. (The colours are proved if the probabilities are not all zero; if they are, the colours are nan. The labels are refuted: with labels the function fails with an unbound variable.)", "quantifier": "all sets with two dimensions, all probabilities, volumes and labels", "why_tests_cant": "The tests do not pass labels; the order of colours is a statement about all pairs of cells.", "anchors": ["bet/postProcess/plotVoronoi.py: plot_2D_voronoi"]}
{"id": "C129", "title": "Probabilities with emulated volumes", "statement": "prob_with_emulated_volumes gives every input cell the sum of the probabilities that prob_on_emulated_samples gives to the emulated points in it, that is the probability of its output cell times the share of the cell among the emulated points over that output cell. Probabilities are nonnegative; their total is at most the output total, with equality exactly if every output cell of positive probability is hit by an emulated point. Neither the number of processes nor the distribution of the points matters.", "quantifier": "all output probabilities, all input-output pointers, all emulated points, all numbers of processes and distributions", "why_tests_cant": "A relation between two functions for all inputs and layouts; the tests compare with stored numbers for one example.", "anchors": ["bet/calculateP/calculateP.py: prob_with_emulated_volumes", "bet/sample.py: discretization.set_io_ptr", "bet/sample.py: sample_set_base.estimate_volume_emulated"]}
{"id": "C130", "title": "Scatter plots show the samples", "statement": "scatter_2D and scatter_3D draw, for every chosen sample (default: all), one marker at the sample with its colour, the reference value that is given (default: that of the set), and write the file filename + file_extension; they succeed exactly if the set has the right dimension, the chosen samples exist and have a colour. The versions for discretizations colour by an array or by one of the names volumes, probabilities, radii, normalized radii, error_id. (Refuted for the names with a space, for both three-dimensional versions, which call themselves instead of scatter_3D, and for the extension if the path contains a dot, as in ./name.)", "quantifier": "all sets, choices of samples, colours, reference values, labels and file names", "why_tests_cant": "Tests only check that a file appears; the relation between markers, colours and samples is not observed.", "anchors": ["bet/postProcess/plotDomains.py: scatter_2D", "bet/postProcess/plotDomains.py: scatter_3D", "bet/postProcess/plotDomains.py: scatter_2D_input", "bet/postProcess/plotDomains.py: scatter_3D_input"]}
{"id": "C131", "title": "Scatter plots of the density on the data", "statement": "scatter_rhoD colours the samples by the density of their outputs; with showdim 2 or 3 it draws exactly one plot for every pair or triple of the chosen coordinates, in different files, showing exactly these coordinates of samples and reference value, with labels and file named after them; label_char and file_extension are used for labels and files; every set with at least one dimension is plotted. (The last sentence is refuted: label_char is ignored, the extension has no effect for pairs and for up to three dimensions, one dimension raises, more than three without showdim plot nothing, coordinate 0 is accepted and shows the last one; sets of inputs are not coloured by the density and sets of outputs need one.)", "quantifier": "all discretizations, densities, choices of samples and coordinates", "why_tests_cant": "The number of plots and the file names depend on the dimension; tests do not look into the figures.", "anchors": ["bet/postProcess/plotDomains.py: scatter_rhoD"]}
{"id": "C132", "title": "Scatter plots of pairs of coordinates", "statement": "scatter_2D_multi draws, for showdim all, exactly one plot for every pair of different coordinates, for an integer one plot for every other coordinate, in different files, each with the reference value (default: that of the set); the versions for discretizations do the same with the arrays of the set as colours. (Refuted: an integer also plots the coordinate against itself; the reference value of the set is not shown; the version for inputs always raises; the version for outputs raises unless the colour is a name. The rest is proved.)", "quantifier": "all sets, colours, reference values, folders, file names and dimensions", "why_tests_cant": "Files could overwrite each other or plots be missing for dimensions that are not tested.", "anchors": ["bet/postProcess/plotDomains.py: scatter_2D_multi", "bet/postProcess/plotDomains.py: scatter_2D_multi_input", "bet/postProcess/plotDomains.py: scatter_2D_multi_output"]}
{"id": "C133", "title": "Plots of the data domain", "statement": "show_data_domain_multi draws exactly one pair of plots (with and without reference values) for every pair of chosen coordinates, or for the chosen coordinate with every other one, in different files; each shows the data and every reference value in these coordinates, reference value k with marker k and colour k. Any number of reference values can be shown. (The last sentence is refuted: more reference values than colours, of which there are seven by default, raise IndexError. The rest is proved.)", "quantifier": "all discretizations, reference values, coordinates, markers, colours, folders", "why_tests_cant": "Files could overwrite each other; the tests use few coordinates and one reference value.", "anchors": ["bet/postProcess/plotDomains.py: show_data_domain_multi", "bet/postProcess/plotDomains.py: show_data_domain_2D"]}
{"id": "C134", "title": "Plots of marginal probabilities", "statement": "plot_1D_marginal_probs, plot_2D_marginal_probs and plot_2D_marginal_contours make one figure for every marginal, in different files. With n equal bins of the domain, point k of a curve lies at the middle of bin k, every pixel of an image (and every height of a contour plot) covers exactly one bin, and the value times the width (the area) of the bin is its probability; surfaces have their points at the middles of the bins. The reference value is the given one or that of the set; other objects raise bad_object. (Refuted: the points of curves lie over their bins, but at the middle only for the middle bin; curves span the domain of the input set even if the bins cover another interval; contours with one bin in a direction raise. The rest is proved.)", "quantifier": "all domains, numbers of bins, marginals, reference values, labels and file names", "why_tests_cant": "Pictures are not compared in tests; a shift by half a bin or a transposed image is not noticed.", "anchors": ["bet/postProcess/plotP.py: plot_1D_marginal_probs", "bet/postProcess/plotP.py: plot_2D_marginal_probs", "bet/postProcess/plotP.py: plot_2D_marginal_contours"]}
{"id": "C135", "title": "Plots of marginal densities", "statement": "plot_1d_marginal_densities draws for every set (the input or output set of a discretization) its initial density if asked for (solid) and its updated density (dashed) and nothing else, all at the same num_points points of the interval; without interval the points reach from the least to the greatest sample of all sets and a quarter of the range further. Different curves have different names by default. Other objects raise bad_object. (Refuted: without interval num_points is ignored and there are 100 points; sets with the same labels of parameters get the same name. The rest is proved.)", "quantifier": "all lists of sets and discretizations, densities, intervals, labels", "why_tests_cant": "The tests draw a few sets and do not look at the curves.", "anchors": ["bet/postProcess/plotP.py: plot_1d_marginal_densities"]}
{"id": "C136", "title": "Cells of regular samples are equal boxes", "statement": "For regular samples of a domain (regular_sample_set) and any p-norm with p >= 1, the points of the domain nearest to a sample are exactly those of the box of one n-th of the domain per direction with the sample in its middle; these boxes cover the domain and have equal volumes, so the Monte Carlo assumption (estimate_volume_mc) is exact, equals exact_volume_1D in one dimension, and equals the exact volumes of the cartesian sample set with these boxes, whose remainder is empty. For p = inf the sample of a box is nearest to all its points, but points may be nearest to further samples.", "quantifier": "all domains, numbers of samples per direction, p, points and sorting permutations", "why_tests_cant": "Tests check a few grids and the sum of the volumes, not which points belong to a cell.", "anchors": ["bet/sampling/basicSampling.py: regular_sample_set", "bet/sample.py: sample_set_base.estimate_volume_mc", "bet/sample.py: voronoi_sample_set.exact_volume_1D", "bet/sample.py: cartesian_sample_set.setup"]}
{"id": "C137", "title": "A measure-based inversion from end to end", "statement": "Take samples, evaluate the model (compute_qoi_and_create_discretization), define volumes (Monte Carlo or given), store an output probability set (by simpleFunP or set_output_probability_set) and call prob: every sample gets the probability of its output cell times its part of the volume of the samples in that cell. The result is the same for every number of processes, with or without global arrays, whether the volumes are defined before or after the evaluation; renumbering the samples renumbers the probabilities. The probability of every output cell is reproduced if samples of positive volume hit it, and the total is that of the output exactly if all cells of positive probability are hit. (Refuted: volumes given by the user after the evaluation raise TypeError. The rest is proved.)", "quantifier": "all samples, models, volumes, output cells and probabilities, numbers of processes and orders of the steps", "why_tests_cant": "Each step is tested alone on one process; the state left by one step for the next depends on the order of the calls.", "anchors": ["bet/sampling/basicSampling.py: compute_qoi_and_create_discretization", "bet/sample.py: sample_set_base.estimate_volume_mc", "bet/sample.py: sample_set_base.set_volumes", "bet/sample.py: discretization.set_output_probability_set", "bet/calculateP/calculateP.py: prob"]}
{"id": "C138", "title": "Rounding errors of probabilities", "statement": "In floating-point arithmetic with relative rounding error u (no underflow), whatever order numpy and MPI choose for additions, every probability computed by prob agrees with the exact one up to the relative error (n + P) u, where n is the number of samples in the output cell and P the number of processes; in particular it is zero or positive exactly when the exact one is. The same holds for the total and for the probability of every output cell, and for the masked sums of prob_from_sample_set. Results on different numbers of processes differ by at most (2 n + P + P') u.", "quantifier": "all samples, nonnegative volumes, output probabilities, numbers of processes, roundings and orders of addition", "why_tests_cant": "The order of additions depends on the MPI library and on the number of processes; tests compare with fixed tolerances on one machine.", "anchors": ["bet/calculateP/calculateP.py: prob", "bet/calculateP/calculateP.py: prob_from_sample_set", "bet/calculateP/calculateP.py: prob_from_discretization_input"]}
{"id": "C139", "title": "Processes at different speeds", "statement": "On any number of processes, whatever their relative speeds: prob, prob_from_sample_set, estimate_volume_emulated, calculate_1D_marginal_probs, check_num, local_to_global and global_to_local end on every process, after a bounded number of steps and without a deadlock; what every process has at the end does not depend on the speeds: it is its block of the arrays that the processes compute in lock step.", "quantifier": "all numbers of processes, all orders in which the processes take their steps, all arrays", "why_tests_cant": "A test runs one schedule on one machine; a race or deadlock shows only for some relative speeds and numbers of processes.", "anchors": ["bet/calculateP/calculateP.py: prob", "bet/calculateP/calculateP.py: prob_from_sample_set", "bet/sample.py: sample_set_base.check_num", "bet/sample.py: sample_set_base.local_to_global", "bet/sample.py: sample_set_base.global_to_local", "bet/sample.py: sample_set_base.estimate_volume_emulated", "bet/postProcess/plotP.py: calculate_1D_marginal_probs", "bet/util.py: get_global_values"]}
{"id": "C140", "title": "An error on one process does not block the others", "statement": "If a call fails on one of several processes, the failure becomes visible on all of them: no process is left waiting for ever and none goes on with wrong data. (Refuted: if the local volumes have the wrong length on some but not all processes, prob raises on those and the others wait for ever, for every schedule; the same for prob_from_sample_set, for check_num with local arrays of different lengths, and for all processes but the first if a plot of marginals fails. If processes have different local arrays, local_to_global ends without error and appends the volumes of one process to the probabilities of another one. Errors that occur on all processes are raised on all of them.)", "quantifier": "all numbers of processes, all schedules, all positions of the failing process", "why_tests_cant": "Unit tests run on one process or look only at the process that fails.", "anchors": ["bet/calculateP/calculateP.py: prob", "bet/calculateP/calculateP.py: prob_from_sample_set", "bet/sample.py: sample_set_base.check_num", "bet/sample.py: sample_set_base.local_to_global", "bet/postProcess/plotP.py: plot_1D_marginal_probs", "bet/postProcess/plotP.py: plot_2D_marginal_probs", "bet/postProcess/plotP.py: plot_2D_marginal_contours"]}
{"id": "C141", "title": "Discretizations without common sample sets do not influence each other", "statement": "Sample sets are objects that several discretizations may hold. If no set belongs to two of them, then for any history of calls on any number of discretizations (setters, pointer computations, local_to_global, global_to_local, prob, prob_on_emulated_samples, simpleFunP constructions, methods of the sets themselves; also calls that raise): every discretization, its sets and the results of its calls are what they would be if only its own calls had been made. A discretization whose places hold distinct objects does in every call what it would do if its sets were values.", "quantifier": "all histories of calls on all numbers of discretizations, all assignments of sets to discretizations, all numbers of processes", "why_tests_cant": "Tests use one or two discretizations in one order of calls; influence through a shared object needs a certain history.", "anchors": ["bet/sample.py: discretization", "bet/sample.py: discretization.set_input_sample_set", "bet/sample.py: discretization.set_output_probability_set", "bet/sample.py: discretization.local_to_global", "bet/sample.py: discretization.global_to_local", "bet/calculateP/calculateP.py: prob", "bet/calculateP/calculateP.py: prob_on_emulated_samples"]}
{"id": "C142", "title": "Two inverse problems with the same input samples", "statement": "Two discretizations with the same input set and own output sets can both be solved with prob: afterwards each shows its own solution. (Refuted: prob writes the probabilities into the shared input set; after every successful second call the first discretization shows exactly the solution of the second. Solving the first again restores its probabilities.)", "quantifier": "all stores of sample sets, all pairs of discretizations with the same input set, all numbers of processes", "why_tests_cant": "The effect needs two problems on one set object; tests build new objects for every problem.", "anchors": ["bet/calculateP/calculateP.py: prob", "bet/sample.py: discretization.get_input_sample_set", "bet/sample.py: sample_set_base.set_probabilities_local"]}
{"id": "C143", "title": "Work on a copy, a clip or a merge leaves the originals unchanged", "statement": "copy gives a discretization with new sets that shows the same problem, with a set held in two places copied once; afterwards histories of calls on the copy and on the original do not influence each other. clip and merge give new input and output sets (merge: also new emulated sets), change the originals at most by adding local arrays and search trees, and calls on the result leave the originals unchanged. (Proved for copy, and for prob on a clip. Refuted for prob_on_emulated_samples on a clip: clip shares the emulated sets with the original, and the original's emulated probabilities are overwritten. A clip and a merge share the output probability set with the first original.)", "quantifier": "all stores of sample sets, all discretizations, all histories of calls on original and copy", "why_tests_cant": "Tests compare the values of the result, not the later effect of calls on it on the original.", "anchors": ["bet/sample.py: discretization.copy", "bet/sample.py: discretization.clip", "bet/sample.py: discretization.merge", "bet/sample.py: sample_set_base.merge", "bet/calculateP/calculateP.py: prob_on_emulated_samples"]}
{"id": "C144", "title": "Sampling leaves nothing of earlier samples behind", "statement": "After random_sample_set, lhs_sample_set or regular_sample_set of a sampler, the input set holds the new samples and nothing that belongs to earlier samples: for a dimension or a domain a new set with the requested samples only; for a given set no volumes, probabilities, Jacobians, bounds or weights of the samples it held before, and a call that raises leaves the set as it was.", "quantifier": "all dimensions, domains, given sets with any arrays, numbers of samples, draws, designs and numbers of processes, with and without globalizing", "why_tests_cant": "Tests sample into fresh sets; what stays in a used set depends on everything that was stored in it, and the damage shows only in later calls.", "anchors": ["bet/sampling/basicSampling.py:random_sample_set", "bet/sampling/basicSampling.py:lhs_sample_set", "bet/sampling/basicSampling.py:regular_sample_set", "bet/sampling/basicSampling.py:sampler"]}
{"id": "C145", "title": "A discretization keeps its samples when its sampler is used again", "statement": "A discretization made by a sampler keeps its input and output samples, paired, whatever is done with the sampler, with other discretizations and with other sets afterwards.", "quantifier": "all histories of calls of the sampler and of the user, all discretizations, models, draws and numbers of processes", "why_tests_cant": "The claim is about all later histories and about references shared between the sampler, its discretizations and the user.", "anchors": ["bet/sampling/basicSampling.py:sampler", "bet/sample.py:discretization"]}
{"id": "C146", "title": "Discretizations made by a sampler are paired, and globalizing may wait", "statement": "create_random_discretization returns a discretization whose inputs are the requested number of new samples and whose outputs are the values of the model at these samples, in the same order, on every process and globally if requested; the number of samples may be omitted. Evaluating the model without globalizing and calling local_to_global later leaves the same sets and discretizations as globalizing at once.", "quantifier": "all models that map row by row, draws, numbers of samples and processes, and all states of the sampler", "why_tests_cant": "Order and pairing must hold for every distribution of samples over processes; the equivalence is between two orders of calls in every state.", "anchors": ["bet/sampling/basicSampling.py:sampler.create_random_discretization", "bet/sampling/basicSampling.py:sampler.compute_qoi_and_create_discretization", "bet/sampling/basicSampling.py:sampler.local_to_global"]}
{"id": "C147", "title": "A copy of a sampler is a sampler of its own", "statement": "sampler.copy() gives a sampler with an equal input set and an equal discretization in which the same places are shared as in the original; no history of calls on the copy changes a set or a discretization that existed before.", "quantifier": "all samplers, with or without input set and discretization, and all histories of calls on the copy", "why_tests_cant": "A deep copy with a forgotten or doubled share differs only after particular later calls.", "anchors": ["bet/sampling/basicSampling.py:sampler.copy", "bet/sample.py:discretization.copy"]}
{"id": "C148", "title": "Marginals of a sample set or discretization are those of its probabilities", "statement": "calculate_1D_marginal_probs and calculate_2D_marginal_probs take a sample set or a discretization (then they use its emulated input set if it has one, else its input set) and one number of bins or one per dimension. They return the edges of the equal bins of each side of the domain and, per dimension or pair of dimensions, the total probability of the samples in every bin, the same on every number of processes and whether the arrays are local or global; the object keeps its global arrays. Other objects raise bad_object, objects without probabilities missing_attribute. The probabilities are the current ones of the object, and a number of bins may be any integer. (Refuted: once there are local probabilities, new global ones are ignored; an emulated input set without probabilities hides those of the input set; a numpy integer raises.)", "quantifier": "all sample sets and discretizations, numbers of bins and processes", "why_tests_cant": "The result must not depend on how samples are distributed and in which array they are stored.", "anchors": ["bet/postProcess/plotP.py:calculate_1D_marginal_probs", "bet/postProcess/plotP.py:calculate_2D_marginal_probs"]}
{"id": "C149", "title": "Selected samples keep their probabilities, volumes and outputs", "statement": "sort_by_rho, sample_highest_prob and sample_lowest_prob on a sample set or discretization return a new object of the same kind and dimensions in which row k holds the values, the probability, the volume and (for a discretization) the outputs of the sample with the k-th returned index, ordered by density, and nothing else; the selection is the longest one whose total probability does not exceed the given value. They work for every object with probabilities. (Refuted: probabilities that are only local, and discretizations without outputs, raise. Proved if no sample has probability and volume zero, see C46.)", "quantifier": "all sample sets and discretizations, percentiles and tie-breaking of argsort", "why_tests_cant": "The pairing of five arrays must survive sorting for every input, including ties.", "anchors": ["bet/postProcess/postTools.py:sort_by_rho", "bet/postProcess/postTools.py:sample_prob", "bet/postProcess/postTools.py:sample_highest_prob", "bet/postProcess/postTools.py:sample_lowest_prob"]}
{"id": "C150", "title": "Plots and selections show the solution of the inverse problem", "statement": "After sampling, evaluating the model, defining volumes and output probabilities and calling prob, the marginals calculated from the discretization are the histograms of the solution (the probability of each output cell, shared by volume among the samples with outputs in it), and sample_highest_prob returns the densest samples of the solution whose total probability does not exceed the given value, with their outputs under the model; for every number of processes.", "quantifier": "all models that map row by row, samples, positive volumes, output probabilities, bins, percentiles and numbers of processes", "why_tests_cant": "An end-to-end statement over all inputs; each call relies on the arrays left by the earlier ones.", "anchors": ["bet/postProcess/plotP.py:calculate_1D_marginal_probs", "bet/postProcess/plotP.py:calculate_2D_marginal_probs", "bet/postProcess/postTools.py:sample_highest_prob", "bet/calculateP/calculateP.py:prob"]}
{"id": "C151", "title": "A density-based inversion of stored samples from end to end", "statement": "Inverting a discretization by kernel density estimates gives every input sample the ratio of the observed and the predicted density of its cluster at its own output (zero for samples with negative labels), reports the ratios, their means and the members of every cluster, and lets the input set evaluate the mixture, over the clusters and with their shares of the observations, of the estimates from the weighted inputs, multiplied over the coordinates. The result is the same for every number of processes, whether arrays are distributed or not, and when the inversion is repeated; renumbering the samples renumbers the weights and keeps the density.", "quantifier": "all samples, outputs, observations, labels with or without gaps, initial weights, ways of storing them, numbers of processes, density estimates and points", "why_tests_cant": "It ranges over all data, label patterns, storage layouts and process counts, and over the results of any density estimate.", "anchors": ["bet/calculateP/calculateR.py:generate_output_kdes", "bet/calculateP/calculateR.py:invert", "bet/calculateP/calculateR.py:invert_to_kde", "bet/sample.py:discretization.local_to_global", "bet/sample.py:sample_set_base.pdf", "bet/sample.py:evaluate_pdf"]}
{"id": "C152", "title": "Initial weights of samples enter a density-based inversion", "statement": "Initial weights given to the samples of a discretization change the predicted density and so the weights that an inversion assigns; this holds for weights given to the outputs and for weights given to the inputs they were computed from.", "quantifier": "all discretizations, initial weights, density estimates and numbers of processes", "why_tests_cant": "Whether a stored weight is read at all has to be decided for every discretization.", "anchors": ["bet/calculateP/calculateR.py:generate_output_kdes", "bet/calculateP/calculateR.py:invert", "bet/sample.py:sample_set_base.set_weights_init"]}
{"id": "C153", "title": "The best sets of QoIs of an affine model do not depend on how its gradients are found", "statement": "For an affine model, the run from stencils (forward or centred differences around any centers, with any radii) over the model, the gradients and the search returns the best sets with respect to the model's own coefficient matrix: among a maximal set of dissimilar QoIs, the k choices with the smallest inverse volume (or skewness) of the parallelepiped spanned by their rows, with these values, for every number of processes. Another scheme, other centers, radii or constants of the model give the same answer. The search through growing sets (chooseOptQoIs_large) puts an optimal choice of every size first.", "quantifier": "all affine models, dimensions, centers, nonzero radii, schemes, numbers of processes, numbers of QoIs and sets asked for, tolerances, normalized or not, and all singular value routines", "why_tests_cant": "The chain of four functions has to agree on layouts, averages and selections for every matrix; a test sees a few matrices.", "anchors": ["bet/sensitivity/gradients.py:pick_ffd_points", "bet/sensitivity/gradients.py:calculate_gradients_cfd", "bet/sensitivity/chooseQoIs.py:chooseOptQoIs", "bet/sensitivity/chooseQoIs.py:chooseOptQoIs_large", "bet/sensitivity/chooseQoIs.py:calculate_avg_skewness"]}
{"id": "C154", "title": "The LUQ interface learns from the latest data and its clusters weight the samples", "statement": "After any history of calls on a useLUQ object that returned, its learner was built from the series given to initialize or else from the stored ones: the model at the samples as they were when the predictions were last made, and the observations last given or computed; it has done everything asked of it since. A call that raises leaves the sample sets and all that it does not compute as they were, and learning or making discretizations before initialize raises AttributeError. make_disc gives the object's own sample sets with the learned labels and maps, and the same again when asked again. On one process, inverting its result gives every sample of the prediction set one weight, the density ratio of its cluster at its transformed data.", "quantifier": "all models, learners, sample sets, histories of calls and values set in between", "why_tests_cant": "Histories are unbounded and the learner and the model are arbitrary; the existing test runs one fixed sequence.", "anchors": ["bet/sampling/useLUQ.py:useLUQ.get_predictions", "bet/sampling/useLUQ.py:useLUQ.initialize", "bet/sampling/useLUQ.py:useLUQ.setup", "bet/sampling/useLUQ.py:useLUQ.make_disc", "bet/calculateP/calculateR.py:invert"]}
{"id": "C155", "title": "The LUQ interface keeps observations given by hand, saved samples and distributed samples", "statement": "Observations set with set_observed_time_series are the ones used after setup; make_disc pairs labels with the samples they were learned from; an object that is saved and loaded gives the same discretizations; samples that are distributed over the processes are evaluated.", "quantifier": "all models, learners, sample sets and process counts", "why_tests_cant": "They concern orders of calls and process counts that the existing test, which runs only in serial, does not try.", "anchors": ["bet/sampling/useLUQ.py:useLUQ.setup", "bet/sampling/useLUQ.py:useLUQ.set_observed_time_series", "bet/sampling/useLUQ.py:useLUQ.save", "bet/sampling/useLUQ.py:useLUQ.make_disc", "bet/util.py:save_object"]}
{"id": "C156", "title": "Samples given in either orientation are stored one per row, and nothing is lost by appending", "statement": "set_values accepts a number, a vector or a two-dimensional array exactly if its rows or its columns are points of the set's dimension, and stores one point per row, whichever orientation was given. After any sequence of accepted calls of set_values and append_values the set holds the points last set followed by those appended since, in order. An input that does not fit raises an exception and leaves the samples as they were.", "quantifier": "all inputs with up to two axes, all dimensions, all sequences of calls", "why_tests_cant": "Orientation is guessed from sizes; a test tries a few sizes.", "anchors": ["bet/sample.py:sample_set_base.set_values", "bet/sample.py:sample_set_base.set_values_local", "bet/sample.py:sample_set_base.append_values", "bet/util.py:fix_dimensions_data"]}
{"id": "C157", "title": "The volumes defined last are those of the solution", "statement": "After the model is evaluated, volumes of the input samples may be defined again and again by any method (Monte Carlo, estimates by counting, estimates in local balls, exact volumes in one or two dimensions, of rectangles or of balls, or given by the user for all samples or for those of each process), with global_to_local, local_to_global and prob called in between and calls that raise ignored. The next prob distributes the output probabilities in proportion to the volumes defined last. (Refuted: exact volumes of rectangles and balls and volumes given for all samples are not seen by prob until global_to_local is called, which goes on with the volumes before them or raises TypeError; volumes given to each process are replaced by older global ones at the next global_to_local.)", "quantifier": "all histories of calls, all volumes, samples, models, output probabilities and numbers of processes", "why_tests_cant": "whether a method refreshes the arrays of the processes shows only in certain orders of calls; tests define volumes once", "anchors": ["bet/sample.py:exact_volume_lebesgue", "bet/sample.py:exact_volume", "bet/sample.py:estimate_volume", "bet/sample.py:set_volumes", "bet/sample.py:global_to_local", "bet/calculateP/calculateP.py:prob"]}
{"id": "C158", "title": "Gaussian mixtures fitted by a density-based inversion", "statement": "invert_to_gmm stores, for every cluster of output samples, the fraction of observations with its label and the mean and covariance of the cluster's input samples weighted by the ratio of observed and predicted density; the density and the marginals that the input set then evaluates are the mixture of the Gaussians with these fractions. The result depends neither on the number of processes nor on earlier inversions.", "quantifier": "all stored samples and labels, numbers of processes, density estimates and evaluation points", "why_tests_cant": "tests fit one clean Gaussian; clusters without samples, ratios that are not numbers, distributed input and a second call are cases of the input space", "anchors": ["bet/calculateP/calculateR.py invert_to_gmm", "bet/sample.py evaluate_pdf", "bet/sample.py evaluate_pdf_marginal"]}
{"id": "C159", "title": "A single Gaussian or random variable represents the updated distribution", "statement": "The mean and covariance of invert_to_multivariate_gaussian are those of the mixture over all clusters weighted by the fractions of observations, and invert_to_random_variable fits its distributions to copies of the input samples in proportion to the updated weights.", "quantifier": "all stored samples, labels, density estimates and numbers of copies", "why_tests_cant": "a test with one cluster, or with clusters whose ratios have equal sums, cannot tell the two weightings apart", "anchors": ["bet/calculateP/calculateR.py invert_to_multivariate_gaussian", "bet/calculateP/calculateR.py invert_to_random_variable"]}
{"id": "C160", "title": "Rejection sampling on several processes returns one sample set", "statement": "After invert_rejection_sampling all processes hold the same global samples: input samples, each accepted or rejected once with probability equal to its ratio over the largest of its cluster, equal probabilities, the smallest box as domain; the local parts of the processes together are the global samples.", "quantifier": "all stored samples, numbers of processes and uniform numbers drawn by each process", "why_tests_cant": "serial tests see one process and one sequence of random numbers", "anchors": ["bet/calculateP/calculateR.py invert_rejection_sampling", "bet/sample.py sample_set.global_to_local"]}
{"id": "C161", "title": "Learned quantities are inverted like stored values", "statement": "If a discretization has learned outputs (cluster labels and one map of transformed values per cluster, for predictions and observations), every inversion (invert, invert_to_kde, invert_to_gmm, invert_to_multivariate_gaussian, invert_to_random_variable, invert_rejection_sampling) gives what it gives for a discretization that has the learned value of each sample as its output value.", "quantifier": "all samples, labels, maps, numbers of clusters and processes, density estimates and random numbers", "why_tests_cant": "tests run one LUQ example with several clusters; the number of clusters, their interleaving and the processes vary", "anchors": ["bet/calculateP/calculateR.py generate_output_kdes", "bet/calculateP/calculateR.py invert", "bet/sampling/useLUQ.py make_disc"]}
{"id": "C162", "title": "The last inversion decides", "statement": "After any sequence of inversions (invert, invert_to_kde, invert_to_gmm, invert_to_multivariate_gaussian, invert_to_random_variable, invert_rejection_sampling) on one discretization, also with other observed sets in between, the weights, the updated measure and the exceptions are what each call gives on the original discretization with the current observations; the initial measure never changes, the number of processes does not matter, and a call that raises changes nothing.", "quantifier": "all samples, labels, observed sets, sequences of calls (also calls that raise), fits, random numbers and numbers of processes", "why_tests_cant": "tests invert a fresh discretization once with each method", "anchors": ["bet/calculateP/calculateR.py generate_output_kdes", "bet/calculateP/calculateR.py invert", "bet/calculateP/calculateR.py invert_to_random_variable", "bet/sample.py sample_set_base.set_prob_type", "bet/sample.py sample_set_base.set_weights"]}
{"id": "C163", "title": "Samples drawn from the updated measure carry its density", "statement": "A set made by sample_from_updated has as its initial density, and initial marginal densities, the updated density and marginals of the set it was drawn from, whatever inversions were made before; sets whose updated measure is missing or not a density are rejected with bad_object.", "quantifier": "all histories of inversions, measures (kernel density, Gaussian mixture, random variable), points and coordinates", "why_tests_cant": "tests check the size of the new set for one measure of each kind, not its density at all points", "anchors": ["bet/sampling/basicSampling.py sample_from_updated", "bet/sample.py sample_set_base.pdf", "bet/sample.py sample_set_base.pdf_init", "bet/sample.py evaluate_pdf", "bet/sample.py evaluate_pdf_marginal"]}
{"id": "C164", "title": "Error estimates of a discretization are the shares that output errors move between events", "statement": "Let a discretization have input samples, outputs with error estimates, an output probability set and possibly an emulated input set, all in a consistent state. A model_error object built for it answers every question about contour events with the probability of the event times the share of the input volume that belongs to the event after the error estimates are added to the outputs and did not before; for events of probability zero with 0; and with nan if an event is empty before or after. The volumes are the stored ones, otherwise the shares of the emulated points, otherwise equal. It answers a question about a region with the sum over the events of the probability times the change of the share of the region in the event, counted over the given emulated points, otherwise those of the discretization, otherwise the samples; an empty event raises ZeroDivisionError with emulated points and gives inf without. An unknown region or missing error estimates raise wrong_argument_type. The answers do not depend on the number of processes or on earlier questions.", "quantifier": "all discretizations in a consistent state, all sequences of questions, all numbers of processes", "why_tests_cant": "The answer depends on pointers, volumes and local arrays that the constructor and earlier questions leave behind in two discretizations, one of them with shifted local outputs; tests ask one question on one process.", "anchors": ["bet/calculateP/calculateError.py model_error", "bet/sample.py discretization.set_io_ptr", "bet/sample.py discretization.set_emulated_ii_ptr", "bet/sample.py sample_set_base.estimate_volume_emulated"]}
{"id": "C165", "title": "Asking for model errors does not change the stored data", "statement": "Building a model_error object and asking it any questions leaves all arrays and pointers that the user stored in the discretization as they are. Only volumes of the input cells are added where there are none, and sets are distributed over the processes.", "quantifier": "all discretizations, all sequences of questions", "why_tests_cant": "Questions call local_to_global, which writes the local arrays over the global ones; whether that is harmless depends on the history of the local arrays.", "anchors": ["bet/calculateP/calculateError.py model_error", "bet/sample.py sample_set_base.local_to_global"]}
{"id": "C166", "title": "Answers of a model_error object describe the discretization as it is when they are asked", "statement": "After the user changes the probabilities, the volumes, the emulated input set or the output probability set of the discretization, the object gives the answers for the changed discretization, as an object built anew does.", "quantifier": "all histories of questions and changes", "why_tests_cant": "The object keeps a second discretization with pointers from the time of its construction; which changes reach it depends on the order of calls.", "anchors": ["bet/calculateP/calculateError.py model_error", "bet/sample.py discretization.set_output_probability_set", "bet/sample.py discretization.set_emulated_input_sample_set"]}
{"id": "C167", "title": "A surrogate takes the outputs of the nearest old sample and leaves the old discretization alone", "statement": "After any sequence of calls on a piecewise_polynomial_surrogate, on any number of processes, its surrogate discretization is the one of the last generate_for_input_set: every new sample is stored with the output (order 0) or the linear model (order 1, exact for affine maps with exact Jacobians) and the error estimate of the nearest old sample, beside the output probability set of the old discretization. All arrays of the old discretization are as before, except the probabilities of its input samples, which a call with update_input replaces.", "quantifier": "all old discretizations in a consistent state, sets of new samples, orders, sequences of calls and numbers of processes", "why_tests_cant": "tests build one surrogate and check some shapes; the pairing depends on the distribution of the new samples over the processes and on what earlier calls left behind", "anchors": ["bet/surrogates.py piecewise_polynomial_surrogate.generate_for_input_set", "bet/surrogates.py piecewise_polynomial_surrogate.__init__"]}
{"id": "C168", "title": "Region probabilities and error estimates of a surrogate", "statement": "In any sequence of calls, calculate_prob_for_sample_set_region returns for each region the sum, over the new samples whose nearest point of the given set has this label, of the probability of the event of the sample times the part of its volume in the volume of the event; and the model error estimate of this region on the surrogate discretization. The given set gets the probabilities of its cells and keeps its other arrays. The volumes are those of the given set of new samples, or equal. The call is refused without a surrogate, without error estimates or for a label that does not occur. The answers do not depend on the number of processes or on earlier updates.", "quantifier": "all old discretizations in a consistent state, sets of new samples with or without volumes, sets of regions, sequences of calls and numbers of processes", "why_tests_cant": "tests run one call with one process", "anchors": ["bet/surrogates.py piecewise_polynomial_surrogate.calculate_prob_for_sample_set_region", "bet/calculateP/calculateP.py prob", "bet/calculateP/calculateP.py prob_from_sample_set", "bet/calculateP/calculateError.py model_error.calculate_for_sample_set_region_mc"]}
{"id": "C169", "title": "The update of the old samples conserves probability and lasts", "statement": "A call of calculate_prob_for_sample_set_region with update_input gives every old sample the sum of the probabilities, and the sum of the error identifiers for the last region, of the new samples nearest to it. The total of the new probabilities is that of the output events that contain new samples of positive volume, and never more than the total of the output. The stored probabilities stay until the next update.", "quantifier": "all histories of calls, distributions over processes and regions", "why_tests_cant": "tests never look at the probabilities of the old samples after the call or after later uses of the discretization", "anchors": ["bet/surrogates.py piecewise_polynomial_surrogate.calculate_prob_for_sample_set_region", "bet/sample.py sample_set.local_to_global"]}
{"id": "C170", "title": "Sampling error bounds of a discretization follow from the cells, volumes and probabilities alone", "statement": "Let a discretization have input samples in a Voronoi set of the 2-norm, outputs, an output probability set and possibly an emulated input set, all in a consistent state. A sampling_error object built for it answers every question about contour events with the two bounds of each event: its probability times (volume of the touching cells of the event over the volume of the inner cells, minus 1) and times (volume of the inner cells over the volume of all cells that touch the event, minus 1); nan for an event without inner cell, 0 for probability 0. The volumes are the stored ones, otherwise the shares of the emulated points, otherwise equal. It answers a question about a region with the corresponding sums over counted points. The order in which the samples are stored does not matter. Other sets are refused.", "quantifier": "all discretizations in a consistent state, all sequences of questions, numbers of processes, sample orders", "why_tests_cant": "The answer depends on a neighbour table, on dictionaries that grow with the questions, and on pointers and volumes that earlier calls leave behind; tests ask one question for one stored order.", "anchors": ["bet/calculateP/calculateError.py sampling_error", "bet/calculateP/calculateError.py cell_connectivity_exact", "bet/calculateP/calculateError.py boundary_sets"]}
{"id": "C171", "title": "Sampling error questions do not depend on the processes and keep the stored data", "statement": "The bounds are the same on any number of processes. Building a sampling_error object and asking it any questions leaves all arrays and pointers that the user stored in the discretization as they are; only volumes of the input cells are added where there are none, and sets are distributed.", "quantifier": "all discretizations, numbers of processes and sequences of questions", "why_tests_cant": "Questions distribute the sets and call local_to_global, which writes local arrays over the global ones.", "anchors": ["bet/calculateP/calculateError.py sampling_error", "bet/sample.py sample_set_base.local_to_global"]}
{"id": "C172", "title": "Sampling error bounds describe the discretization as it is when they are asked", "statement": "After the user changes the probabilities, the emulated input set or the output probability set of the discretization, a sampling_error object gives the bounds for the changed discretization, as an object built anew does.", "quantifier": "all histories of questions and changes", "why_tests_cant": "Pointers computed for the old sets stay in the discretization; which of them are used depends on the order of calls.", "anchors": ["bet/calculateP/calculateError.py sampling_error", "bet/sample.py discretization.set_output_probability_set", "bet/sample.py discretization.set_emulated_input_sample_set"]}
{"id": "C173", "title": "Zero lies between the sampling error bounds of an event", "statement": "For every event the lower bound is at most zero and the upper bound at least zero, or both are nan, whatever volumes the cells have: given, equal or estimated from emulated points.", "quantifier": "all discretizations, volumes and emulated points", "why_tests_cant": "tests use volumes that are all positive; estimated volumes can be zero for any group of cells", "anchors": ["bet/calculateP/calculateError.py sampling_error.calculate_for_contour_events", "bet/sample.py sample_set_base.estimate_volume_emulated"]}
{"id": "C174", "title": "The model error estimate of a region is the change of its computed probability", "statement": "model_error.calculate_for_sample_set_region returns exactly the probability of the region computed from the outputs minus the probability of the region computed from the corrected outputs (output plus error estimate): with emulated points, summed over the probabilities that prob_on_emulated_samples gives to the points in the region; without, over those that the Monte Carlo solution of the inverse problem (calculateP.prob) gives to the samples in the region. Every output cell of positive probability has to contain points before and after the correction.", "quantifier": "all problems, regions, emulated sets, numbers of processes, models and error estimates", "why_tests_cant": "a test compares with one recorded number; that the number is the difference of two solutions is an identity over all data", "anchors": ["bet/calculateP/calculateError.py: model_error.calculate_for_sample_set_region", "bet/calculateP/calculateP.py: prob_on_emulated_samples, prob"]}
{"id": "C175", "title": "The model error estimate of a contour event bounds the change of its probability", "statement": "model_error.calculate_for_contour_events returns for each output cell a number that bounds how much the probability of the samples with outputs in the cell changes when the problem is solved with the corrected outputs.", "quantifier": "all problems, volumes, models and error estimates", "why_tests_cant": "needs the comparison of two solutions of the inverse problem for all data", "anchors": ["bet/calculateP/calculateError.py: model_error.calculate_for_contour_events", "bet/calculateP/calculateP.py: prob"]}
{"id": "C176", "title": "The sampling error bounds of a region enclose the error", "statement": "If sampling_error.calculate_for_sample_set_region answers with numbers, then for all true contour events that contain the points of the inner cells and reach only into touching cells, the true probability of the region (each event spread evenly over its points) minus the probability computed by prob_on_emulated_samples is between the lower and the upper bound. Also after any other questions to the object.", "quantifier": "all problems, regions, points, true events and histories of questions", "why_tests_cant": "the true events are unknown; the bounds have to hold for all of them", "anchors": ["bet/calculateP/calculateError.py: sampling_error.calculate_for_sample_set_region", "bet/calculateP/calculateP.py: prob_on_emulated_samples"]}
{"id": "C177", "title": "The sampling error bounds of a contour event enclose its error", "statement": "For all true contour events that contain the points of the inner cells and reach only into touching cells, the true probability of the cells of a contour event minus its computed probability is between the bounds of sampling_error.calculate_for_contour_events.", "quantifier": "all problems, points, true events and histories of questions", "why_tests_cant": "the true events are unknown; the bounds have to hold for all of them", "anchors": ["bet/calculateP/calculateError.py: sampling_error.calculate_for_contour_events"]}
{"id": "C178", "title": "The solution of the inverse problem moves no further than the output probabilities", "statement": "With samples, volumes, model and output cells fixed, the probabilities that calculateP.prob gives to the samples depend linearly on the output probabilities (a mixture of two output distributions gives the mixture of the two solutions), they grow where output probabilities grow, and the sum of the absolute changes of the samples' probabilities is at most the sum of the absolute changes of the output probabilities; it is equal to it when every output cell whose probability changed contains the outputs of samples with positive total volume.", "quantifier": "all problems (samples, volumes, models, output cells), all pairs of output probabilities, all nonnegative weights, numbers of processes", "why_tests_cant": "a test solves the problem for one output distribution; stability compares the solutions for all pairs", "anchors": ["bet/calculateP/calculateP.py: prob", "bet/sample.py: discretization, set_probabilities, get_probabilities", "bet/calculateP/simpleFunP.py"]}
{"id": "C179", "title": "Only the proportions of the volumes count, and samples may be split into parts", "statement": "Multiplying all sample volumes by one positive number does not change the probabilities that calculateP.prob computes, and any equal volumes give what the Monte Carlo assumption gives. If samples are replaced by several samples with outputs in the same output cell whose volumes add up to the volume of the sample they replace, then the probability of a sample is the sum of the probabilities of its parts, on any number of processes.", "quantifier": "all problems, scalings, and ways to split the samples (with volumes given by the user or by the Monte Carlo assumption on either side)", "why_tests_cant": "relates the results of two different runs for every way to split", "anchors": ["bet/calculateP/calculateP.py: prob", "bet/sample.py: estimate_volume_mc, set_volumes"]}
{"id": "C180", "title": "Equal probabilities for the computed outputs give equal probabilities to the samples", "statement": "If the output probabilities are defined by uniform_partition_uniform_distribution_data_samples (each of the n computed outputs gets probability 1/n), from the discretization, its output set or the array of outputs, then calculateP.prob gives every sample of positive volume the probability 1/n, on any number of processes.", "quantifier": "all models, samples, positive volumes, ways to pass the outputs, numbers of processes", "why_tests_cant": "a test uses one data set with distinct outputs; models that return the same output for several samples are not tried", "anchors": ["bet/calculateP/simpleFunP.py: uniform_partition_uniform_distribution_data_samples", "bet/calculateP/calculateP.py: prob", "bet/sample.py: set_output_probability_set, set_io_ptr"]}
{"id": "C181", "title": "Two merged batches of samples give the solution of one run", "statement": "If the model is evaluated on two batches of samples and the input sets and the output sets of the two runs are merged into one discretization, then after estimate_volume_mc and prob every sample has the probability that it gets when all samples are evaluated in one run, on any number of processes.", "quantifier": "all models, pairs of batches, output probabilities, numbers of processes on either side, with and without globalized volumes", "why_tests_cant": "depends on how the sizes of the batches and the number of processes divide; tests run with one or two process counts on even sizes", "anchors": ["bet/sample.py: merge, estimate_volume_mc, global_to_local, set_io_ptr", "bet/calculateP/calculateP.py: prob", "bet/sampling/basicSampling.py: compute_qoi_and_create_discretization"]}
{"id": "C182", "title": "Solving with quantities of interest chosen after the run", "statement": "Evaluate a model, choose some of its inputs and outputs with choose_inputs_outputs, define the output probabilities of the chosen outputs and call prob: the probability of every sample is the same as when the model had only ever computed the chosen outputs, whatever the number of processes, the order of the chosen columns and the choice of inputs, and whether the volumes were defined before or after the choice; the samples keep their order and consist of the chosen coordinates.", "quantifier": "all models, samples, domains, choices of input and output columns in any order with repetitions, output probability sets, ways to define the volumes, moments to define them, numbers of processes", "why_tests_cant": "the volumes are dropped silently by the choice and the error appears only in a later call; tests slice a discretization and look at the values, without solving with the result", "anchors": ["bet/sample.py:discretization.choose_inputs_outputs", "bet/calculateP/calculateP.py:prob", "bet/sample.py:discretization.set_io_ptr", "bet/sample.py:sample_set_base.estimate_volume_mc", "bet/sampling/basicSampling.py:sampler.compute_qoi_and_create_discretization"]}
{"id": "C183", "title": "A calculation saved and continued in another run gives the same probabilities", "statement": "A discretization is saved with its global arrays, at some point before the input probabilities are computed, and loaded by a later run with any number of processes; the probabilities computed there are those of an uninterrupted calculation, whichever process wrote the file last.", "quantifier": "all numbers of processes of the first and of the second run; all processes that may have written last; interruption after the model evaluations or after the output probabilities; loading with and without localize; any number of samples, volumes, models and output probability sets", "why_tests_cant": "The outcome depends on two numbers of processes, on the order in which the processes write and on the number of samples; a save-and-load test on one process sees none of it, and when the blocks happen to have equal sizes the wrong numbers come without an exception", "anchors": ["bet/util.py: save_object, load_object", "bet/sample.py: discretization.local_to_global, discretization.global_to_local, discretization.set_io_ptr", "bet/calculateP/calculateP.py: prob"]}
{"id": "C184", "title": "The first samples of a run give the solution for these samples", "statement": "A discretization clipped to its first c samples, after the evaluation of the model, after the output probabilities were defined or after a first solution, gives the same probabilities as a run with these c samples alone; the clip of a solution keeps the probabilities of the samples that remain.", "quantifier": "all numbers of processes, numbers of samples and c > 0 (also more than there are), all moments of the clip, Monte Carlo volumes or given volumes, all models, output probability sets and ways of setting them", "why_tests_cant": "The clip has to renew the blocks of every process, the pointers and the tree while the volumes stay those of the larger run; tests compare the clipped arrays of one process and never solve with them", "anchors": ["bet/sample.py: sample_set.clip, discretization.clip", "bet/calculateP/calculateP.py: prob", "bet/sample.py: discretization.set_io_ptr"]}
{"id": "C185", "title": "Emulated samples get the probabilities of their nearest samples' outputs", "statement": "After a model evaluation, output probabilities and emulated samples, prob_on_emulated_samples gives every emulated sample its share of the probability of the cell that holds the output of its nearest sample. These are the probabilities of an ordinary run on the emulated samples with the nearest-sample surrogate as its model, and summed over the emulated samples nearest to one sample they are the probability of that sample when its volume is the fraction of the emulated samples nearest to it. This holds however the discretization was put together.", "quantifier": "all numbers of processes, all models, samples, emulated samples, output probability sets and ways of storing them, pointers untouched, renewed or globalized", "why_tests_cant": "The numbers go through two pointers with different owners, one global and one local, and only some ways of building the discretization make both; tests build it in one way and check totals", "anchors": ["bet/calculateP/calculateP.py: prob_on_emulated_samples", "bet/sample.py: discretization.set_io_ptr, globalize_ptrs, set_emulated_ii_ptr", "bet/sample.py: discretization.set_output_probability_set"]}
{"id": "C186", "title": "Probabilities moved to other samples are sums over the nearest old samples", "statement": "prob_from_sample_set and prob_from_discretization_input give every sample of the new set the sum of the probabilities of the old samples nearest to it, store them there, change nothing else, and keep the total, on any number of processes and whether or not the old set is distributed. Moving the probabilities of emulated samples to the samples of the problem gives what prob_with_emulated_volumes computes. The result can be moved on to a third set, where every old sample counts for the sample nearest to its nearest new sample.", "quantifier": "all numbers of processes, old sets with local or only global probabilities, new sets with any samples and arrays, chains of two moves, all problems solved before with any volumes or emulated samples", "why_tests_cant": "Which array is read depends on which others are present and on who made the set; tests use one set each, made by one function, on one process", "anchors": ["bet/calculateP/calculateP.py: prob_from_sample_set, prob_from_discretization_input, prob_with_emulated_volumes"]}
{"id": "C187", "title": "Probabilities moved through emulated samples", "statement": "prob_from_sample_set_with_emulated_volumes divides the probability of every old sample evenly among the emulated samples nearest to it and gives every new sample what the emulated samples nearest to it got; if some old samples with positive probability have none, the rest is scaled to total one. It stores this in the new set and changes nothing else, on any number of processes and for distributed and undistributed emulated samples. It agrees with solving the problem on the emulated samples whose outputs are the samples themselves and then moving the solution; moved to the old samples nothing changes; without emulated samples, or with the old samples in their place, it is prob_from_sample_set.", "quantifier": "all numbers of processes, old, new and emulated samples, probabilities, and arrays present in the three sets", "why_tests_cant": "Two nearest-sample searches, two different owners of the arrays and a renormalization interact; tests use emulated samples that reach every cell and compare totals", "anchors": ["bet/calculateP/calculateP.py: prob_from_sample_set_with_emulated_volumes, prob_from_sample_set"]}
{"id": "C188", "title": "Samples replaced or added between runs", "statement": "After a set of samples has been evaluated, its samples may be replaced (set_values) or extended (append_values) and the inverse problem solved again with the same set, any number of times, with a new model and new output probabilities each time. Every such run solves the problem for the samples that the set holds at that moment: the samples and outputs of the discretization and the probabilities are those of a new calculation with these samples, on any number of processes. Nothing remains of the samples before.", "quantifier": "all numbers of processes, sequences of runs, replacements and additions between them, models, output probabilities, and ways to start a run (evaluation, distribution of the samples, volumes)", "why_tests_cant": "Local copies from an earlier run may or may not be refreshed, depending on the order of calls over the whole history of the set; tests evaluate each set once", "anchors": ["bet/sample.py: sample_set_base.set_values, sample_set_base.append_values, sample_set_base.global_to_local, sample_set_base.local_to_global, sample_set_base.estimate_volume_mc, sample_set_base.check_num", "bet/sampling/basicSampling.py: sampler.compute_qoi_and_create_discretization", "bet/calculateP/calculateP.py: prob"]}
{"id": "C189", "title": "Samples of the generalized Lp distributions", "statement": "For every p with 0 < p <= inf the functions Lp_generalized_normal, Lp_generalized_uniform and Lp_generalized_beta return one sample per requested number. Samples with scale s and location l are the samples for scale 1 and no location, multiplied by s and moved by l, and changing the sign of a normal draw mirrors one coordinate. A uniform sample lies in the concentric ball of t times the radius with probability t^dim, the share of its volume, and for d = p the beta samples have the same distribution of the radius.", "quantifier": "all p, dimensions, numbers of samples, scales, locations, radii t and random draws", "why_tests_cant": "A distribution is a statement about all draws; the tests compare means for scale 1 and p = 2", "anchors": ["bet/sampling/LpGeneralizedSamples.py: Lp_generalized_normal, Lp_generalized_uniform, Lp_generalized_beta"]}
{"id": "C190", "title": "Samples extended together with their Jacobians and error estimates", "statement": "append_values, append_jacobians and append_error_estimates may be called in any order and any number of times. Each array then holds its old rows followed by the new ones in the order given, no other array changes, and arrays of another shape, or for an array the set does not have, are refused. check_num accepts the set exactly if all arrays have grown to the same number, shape() returns this number and the dimension, and after global_to_local every process holds the samples, Jacobians and error estimates of the same numbers. Appended rows are kept by local_to_global, for every kind of sample set.", "quantifier": "all sets with values, Jacobians and error estimates, sequences of appended arrays, numbers of processes", "why_tests_cant": "The order of calls and the state of the distributed copies matter; tests append once to a set that was never distributed", "anchors": ["bet/sample.py: sample_set_base.append_values, sample_set_base.append_jacobians, sample_set_base.append_error_estimates, sample_set_base.shape, sample_set_base.shape_local, sample_set_base.check_num, sample_set_base.global_to_local, sample_set_base.local_to_global, rectangle_sample_set.append_jacobians, ball_sample_set.append_error_estimates"]}
{"id": "C191", "title": "Rounding errors from the volumes to the moved probabilities", "statement": "In floating-point arithmetic with relative rounding error u, whatever the order in which numpy and MPI add: volume estimates carry one relative error; if the output probabilities carry a relative errors and the volumes b, then the computed probability of a sample carries at most a + 2b plus the number of samples in its output cell plus the number of processes. With equal volumes (estimate_volume_mc) the errors of the volumes cancel, with volumes from emulated points b is 1. prob_on_emulated_samples adds a single error. Moving probabilities to new samples adds at most the number of old samples in the new cell plus the number of processes. No cell gains or loses all its probability through rounding.", "quantifier": "all roundings of relative error u, orders of summation, distributions over processes, numbers and errors of samples, cells and points", "why_tests_cant": "Tests compare with a tolerance for small sets; the order of additions is chosen by numpy and MPI and the errors accumulate over the steps of a calculation", "anchors": ["bet/sample.py: sample_set_base.estimate_volume_mc, sample_set_base.estimate_volume_emulated, sample_set_base.estimate_volume", "bet/calculateP/calculateP.py: prob, prob_on_emulated_samples, prob_from_sample_set, prob_from_discretization_input"]}
{"id": "C192", "title": "Finer output cells keep the probabilities of contour events", "statement": "If the cells of the output probability set are subdivided and the probability of every cell is distributed over its parts, solving again does not change the probability that the samples of the contour event of an old cell have together; it never becomes larger. A single sample keeps its probability exactly if the part its output lies in has the same probability per volume of its contour event as the whole cell.", "quantifier": "all subdivisions of output cells, probabilities, samples, volumes and numbers of processes", "why_tests_cant": "A statement about pairs of calculations with related partitions; tests solve with one partition", "anchors": ["bet/calculateP/calculateP.py: prob", "bet/calculateP/simpleFunP.py: regular_partition_uniform_distribution_rectangle_size, uniform_partition_uniform_distribution_rectangle_size, user_partition_user_distribution"]}
{"id": "C193", "title": "Multiplying cells_per_dimension keeps the probabilities of contour events", "statement": "If regular_partition_uniform_distribution_rectangle_size is called again with every entry of cells_per_dimension multiplied by a positive integer and the problem is solved again, the samples whose outputs lie in one cell of the first partition have the same probability together as before; it never becomes larger. Every cell of the first partition is a union of cells of the second one, and its probability is the sum of theirs.", "quantifier": "all reference values, sizes, numbers of cells and factors in any dimension, all outputs, volumes and numbers of processes", "why_tests_cant": "A statement about pairs of partitions and calculations; tests use one partition", "anchors": ["bet/calculateP/simpleFunP.py: regular_partition_uniform_distribution_rectangle_size", "bet/sample.py: cartesian_sample_set, rectangle_sample_set", "bet/calculateP/calculateP.py: prob"]}
{"id": "C194", "title": "The units of the quantities of interest do not matter", "statement": "If every output, the reference value and the sizes or the domain of the rectangle are converted to other units (each quantity of interest multiplied by its own factor and shifted), the simple function approximations of simpleFunP have the same probabilities, the outputs lie in the same cells, and the solution of the inverse problem is the same.", "quantifier": "all numbers of quantities of interest, reference values, sizes, cells, outputs, factors and shifts; all numbers of processes", "why_tests_cant": "A statement about pairs of calculations with converted data; tests use one set of units", "anchors": ["bet/calculateP/simpleFunP.py: regular_partition_uniform_distribution_rectangle_size, regular_partition_uniform_distribution_rectangle_domain, regular_partition_uniform_distribution_rectangle_scaled, uniform_partition_uniform_distribution_rectangle_size", "bet/sample.py: rectangle_sample_set.query, cartesian_sample_set.setup, voronoi_sample_set.query"]}
{"id": "C195", "title": "The units of the parameters do not matter", "statement": "If the domain of the parameters is converted to other units (each parameter multiplied by its own positive factor and shifted), the regular, random and Latin hypercube samples made from the same draws are the converted samples, the cells have the same volumes (exact in one dimension, rectangles, emulated), and the marginals of the same probabilities are the same.", "quantifier": "all dimensions, domains, samples, draws, factors and shifts; all numbers of bins and processes", "why_tests_cant": "A statement about pairs of calculations with converted data; tests use one set of units", "anchors": ["bet/sampling/basicSampling.py: random_sample_set, lhs_sample_set, regular_sample_set", "bet/sample.py: exact_volume_1D, exact_volume_lebesgue, estimate_volume_emulated", "bet/postProcess/plotP.py: calculate_1D_marginal_probs, calculate_2D_marginal_probs"]}
{"id": "C196", "title": "Gradients in other units are the converted gradients", "statement": "If the parameters, the centers, the stencil radii and the outputs of a model are converted to other units, the finite difference points are the converted points and the calculated gradients are the converted gradients: every derivative is multiplied by the factor of its quantity of interest and divided by the factor of its parameter.", "quantifier": "all models, dimensions, centers, radii, factors and shifts; forward and centered differences", "why_tests_cant": "A statement about pairs of models; tests calculate one gradient", "anchors": ["bet/sensitivity/gradients.py: pick_ffd_points, pick_cfd_points, calculate_gradients_ffd, calculate_gradients_cfd"]}
