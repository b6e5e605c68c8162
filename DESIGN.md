# A Rocq model of BET (UT-CHG/BET): design

This directory holds a machine-checked model of the Python package in `/repo/bet`
and proofs of the properties listed in `properties.jsonl`.  The code is not run;
each definition in the model cites the file and lines it was read from.

## 1. Method

* **Model.** Small, total, computable Gallina functions that follow the Python
  functions branch by branch.  Files `theories/*_Model.v` hold only definitions.
* **Exceptions** are values: `Err.v` has `result A := Ok a | Raise e`.
* **Loops** become structural recursion or folds over `seq 0 n`.
* **Numbers** are exact rationals (`Qc` of the standard library: computable,
  Leibniz equality, no axioms).  Floating-point rounding is *not* modelled.
  Where a property depends on `nan`/`inf`, an explicit extended type is used.
  Roots, exponentials and derivatives (Hellinger distance, radial basis
  functions) use the standard library's `R`, which brings the standard
  axioms of the reals; the theorems concerned are listed in section 4.
* **MPI.** P processes are a list of P per-rank states run in lock step (the
  code is bulk synchronous: every collective is reached by every rank).
  `allreduce(SUM)` is a sum over the list, `allgather` a concatenation in rank
  order.  A serial run is the one-element list.  Deadlock, message loss and
  non-deterministic reduction order are not modelled (with exact numbers the
  order does not matter).
* **Oracles.** Random draws, `scipy` KD-trees, kernel density estimates, pickle
  and the user's model are function arguments.  What is assumed of them is a
  hypothesis in the theorem (for instance: a nearest-neighbour query returns an
  index below the number of cells), never an axiom.
* **Mutation and aliasing.** Functions return new values, except where the
  property is about aliasing (C08), where the model has an explicit heap of
  array buffers.
* **Specification.** `*_Spec.v` files hold short definitions that do not use the
  model's helpers.  `*_Props.v` files hold only the theorems, each closed by
  `exact`, followed by `Print Assumptions` and by an `Example` that meets the
  hypotheses with concrete, non-trivial data.

## 2. What a status means

* `proved`: the statement in `properties.jsonl` holds of the model; the
  theorems listed prove it for all inputs.
* `partial`: the statement is false of the model (the note starts with
  `REFUTED:`), or only part of it is proved.  A refuted property has a theorem
  `..._refuted` with a computed witness, traced to the code, and a theorem
  `..._partial` that proves the property under the guard that makes it true.

## 3. Properties: model and proof plan

| ID | Modelled | Proof |
|----|----------|-------|
| C01 | `np.array_split`, `allgather`+`hstack/vstack` on lists | induction on P; lengths by `Nat.div_mod` |
| C02 | `int(n/P + (rank < n % P))` | sum over ranks, induction |
| C03 | `arange(rank,num,P)`, fancy-index scatter | every index hit once |
| C04 | attribute-indexed state, `check_num` loop | case analysis over the attribute list |
| C05, C63 | `clip` with slicing, re-localizing (SampleSet_*) | unfolding, uses C01; weights left behind |
| C06 | `merge` | row-wise `nth_error` statement; exact condition for success |
| C07 | state machine with a cached tree | invariant over histories; refuted by stale tree |
| C08 | heap of buffers, in-place `-=`, `*=` | round trip without aliasing; refuted with aliasing |
| C09 | `__eq__` with IEEE `nan` | reflexive for finite data; refuted for `nan` |
| C10 | global/local state machine | refuted; holds when locals are refreshed |
| C11 | setter/getter table | case analysis; refuted for `error_id_local` |
| C12 | query + `bincount` per rank + `allreduce` | counting lemmas |
| C13 | sort, midpoints, un-sort | Voronoi interval characterisation, telescoping sum |
| C14 | box volumes | sums and products; disjoint boxes |
| C15 | budget loop with oracle hit counts | loop invariant; refuted |
| C16, C17, C19 | first-match loops | induction over cells |
| C18 | breakpoints and product of cells | induction over dimensions |
| C20 | padding, product, column cut | induction over vectors |
| C21 | array values with shape | case analysis |
| C22 | extended numbers | case analysis |
| C23, C24 | file system as map from names, crash points | history induction; refutations |
| C25-C29 | masked loops over output cells with `allreduce` | loop invariants, partition of sums |
| C30, C31 | binning loops, box partition | counting lemmas |
| C32-C36, C69-C71 | neighbour lists, interior/boundary sets, error formulas, defaultdict state | inequalities over sums; invariant over histories; refutations |
| C37-C40, C72, C73, C78-C80 | weighted moments, acceptance loop, cluster loop, rounding (Inverse_*) | sums of squares; loop invariant over clusters; list lemmas |
| C41, C42 | surrogate evaluation | refinement; sign error refuted |
| C43-C45 | grid, LHS, model evaluation | list lemmas, uses C01, C20 |
| C46-C48 | sort, prefix sums, histograms | permutation and sum lemmas |
| C49-C51 | distances | inequalities |
| C52, C53 | stencils, kernels | algebra; derivatives in `R` |
| C54-C56 | pair loop, top-k selection with gather | loop invariants |
| C62, C74-C77 | densities, resampling order, pdf (Updated_*) | sums, algebraic identities, histories |
| C57-C61, C65, C66, C99, C100 | the discretization as a record of sets and pointers, on P processes, under histories of calls (Disc_*) | invariants over histories; refutations by stale pointers |
| C64 | two processes writing one file (Store_*) | interleavings; refuted |
| C67, C68 | normal partition, `rectangle_domain` variants (SimpleFun_*) | counting lemmas; uses C21 |
| C81-C84 | scaling of uniform draws, model evaluation histories, flags, surrogate probabilities (Sampling_*) | affine maps; histories; partition of sums |
| C85-C88 | comparison state, Hellinger, Euclidean, Kullback-Leibler distances, marginal intervals (Compare_*, CompareR_*) | Cauchy-Schwarz, convexity of `ln` over `R`; histories |
| C89-C93 | gradient functions with aliasing of the returned arrays, RBF interpolants, Lp balls, clusters (Gradient_*, GradientR_*) | algebra, derivatives over `R`; refutations |
| C94-C98 | tables of best sets, incremental search, averages (ChooseQoIs_*) | loop invariants for insertion into a sorted table; lists of combinations |
| C101-C106 | bounds, appending, bounding box, radii by Monte Carlo on P processes (Bounds_*) | `max` lemmas, invariants over histories, exact failure condition |
| C107-C110 | arguments of simpleFunP: type checks, broadcasting, boxes (SimpleInputs_*) | case analysis over Python values; affine maps onto boxes |
| C111, C112 | `estimate_local_volume`: radii, draws in rounds, normalisation (LocalVolume_*) | loop characterised by the stopping round; sums; two-call witness |
| C113 | the collective operations on P processes and their replacement (Comm_*) | programs as trees of calls, run in lock step; determinism |
| C114 | ball volumes (BallVolume_*) | cubes reduce to C14; overlapping balls refuted |
| C115 | reflection of samples across the sides of the rectangle, sum over triangles (Voronoi2_*) | segment from the sample to a point outside leaves through a side; tilings by triangles |
| C116 | setup of rectangles and balls, stored values (SelfQuery_*) | the middle of a box lies in it; first-match answer is unique |
| C117 | make_disc and invert on its result (Luq_*) | reuses the loop invariant of the inversion (Inverse_*) with cluster maps; counts of labels for the refutations |
| C118 | formats of rv, draws, checks and stored state of random_sample_set (RvSet_*) | the resolved list has one entry per dimension; scipy as a table of distributions and an oracle for draws |
| C119 | naming of fitted parameters, sampling from them (RvSet_*) | case analysis on the number of shapes |
| C120 | mapping of the reference value with the two attempts (Reference_*) | replies of the model as arrays, tuples or exceptions; case analysis |
| C121 | equality and copy of discretizations (DiscEq_*) | loop over the fields; uses the model of equality of sets (Equality_*) |
| C122 | constructor of compare, comparison points, evaluation (CompareInit_*) | case analysis; densities are arguments; counting by index sets |
| C123 | distances of marginals on equally spaced points and by quadrature (MarginalDist_*) | Riemann integrals of the standard library; error of sums by induction on the number of points |
| C124 | smoothing of one-dimensional marginals (Smooth_*) | fft by the convolution theorem (trusted); reindexing of sums modulo the padded length |
| C125 | smoothing of two-dimensional marginals (Smooth2_*) | reduction to the one-dimensional sums of Smooth_* |
| C126 | arguments of hlines in plot_1D_voronoi (PlotVoronoi_*) | cells from Volume_*; uniqueness of the height |
| C127 | voronoi_finite_polygons_2d (Polygons_*) | the diagram and its contract as hypothesis; the mean is strictly inside of a hull edge; invariant of the loop over ridges |
| C128 | colours, labels and checks of plot_2D_voronoi (PlotVoronoi2_*) | maximum of finite numbers |
| C129 | prob_with_emulated_volumes with the emulated volume estimate (EmVolume_*) | counting; exchange of sums over cells and points |
| C130–C133 | all of plotDomains.py up to the arguments of matplotlib (PlotDomains_*) | combinations as subsequences; injectivity of decimal numerals and of file names (Strings) |
| C134 | plot_1D_marginal_probs, plot_2D_marginal_probs, plot_2D_marginal_contours up to the arguments of matplotlib (PlotP_*) | equal bins as an affine function of their number; injectivity of file names (Strings) |
| C135 | plot_1d_marginal_densities up to the arguments of matplotlib (PlotP_*, PlotD_Proofs) | least and greatest values as folds; curves by number of the set |
| C136 | regular samples, Monte Carlo and exact volumes (Regular_*, on Sampling_*, Volume_*, Query_*) | nearest in a product is nearest in each coordinate; odd and even multiples of the half width |
| C137 | the whole calculation on sample sets and discretizations (Workflow_*, on SampleSet_*, Disc_*, Prob_*) | invariant: which arrays the set holds after each step; closed form of prob; permutation of sums |
| C138 | prob and the masked sums of calculateP.py with rounded operations and any order of addition (Rounding_*) | induction over the order of addition; relative errors as powers of 1 - u; Bernoulli's inequality |
| C139, C140 | one program per process, collective calls as the only meeting points, steps in any order (Spmd_*) | confluence: every run is at some stage of the lock-step run (invariant); progress and a bound on the steps; rounds of the programs by induction |
| C141, C142, C143 | a store of sample sets and discretizations that hold references into it, all calls of Disc_* on it, clip, merge and copy (Refs_*) | a logic of locality (calls read and write only the sets of their discretization); refinement of the model with sets as values; invariants of copy (memo table) and merge |
| C144, C145, C146, C147 | the sampler object with references to its input set and last discretization, on a store of sets and discretizations (Sampler_*, SamplerFill_*, SamplerRun_*, SamplerDisc_*, SamplerAgain_*, SamplerNew_*, on Refs_*) | evaluation lemmas for each method; a frame logic for histories; the memo invariant of copy |
| C148, C149, C150 | the post-processing functions on sample sets and discretizations, and after a whole inversion (PostObj_*, on Post_*, Workflow_*) | invariant: the data a set carries in local or global arrays; histograms by blocks; frames of the steps of the inversion |
| C151, C152 | calculateR.py on discretizations: kernel density estimates as oracles, labels, initial weights, the stored measure and its evaluation (Density_*, on SampleSet_*, Inverse_*) | invariant: the arrays after gathering and labelling; closed form of the loop over the clusters; permutations of the labelled samples |
| C153 | stencils, gradients, selection of rows, averages and search as one run (Sensitivity_*, on Gradient_*, ChooseQoIs_*, UniqueVecs_*) | all Jacobians of an affine model are its matrix; averages of equal values; invariance of volumes under the order of rows; the search as a function of the averages only |
| C154, C155 | useLUQ as a state machine: calls in any order, values set in between, exceptions, saving and loading (LuqObj_*, on Luq_*, Inverse_*) | refinement of the state machine by functions that read the history backwards; composition with the inversion of C117 |
| C156 | set_values and append_values on arrays with entries (Given_*, on Util_*) | the stored array has the given points in its rows; induction over the calls |
| C157 | where each method stores volumes and which array prob reads, over histories of calls (VolHist_*, on Workflow_*) | invariant: all arrays fit the samples; the pair of global and local volumes as a small automaton refined by the model |
| C158, C159, C160 | calculateR.py: Gaussian mixtures, a single Gaussian, the data for random variables, and rejection sampling on P processes, for samples held in the sets (Fits_*, on Density_*) | closed form of the loops over the clusters; sums over all samples as sums over clusters; counterexamples by computation |
| C161 | calculateR.py with cluster maps (Density_*, Fits_*; vocabulary in Learned_Spec) | bisimulation of the runs on learned and on stored values; the values are dealt out to the labels by induction |
| C162, C163 | calculateR.py as a state machine of calls on one discretization, with what a raising call leaves behind; sample_from_updated and the evaluation of all measures (Measure_*, on Density_*, Fits_*, RvSet_*) | simulation: the state and the original discretization hold the same data, and each call is a function of the data; induction over the history |
| C164, C165, C166 | class model_error on discretizations: constructor, contour events, regions with given, own or no emulated points, on P processes (ErrorDisc_*, on Disc_*, Workflow_*, Error_*) | invariant of the two discretizations of the object (pointers are those of outputs without and with errors); each question keeps it and its answer is the specified one; induction over the questions; counterexamples by computation |
| C167, C168, C169 | bet/surrogates.py on stored discretizations and P processes, with the volumes, probabilities, error estimates and updates it calls for (Surrogate_*, on Disc_*, Workflow_*, ErrorDisc_*) | invariant of the object: the surrogate discretization holds the problem of the last generated samples, the old one its data; each call keeps it and gives the specified answer; induction over the calls; counterexamples by computation |
| C170, C171, C172, C173 | class sampling_error on discretizations: constructor with the neighbour table, boundary sets and their growing dictionaries, contour events and regions, on P processes (SampErr_*, on ErrorDisc_*, Error_*) | invariant of the object: the dictionaries are the boundary sets of the cells plus the keys met so far, the pointers those of the sets; each question keeps it and its answer is the specified one; induction over the history; counterexamples by computation |
| C174, C175, C176, C177 | the answers of model_error and sampling_error compared with the probabilities that prob, prob_on_emulated_samples and the whole workflow compute (ErrTrue_*, on ErrorDisc_*, SampErr_*, Disc_*, Workflow_*) | the answers are sums over events of shares of counted points; the probabilities regrouped by events are the same sums; counting inequalities between inner cells, true events and touching cells; counterexamples by computation |
| C178, C179 | the whole workflow of a measure-based inversion: volumes, evaluation, output probabilities, prob, on P processes (Stable_*, on Workflow_*) | the solution is the share of each sample in the probability of its cell; regrouping of sums by cells and by the samples that were split |
| C180 | uniform_partition_uniform_distribution_data_samples for its three kinds of arguments, then the workflow (DataUnif_*, on Workflow_*) | the pointer of a sample depends only on its output and is injective on outputs; sums regrouped by outputs; general refutation for repeated outputs |
| C181 | two evaluations, merge of input and output sets, volumes with and without globalize, prob, on P processes (Batches_*, on Workflow_*) | states with arbitrary blocks; arithmetic of array_split sizes gives the exact condition under which the blocks fit; permutation invariance of the solution |
| C182 | evaluation, choose_inputs_outputs, volumes before, between or after, output probabilities, prob, on P processes (Chosen_*, on Disc_*, Workflow_*) | the choice of columns commutes with array_split, so the state after the choice is that of the smaller problem without volumes; general refutation for volumes defined before |
| C183 | save_object with globalize, load_object with and without localize between evaluation (or output probabilities) and prob, from P to P' processes, any last writer (Restart_*, on Disc_*, Workflow_*) | the loaded object has the writer's block on every process; states described by their blocks as in C181; block sizes of array_split; general refutations |
| C184 | the workflow with discretization.clip after the evaluation, after the output probabilities or after prob (Clipped_*, on Disc_*, Workflow_*) | the clipped sets are those of the first samples, split anew, with the volumes of the larger run; equal volumes may be scaled (C179) |
| C185 | evaluation, constructor or setters, set_io_ptr or globalize_ptrs or nothing, prob_on_emulated_samples, on P processes (Emulated_*, on Disc_*, Workflow_*) | composed pointers are the cell of the nearest sample's output; prob_on_emulated_samples is prob with unit volumes; sums over finer samples as in C179; general refutation without the global pointer |
| C186 | prob_from_sample_set, prob_from_discretization_input and prob_with_emulated_volumes on sets with local or only global arrays, after solve or prob_on_emulated_samples (Moved_*, on Disc_*, Workflow_*, Emulated_*) | blocks in lock step, sums over processes are sums over the concatenation; total_in over the composed pointer for chains; general refutations for sets with local values |
| C187 | prob_from_sample_set_with_emulated_volumes on stored sets (MovedVol_*, on Moved_*, Prob_*) | list-level formulas of C29 over the concatenated blocks; part of every cell is its probability by induction on the points; solution with unit volumes; general refutations |
| C188 | set_values / append_values on an evaluated set, then further runs of the Monte-Carlo calculation with three starts (Refined_*, on SampleSet_*, Workflow_*, Batches_*) | invariant of a set whose blocks hold older samples than its global array (other arrays agree with their blocks); induction over the sequence of runs; general refutations |
| C189 | the three samplers of LpGeneralizedSamples.py with all their draws as arguments, finite p and p = inf (LpSamples_*, on GradientR_*) | coordinatewise algebra; p-norm of a normalised draw; distribution function of Beta(a,1) from its density by the mean value theorem; general refutation of the scaling |
| C190 | append_values, append_jacobians, append_error_estimates of all kinds of sets, shape and shape_local (Extend_*, on SampleSet_*) | induction over the sequence of appended arrays; split lengths depend only on the number; general refutations |
| C191 | estimate_volume_mc, estimate_volume_emulated and prob_on_emulated_samples with a rounded quotient, prob and the transfer of C138 applied to rounded inputs (RoundingEnd_*, on Rounding_*) | composition of relative errors; equal volumes cancel; induction over the samples of a cell |
| C192 | prob of C25 with two output sets, one a subdivision of the other, given by the function from parts to cells (OutCells_*) | sums over the samples of a cell regrouped by parts; induction over the cells |
| C193 | regular_partition of C31 called twice, rect_query of C21, cells_per_dimension multiplied, and prob (OutGrid_*) | breakpoints of the first partition are breakpoints of the second; the upper corner of a new cell lies in the old cell; counting of intervals in every dimension, then C192 |
| C194 | regular_partition, rect_query, scaled_sizes, domain_center, rect_point called with converted data (Units_*); Voronoi cells by the contract of the nearest neighbour search | the grid commutes with increasing functions per coordinate; comparisons are kept |
| C195 | uniform_values, lhs_values, regular_values, exact_volume_1D, exact_volume_lebesgue, marginal_1D, marginal_2D called with converted data (Units2_*) | every function commutes with increasing affine maps per coordinate; factors cancel in the quotients |
| C196 | pick_ffd_points, pick_cfd_points, calculate_gradients_ffd, calculate_gradients_cfd of C52 called for a model and the converted model (Units3_*) | the stencils commute with the conversion; entries by C52 |

## 4. Trusted base

* Coq 8.16.1: its kernel, and `vm_compute` for examples and witnesses.
* The reading of the Python code: each definition cites the lines it models.  The
  code was never executed.
* The specification files (`*_Spec.v`) and the statements in `*_Props.v`.
* No axioms of our own, no `Admitted`, no plugins.  The axioms used are those of
  the standard library's real numbers (and `classic` through `Rpower`/`ln` lemmas):

| Theorems | `Print Assumptions` |
|---|---|
| `hell_is_metric`, `hell_bounded`, `hell_normalize_refuted`, `euclid_is_metric`, `euclid_is_root_of_scaled_squares`, `rbf_dxi_is_derivative`, `rbf_gradient_partial`, `rbf_gradient_refuted`, `polygons_lie_in_cells`, `finite_cells_unchanged`, `infinite_cells_closed`, `polygons_cover_refuted`, `ball_query_norms`, `sensitivity_measure`, `sensitivity_skewness`, `sensitivity_same_answer`, `sensitivity_large`, `smooth2_is_distribution_partial`, `smooth2_independent`, `smooth2_one_column_refuted`, `smooth2_one_row`, `smooth2_one_col`, `smooth2_refused`, `smooth_is_distribution_partial`, `smooth_one_bin_refuted`, `smooth_rejects_lengths`, `unique_vecs_maximal` | `ClassicalDedekindReals.sig_forall_dec`, `ClassicalDedekindReals.sig_not_dec`, `FunctionalExtensionality.functional_extensionality_dep` |
| `kl_nonnegative`, `lp_uniform_in_ball`, `lp_beta_in_ball`, `lp_uniform_scales`, `lp_beta_scales_partial`, `lp_normal_scales_partial`, `lp_normal_scale_refuted`, `lp_infinite_refuted`, `lp_uniform_balls`, `lp_uniform_balls_infinite`, `lp_beta_balls`, `lp_mirrored`, `marginal_tv_error`, `marginal_tv_agrees_with_quad`, `marginal_euclid_error`, `marginal_hell_error`, `quad_tv_bounded`, `quad_tv_triangle`, `quad_tv_zero_iff`, `quad_hell_bounded`, `quad_kl_nonnegative`, `marginal_euclid_agrees_with_quad`, `marginal_hell_agrees_with_quad`, `quad_euclid_exact`, `quad_euclid_symmetric`, `quad_euclid_triangle`, `quad_hell_triangle`, `quad_norm_refuted`, `marginal_norm_refuted`, `smooth2_centred_refuted`, `smooth_centred_odd_refuted`, `smooth_centred_even_refuted` | `ClassicalDedekindReals.sig_forall_dec`, `ClassicalDedekindReals.sig_not_dec`, `Classical_Prop.classic`, `FunctionalExtensionality.functional_extensionality_dep` |
| `linf_uniform_in_ball`, `linf_uniform_onto` | `ClassicalDedekindReals.sig_forall_dec`, `FunctionalExtensionality.functional_extensionality_dep` |
| all other theorems in the `*_Props.v` files (708) | Closed under the global context |

`vcheck` additionally names the opaque module fields of the standard library's
`Rdefinitions` (`RbaseSymbolsImpl`, `RinvImpl`), which are definitions sealed by a
module type, not axioms.

### What is modelled

| File | Modelled | Where |
|---|---|---|
| `bet/Comm.py` | all of `comm_for_no_mpi4py`, the mpi4py collectives used | Comm_Model |
| `bet/util.py` | everything; `get_global_values` without `shape` | Util_Model, Store_Model, SampleSet_Model, Comm_Model |
| `bet/sample.py`, `sample_set_base` | setters and getters, `check_num`, `clip`, bounds, bounding box, appending, normalization, equality, copy, local/global, densities, pdf, volumes | Fields, Given, SampleSet, Bounds, Normalize, Equality, Updated, Volume, LocalVolume |
| `voronoi_sample_set` | query with cached tree, 1D volumes, radii, local volumes, merge, 2D volumes given the diagram | SampleSet, Volume, Bounds, LocalVolume, Layout, Voronoi2 |
| `rectangle_`, `ball_`, `cartesian_sample_set` | setup, query, exact volumes | Query, Volume, BallVolume |
| `discretization` | constructor, setters, pointers, clip, merge, choose, local/global | Disc |
| `bet/surrogates.py` | everything | Sampling, Surrogate |
| `calculateP.py` | everything (`prob_with_emulated_volumes` on arrays) | Prob, Disc, EmVolume |
| `calculateError.py` | everything except the Voronoi diagram of `cell_connectivity_exact` in two or more dimensions | Error |
| `calculateR.py` | everything; densities are oracles | Inverse, Updated, RvSet, Density |
| `simpleFunP.py` | everything; draws are arguments | SimpleFun, SimpleInputs |
| `compareP.py` | all of it; `mink` only as far as it is `norm` | Compare, CompareR, CompareInit, MarginalDist |
| `plotP.py` | everything up to the arguments of matplotlib | Post, Smooth, Smooth2, PlotP |
| `plotDomains.py` | everything up to the arguments of matplotlib, except the triangulation | PlotDomains |
| `plotVoronoi.py` | the lines of `plot_1D_voronoi`, colours and labels of `plot_2D_voronoi`, the polygons | PlotVoronoi, PlotVoronoi2, Polygons |
| `postTools.py` | everything | Post |
| `basicSampling.py` | sample sets, formats of distributions, model evaluation, updated samples | Sampling, RvSet, Updated, Layout |
| `LpGeneralizedSamples.py` | the uniform and beta samples, given the normal ones | GradientR |
| `gradients.py` | clusters, stencils, RBF, FFD, CFD | Gradient, GradientR |
| `chooseQoIs.py` | everything | ChooseQoIs, UniqueVecs, Sensitivity |
| `useLUQ.py` | everything but myModel (an example model) | Inverse, Luq, LuqObj |

### What is not modelled

* Floating-point rounding and overflow: numbers are exact, except in Rounding_*
  (C138), where every operation of `prob` is rounded.  `nan` and `inf` are
  modelled where the code produces them by division or initialisation.
* What matplotlib does with the points, colours, extents, labels and file names that `plotP`, `plotDomains` and `plotVoronoi` pass to it.
* The interior of numpy/scipy/pickle/mpi4py: sorting, KD-trees, density estimates,
  singular values, random generators and files are arguments of the model with
  their contract as hypotheses.
* The LUQ package behind `useLUQ.py`, logging, documentation strings.
* Real concurrency: processes run in lock step, except in Store_* (C64), where the
  file operations of two processes interleave, and in Spmd_* (C139, C140), where
  the processes run at any relative speed and meet in collective calls; there the
  lock-step results are shown to be those of every run.

## 5. Findings

68 of 196 properties are proved as stated.  The others are false of the
code; the theorems give the witness or the general failure, and what is true
instead.

* **C07.** Set_values with the same number of samples keeps the old search tree, so query answers for the old values. Partial: holds for histories that call set_kdtree after each set_values once a tree exists; a changed number of samples is detected.
* **C08.** Normalize_domain works in place, so arrays shared between attributes (or with the caller) are scaled twice or changed behind the caller's back, and a second normalization loses the saved domain. Partial: with unshared arrays and one normalization, undo restores values and domain exactly, and the stored coordinates are the affine unit coordinates.
* **C09.** A nan entry or a kernel-density object in a field makes a copy unequal; broadcasting makes sets of different sizes equal; None against an array of two or more entries raises in one direction and is False in the other, an empty array passes for None; further cluster maps are ignored on one side and raise on the other. Partial: plain contents copy to an equal set; between fields of the same shapes the comparison is True exactly for equal contents.
* **C10.** Local_to_global overwrites a newer global array with the older local blocks. Partial: an array without local blocks is kept.
* **C100.** Merge also merges the emulated sets and raises AttributeError if one of the first operand is absent. Proved if the emulated sets can be merged too.
* **C102.** After any query the stored tree values have the old length, so every query after an append raises length_not_matching; rectangle and ball sets ignore the call. Proved instead: the rows are appended, the exact condition for consistency, and correct answers after set_kdtree.
* **C103.** The box is cached and never follows later values. Partial: smallest box for histories that call set_bounding_box between a change and the next question.
* **C104.** Np.max of an empty selection raises as soon as one process draws no point in some cell, so success depends on the distribution; with fewer points than processes the call always fails. Proved instead: the exact condition for success, and the stated values and their independence of the distribution whenever the call returns.
* **C107.** For data given as an array with two or more columns, the default std raises IndexError and lists raise dim_not_matching; numpy integers are not broadcast. Proved for sample sets and discretizations, and for arrays as arguments.
* **C108.** The documented list of sizes raises TypeError in the uniform partition (1.5 * list). Proved for numbers and arrays, and for all kinds of sizes in the regular partition.
* **C11.** Set_error_id_local writes the error_local attribute; values that fit neither way raise but are stored. Partial: all other setters are read back and touch nothing else.
* **C111.** For max_num_emulate <= 10 (or num_emulate_local = 0): no point is drawn and every volume is nan; the same holds if no point falls in its cell. Proved for larger limits when some cell with a positive radius is hit, for every number of processes.
* **C112.** The first call enlarges the estimated radii by 1.5 but stores them unenlarged, so the second call uses smaller balls. The witness changes a volume from 0 to 2/3.
* **C114.** For overlapping balls (a ball given twice has twice the volume although query never answers the second; the rest becomes negative); the code only logs a warning. Proved: the formula and the sum for every norm, and the full claim for disjoint balls in the domain when balls are cubes (p = inf in every dimension, any p on the line). Missing: that unit * r^d is the volume of a p-ball for other p in two or more dimensions.
* **C115.** Only samples within side_ratio widths of a side are reflected. If no sample is that close to some side (default 0.25: all samples in the middle half), the sample nearest to that side has an unbounded cell and gets volume 0 although its cell contains a square of the domain. Proved: the claim holds for every ratio for which each cell that reaches a side belongs to a reflected sample, in particular for side_ratio >= 1, given scipy's diagram (an oracle that tiles bounded cells by triangles).
* **C117.** Every process stores the whole label array as its local part, so on P >= 2 processes the labels appear P times and invert raises ValueError; without an observation set the observed set is never made global, generate_output_kdes replaces all labels by 0 and invert raises ValueError. Proved: the claim on one process with an observation set and at least two clusters.
* **C118.** In three points: a local array of another length makes the call raise after the set has been changed; arrays left from an earlier sample (such as volumes) stay, so the returned set can have arrays of different lengths; and the domain is replaced by the support, so sampling a set twice by name uses other parameters (for 'norm' location -inf and scale inf: no sample is finite). Everything else is proved; consistency for sets without such arrays.
* **C119.** For every distribution whose shapes are not called a, or a and b (lognorm, chi2, t, weibull_min, ...): sampling the stored fit raises. Proved for the others.
* **C120.** A model that returns one row per sample makes the whole evaluation raise (dim_not_matching for the shape (1, out), which is not a ValueError and so is not caught, or the model's own IndexError), and so does a model that returns error estimates or Jacobians (AttributeError). Proved: exactly when it works; in particular for models that map flat points to flat values.
* **C121.** Comparing raises TypeError if one side lacks a set, AttributeError for list pointers; proved where the same sets and array pointers are present.
* **C123.** For 'norm' in both methods. Proved for the others under Lipschitz continuity.
* **C124.** Fftshift leaves the centre of the kernel at index -1 (odd number of bins) or -1/2 (even), so smoothing moves the marginal to the left; one bin gives nan. Proved: a probability vector for two or more bins. The transforms are modelled as circular convolution; smooth_marginals_2D is the subject of C125.
* **C125.** Moved by one bin in both directions for odd numbers of bins; one column gives nan. Proved: a table of probabilities for two or more bins in both directions, and independent variables are smoothed separately (with C124 this gives the displacement for all parities).
* **C126.** Heights use the probability of the smallest sample; right iff all probabilities are equal. Proved: one line per sample, over exactly its Voronoi cell; checks of the argument.
* **C127.** The polygons need not cover the samples. Proved: vertices lie in the cells, finite cells unchanged, infinite cells closed by one point on each infinite ridge. The contract of scipy.spatial.Voronoi is a hypothesis; the sort by angle is any permutation, so the counterclockwise order is not proved.
* **C128.** Labels raise UnboundLocalError; all-zero probabilities give nan. Proved: colours are proportional to the densities, with largest value 1; checks of the argument.
* **C130.** The name 'normalized radii' (compared by identity) is never recognised; scatter_3D_input and scatter_3D_output call themselves with a sample set and raise; no extension is added to a path with a dot. The rest is proved. Interning of string literals as in CPython is modelled.
* **C131.** Label_char and (mostly) file_extension have no effect; coordinate 0 shows the last one; one dimension raises; more than three dimensions plot nothing by default; colours of sample sets. Proved: projections, colours, labels and file names for discretizations.
* **C132.** A coordinate is plotted against itself, the reference value of the set is not used, and the versions for discretizations raise NameError (inputs always, outputs unless the colour is a name). Proved: one plot per pair, with labels and files named after the coordinates.
* **C133.** For more reference values than markers or (seven default) colours. The rest is proved.
* **C134.** Points of curves are not at the middles of the bins (they lie over their bin), curves ignore the interval of the bins, contours need two bins in each direction. Proved: heights, pixels, marks, labels, file names. The work of matplotlib is not modelled, except that contour rejects arrays with one row or column and plot rejects different lengths.
* **C135.** Num_points has no effect without interval; sets with equal parameter labels give curves of the same name. The rest is proved. The densities themselves are arguments (they are modelled in Updated_*).
* **C137.** Volumes given after the evaluation (the local volumes stay undefined, prob raises TypeError). Everything else of the statement is proved; _partial has the hypothesis that given volumes are set first.
* **C140.** An error on some of the processes blocks the others for ever (prob, prob_from_sample_set, check_num, plots of marginals), for every schedule; different local arrays on the processes are mixed without an error.
* **C142.** The second solution overwrites the first one, which lies in the same input set (witness, and for all inputs in shared_input_last_wins). Proved: solving again restores the probabilities.
* **C143.** Prob_on_emulated_samples on a clip overwrites the emulated probabilities of the original. Proved for copy with any history, for prob on a clip, and which sets clip and merge share with the originals.
* **C144.** For given sets: everything except the samples (and the bounds, for lhs) stays, so that volumes and probabilities of the old samples are attached to the new ones; with another number of samples the call raises after it has changed the set, or (after lhs) only the later evaluation of the model raises. Proved for a dimension or a domain.
* **C145.** Random_sample_set changes the given set, so that an earlier discretization with this set as input gets new inputs with its old outputs. Proved for all histories that do not reach the discretization: the sampler has gone on to another set and another discretization, and no call is given one of its sets.
* **C146.** Without num_samples the call raises AttributeError (a sampler has no attribute num_samples). The rest is proved. The requested number of rows is in random_new_set (C144).
* **C148.** Global probabilities set after local ones exist are ignored; an emulated input set without probabilities hides those of the input set (missing_attribute); numpy integers as number of bins raise IndexError. The rest is proved.
* **C149.** Probabilities that are only local raise TypeError, discretizations without outputs AttributeError. Proved for all objects with global arrays in which no sample has probability and volume zero. argsort is any function that sorts.
* **C15.** The budget is tested before the draw is multiplied by ten (a budget of 5000 draws 10000 points in one go), and a budget of at most 10 draws nothing, giving nan volumes. Proved instead: termination for every outcome, draws below ten times the budget, normalization when some estimate is positive.
* **C151.** With a label between the used ones that no sample has, the inversion succeeds and every evaluation of the density raises TypeError; observations that are only distributed raise TypeError because the observed set is not made global; distributed labels of the outputs without labels of the observations give one cluster in the first inversion and TypeError in the next. The rest is proved. gaussian_kde is any function.
* **C152.** Initial weights of the input set have no effect on any discretization. Those of the output set weight the predicted density (density_weights, with a case in which the result differs).
* **C155.** Setup evaluates the observation set in any case, so it raises AttributeError without one and replaces observations set by hand with one; samples exchanged after the predictions get the labels of the old ones; local_to_global of the object does nothing, so a saved distributed prediction set comes back as copies of one process's part; local arrays are not evaluated. Proved: saving and loading on one process.
* **C156.** As many points as dimensions are read by rows even if they were given by columns; an input that does not fit is stored by set_values before it raises dim_not_matching. The rest is proved; append_values rejects without a change.
* **C157.** Exact_volume_lebesgue, exact_volume of balls and set_volumes change only the global array, which prob does not read: it uses the volumes before them (or raises TypeError). set_volumes_local is overwritten by older global volumes at the next global_to_local. Proved: exactly when the volumes of the last call are used; in all these cases prob is the solution for them.
* **C158.** A cluster whose ratios are not all finite or all vanish gets nan as mean and covariance and the inversion succeeds; with a label that no sample has the marginals raise TypeError. Proved: fractions, moments and the mixture density in all other cases; the result does not depend on processes or earlier inversions.
* **C159.** Every cluster counts by its fraction times the sum of its ratios, so mean and covariance are those of the mixture only if these sums agree; a label without samples raises TypeError and undefined or vanishing weights raise ValueError. Proved: the exact moments, equality with the mixture for equal sums, and the numbers of copies up to rounding.
* **C160.** Every process draws its own numbers and keeps its own samples, so the global arrays differ and the local parts can hold a sample twice or miss one; a label that no sample has raises AttributeError. Proved: what each process holds, and one sample set in P blocks if all processes draw the same numbers.
* **C161.** With a single learned cluster no density is estimated (the number of maps is tested instead of the number of samples) and every inversion raises TypeError. Proved for two or more clusters with two outputs and two observations each, exceptions included.
* **C162.** An inversion that raises after invert has replaced the weights but keeps the old measure; an inversion without labels stores labels in the outputs, which count when labelled observations follow. Proved for all histories in which all observed sets have labels and the outputs too, or no observed set has.
* **C165.** Volumes set after the old ones were distributed are overwritten with the old ones by the next question about a region. Proved for consistent states and all questions.
* **C166.** An emulated set given later makes questions about regions raise AttributeError; another output probability set is compared with pointers into the old one; new volumes are ignored once the old ones were distributed. Proved for new probabilities in any history of questions.
* **C167.** For order 1: the difference is taken as old sample minus new sample, so an affine map with exact Jacobians gets twice the old output minus the right one, for all inputs. The rest is proved for all histories of calls; order 1 is stated as coded.
* **C168.** Volumes set after the values of the given set were distributed are ignored and equal volumes are used. Proved for all histories of calls when the ranks have the volumes or none are given.
* **C169.** Only the global probabilities are set, and probabilities that the processes hold from an earlier calculation overwrite them at the next local_to_global, for instance when another surrogate is built. The values stored by the update are proved for all histories.
* **C17.** For every k >= 3 some cell is listed twice, for all rectangle and ball sets. Proved instead: distinctness for k = 2 when the point is inside a rectangle.
* **C170.** On the line the neighbour table is computed for the sorted samples and used for the stored ones, so the bounds depend on the order in which the same samples are stored. Proved for all sequences of questions and process numbers, in several dimensions for every Delaunay triangulation, on the line when the sorting permutation is its own inverse.
* **C171.** Volumes set after the old ones were distributed are overwritten with the old ones by the next question about a region. Process independence and the kept data are proved for consistent states (same neighbour tables as C170).
* **C172.** A new output probability set is compared with the global pointer into the old one, also by an object built anew; a new emulated set is used with the cells of the old points if their pointer was computed. Proved for new probabilities and new emulated sets in any history without these pointers.
* **C173.** If the estimated volumes of the touching cells of the event are zero and those of its neighbours are not, both bounds are minus the probability, so the upper bound is negative. Proved when the touching cells of the event have volume or no cell touching it has.
* **C175.** The estimate is the corrected probability of the samples that come into the event; samples that leave it for other events keep probability from those, so the probability of the event's samples can grow while the estimate is 0. Proved: what the estimate is, and that it bounds the loss of the event.
* **C177.** The upper bound looks at the event alone; other events that reach into its cells add probability there. The lower bound is proved, with volumes estimated from the emulated points.
* **C180.** A nearest-neighbour query answers with one of several equal outputs, so the cells of the others stay empty; whenever two samples have the same output the total probability is (number of different outputs)/n < 1. Proved: the exact probabilities and their total for all models, and the claim when all outputs differ.
* **C181.** Merge joins the local arrays of the two runs, estimate_volume_mc with globalize splits the input set anew but not the output set; unless the number of processes divides the size of one of the batches, prob raises IndexError. Proved: the claim with globalize=False for all sizes, and with globalize when one batch can be split evenly.
* **C182.** Choose_inputs_outputs copies values, error estimates and Jacobians but not volumes, so if the volumes were defined before the choice (in any of the ways) and some output cell has a positive probability, prob raises TypeError (chosen_volumes_refuted, for all such problems). Proved: with volumes estimated after the choice the probabilities are those of the problem whose model computes only the chosen outputs.
* **C183.** Every process writes its own object to the same file and only the global arrays agree. Saved after the output probabilities, the local pointers of the last writer are on every process of the second run and prob uses them: IndexError whenever a block of the second run has another size than the writer's (so always from one process to several), other numbers silently when the sizes agree (example). Without localize the local arrays of the samples are the writer's as well, and the answer is that for copies of its block. True part: one process in both runs, or localize=True and pointers computed in the second run.
* **C185.** Output probabilities stored with set_output_probability_set or by simpleFunP set only the local pointer, and prob_on_emulated_samples renews the pointers only if the local one is missing, so it subscripts None: TypeError for all such problems. Proved: both claims when the discretization is constructed with the probability set or set_io_ptr/globalize_ptrs is called before.
* **C186.** In its last sentence: the moved probabilities are stored only in the global array. A new set that already has distributed values and probabilities passes on its own old local probabilities in the next move, and one with local values but no local probabilities raises TypeError. Proved: all other sentences, and chains when the middle set has no local values.
* **C187.** In its last clause: this function reads the global probabilities of the old set and prob_from_sample_set its local ones. After prob(globalize=False) it raises TypeError where the other works, and for a set into which probabilities were moved although it had local ones (C186) the two move different numbers. Proved: everything else, and the last clause for sets whose local and global probabilities agree.
* **C188.** A run that starts with the evaluation of the model uses the samples distributed before (compute_qoi only distributes a set without local values), and local_to_global then overwrites the replaced or added samples. Once a solution exists, a different number of samples raises length_not_matching. Proved for all histories: with global_to_local or estimate_volume_mc first, and the number of samples changed at most before the first solution, every run equals a new calculation; and in general which samples each run uses.
* **C189.** Lp_generalized_normal multiplies by scale**(1/p), which is the scale only for p = 1; for p = inf it returns the corners of a fixed cube whatever the scale, and Lp_generalized_beta raises ValueError. Proved: the scaling of the uniform sampler for all p and of the beta sampler for finite p, and both statements about balls, from the density of the beta distribution. Over the reals; draws with all coordinates 0 are excluded.
* **C190.** In its last sentence: local_to_global after appending to a distributed set brings back the old arrays and loses all appended rows, and rectangle and ball sets ignore all three calls without an error. Proved: everything else, and that nothing is lost if global_to_local is called after appending.
* **C192.** A part of positive probability that no output hits takes its probability away from the contour event (proved in general; the loss is at least the probability of the part). Proved: the sum stays if all parts of positive probability are hit by samples of positive volume; it never grows; and exactly when single samples keep their probability.
* **C193.** A new cell that no sample of positive volume hits takes its probability, one over the number of new cells, away from the contour event of an old cell (proved in general). Proved: the new partition subdivides the old one, with the sums of the probabilities and in agreement with both queries; the probability stays if every new cell is hit; it never grows.
* **C194.** For Voronoi cells (uniform partitions, data samples): different factors change the nearest cell, for every nearest neighbour search; and for negative factors with regular partitions, because the cells contain their upper edge only. Proved: regular partitions with positive factors give the same probabilities, the same answers to every query and the same pointers, in any dimension; domains and sizes scaled from the data convert; the same draws give converted bins and points; a common factor keeps the nearest values.
* **C195.** For emulated volumes of Voronoi cells: different factors change the nearest samples, for every nearest neighbour search (a common factor keeps them, C194). Proved for all inputs: samples convert; exact volumes in one dimension (numpy.argsort answering the same permutation, which is an argsort of both) and volumes of rectangles stay; one- and two-dimensional marginals stay.
* **C196.** With normalize=True, the default: the gradients are divided by their 1-norm, which does not convert. Proved with normalize=False for every model, any dimension, centers and radii, for forward and centered differences.
* **C21.** For two inputs: a domain given as a nested list of two pairs becomes an array with three axes, and fix_dimensions_data(data, dim) transposes (on every call) instead of rejecting data none of whose axes has length dim. All other clauses are proved.
* **C23.** (crash clause): save_object opens the target with 'wb', so a crash between opening and writing leaves EOFError for both objects. Proved: the store clauses for every history on one process, and for every interleaving of P writers with globalize that all ranks load the object of one rank. Byte-level interleaving of two dumps into the same file is not modelled.
* **C24.** For every name with a directory (load looks for proc0_dir/f instead of dir/proc0_f), and when a file with a similar name or an old plain file exists. Proved for plain names without interfering files, every P and every interleaving.
* **C26.** An output cell of positive probability without inputs of positive volume loses its mass. Proved instead: the total never exceeds the output total and equals it exactly when no such cell exists.
* **C33.** For every argsort: the code uses argsort as if it were the rank, so unsorted samples get wrong neighbours. Proved when the sorting permutation is its own inverse (e.g. increasing samples), and for more dimensions relative to the triangulation.
* **C35.** Without points of an event of positive probability before or after the perturbation: ZeroDivisionError (inf in the mc version), even for zero error estimates. Proved in all other cases.
* **C36.** Reading the defaultdict for a region inserts an empty interior set, so the contour bounds of events without interior cells change from nan to (inf, -p). Proved for all other events and for region queries, for every history.
* **C38.** A label number without samples makes invert_rejection_sampling raise AttributeError although invert succeeds. All clauses are proved when no cluster is empty and each has a positive ratio. The density ratios are an arbitrary function.
* **C40.** Clusters are rounded separately (two equal clusters: 1 requested gives 0, 3 requested give 4, for every P), and a mixture in one dimension raises unless every cluster gets exactly one sample. Proved: the deviation is at most half the number of clusters, zero if all products are integers.
* **C42.** The difference has the wrong sign. Proved in general: for an affine map the surrogate returns twice the value at the cell's sample minus the true value; it is exact only where the two agree.
* **C44.** In parallel: every process draws its own hypercube and the blocks are joined. Proved when all processes draw the same hypercube, in particular for one process.
* **C46.** A sample with probability and volume zero has density nan, is returned first and a sample of positive probability is dropped. Proved for all other inputs and every argsort.
* **C47.** For sort=False (always UnboundLocalError). Proved for sort=True, both directions, without samples of zero volume and zero probability.
* **C50.** The range of the last dimension is used for all dimensions and the upper end is not enlarged. Proved for one dimension and factor 0.
* **C51.** A call with normalize=True replaces the stored densities, a later call without normalize uses the normalized ones. Proved: all histories without a normalized call before an unnormalized one.
* **C58.** For error estimates of the documented shape (num,), which raise IndexError, and for the default arguments None, which raise TypeError. Proved for sets whose arrays have a column per dimension and nonempty index lists in range: values, error estimates, Jacobians, domain, reference value, p-norm.
* **C59.** Global_to_local names the method of the emulated output set without calling it, and the observed set is skipped by both. Proved for the other sets.
* **C60.** Set_io_ptr(globalize=False), also called by set_output_probability_set, leaves an older global pointer in place. Proved for histories in which no pointer is recomputed only locally after a global one may exist.
* **C61.** The constructor compares only numbers of samples, and set_output_probability_set without an output set raises AttributeError after it has stored its argument. Proved: all setters reject other dimensions and leave the discretization as it was.
* **C62.** For pdf: its density integrates to the domain volume times the total. Proved for set_densities.
* **C63.** Clip leaves _weights at the original length, because it is not in array_names. Nothing positive is claimed.
* **C64.** All ranks read the object of the rank that wrote last, so local arrays belong to another rank; attributes on which the ranks agree are correct (second theorem).
* **C65.** Set_input_sample_set and set_output_sample_set keep pointers of the replaced set. Proved for histories that replace no set after a pointer depending on it was computed (the output probability set may always be replaced for prob).
* **C66.** For every discretization without a global io pointer: prob sets only the local pointer, after which prob_on_emulated_samples raises TypeError. Proved: the other order, and both orders after set_io_ptr(globalize=True).
* **C67.** The probability is proportional to count * sum(1/pdf), not to the count.
* **C69.** A cell whose neighbours all lie in other events is in its own event but not in the touching set. The rest is proved.
* **C70.** By an isolated cell (see C69): the bounds (-1/4,-1/4). Proved if every cell of an event of positive probability has a neighbour in its own event.
* **C72.** When some observation has a label no prediction has. Proved: the sum is one exactly if all observed labels are clusters of the prediction.
* **C73.** More than 2*num_reweighted samples of equal weight give no points at all. Proved: each count is the nearest integer, total within half the number of samples, exact for integers.
* **C74.** When a rank draws as many samples as there are dimensions: the array is not transposed. Proved otherwise.
* **C75.** For kde with two clusters and dimensions: pdf is the product of mixtures, the gap is given exactly. Proved for one dimension or one cluster, and for gmm.
* **C76.** For Voronoi measures with two or more columns (ValueError). Proved for the other types.
* **C77.** After the first call the stored densities are used for ever; probabilities set only globally raise TypeError. Proved for the first call.
* **C78.** If only one set has labels they are overwritten by zeros. Kept if both have labels.
* **C79.** For labellings with an empty cluster (TypeError). Proved otherwise.
* **C80.** For cluster maps: with exactly one cluster map invert always raises TypeError (the code tests the number of maps instead of their length). Proved as an equivalence without cluster maps.
* **C82.** Set_values leaves the local values of an earlier run, the model is run at those and they replace the new values. True if there are no local values.
* **C83.** A pair without flags, a pair with both flags and an array with a flag raise UnboundLocalError. Proved for the matching combinations and triples.
* **C85.** Once a distance was computed the stored densities are used, new points are ignored.
* **C86.** For 'hell' with normalize=True: it is too small by the factor sqrt(n), because the recursive call drops normalize. Metric axioms and bounds proved over the reals.
* **C88.** Only the domain of the first set is used, and sets with different numbers of samples raise ValueError. Proved for equal numbers of samples without domains.
* **C89.** For calculate_gradients_cfd: it returns the outputs of the first stencil points, because data was replaced by data[num_centers:]. Proved for calculate_gradients_ffd.
* **C90.** Clean_data replaces nan and inf in the caller's array. Proved for finite output values.
* **C91.** For shape parameters other than 1: the interpolation matrix is built without ep. Proved for ep None or 1, all kernels. numpy.linalg.solve and the neighbour query are arguments.
* **C94.** For two or more processes: the gathered array of shape (size, centers, qois, k) is reshaped to (centers, qois, k*size). Proved for one process.
* **C95.** Np.unique keeps one set per value, so sets that tie are dropped and fewer rows are returned. Proved: rows are acceptable, sorted, have different values, and the first one is optimal.
* **C98.** If some but not all centers are singular their entries come back overwritten, and for one QoI a zero gradient is counted as condition number 1. Proved: the value for two or more QoIs, and the array if no center is singular.
* **C99.** For every discretization without a global io pointer: simpleFunP sets the io pointer with globalize=False and prob_on_emulated_samples subscripts the missing global pointer.

## 6. Wrong programs

`seeded/LOG.jsonl` records edits of the model that mimic realistic bugs, made in a
scratch copy: the definition, the edit, the claim it breaks, the theorems that no
longer prove.  Where an edit first went unnoticed, the entry names the theorem that
was added or tightened; remaining unnoticed edits are marked as equivalent programs.
