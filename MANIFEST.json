{
 "claims": [
  {
   "property": "C01",
   "status": "proved",
   "theorems": [
    "C01_ids",
    "C01_names"
   ],
   "note": "Sparse and dense constructors share this code."
  },
  {
   "property": "C02",
   "status": "partial",
   "theorems": [
    "C02_accepted",
    "C02_accepted_multi",
    "C02_exceptions_partial",
    "C02_unknown_refuted"
   ],
   "note": "Acceptance proved as an iff, for all classes. The exception raised is proved when at least one source and one destination are known; REFUTED when all sources (or destinations) are unknown: TypeError instead of the documented assertion."
  },
  {
   "property": "C03",
   "status": "proved",
   "theorems": [
    "C03_bytes",
    "C03_no_wrap"
   ],
   "note": ""
  },
  {
   "property": "C04",
   "status": "proved",
   "theorems": [
    "C04_groups"
   ],
   "note": ""
  },
  {
   "property": "C05",
   "status": "proved",
   "theorems": [
    "C05_summed",
    "C05_links"
   ],
   "note": "C05_links extends the statement to the four classes."
  },
  {
   "property": "C06",
   "status": "partial",
   "theorems": [
    "C06_last_partial",
    "C06_layers_partial",
    "C06_sum_partial",
    "C06_refuted"
   ],
   "note": "REFUTED: numpy fancy assignment keeps the last of parallel rows. Proved: the entry is the weight of the last row, and the sum when pairs are not repeated."
  },
  {
   "property": "C07",
   "status": "proved",
   "theorems": [
    "C07_tables",
    "C07_agree",
    "C07_undirected_partial",
    "C07_undirected_refuted"
   ],
   "note": "Proved for directed graphs as stated. Extra: undirected views agree for weighted graphs and unweighted views; REFUTED for the weighted undirected view of an unweighted graph with a self-loop (sparse drops it)."
  },
  {
   "property": "C08",
   "status": "partial",
   "theorems": [
    "C08_undirected_partial",
    "C08_unweighted_refuted",
    "C08_directed_view_refuted",
    "C08_dense_partial",
    "C08_dense_directed_view_refuted"
   ],
   "note": "Symmetry and entries proved for the four sparse classes. REFUTED: the weighted view of an unweighted graph drops self-loops; undirected classes ignore directed=True and return each edge twice. Dense: proved for simple graphs; multi graphs see C15."
  },
  {
   "property": "C09",
   "status": "proved",
   "theorems": [
    "C09_defined",
    "C09_directed",
    "C09_undirected",
    "C09_dense_directed",
    "C09_dense_undirected"
   ],
   "note": ""
  },
  {
   "property": "C10",
   "status": "partial",
   "theorems": [
    "C10_directed",
    "C10_undirected",
    "C10_dense_directed",
    "C10_dense_column_partial",
    "C10_dense_undirected_partial",
    "C10_dense_multi_refuted"
   ],
   "note": "Sparse: proved. Dense: proved for directed graphs and simple undirected ones, total equal to the weight column when pairs are not repeated; REFUTED for dense undirected multi graphs with self-loops."
  },
  {
   "property": "C11",
   "status": "proved",
   "theorems": [
    "C11_degree",
    "C11_strength",
    "C11_out_in_degree",
    "C11_out_in_strength",
    "C11_dense_degree",
    "C11_dense_out_in_degree"
   ],
   "note": "Sparse: degrees and strengths. Dense: degrees; dense strengths are C12."
  },
  {
   "property": "C12",
   "status": "partial",
   "theorems": [
    "C12_integer_partial",
    "C12_out_in_integer_partial",
    "C12_refuted"
   ],
   "note": "REFUTED: sums are truncated to int64 (weight 1/2 gives 0). Proved for integer weights."
  },
  {
   "property": "C13",
   "status": "partial",
   "theorems": [
    "C13_strength",
    "C13_out_in_strength",
    "C13_total_weight",
    "C13_num_edges",
    "C13_unweighted_refuted",
    "C13_dense_directed",
    "C13_dense_undirected_partial",
    "C13_dense_refuted",
    "C13_values_undirected",
    "C13_values_directed",
    "C13_dense_values_undirected",
    "C13_dense_values_directed"
   ],
   "note": "Proved for weighted multi graphs (edge counts for all). REFUTED for strengths and total weight of unweighted multi graphs: flattening is a disjunction. Dense: proved for directed multi graphs and for undirected ones without self-loops; REFUTED with self-loops. Each measure by label is shown to be that of the links of the label alone (C13_values*, C13_dense_values*)."
  },
  {
   "property": "C14",
   "status": "partial",
   "theorems": [
    "C14_entries",
    "C14_tensor",
    "C14_dense_directed",
    "C14_dense_undirected_partial"
   ],
   "note": "Sparse: proved for all views. Dense: directed views proved, undirected weighted view off the diagonal (diagonal: see C15)."
  },
  {
   "property": "C15",
   "status": "partial",
   "theorems": [
    "C15_partial",
    "C15_doubled",
    "C15_refuted"
   ],
   "note": "REFUTED for both multi classes: the diagonal is doubled. Proved off the diagonal and for the unweighted view."
  },
  {
   "property": "C16",
   "status": "partial",
   "theorems": [
    "C16_mean_partial",
    "C16_selfloop_refuted",
    "C16_none",
    "C16_dense_partial",
    "C16_dense_in_refuted"
   ],
   "note": "Proved with self-loops included, and without them for vertices that have no self-loop. REFUTED for a vertex with a self-loop and selfloops=False: the degree still counts it. Dense: additionally REFUTED for ndir=\"in\" with selfloops=False (the self-loop is not removed from the sum)."
  },
  {
   "property": "C17",
   "status": "partial",
   "theorems": [
    "C17_measures",
    "C17_dense_measures",
    "C17_values",
    "C17_nn_degree_partial",
    "C17_dense_nn_degree_partial",
    "C17_recompute",
    "C17_selfloops_refuted",
    "C17_name_refuted"
   ],
   "note": "REFUTED for average_nn_degree: its cache name omits selfloops (C17_selfloops_refuted) and equates the unknown direction 'out_in' with 'out-in' (C17_name_refuted). Proved for every other measure after any history (sparse and dense), and for average_nn_degree when all such queries use the same selfloops option and documented directions, or a recompute flag."
  },
  {
   "property": "C18",
   "status": "partial",
   "theorems": [
    "C18_digraph",
    "C18_graph_partial",
    "C18_unweighted_partial",
    "C18_unweighted_refuted",
    "C18_multidigraph",
    "C18_multigraph_partial",
    "C18_multigraph_refuted",
    "C18_dense_digraph",
    "C18_dense_graph",
    "C18_dense_multidigraph",
    "C18_dense_multigraph_partial",
    "C18_dense_multigraph_refuted"
   ],
   "note": "REFUTED for unweighted undirected sparse graphs (self-loops are lost) and for undirected multigraphs with one label in both orientations (one weight is lost), sparse and dense. Proved for DiGraph, MultiDiGraph, weighted sparse Graph, dense Graph, and multigraphs without opposite rows of one label. networkx is modelled by its documented behaviour."
  },
  {
   "property": "C19",
   "status": "partial",
   "theorems": [
    "C19_float_rows",
    "C19_integer_refuted",
    "C19_boolean_refuted"
   ],
   "note": "Proved for floating point weights. REFUTED for other dtypes: new_w keeps the dtype of the weights, so integer weights are truncated to 0 and boolean weights (pagerank weighted=False) cannot sum to one."
  },
  {
   "property": "C20",
   "status": "partial",
   "theorems": [
    "C20_probability",
    "C20_converged",
    "C20_integer_refuted",
    "C20_no_iterations_refuted"
   ],
   "note": "Proved for floating point weights and max_iter >= 1 (probability vector, stopping rule, residual at convergence). REFUTED for integer weights (ranks do not sum to one) and for max_iter = 0 (UnboundLocalError)."
  },
  {
   "property": "C21",
   "status": "proved",
   "theorems": [
    "C21_step",
    "C21_linear",
    "C21_mass"
   ],
   "note": "Closed form of one step, linearity, non-negativity and conservation of mass."
  },
  {
   "property": "C22",
   "status": "partial",
   "theorems": [
    "C22_iterate",
    "C22_at_least_one",
    "C22_library_graph_refuted",
    "C22_isolated_refuted",
    "C22_no_iterations_refuted"
   ],
   "note": "Proved when adj.sum(axis=1) has the attribute A1 (scipy sparse matrices): result, stopping rule, lower bound. REFUTED for the graphs of the library (sparse arrays: AttributeError), for isolated vertices (depth 0) and for max_iter = 0."
  },
  {
   "property": "C23",
   "status": "partial",
   "theorems": [
    "C23_iterates_inside",
    "C23_brackets_nest",
    "C23_leaves_flat_bound",
    "C23_refuted"
   ],
   "note": "Proved for non-decreasing objectives whose target is reached inside the bounds (atol > 0). REFUTED without the latter: the secant fallback leaves the bracket."
  },
  {
   "property": "C24",
   "status": "proved",
   "theorems": [
    "C24_report"
   ],
   "note": ""
  },
  {
   "property": "C25",
   "status": "proved",
   "theorems": [
    "C25_from_below",
    "C25_density_objectives",
    "C25_zero_start"
   ],
   "note": ""
  },
  {
   "property": "C26",
   "status": "partial",
   "theorems": [
    "C26_terminates",
    "C26_exact_start_refuted"
   ],
   "note": "Proved for every library model, feasible target, positive tolerance and start, except a start exactly on the target with atol = 0, which raises AssertionError (C26_exact_start_refuted)."
  },
  {
   "property": "C27",
   "status": "partial",
   "theorems": [
    "C27_outside",
    "C27_exact_partial",
    "C27_exact_refuted"
   ],
   "note": "Out-of-bounds start proved; exact start proved for atol > 0; REFUTED for atol = 0 (AssertionError)."
  },
  {
   "property": "C28",
   "status": "proved",
   "theorems": [
    "C28_fitness_probability",
    "C28_invariant_probability",
    "C28_fitness_value",
    "C28_invariant_value"
   ],
   "note": ""
  },
  {
   "property": "C29",
   "status": "proved",
   "theorems": [
    "C29_fitness_logs",
    "C29_invariant_logs",
    "C29_multi_fitness_logs",
    "C29_multi_invariant_logs"
   ],
   "note": ""
  },
  {
   "property": "C30",
   "status": "proved",
   "theorems": [
    "C30_fitness_jacobian",
    "C30_invariant_jacobian",
    "C30_fitness_jac_probability",
    "C30_invariant_jac_probability",
    "C30_expected_edges"
   ],
   "note": ""
  },
  {
   "property": "C31",
   "status": "proved",
   "theorems": [
    "C31_fitness_monotone",
    "C31_invariant_monotone",
    "C31_expected_edges",
    "C31_multi_probability",
    "C31_multi_expected_edges"
   ],
   "note": ""
  },
  {
   "property": "C32",
   "status": "proved",
   "theorems": [
    "C32_fitness_kernels",
    "C32_invariant_kernels",
    "C32_layer_kernels",
    "C32_multi_kernels"
   ],
   "note": ""
  },
  {
   "property": "C33",
   "status": "proved",
   "theorems": [
    "C33_multi_fitness_union",
    "C33_multi_invariant_union"
   ],
   "note": ""
  },
  {
   "property": "C34",
   "status": "proved",
   "theorems": [
    "C34_multi_fitness_jacobian",
    "C34_multi_invariant_jacobian"
   ],
   "note": ""
  },
  {
   "property": "C35",
   "status": "partial",
   "theorems": [
    "C35_multi_fitness_infinite",
    "C35_multi_invariant_infinite_refuted",
    "C35_multi_invariant_infinite_partial"
   ],
   "note": "Proved for MultiFitnessModel; REFUTED for MultiInvariantModel (pairs without a common label get probability 1 at infinite parameter); partial theorem covers pairs sharing a label."
  },
  {
   "property": "C36",
   "status": "proved",
   "theorems": [
    "C36_edges_degrees"
   ],
   "note": ""
  },
  {
   "property": "C37",
   "status": "proved",
   "theorems": [
    "C37_expected_means"
   ],
   "note": ""
  },
  {
   "property": "C38",
   "status": "partial",
   "theorems": [
    "C38_average",
    "C38_stale_dyad_refuted",
    "C38_random",
    "C38_random_selfloop_refuted"
   ],
   "note": "Proved for every library model whose dyadic factor does not depend on the partner (all constructors). REFUTED for subclasses with a partner-dependent dyadic factor: the self-loop pass reuses the stale loop index."
  },
  {
   "property": "C39",
   "status": "proved",
   "theorems": [
    "C39_total",
    "C39_value",
    "C39_impossible",
    "C39_dense",
    "C39_rejected"
   ],
   "note": ""
  },
  {
   "property": "C40",
   "status": "partial",
   "theorems": [
    "C40_selfloop_refuted",
    "C40_selfloops_ignored_partial"
   ],
   "note": "REFUTED: DiGraphEnsemble.log_likelihood ignores diagonal entries when self-loops are not allowed; the partial theorem states exactly what is computed."
  },
  {
   "property": "C41",
   "status": "proved",
   "theorems": [
    "C41_sampling"
   ],
   "note": ""
  },
  {
   "property": "C42",
   "status": "proved",
   "theorems": [
    "C42_binary",
    "C42_weighted"
   ],
   "note": ""
  },
  {
   "property": "C43",
   "status": "proved",
   "theorems": [
    "C43_strengths",
    "C43_rejected"
   ],
   "note": ""
  },
  {
   "property": "C44",
   "status": "partial",
   "theorems": [
    "C44_likelihood_refuted",
    "C44_sample_refuted",
    "C44_own_option_partial"
   ],
   "note": "REFUTED: log_likelihood and sample of DiGraphEnsemble ignore their selfloops argument."
  },
  {
   "property": "C45",
   "status": "partial",
   "theorems": [
    "C45_recompute",
    "C45_stale_refuted"
   ],
   "note": "recompute=True proved for every object state; REFUTED without recompute: caches survive a change of parameter."
  },
  {
   "property": "C46",
   "status": "partial",
   "theorems": [
    "C46_unchanged_partial",
    "C46_unchanged_refuted"
   ],
   "note": "Proved for valid direction strings; REFUTED for an unknown direction string: the exception leaves the self-loop option changed."
  },
  {
   "property": "C47",
   "status": "partial",
   "theorems": [
    "C47_fit",
    "C47_degrees",
    "C47_weight",
    "C47_single_vertex_refuted",
    "C47_above_one_refuted"
   ],
   "note": "Proved for every N with an admissible pair. REFUTED at N=1 without self-loops (ZeroDivisionError or nan) and in that the fitted value need not be a probability (more edges than pairs)."
  },
  {
   "property": "C48",
   "status": "partial",
   "theorems": [
    "C48_value",
    "C48_selfloop",
    "C48_complete_refuted",
    "C48_empty_refuted",
    "C48_impossible_empty_refuted"
   ],
   "note": "Proved for 0<p<1 (value, and -inf for self-loops outside the ensemble). REFUTED at p=1 for the complete graph (-inf), at p=0 for the empty graph (ValueError) and at p=1 for the empty graph (ValueError)."
  },
  {
   "property": "C49",
   "status": "partial",
   "theorems": [
    "C49_converged",
    "C49_multi_converged",
    "C49_feasible_range",
    "C49_infinite_start_refuted",
    "C49_per_label"
   ],
   "note": "Proved for all finite starts and every target; REFUTED for an infinite start of MultiInvariantModel (p_jac_ij returns probability 1 for pairs without common label at infinite parameter)."
  },
  {
   "property": "C50",
   "status": "proved",
   "theorems": [
    "C50_single_label",
    "C50_multi_label",
    "C50_no_selfloop_refuted"
   ],
   "note": "Proved for distinct blocks, and for a block with itself when self-loops are allowed; C50_no_selfloop_refuted shows that the self-loop condition is needed for a block with itself."
  },
  {
   "property": "C51",
   "status": "proved",
   "theorems": [
    "C51_fitness_gauge",
    "C51_invariant_gauge",
    "C51_fitness_transpose",
    "C51_invariant_transpose"
   ],
   "note": ""
  },
  {
   "property": "C52",
   "status": "partial",
   "theorems": [
    "C52_round_trip",
    "C52_round_trip_tuples",
    "C52_transpose",
    "C52_no_rows_refuted"
   ],
   "note": "Proved for every canonical array with at least one row, in both directions, and for the by-layer transpose. REFUTED for an array without rows (tuple_list_to_csx raises IndexError)."
  },
  {
   "property": "C53",
   "status": "partial",
   "theorems": [
    "C53_edges",
    "C53_degrees_computed",
    "C53_degrees_partial",
    "C53_degrees_refuted",
    "C53_spark_degrees_partial",
    "C53_spark_degrees_refuted",
    "C53_dense_degrees",
    "C53_dense_edges_partial",
    "C53_dense_edges_refuted"
   ],
   "note": "Expected edges by label proved (sparse; dense when N = num_labels). Degrees by label: the computed value is characterised exactly for all inputs; it equals the expected degree when at most one vertex has both fitnesses in the layer. REFUTED otherwise: exp_degrees_label (sparse) and exp_degrees_layer (Spark) count such pairs twice. The dense exp_degrees_label is proved without restriction; the dense exp_edges_label is REFUTED for N <> num_labels (loops over len(prop_out))."
  },
  {
   "property": "C54",
   "status": "partial",
   "theorems": [
    "C54_tensor",
    "C54_impossible",
    "C54_diagonal_refuted",
    "C54_rejected",
    "C54_dense_tensor"
   ],
   "note": "Proved for graphs whose links are admissible pairs, with rejection of wrong shapes; dense module proved. REFUTED: a self-loop of an ensemble without self-loops is ignored instead of having probability zero."
  },
  {
   "property": "C55",
   "status": "partial",
   "theorems": [
    "C55_sample",
    "C55_no_fitness",
    "C55_selfloops_refuted",
    "C55_dense_sample",
    "C55_cremb_weight",
    "C55_cremb_refuted"
   ],
   "note": "Proved: joint distribution of the layers, outcomes, no links at vertices without fitness, dense module, CReMB weights. REFUTED: the selfloops argument of MultiDiGraphEnsemble.sample is ignored; the CReMB layer sampler fails with IndexError when only one of the two strengths of a linked pair is stored."
  },
  {
   "property": "C56",
   "status": "partial",
   "theorems": [
    "C56_binary",
    "C56_cremb",
    "C56_wagg",
    "C56_single_vertex_group_refuted",
    "C56_zero_parameter_refuted"
   ],
   "note": "Proved for the three samplers for every aggregate graph of positive probability (wagg: positive products of strengths). REFUTED without that hypothesis: a single-vertex group linked to itself without self-loops gives a graph that misses the macro link and no error; with parameter 0 the sampler raises ZeroDivisionError although the conditional probabilities are defined."
  },
  {
   "property": "C57",
   "status": "proved",
   "theorems": [
    "C57_block",
    "C57_distribution",
    "C57_mean",
    "C57_cremb"
   ],
   "note": "Proved for one block, for the joint distribution over all graphs, for means of observables, and for the expected CReMB weight of every pair."
  },
  {
   "property": "C58",
   "status": "proved",
   "theorems": [
    "C58_kernel",
    "C58_pairs",
    "C58_jacobian",
    "C58_infinite_block",
    "C58_infinite_pair",
    "C58_limit_zero",
    "C58_small_parameter"
   ],
   "note": "Proved: kernel, pairs of the model, derivative outside the approximated region, value and right derivative at zero, error of the approximated region at most 2e-12. Infinite fitnesses: C58_infinite_block, C58_infinite_pair."
  },
  {
   "property": "C59",
   "status": "partial",
   "theorems": [
    "C59_symmetric_partial",
    "C59_asymmetric_refuted"
   ],
   "note": "Proved for symmetric aggregate graphs. REFUTED for asymmetric ones: exp_degrees tests only the link from the group of i to the group of j for j <= i and skips both directions, so degrees of pairs linked in one direction are lost (or counted from the wrong direction)."
  },
  {
   "property": "C60",
   "status": "partial",
   "theorems": [
    "C60_block_weights",
    "C60_zero_strength_refuted"
   ],
   "note": "Proved when the products of strengths of possible links are positive. REFUTED otherwise: a sampled block with zero strengths raises ZeroDivisionError."
  },
  {
   "property": "C61",
   "status": "partial",
   "theorems": [
    "C61_log",
    "C61_incompatible",
    "C61_zero_group_refuted",
    "C61_selfloop_refuted"
   ],
   "note": "Proved: minus infinity for every incompatible graph, log of the conditional probability for every graph of the ensemble when all groups have positive fitness sums (needed without self-loops). REFUTED otherwise: a group without out- or in-fitness raises ZeroDivisionError for a graph of positive probability; a self-loop counts for agreement but is ignored in the likelihood when self-loops are excluded, so an impossible graph gets a finite value."
  },
  {
   "property": "C62",
   "status": "partial",
   "theorems": [
    "C62_square",
    "C62_triangle",
    "C62_blocks",
    "C62_edges",
    "C62_degrees",
    "C62_neighbours",
    "C62_likelihood",
    "C62_fit",
    "C62_sample",
    "C62_weighted_sample",
    "C62_dyadic_refuted"
   ],
   "note": "Proved for every number of vertices and accepted number of blocks: each pair is visited once, and expected edges, degrees, neighbour totals, likelihood, fitting objective and both samplers of the four spark models equal the single-process specification. REFUTED for a subclass with a dyadic property: blocks evaluate it at block-relative indices (C62_dyadic_refuted)."
  },
  {
   "property": "C63",
   "status": "partial",
   "theorems": [
    "C63_counts",
    "C63_totals",
    "C63_monotone",
    "C63_method",
    "C63_rejected",
    "C63_stored_zero_refuted"
   ],
   "note": "Counts, totals and monotonicity proved for the four spark models and for the method on dense arrays and matrices without stored zeros. REFUTED when the sparse matrix stores explicit zeros, which count as links."
  },
  {
   "property": "C64",
   "status": "partial",
   "theorems": [
    "C64_fitness",
    "C64_unknown",
    "C64_random",
    "C64_conditional",
    "C64_multi",
    "C64_override",
    "C64_missing",
    "C64_negative",
    "C64_multi_negative_refuted",
    "C64_multi_text_refuted",
    "C64_multi_override_refuted",
    "C64_param_refuted",
    "C64_probability_refuted",
    "C64_groups_refuted"
   ],
   "note": "Exact characterisation (iff) proved for the four constructors; overriding, missing data and negative values proved as consequences. REFUTED: MultiFitnessModel accepts a negative or textual num_edges when num_edges_label is set and does not let a per-label num_edges keyword override the graph; FitnessModel accepts a list of two parameters; RandomDiGraph accepts a probability above one; ConditionalInvariantModel accepts groups for only some vertices."
  },
  {
   "property": "C65",
   "status": "partial",
   "theorems": [
    "C65_history_partial",
    "C65_history_refuted"
   ],
   "note": "Proved for histories whose nearest-neighbour degree queries use one self-loop option; REFUTED otherwise: the cache key omits the option."
  },
  {
   "property": "C66",
   "status": "proved",
   "theorems": [
    "C66_sampling",
    "C66_extremes"
   ],
   "note": "Probability of each sampled graph equals its likelihood; extremes p=0,1 certain."
  },
  {
   "property": "C67",
   "status": "partial",
   "theorems": [
    "C67_weighted_refuted",
    "C67_total_weight_refuted"
   ],
   "note": "REFUTED: expected_total_weight always raises AttributeError and no weighted sample is ever returned."
  },
  {
   "property": "C68",
   "status": "partial",
   "theorems": [
    "C68_out_in_partial",
    "C68_edges",
    "C68_undirected_refuted",
    "C68_undirected_partial"
   ],
   "note": "Expected edges proved; out- and in-degrees proved for symmetric aggregate graphs. REFUTED for the undirected degree: the two directions of a pair in the same block are treated as independent although conditioning correlates them; proved instead: it is at most the mean, and equal for the vertices of a group without link to itself."
  },
  {
   "property": "C69",
   "status": "proved",
   "theorems": [
    "C69_objective",
    "C69_converged"
   ],
   "note": "Proved with the error of the approximation near zero (N^2 * 2e-12) made explicit."
  },
  {
   "property": "C70",
   "status": "partial",
   "theorems": [
    "C70_spacing_partial",
    "C70_range_partial",
    "C70_range_refuted",
    "C70_zero_refuted"
   ],
   "note": "REFUTED: natural logarithms are passed to np.logspace (base ten), so the thresholds run from p_min^(ln 10) to p_max^(ln 10), all below p_max; and a zero smallest probability raises ValueError. The partial theorems state the number, spacing and actual end points."
  },
  {
   "property": "C71",
   "status": "partial",
   "theorems": [
    "C71_history",
    "C71_recompute",
    "C71_separate",
    "C71_stale_refuted",
    "C71_dense_history_partial",
    "C71_spark_history_partial",
    "C71_spark_total",
    "C71_spark_edges_refuted",
    "C71_spark_recompute_refuted",
    "C71_spark_empty_refuted"
   ],
   "note": "Sparse module proved for all histories. Dense: only with as many labels as vertices for the edges by label (see C53). Spark: label-resolved queries with an admissible pair. REFUTED: without recompute stale values survive a second fit; Spark: total after label-resolved edges raises AttributeError, recompute of the out/in degrees by label has no effect, IndexError without admissible pairs."
  },
  {
   "property": "C72",
   "status": "partial",
   "theorems": [
    "C72_tensor",
    "C72_matrix",
    "C72_spark_tensor",
    "C72_spark_matrix",
    "C72_dense_tensor",
    "C72_dense_matrix",
    "C72_rejected",
    "C72_shape_refuted",
    "C72_dense_list_refuted",
    "C72_stored_zero_refuted"
   ],
   "note": "All accepted forms proved for the three modules. REFUTED: a list of the right length with wrong shapes raises AttributeError instead of ValueError; the dense module fails on lists of sparse matrices; stored zeros count as links."
  },
  {
   "property": "C73",
   "status": "partial",
   "theorems": [
    "C73_binary",
    "C73_cremb",
    "C73_strengths",
    "C73_unbalanced",
    "C73_rejected",
    "C73_dense_binary",
    "C73_dense_cremb_refuted",
    "C73_empty_label_refuted"
   ],
   "note": "Distribution, weights and rejections proved for the sparse and Spark modules; dense module proved without weights. REFUTED: CReMB weights in the dense module raise AttributeError; a label without strengths makes every weighted sample fail."
  },
  {
   "property": "C74",
   "status": "proved",
   "theorems": [
    "C74_sparse",
    "C74_dense"
   ],
   "note": "Multigraph constructors run this code on the whole edge table before the labels are read."
  },
  {
   "property": "C75",
   "status": "partial",
   "theorems": [
    "C75_measures",
    "C75_means",
    "C75_strengths",
    "C75_dense_strengths",
    "C75_names",
    "C75_reference_refuted",
    "C75_random_refuted",
    "C75_random_partial",
    "C75_random_weighted_partial",
    "C75_spark_refuted",
    "C75_spark_raises"
   ],
   "note": "Refuted parts: a reference graph of another size is accepted; sampled objects lack the attribute weighted (with the attribute set by the caller, RandomDiGraph of a sample is proved correct); Spark samples cannot average over neighbours. C75_random_weighted_partial gives the averages over weighted samples of the Erdos-Renyi model and C75_spark_raises the arguments for which the Spark sample averages raise."
  },
  {
   "property": "C76",
   "status": "partial",
   "theorems": [
    "C76_ratio_partial",
    "C76_mean_refuted"
   ],
   "note": "False: the value is the ratio of the mean total to the mean degree, i.e. the degree-weighted mean of the averages; an isolated vertex counts as 0 in the samples."
  },
  {
   "property": "C77",
   "status": "partial",
   "theorems": [
    "C77_history_partial",
    "C77_unfitted",
    "C77_value_partial",
    "C77_constant_refuted",
    "C77_assertion_refuted"
   ],
   "note": "Links, out- and in-degrees proved for every history of such queries (symmetric aggregate graph); the value of the neighbour average and when it exists are described exactly for directions out and in. REFUTED: the inherited method sums unconditional probabilities and divides by conditional degrees, so a constant property averages to less than the constant, and a vertex of an isolated group makes it raise AssertionError and keep the other self-loop option."
  },
  {
   "property": "C78",
   "status": "partial",
   "theorems": [
    "C78_float_start",
    "C78_integer_start_partial",
    "C78_integer_refuted",
    "C78_not_finite",
    "C78_rejected"
   ],
   "note": "Proved for floating point starts, scalar and default ones included. REFUTED for integer starts: the parameters are stored in a copy of x0, hence rounded down, while the solver outputs and the reported convergence are those of the unrounded parameters (C78_integer_start_partial; C78_not_finite: a parameter that is not finite stops the fit of an integer start with OverflowError or ValueError). C78_rejected: the starts and methods that are refused."
  },
  {
   "property": "C79",
   "status": "partial",
   "theorems": [
    "C79_reads",
    "C79_columns_partial",
    "C79_again",
    "C79_frames_refuted",
    "C79_helper_names_refuted",
    "C79_weight_refuted"
   ],
   "note": "Reading and independence of earlier calls proved for columns without the helper names (_node, _group, _src, _dst, _label); other columns never change, also when the call raises. REFUTED: helper columns are added to the caller's frames and overwrite columns of these names; sources in _dst and destinations in _src turn every link into a self-loop; a weight column _label is replaced by label numbers after the positivity check."
  },
  {
   "property": "C80",
   "status": "partial",
   "theorems": [
    "C80_objective",
    "C80_total",
    "C80_below_solution_refuted"
   ],
   "note": "Range, monotonicity, sign of the derivative and totality of the fit proved. REFUTED: the iterates from zero can pass the solution (the objective is not concave near zero when a block has several pairs), unlike those of the unconditional models (C25)."
  },
  {
   "property": "C81",
   "status": "partial",
   "theorems": [
    "C81_blocks",
    "C81_single",
    "C81_history_partial",
    "C81_likelihood",
    "C81_sample",
    "C81_weights",
    "C81_cached",
    "C81_history_refuted",
    "C81_single_vertex_refuted"
   ],
   "note": "Independence of the blocks proved for every history, start state and size; agreement with the single-process objects for two or more vertices (one vertex with self-loops: the single-process class raises UnboundLocalError, the Spark class answers). Correctness of histories proved when all nearest-neighbour degree queries use one self-loop option; REFUTED otherwise: the cache key omits the option. Single-label models; the multi-label ones override these methods (C71, C84)."
  },
  {
   "property": "C82",
   "status": "partial",
   "theorems": [
    "C82_ensemble",
    "C82_ensemble_partial",
    "C82_spark",
    "C82_graph",
    "C82_dense",
    "C82_refused",
    "C82_boolean",
    "C82_boolean_partial",
    "C82_random",
    "C82_error_refuted",
    "C82_wrong_refuted",
    "C82_dense_refuted",
    "C82_boolean_refuted",
    "C82_random_refuted"
   ],
   "note": "Outcome classified for every table: correct when exactly one vertex has neighbours (also: none), divided by the degrees of other vertices when the number of columns equals the number of vertices with neighbours, ValueError otherwise with the option left changed. REFUTED as a property; RandomDiGraph: ValueError or the sum of all columns. Boolean properties: 1/degree in dense unweighted graphs, REFUTED beyond one such neighbour. Not covered: tables in the Spark RandomDiGraph and in multi-label ensembles."
  },
  {
   "property": "C83",
   "status": "partial",
   "theorems": [
    "C83_nn_degree_partial",
    "C83_either_refuted",
    "C83_history_partial",
    "C83_history_refuted",
    "C83_refit_refuted",
    "C83_cached",
    "C83_spark",
    "C83_confusion",
    "C83_default",
    "C83_default_refuted"
   ],
   "note": "Values of the inherited neighbour degrees (all kinds; either direction without self-loops), histories with one self-loop option and one parameter, equality of the sparse and Spark classes for all histories, and the confusion matrix for all thresholds. REFUTED: either direction with self-loops, histories with two options or a new parameter, automatic thresholds (all equal to p^(ln 10) < p; ValueError at p = 0)."
  },
  {
   "property": "C84",
   "status": "partial",
   "theorems": [
    "C84_rows",
    "C84_measures",
    "C84_likelihood",
    "C84_confusion",
    "C84_automatic",
    "C84_history_partial",
    "C84_thresholds_refuted",
    "C84_first_label_refuted",
    "C84_history_refuted"
   ],
   "note": "Slices of compressed rows, measures, likelihood (one matrix; tensors: C72) and confusion counts proved for all numbers of blocks; histories characterised completely when some label has an admissible pair of stored fitnesses and neighbour degrees use one self-loop option. Existence of the automatic thresholds characterised (finite data, non-negative parameter). REFUTED: that they span the probabilities, that they exist whenever probabilities are positive, and that the number of links can be asked for after the links by label (AttributeError)."
  },
  {
   "property": "C85",
   "status": "partial",
   "theorems": [
    "C85_checks",
    "C85_per_label",
    "C85_first_failure",
    "C85_unstorable",
    "C85_total_failure",
    "C85_total",
    "C85_objective",
    "C85_spark_total",
    "C85_library",
    "C85_atomic_refuted"
   ],
   "note": "Argument checks, successful fits (one parameter or one per label, any start type), equality of the distributed and sequential objectives for any number of blocks, and the state left by a failing label are characterised for all inputs. Dense class: same loop, objectives of the labels left arbitrary. REFUTED: that a failing fit per label leaves the object unchanged (C85_atomic_refuted)."
  },
  {
   "property": "C86",
   "status": "partial",
   "theorems": [
    "C86_fitness",
    "C86_random",
    "C86_multi",
    "C86_same",
    "C86_context",
    "C86_partition",
    "C86_smaller_refuted"
   ],
   "note": "Accepted arguments, exceptions, values held and number of blocks characterised for the three Spark constructors and related to the sparse ones; exact division of the pairs. REFUTED: fewer blocks than vertices, and that a small request is kept (C86_smaller_refuted)."
  },
  {
   "property": "C87",
   "status": "partial",
   "theorems": [
    "C87_read",
    "C87_accept",
    "C87_fitted",
    "C87_attained",
    "C87_unique",
    "C87_parameter",
    "C87_terminates",
    "C87_saturated_refuted",
    "C87_selfloops_refuted",
    "C87_strengths"
   ],
   "note": "Reading, acceptance, meaning of convergence, existence and uniqueness of the parameter, termination, and mean strengths of weighted samples, for every graph the library builds. REFUTED: a parameter for every graph (C87_saturated_refuted); convergence when the graph has self-loops and the model does not (C87_selfloops_refuted)."
  },
  {
   "property": "C88",
   "status": "partial",
   "theorems": [
    "C88_read",
    "C88_accept",
    "C88_fitted",
    "C88_parameter",
    "C88_terminates",
    "C88_total",
    "C88_total_parameter",
    "C88_labels_refuted"
   ],
   "note": "Reading, acceptance, meaning of convergence with one parameter and with one per label, existence and uniqueness of the parameters, termination. REFUTED: that the default fit, label by label, also reproduces the number of linked pairs (C88_labels_refuted)."
  },
  {
   "property": "C89",
   "status": "partial",
   "theorems": [
    "C89_bound",
    "C89_maximum",
    "C89_saturated",
    "C89_only",
    "C89_fitted",
    "C89_random",
    "C89_invariant_refuted"
   ],
   "note": "Bound on the increments of the likelihood, uniqueness of the maximum and its characterisation by the number of links, saturated graphs, fitted models of observed graphs, RandomDiGraph. REFUTED for ScaleInvariantModel (C89_invariant_refuted)."
  },
  {
   "property": "C90",
   "status": "partial",
   "theorems": [
    "C90_read",
    "C90_accept",
    "C90_fitted",
    "C90_matrix",
    "C90_maximum",
    "C90_fitness",
    "C90_above_one_refuted",
    "C90_own_refuted",
    "C90_undirected_refuted"
   ],
   "note": "Reading, acceptance, the fitted probability and mean number of links, maximality of the likelihood called with the graph object, for RandomDiGraph and the fitness model. REFUTED: probabilities at most 1 with self-loops in the graph (C90_above_one_refuted); the likelihood of complete and of empty graphs (C90_own_refuted); undirected graphs (C90_undirected_refuted)."
  },
  {
   "property": "C91",
   "status": "partial",
   "theorems": [
    "C91_product",
    "C91_bound",
    "C91_maximum",
    "C91_fitted",
    "C91_shared_refuted"
   ],
   "note": "The tensor likelihood of the graph itself (fitness and invariant, also in blocks), the bound on its changes, maximality of the density fit label by label, and what a converged fit guarantees. REFUTED: with one parameter shared by all labels, fitting the number of linked pairs does not maximise the likelihood (C91_shared_refuted)."
  },
  {
   "property": "C92",
   "status": "partial",
   "theorems": [
    "C92_sparse",
    "C92_dense",
    "C92_spark",
    "C92_agree",
    "C92_rejected",
    "C92_selfloops_refuted",
    "C92_random",
    "C92_dense_random",
    "C92_degenerate",
    "C92_matrix_refuted",
    "C92_cancel_refuted",
    "C92_zeros_refuted",
    "C92_random_rejected"
   ],
   "note": "All forms of the argument in the three modules (C92_sparse, C92_dense, C92_spark, C92_agree), RandomDiGraph sparse, Spark and dense (C92_random, C92_dense_random), and what is refused. REFUTED: the option selfloops of the dense classes has no effect; the dense RandomDiGraph takes every link of a csr_matrix for a self-loop; the sparse one misses self-loops whose weights do not add up to a positive number; stored zeros count as links."
  },
  {
   "property": "C93",
   "status": "proved",
   "theorems": [
    "C93_finite",
    "C93_tail",
    "C93_loop",
    "C93_mean",
    "C93_spark",
    "C93_random"
   ],
   "note": "Finite on every draw (C93_finite), tail bound for one call and for n calls (C93_tail, C93_loop), mean (C93_mean); Spark in any number of blocks (C93_spark); RandomDiGraph with 0 < p < 1 (C93_random)."
  },
  {
   "property": "C94",
   "status": "proved",
   "theorems": [
    "C94_edges",
    "C94_degrees",
    "C94_likelihood",
    "C94_enough",
    "C94_spark"
   ],
   "note": "Number of links, degrees in every direction and log-likelihood, sparse and dense (C94_edges, C94_degrees, C94_likelihood), a number of samples that suffices (C94_enough), Spark (C94_spark)."
  },
  {
   "property": "C95",
   "status": "partial",
   "theorems": [
    "C95_likelihood",
    "C95_incompatible",
    "C95_own",
    "C95_distribution",
    "C95_edges",
    "C95_degrees_partial",
    "C95_blocks",
    "C95_weights",
    "C95_rejected",
    "C95_selfloops_refuted",
    "C95_cancel_refuted",
    "C95_zeros_refuted",
    "C95_zero_strength_refuted"
   ],
   "note": "Likelihood of every form of argument (C95_likelihood, C95_incompatible), law of the samples (C95_distribution), own samples (C95_own), aggregation back (C95_blocks, C95_weights), mean links (C95_edges) and degrees (C95_degrees_partial: symmetric aggregate graph, undirected degree a lower bound; the rest is refuted by C59_asymmetric_refuted and C68_undirected_refuted), refusals (C95_rejected). Refuted: the selfloops argument of sample, cancelling weights, stored zeros, zero strengths."
  },
  {
   "property": "C96",
   "status": "partial",
   "theorems": [
    "C96_exact",
    "C96_rounding",
    "C96_probabilities",
    "C96_log_probabilities",
    "C96_saturation",
    "C96_log1mp_refuted",
    "C96_monotone",
    "C96_monotone_refuted",
    "C96_always_drawn_refuted",
    "C96_fit_probability_refuted",
    "C96_edges",
    "C96_degrees",
    "C96_neighbours_refuted",
    "C96_exact_block",
    "C96_block_refuted",
    "C96_block_error_refuted"
   ],
   "note": "Kernels in binary64 (C96_probabilities, C96_log_probabilities, C96_saturation, C96_monotone for the scale-invariant model), measures (C96_edges, C96_degrees), rounding itself (C96_rounding) and agreement with the exact model without rounding (C96_exact, C96_exact_block). Library functions are taken to be correctly rounded. Refuted: finite log1mp of the fitness model, its monotonicity, agreement of p_jac_ij with p_ij, probability 1 versus finite log1mp in the scale-invariant model, the out-in neighbour average of rare links, the guarantee of the conditional sampler for rare links."
  },
  {
   "property": "C97",
   "status": "partial",
   "theorems": [
    "C97_exact",
    "C97_likelihood",
    "C97_own",
    "C97_impossible",
    "C97_draw",
    "C97_support",
    "C97_rare_refuted",
    "C97_scale_refuted"
   ],
   "note": "Any graph: C97_likelihood; own samples: C97_own; impossible graphs of the fitness model: C97_impossible; probability of a draw: C97_draw; which graphs can be drawn: C97_support; agreement with the exact model without rounding: C97_exact. Refuted: rare links are drawn with probability 2^-53 (C97_rare_refuted), the scale of a weight can divide by zero (C97_scale_refuted)."
  },
  {
   "property": "C98",
   "status": "proved",
   "theorems": [
    "C98_exact",
    "C98_report",
    "C98_converged",
    "C98_inside",
    "C98_fit",
    "C98_bracket_refuted",
    "C98_from_below_refuted"
   ],
   "note": "Report: C98_report, C98_converged; bracket: C98_inside; density fits: C98_fit; agreement with the exact model without rounding: C98_exact. Refuted for objectives of large range: C98_bracket_refuted; approach from below: C98_from_below_refuted."
  },
  {
   "property": "C99",
   "status": "proved",
   "theorems": [
    "C99_exact",
    "C99_fit",
    "C99_edges_refuted",
    "C99_degrees",
    "C99_likelihood",
    "C99_own"
   ],
   "note": "Fit and expected edges: C99_fit; degrees: C99_degrees; likelihood: C99_likelihood, C99_own; agreement with the exact model without rounding: C99_exact. Refuted: the number of edges is not reproduced exactly (C99_edges_refuted)."
  },
  {
   "property": "C100",
   "status": "proved",
   "theorems": [
    "C100_exact",
    "C100_layers",
    "C100_probabilities",
    "C100_logs",
    "C100_error",
    "C100_fit",
    "C100_layer_fit",
    "C100_projection_refuted",
    "C100_objective_refuted"
   ],
   "note": "Probabilities: C100_probabilities; logarithms: C100_logs; error: C100_error; fits: C100_fit, C100_layer_fit; layers as single-label kernels: C100_layers; agreement with the exact model without rounding: C100_exact. Beyond the statement, refuted: positive probability in a layer implies positive probability in the projection of the fitness model (C100_projection_refuted); finite objective for all finite fitnesses (C100_objective_refuted)."
  },
  {
   "property": "C101",
   "status": "proved",
   "theorems": [
    "C101_exact",
    "C101_edges",
    "C101_likelihood",
    "C101_own",
    "C101_projection",
    "C101_projection_refuted"
   ],
   "note": "Own samples: C101_own; their projection in the scale-invariant model: C101_projection; any graph: C101_likelihood; expected links: C101_edges; agreement with the exact model without rounding: C101_exact. Beyond the statement, refuted: the projection of a sample of the fitness model has a finite log-likelihood (C101_projection_refuted)."
  },
  {
   "property": "C102",
   "status": "proved",
   "theorems": [
    "C102_exact",
    "C102_probabilities",
    "C102_edges",
    "C102_degrees",
    "C102_objective",
    "C102_diagonal_refuted",
    "C102_underflow_refuted",
    "C102_sample",
    "C102_certain",
    "C102_weights",
    "C102_wagg_refuted"
   ],
   "note": "Probabilities: C102_probabilities; expected links: C102_edges; degrees: C102_degrees; objective: C102_objective; samples: C102_sample; groups of one vertex: C102_certain; weights: C102_weights; agreement with the exact model without rounding: C102_exact. Beyond the statement, refuted: the range of the expected links for a group linked to itself without self-loops (C102_diagonal_refuted), and success for small or large numbers (C102_underflow_refuted, C102_wagg_refuted)."
  },
  {
   "property": "C103",
   "status": "partial",
   "theorems": [
    "C103_accept",
    "C103_tables",
    "C103_likelihood",
    "C103_sink",
    "C103_fit",
    "C103_samples",
    "C103_weights",
    "C103_strengths",
    "C103_sink_refuted",
    "C103_names_refuted",
    "C103_loop_refuted"
   ],
   "note": "Accepted graphs and values held: C103_accept; positions from tables: C103_tables; likelihood: C103_likelihood (without self-loops: every group has out- and in-links); fit: C103_fit; samples: C103_samples; totals of the weights: C103_weights, C103_strengths; groups without out- or in-links: C103_sink. REFUTED: any one-to-one naming (C103_names_refuted), samples of a self-loop in a group of one vertex (C103_loop_refuted), likelihood when a group has no out-links or no in-links (C103_sink_refuted)."
  },
  {
   "property": "C104",
   "status": "partial",
   "theorems": [
    "C104_accuracy",
    "C104_converges",
    "C104_default",
    "C104_relabel",
    "C104_depth",
    "C104_undamped_refuted",
    "C104_unweighted_refuted"
   ],
   "note": "Unique stationary vector and distance to it: C104_accuracy; convergence: C104_converges, default arguments: C104_default; numbering and scale: C104_relabel (floating point weights in all of these); trophic depth: C104_depth (scipy sparse matrices; for the sparse arrays of the library's graphs see C22). REFUTED: alpha = 1 (C104_undamped_refuted), graphs without weights (C104_unweighted_refuted)."
  },
  {
   "property": "C105",
   "status": "partial",
   "theorems": [
    "C105_exact",
    "C105_accuracy",
    "C105_converges",
    "C105_default",
    "C105_graph",
    "C105_overflow_refuted"
   ],
   "note": "Without rounding the functions are those of C20 and C104: C105_exact. Sum and distance to the stationary vector: C105_accuracy; convergence: C105_converges; default arguments: C105_default; graphs: C105_graph. All assume that the weights of a vertex sum to at most 2^1000. REFUTED without that: C105_overflow_refuted."
  },
  {
   "property": "C106",
   "status": "partial",
   "theorems": [
    "C106_probability",
    "C106_underflow_refuted",
    "C106_edges",
    "C106_degrees",
    "C106_fit"
   ],
   "note": "Probabilities: C106_probability; expected numbers of links: C106_edges; expected degrees: C106_degrees; density fits: C106_fit. REFUTED without the bounds on the data: C106_underflow_refuted."
  },
  {
   "property": "C107",
   "status": "partial",
   "theorems": [
    "C107_likelihood",
    "C107_compare",
    "C107_saturated_refuted"
   ],
   "note": "Every graph: C107_likelihood; comparison of two graphs: C107_compare. REFUTED without a bound on the products: C107_saturated_refuted."
  },
  {
   "property": "C108",
   "status": "proved",
   "theorems": [
    "C108_independent",
    "C108_distribution",
    "C108_links",
    "C108_fit",
    "C108_weights"
   ],
   "note": "Any data: C108_independent; events and bounded functions: C108_distribution; numbers of links and degrees: C108_links; fit and sample: C108_fit; weights: C108_weights. What fails for smaller probabilities is in C97 (C97_rare_refuted, C97_scale_refuted)."
  },
  {
   "property": "C109",
   "status": "proved",
   "theorems": [
    "C109_same",
    "C109_edges",
    "C109_likelihood",
    "C109_distribution"
   ],
   "note": "Any data: C109_same; expected links: C109_edges; log-likelihood of all layers: C109_likelihood; events on the layers of a sample: C109_distribution."
  },
  {
   "property": "C110",
   "status": "proved",
   "theorems": [
    "C110_exact",
    "C110_fit",
    "C110_sample"
   ],
   "note": "No rounding: C110_exact; report of each label: C110_fit; links of the samples: C110_sample."
  },
  {
   "property": "C111",
   "status": "proved",
   "theorems": [
    "C111_edges",
    "C111_sample"
   ],
   "note": "Expected number of links: C111_edges; linked pairs of the samples: C111_sample."
  },
  {
   "property": "C112",
   "status": "proved",
   "theorems": [
    "C112_exact",
    "C112_fit",
    "C112_sample"
   ],
   "note": "No rounding: C112_exact; report: C112_fit; samples: C112_sample."
  },
  {
   "property": "C113",
   "status": "proved",
   "theorems": [
    "C113_exact",
    "C113_directed",
    "C113_undirected",
    "C113_integers",
    "C113_total_refuted"
   ],
   "note": "No rounding: C113_exact; accuracy: C113_directed, C113_undirected; integer weights: C113_integers; sum of in-strengths refuted: C113_total_refuted."
  },
  {
   "property": "C114",
   "status": "proved",
   "theorems": [
    "C114_target",
    "C114_links",
    "C114_strengths"
   ],
   "note": "Number of links: C114_target; fit and samples: C114_links; strengths of the weighted samples: C114_strengths."
  },
  {
   "property": "C115",
   "status": "proved",
   "theorems": [
    "C115_exact",
    "C115_accuracy",
    "C115_partition"
   ],
   "note": "No rounding: C115_exact; accuracy: C115_accuracy; sum over the groups: C115_partition."
  },
  {
   "property": "C116",
   "status": "proved",
   "theorems": [
    "C116_accuracy",
    "C116_exact",
    "C116_undirected",
    "C116_undirected_exact"
   ],
   "note": "No rounding: C116_exact, C116_undirected_exact; accuracy: C116_accuracy (MultiDiGraph), C116_undirected (MultiGraph)."
  }
 ]
}