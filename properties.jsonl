{"id": "C01", "title": "Vertex identifiers become a sorted bijection onto 0..N-1", "statement": "Building a graph from a vertex table assigns every distinct vertex identifier an internal index; the indices used are exactly 0..N-1, distinct identifiers get distinct indices, and a smaller identifier never gets a larger index.", "quantifier": "for every vertex table (any size, any order of rows, any totally ordered identifiers)", "why_tests_cant": "Tests use a handful of small tables already in or near sorted order; the claim is about every table and order.", "anchors": ["src/graph_ensembles/sparse/graphs.py: Graph.generate_id_dict, Graph.__init__", "src/graph_ensembles/graphs.py: Graph.generate_id_dict"]}
{"id": "C02", "title": "A graph is accepted exactly when its tables are well formed", "statement": "Constructing a weighted graph succeeds if and only if there are no repeated vertex identifiers, every edge endpoint is a listed vertex and every weight is strictly positive; otherwise the documented exception is raised and the first violated condition decides which.", "quantifier": "for every vertex table, edge table and weight column", "why_tests_cant": "Each rejection is tested on one example; the equivalence (no other rejection, no wrongly accepted table) ranges over all tables.", "anchors": ["src/graph_ensembles/sparse/graphs.py: Graph.__init__", "src/graph_ensembles/graphs.py: Graph.__init__"]}
{"id": "C03", "title": "Index types are always wide enough", "statement": "The number of bytes selected for ids, groups and labels is the smallest power of two able to represent every index up to and including the number of elements, so no index can wrap around.", "quantifier": "for every number of elements, including the exact boundaries 255/256, 65535/65536, ...", "why_tests_cant": "Wrap-around appears only at sizes >= 2^8, 2^16, 2^32; a test cannot allocate the latter.", "anchors": ["src/graph_ensembles/sparse/graphs.py: Graph.get_num_bytes", "src/graph_ensembles/graphs.py: Graph.get_num_bytes"]}
{"id": "C04", "title": "Group membership follows the vertex, not the row", "statement": "After construction the group stored for internal vertex i is the group of the row of the vertex table whose identifier was mapped to i, whatever the order of the table.", "quantifier": "for every vertex table with a group column, every row order", "why_tests_cant": "The usual test tables are already sorted, which hides any confusion between row number and internal index.", "anchors": ["src/graph_ensembles/sparse/graphs.py: Graph.__init__", "src/graph_ensembles/graphs.py: Graph.__init__"]}
{"id": "C05", "title": "Parallel edges of a sparse graph are summed", "statement": "In the sparse graph the weighted adjacency entry (i,j) is the sum of the weights of all edge rows from i to j; an entry is stored if and only if there is at least one such row. For unweighted graphs the entry is true iff there is at least one row.", "quantifier": "for every edge list, with any multiplicity of rows per pair", "why_tests_cant": "Tests contain at most one or two duplicated rows; the claim covers any multiplicity and order.", "anchors": ["src/graph_ensembles/sparse/graphs.py: Graph.__init__, Graph.adjacency_matrix, DiGraph.adjacency_matrix"]}
{"id": "C06", "title": "Parallel edges of a dense graph are summed", "statement": "In the dense graph the weighted adjacency entry (i,j) is the sum of the weights of all edge rows between i and j, as in the sparse module and as the documentation states.", "quantifier": "for every edge list", "why_tests_cant": "The dense tests only use duplicate-free edge lists.", "anchors": ["src/graph_ensembles/graphs.py: Graph.__init__"]}
{"id": "C07", "title": "Dense and sparse graphs agree on simple edge lists", "statement": "Given an edge table without repeated ordered pairs, the dense and the sparse directed graph have the same weighted and unweighted adjacency matrices, number of edges and total weight.", "quantifier": "for every duplicate-free edge list", "why_tests_cant": "A differential claim over all edge lists; tests compare each class with hand-written expectations for one list.", "anchors": ["src/graph_ensembles/sparse/graphs.py: DiGraph", "src/graph_ensembles/graphs.py: DiGraph"]}
{"id": "C08", "title": "Undirected adjacency is symmetric and does not double self-loops", "statement": "The matrix returned by adjacency_matrix(directed=False) is symmetric, its off-diagonal entries combine both orientations and its diagonal equals the self-loop weight counted once; for an undirected graph the directed=True view holds each edge once.", "quantifier": "for every graph and both values of the weighted flag", "why_tests_cant": "Self-loops and reciprocal pairs in all combinations are rarely in the fixtures.", "anchors": ["src/graph_ensembles/sparse/graphs.py: Graph.adjacency_matrix, DiGraph.adjacency_matrix", "src/graph_ensembles/graphs.py: Graph.adjacency_matrix, DiGraph.adjacency_matrix"]}
{"id": "C09", "title": "Degree sequences add up to the number of edges", "statement": "For a directed graph the out-degrees and the in-degrees each sum to the number of edges; for an undirected graph the degrees sum to twice the number of edges minus the number of self-loops; the undirected degree lies between max(out,in) and out+in.", "quantifier": "for every graph", "why_tests_cant": "Conservation law over every graph, only sampled by tests.", "anchors": ["src/graph_ensembles/sparse/graphs.py: Graph.degree, DiGraph.out_degree, DiGraph.in_degree, num_edges", "src/graph_ensembles/graphs.py: DiGraph.out_degree"]}
{"id": "C10", "title": "Strength sequences add up to the total weight", "statement": "For a directed weighted graph the out-strengths and the in-strengths each sum to the total weight, and the total weight is the sum of the weight column; for an undirected graph the strengths sum to twice the total weight minus the self-loop weight.", "quantifier": "for every weighted graph", "why_tests_cant": "Conservation law over every graph and duplicated rows.", "anchors": ["src/graph_ensembles/sparse/graphs.py: Graph.strength, DiGraph.out_strength, DiGraph.in_strength, total_weight"]}
{"id": "C11", "title": "Group-resolved measures refine the plain ones", "statement": "The (i,g) entry of a by-group degree (or strength) is the total over neighbours of i in group g, so every row of the by-group table sums to the plain degree (strength) of i.", "quantifier": "for every graph, every assignment of vertices to groups", "why_tests_cant": "Requires summation over arbitrary group partitions.", "anchors": ["src/graph_ensembles/sparse/graphs.py: Graph.sum_by_group, degree_by_group, strength_by_group, DiGraph.out_degree_by_group", "src/graph_ensembles/graphs.py: Graph.sum_by_group"]}
{"id": "C12", "title": "Dense group-resolved strengths keep fractional weights", "statement": "In the dense module the by-group strength of a vertex is the exact total weight to the group, for fractional weights as well.", "quantifier": "for every weighted dense graph with groups", "why_tests_cant": "Fixtures use integer valued weights, for which the truncation is invisible.", "anchors": ["src/graph_ensembles/graphs.py: Graph.sum_by_group, strength_by_group"]}
{"id": "C13", "title": "Label-resolved measures refine the plain ones", "statement": "For a multi graph, the label-resolved strengths of each vertex sum over labels to the strength of the vertex in the flattened graph, the per-label total weights sum to the total weight, and the per-label edge counts sum to at least the number of edges.", "quantifier": "for every labelled edge list", "why_tests_cant": "Conservation law over arbitrary label assignments.", "anchors": ["src/graph_ensembles/sparse/graphs.py: MultiGraph.strength_by_label, MultiDiGraph.out_strength_by_label, total_weight_label, num_edges_label"]}
{"id": "C14", "title": "The adjacency tensor is the per-label split of the adjacency matrix", "statement": "Entry (l,i,j) of adjacency_tensor is the weight of edges i->j with label l; summed over l it gives the weighted adjacency matrix and its union over l gives the unweighted one.", "quantifier": "for every labelled graph and every label/vertex index", "why_tests_cant": "The flattened index arithmetic must be right for all sizes, not just the fixture's.", "anchors": ["src/graph_ensembles/sparse/graphs.py: MultiGraph.adjacency_tensor, MultiDiGraph.adjacency_tensor, adjacency_matrix", "src/graph_ensembles/graphs.py: MultiDiGraph.adjacency_tensor"]}
{"id": "C15", "title": "Dense multi-graph undirected adjacency counts self-loops once", "statement": "In the dense module, adjacency_matrix(directed=False, weighted=True) of a multi graph has on the diagonal the weight of the self-loops counted once.", "quantifier": "for every dense multi graph", "why_tests_cant": "No fixture has a weighted self-loop in a dense multi graph.", "anchors": ["src/graph_ensembles/graphs.py: MultiGraph.adjacency_matrix, MultiDiGraph.adjacency_matrix"]}
{"id": "C16", "title": "Average nearest-neighbour property is the mean over neighbours", "statement": "average_nn_property returns, for each vertex with neighbours in the requested direction, the mean of the property over exactly these neighbours (excluding itself when selfloops=False), and zero for vertices without neighbours.", "quantifier": "for every graph, property vector, direction and self-loop option", "why_tests_cant": "Tests use one graph without self-loops; the excluded-self case needs graphs with them.", "anchors": ["src/graph_ensembles/sparse/graphs.py: Graph.average_nn_property, DiGraph.average_nn_property, Graph.av_nn_prop", "src/graph_ensembles/graphs.py: DiGraph.average_nn_property"]}
{"id": "C17", "title": "Cached graph measures never go stale", "statement": "Whatever sequence of measure queries is made on a graph, in any order and with any mix of recompute flags, each query returns the value obtained by computing it on a fresh copy of the graph.", "quantifier": "for every graph and every finite sequence of queries", "why_tests_cant": "Quantifies over all call histories.", "anchors": ["src/graph_ensembles/sparse/graphs.py: Graph.num_edges, degree, strength, average_nn_degree, DiGraph.out_degree", "src/graph_ensembles/graphs.py: Graph.degree"]}
{"id": "C18", "title": "Exporting to networkx preserves edges and weights", "statement": "Exporting a graph to networkx yields exactly one edge per stored adjacency entry with the stored weight.", "quantifier": "for every graph, including multi graphs with the same label in both orientations", "why_tests_cant": "Only toy graphs are exported in tests.", "anchors": ["src/graph_ensembles/sparse/graphs.py: Graph.to_networkx, MultiGraph.to_networkx, MultiDiGraph.to_networkx"]}
{"id": "C19", "title": "Row normalisation makes every non-empty row sum to one", "statement": "normalise_rows returns a matrix in which every row that had entries sums to one, empty rows stay empty and the sparsity pattern is unchanged.", "quantifier": "for every non-negative sparse matrix, whatever its numeric type", "why_tests_cant": "Integer typed matrices are not in the tests.", "anchors": ["src/graph_ensembles/lib.py: normalise_rows"]}
{"id": "C20", "title": "PageRank is a probability vector", "statement": "The vector returned by pagerank is non-negative and sums to one, and at most max_iter iterations are made.", "quantifier": "for every graph, damping factor in [0,1], tolerance and iteration limit", "why_tests_cant": "Mass conservation with dangling vertices for every graph and every iteration count.", "anchors": ["src/graph_ensembles/lib.py: pagerank, propagate_measure"]}
{"id": "C21", "title": "Measure propagation is linear and conserves mass up to damping", "statement": "One propagation step maps a measure x to the incoming weighted combination plus the external input, is linear in x, and keeps non-negative inputs non-negative.", "quantifier": "for every row-normalised adjacency, measure and input vector", "why_tests_cant": "Algebraic law over all inputs.", "anchors": ["src/graph_ensembles/lib.py: propagate_measure"]}
{"id": "C22", "title": "Trophic depth iteration is well defined", "statement": "trophic_depth returns the iterate reached at the first step where the change is below tolerance or at max_iter; each vertex's depth is one plus the weighted mean depth of the vertices it points from, and depth one for vertices with none.", "quantifier": "for every graph, tolerance and iteration limit", "why_tests_cant": "Boundary iteration limits (0) and dangling vertices.", "anchors": ["src/graph_ensembles/lib.py: trophic_depth"]}
{"id": "C23", "title": "The root finder stays inside its bracket", "statement": "Starting from an initial point inside [x_l,x_u], every iterate produced by the solver stays within the initial bounds, and the running lower and upper bounds never move outwards or cross.", "quantifier": "for every non-decreasing objective, every start, bounds, tolerances and iteration limit", "why_tests_cant": "Invariant over all iterations of an arbitrary objective function.", "anchors": ["src/graph_ensembles/solver.py: monotonic_newton_solver"]}
{"id": "C24", "title": "The solver's report is truthful", "statement": "The returned solution never uses more than max_iter iterations; it is reported as converged iff the objective at the returned point is within atol + rtol*target of the target; max_iter_reached is reported iff the iteration limit was hit; the recorded sequences have matching lengths.", "quantifier": "for every objective, target, tolerances and iteration limit", "why_tests_cant": "The flags are computed from recorded sequences; agreement over all runs is not testable.", "anchors": ["src/graph_ensembles/solver.py: Solution.__init__, monotonic_newton_solver"]}
{"id": "C25", "title": "On concave increasing objectives the solver approaches the root from below", "statement": "If the objective is increasing and concave and the start is at or below the root, the iterates increase, never pass the root and the bracketing fallback is never taken; all density objectives of the fitness and scale-invariant models started at 0 are of this kind.", "quantifier": "for every concave increasing objective and every iteration count", "why_tests_cant": "A statement about every iterate of every such function.", "anchors": ["src/graph_ensembles/solver.py: monotonic_newton_solver", "src/graph_ensembles/sparse/models/fitness.py: FitnessModel.fit, exp_edges_f_jac", "src/graph_ensembles/sparse/models/invariant.py: ScaleInvariantModel.p_jac_ij"]}
{"id": "C26", "title": "Density fitting terminates for every feasible target", "statement": "For every set of fitnesses and every target strictly below the number of pairs with positive fitness product, and every positive tolerance, there is an iteration budget with which the fit stops by itself with the target reached or the step below rtol, and no exception is raised.", "quantifier": "for every fitness vectors, every feasible number of edges, every tolerance", "why_tests_cant": "Liveness over all inputs: no finite set of runs shows termination.", "anchors": ["src/graph_ensembles/solver.py: monotonic_newton_solver", "src/graph_ensembles/sparse/models/fitness.py: FitnessModel.fit"]}
{"id": "C27", "title": "Invalid or exact starting points are handled gracefully", "statement": "If the initial point is outside the bounds the solver raises ValueError before evaluating anything else; if the initial point already solves the equation exactly the solver returns it.", "quantifier": "for every start, bounds and tolerances including atol = 0", "why_tests_cant": "The exact-root start with zero tolerance is not in the tests.", "anchors": ["src/graph_ensembles/solver.py: monotonic_newton_solver"]}
{"id": "C28", "title": "Connection probabilities are probabilities", "statement": "For non-negative parameters and fitnesses, the connection probability of the fitness and scale-invariant models lies in [0,1]; it is 0 iff one of the factors is 0 and it is 1 iff the product is infinite with no zero factor.", "quantifier": "for every non-negative (possibly infinite) parameter, out fitness, in fitness and dyadic factor", "why_tests_cant": "Range claims over the whole positive quadrant, including infinities.", "anchors": ["src/graph_ensembles/sparse/models/fitness.py: FitnessModel.p_ij", "src/graph_ensembles/sparse/models/invariant.py: ScaleInvariantModel.p_ij", "src/graph_ensembles/models.py: FitnessModel.p_ij", "src/graph_ensembles/spark/models.py: FitnessModel.p_ij"]}
{"id": "C29", "title": "Log-probabilities match probabilities", "statement": "logp is the logarithm of p_ij and log1mp the logarithm of 1 - p_ij, with minus infinity exactly when the argument is zero and never a domain error.", "quantifier": "for every non-negative (possibly infinite) argument", "why_tests_cant": "Equality of three separately coded branch structures on the whole domain.", "anchors": ["src/graph_ensembles/sparse/models/fitness.py: FitnessModel.logp, FitnessModel.log1mp", "src/graph_ensembles/sparse/models/invariant.py: ScaleInvariantModel.logp, ScaleInvariantModel.log1mp"]}
{"id": "C30", "title": "The analytic Jacobian is the derivative", "statement": "p_jac_ij returns the same probability as p_ij and the derivative of that probability with respect to the model parameter, including at parameter 0; summing gives the derivative of the expected number of edges.", "quantifier": "for every finite non-negative parameter and fitness", "why_tests_cant": "Derivative identity at every point; tests use finite differences at a few.", "anchors": ["src/graph_ensembles/sparse/models/fitness.py: FitnessModel.p_jac_ij, exp_edges_f_jac", "src/graph_ensembles/sparse/models/invariant.py: ScaleInvariantModel.p_jac_ij"]}
{"id": "C31", "title": "Probabilities and expected edges are monotone in parameter and fitness", "statement": "Increasing the parameter or any fitness never decreases any connection probability, nor the expected number of edges.", "quantifier": "for every ordered pair of parameters and fitnesses", "why_tests_cant": "Pairs of arbitrary inputs.", "anchors": ["src/graph_ensembles/sparse/models/fitness.py: FitnessModel.p_ij, exp_edges", "src/graph_ensembles/sparse/models/invariant.py: ScaleInvariantModel.p_ij"]}
{"id": "C32", "title": "Dense, sparse and spark kernels are interchangeable", "statement": "The dense, sparse and spark implementations of p_ij, logp, log1mp and p_jac return the same value for the same arguments (with the neutral dyadic factor).", "quantifier": "for every argument", "why_tests_cant": "Three hand-copied implementations compared on all inputs.", "anchors": ["src/graph_ensembles/models.py: FitnessModel, ScaleInvariantModel", "src/graph_ensembles/sparse/models/fitness.py: FitnessModel", "src/graph_ensembles/sparse/models/invariant.py: ScaleInvariantModel", "src/graph_ensembles/spark/models.py: FitnessModel, ScaleInvariantModel"]}
{"id": "C33", "title": "Multi-label probability is the probability of at least one layer", "statement": "For multi-label models, p_ij computed by walking the two sorted sparse label lists equals one minus the product over all labels of (1 - p_ijk), whatever labels each vertex has.", "quantifier": "for every pair of sparse label vectors, every parameter vector", "why_tests_cant": "The two-pointer walk has a case per label interleaving; tests exercise a few.", "anchors": ["src/graph_ensembles/sparse/models/fitness.py: MultiFitnessModel.p_ij, p_ijk, logp, log1mp", "src/graph_ensembles/sparse/models/invariant.py: MultiInvariantModel.p_ij, p_ijk", "src/graph_ensembles/spark/models.py: MultiFitnessModel.p_ij"]}
{"id": "C34", "title": "Multi-label Jacobian is the derivative in the common parameter", "statement": "The multi-label p_jac_ij returns p_ij evaluated with all labels sharing the parameter, together with its derivative in this parameter.", "quantifier": "for every pair of sparse label vectors and every finite parameter", "why_tests_cant": "Derivative of a product over an arbitrary label set.", "anchors": ["src/graph_ensembles/sparse/models/fitness.py: MultiFitnessModel.p_jac_ij", "src/graph_ensembles/sparse/models/invariant.py: MultiInvariantModel.p_jac_ij"]}
{"id": "C35", "title": "The multi-label invariant objective agrees with the probability at infinity", "statement": "At an infinite parameter the objective's probability equals p_ij, in particular it is 0 for pairs that share no label.", "quantifier": "for every pair of sparse label vectors", "why_tests_cant": "Needs an infinite parameter and disjoint labels.", "anchors": ["src/graph_ensembles/sparse/models/invariant.py: MultiInvariantModel.p_jac_ij, MultiInvariantModel.p_ij"]}
{"id": "C36", "title": "Expected edge count equals the sums of expected out- and in-degrees", "statement": "expected_num_edges, the sum of expected_out_degree, the sum of expected_in_degree and the sum over admissible ordered pairs of the connection probabilities all coincide, with and without self-loops.", "quantifier": "for every probability function, size and self-loop option", "why_tests_cant": "Consistency between a full double loop and a triangular loop for all sizes.", "anchors": ["src/graph_ensembles/sparse/models/ensembles.py: DiGraphEnsemble.exp_edges, exp_degrees", "src/graph_ensembles/models.py: DiGraphEnsemble.exp_edges, exp_degrees"]}
{"id": "C37", "title": "Expected measures are means over the ensemble", "statement": "The expected number of edges, out-degree, in-degree and undirected degree are the averages of these quantities over all graphs weighted by the exponential of log_likelihood.", "quantifier": "for every probability function into (0,1) and every number of vertices", "why_tests_cant": "The average runs over 2^(N^2) graphs.", "anchors": ["src/graph_ensembles/sparse/models/ensembles.py: expected_num_edges, expected_degree, log_likelihood", "src/graph_ensembles/sparse/models/random.py: RandomDiGraph"]}
{"id": "C38", "title": "Expected nearest-neighbour property is the probability-weighted mean", "statement": "expected_av_nn_property returns for each vertex the sum over other vertices of probability times property divided by the expected degree in that direction, including the vertex itself only when self-loops are allowed.", "quantifier": "for every probability function, property vector, direction, size and self-loop option", "why_tests_cant": "The self-loop term uses a separate code path that depends on loop variables.", "anchors": ["src/graph_ensembles/sparse/models/ensembles.py: DiGraphEnsemble.expected_av_nn_property, exp_av_nn_prop"]}
{"id": "C39", "title": "The likelihood defines a probability distribution over graphs", "statement": "Without log-domain infinities the exponentials of log_likelihood over all admissible graphs sum to one; a graph containing an impossible link or missing a certain link gets minus infinity.", "quantifier": "for every number of vertices and probability function with values in [0,1]", "why_tests_cant": "A sum over all graphs.", "anchors": ["src/graph_ensembles/sparse/models/ensembles.py: DiGraphEnsemble.log_likelihood, _likelihood"]}
{"id": "C40", "title": "Graphs outside the ensemble have zero likelihood", "statement": "When self-loops are not allowed, a graph with a self-loop gets log-likelihood minus infinity.", "quantifier": "for every graph with a self-loop and every model without self-loops", "why_tests_cant": "Tests only evaluate graphs of the ensemble.", "anchors": ["src/graph_ensembles/sparse/models/ensembles.py: DiGraphEnsemble._likelihood", "src/graph_ensembles/sparse/models/random.py: RandomDiGraph.log_likelihood"]}
{"id": "C41", "title": "Sampling follows the likelihood", "statement": "With independent uniform draws, the probability that sample returns a given graph is the exponential of its log_likelihood.", "quantifier": "for every graph and every fitted model", "why_tests_cant": "Tests compare averages of a few thousand samples with a tolerance.", "anchors": ["src/graph_ensembles/sparse/models/ensembles.py: DiGraphEnsemble.sample, _binary_sample", "src/graph_ensembles/sparse/models/random.py: RandomDiGraph._binary_sample", "src/graph_ensembles/models.py: DiGraphEnsemble._binary_sample"]}
{"id": "C42", "title": "Samples are structurally admissible", "statement": "Every sampled graph has indices in range, each ordered pair at most once, contains no pair of probability zero, all pairs of probability one, and no self-loop when these are not allowed.", "quantifier": "for every sequence of random draws in [0,1)", "why_tests_cant": "Quantifies over all random draws.", "anchors": ["src/graph_ensembles/sparse/models/ensembles.py: DiGraphEnsemble._binary_sample, _cremb_sample", "src/graph_ensembles/sparse/models/random.py: RandomDiGraph._binary_sample"]}
{"id": "C43", "title": "CReMB weights preserve expected strengths", "statement": "With the cremb option and self-loops allowed, the expected weight of each pair is s_out[i]*s_in[j]/W so the expected out- and in-strengths equal the given strengths; unequal strength totals are rejected.", "quantifier": "for every strengths with equal totals and every model with positive probabilities where both strengths are positive", "why_tests_cant": "Needs the exact expectation, not a sample mean.", "anchors": ["src/graph_ensembles/sparse/models/ensembles.py: DiGraphEnsemble._cremb_sample", "src/graph_ensembles/sparse/models/conditional.py: _cremb_sample"]}
{"id": "C44", "title": "The self-loop argument is honoured", "statement": "Passing selfloops to log_likelihood and sample overrides the model's own setting for that call.", "quantifier": "for every model and both values of the argument", "why_tests_cant": "No test passes an argument different from the model's own setting.", "anchors": ["src/graph_ensembles/sparse/models/ensembles.py: DiGraphEnsemble.log_likelihood, DiGraphEnsemble.sample, MultiDiGraphEnsemble.sample"]}
{"id": "C45", "title": "Expected measures reflect the current parameters", "statement": "After re-fitting or changing parameters, expected_num_edges and the expected degrees correspond to the current parameters; asking with recompute=True always gives the current value.", "quantifier": "for every sequence of fits, parameter changes and queries", "why_tests_cant": "Quantifies over call histories.", "anchors": ["src/graph_ensembles/sparse/models/ensembles.py: DiGraphEnsemble.expected_num_edges, expected_degree, expected_av_nn_property, expected_av_nn_degree"]}
{"id": "C46", "title": "Querying never changes a model", "statement": "Queries of expected measures leave the model's self-loop setting and parameters as they were, whether they succeed or raise.", "quantifier": "for every query and every argument, including invalid ones", "why_tests_cant": "Requires an exception in the middle of a query.", "anchors": ["src/graph_ensembles/sparse/models/ensembles.py: DiGraphEnsemble.expected_av_nn_property, expected_av_nn_degree"]}
{"id": "C47", "title": "The Erdos-Renyi fit reproduces the number of edges", "statement": "After fit, expected_num_edges equals the given number of edges and the closed-form degrees equal the generic sums over pairs with constant probability, for both self-loop options.", "quantifier": "for every number of vertices for which the fit is defined and every number of edges", "why_tests_cant": "Closed forms against sums for every size; N=1 without self-loops is an edge case.", "anchors": ["src/graph_ensembles/sparse/models/random.py: RandomDiGraph.fit, expected_num_edges, expected_degree, expected_out_degree"]}
{"id": "C48", "title": "The Erdos-Renyi likelihood is right at the extremes", "statement": "log_likelihood of RandomDiGraph equals the sum of log-probabilities over pairs for every p in [0,1], in particular 0 for the complete graph at p=1 and for the empty graph at p=0.", "quantifier": "for every p in [0,1] and every graph", "why_tests_cant": "The extreme parameters are not in the tests.", "anchors": ["src/graph_ensembles/sparse/models/random.py: RandomDiGraph.log_likelihood"]}
{"id": "C49", "title": "A converged fit matches the target density", "statement": "When fit reports convergence, expected_num_edges evaluated with the fitted parameter differs from the given number of edges by at most atol + rtol*num_edges.", "quantifier": "for every model, target, start and tolerances", "why_tests_cant": "Connects the solver's flag with a differently coded sum for all inputs.", "anchors": ["src/graph_ensembles/sparse/models/fitness.py: FitnessModel.fit, density_fit_fun", "src/graph_ensembles/solver.py: monotonic_newton_solver", "src/graph_ensembles/sparse/models/ensembles.py: exp_edges"]}
{"id": "C50", "title": "The scale-invariant model is consistent under aggregation", "statement": "If vertices are merged into blocks with summed fitnesses, the probability that at least one link exists between two blocks under the fine model equals the connection probability of the two blocks under the coarse model.", "quantifier": "for every partition, fitnesses and parameter", "why_tests_cant": "The defining theorem of the model, over all partitions.", "anchors": ["src/graph_ensembles/sparse/models/invariant.py: ScaleInvariantModel.p_ij, MultiInvariantModel.p_ij"]}
{"id": "C51", "title": "Only the product of parameter and fitnesses matters", "statement": "Multiplying all out fitnesses by c>0 and dividing the parameter by c leaves all connection probabilities unchanged; exchanging out and in fitnesses transposes the probability matrix.", "quantifier": "for every positive scale and every fitness vector", "why_tests_cant": "Symmetry over all inputs.", "anchors": ["src/graph_ensembles/sparse/models/fitness.py: FitnessModel.p_ij", "src/graph_ensembles/sparse/models/invariant.py: ScaleInvariantModel.p_ij"]}
{"id": "C52", "title": "Sparse label properties survive conversion", "statement": "Converting a sparse vertex-by-label matrix to the list-of-tuples form and back gives the same matrix, and the by-layer form is its transpose.", "quantifier": "for every sparse matrix in canonical form", "why_tests_cant": "Round trip over all matrices, including empty rows.", "anchors": ["src/graph_ensembles/sparse/models/fitness.py: MultiFitnessModel.csx_to_tuple_list, tuple_list_to_csx"]}
{"id": "C53", "title": "Expected degrees by label are per-layer expected degrees", "statement": "expected_degree_by_label returns, for each vertex and label, the expected undirected, out- and in-degree in that layer; out- and in-degrees of a layer both sum to the expected number of edges of the layer.", "quantifier": "for every multi-label model", "why_tests_cant": "Pairs present in both orientations matter; tests must compare with an independent computation.", "anchors": ["src/graph_ensembles/sparse/models/ensembles.py: MultiDiGraphEnsemble.exp_degrees_label, exp_edges_label", "src/graph_ensembles/spark/models.py: MultiDiGraphEnsemble.exp_degrees_layer", "src/graph_ensembles/models.py: MultiDiGraphEnsemble.exp_edges_label"]}
{"id": "C54", "title": "Layered likelihood factorises over layers", "statement": "For a tensor of layers, log_likelihood is the sum over labels of the layer likelihoods, each the sum over pairs of log p_ijk or log(1 - p_ijk), and minus infinity if some link has zero probability.", "quantifier": "for every tensor and parameters", "why_tests_cant": "Iterates only over vertices with non-zero fitness; equality with the full sum needs all sparsity patterns.", "anchors": ["src/graph_ensembles/sparse/models/ensembles.py: MultiDiGraphEnsemble.log_likelihood, _likelihood_layer"]}
{"id": "C55", "title": "Layered sampling follows the layer probabilities", "statement": "The probability that a sampled layer equals a given matrix is the product over pairs of p_ijk or 1-p_ijk, with no links at vertices without fitness in the layer.", "quantifier": "for every layer, parameters", "why_tests_cant": "All random outcomes.", "anchors": ["src/graph_ensembles/sparse/models/ensembles.py: MultiDiGraphEnsemble._binary_sample_layer", "src/graph_ensembles/models.py: MultiDiGraphEnsemble._binary_sample_tensor"]}
{"id": "C56", "title": "Conditional samples agree with the observed aggregate graph", "statement": "Every sample of the conditional model has at least one link between two groups exactly when the aggregate graph has a link between them.", "quantifier": "for every aggregate graph, group assignment and sequence of random draws", "why_tests_cant": "Quantifies over all random draws.", "anchors": ["src/graph_ensembles/sparse/models/conditional.py: ConditionalInvariantModel._binary_sample, _cremb_sample, _wagg_sample"]}
{"id": "C57", "title": "Conditional samples have the conditional distribution", "statement": "The probability that the sequential sampler of the conditional model produces a given set of links within one linked block is the unconditional probability of these links divided by the probability of at least one link.", "quantifier": "for every block and every non-empty link pattern", "why_tests_cant": "Chain rule over a sequence of dependent draws.", "anchors": ["src/graph_ensembles/sparse/models/conditional.py: ConditionalInvariantModel._binary_sample, cond_p_ij"]}
{"id": "C58", "title": "Conditional probabilities are consistent", "statement": "The conditional connection probability is a probability, is 0 for pairs in unlinked blocks, is at least the unconditional one in linked blocks and is its division by the block's probability of at least one link; the fitting Jacobian has the right limit at parameter zero.", "quantifier": "for every block fitnesses and parameter", "why_tests_cant": "Includes the removable singularity at zero.", "anchors": ["src/graph_ensembles/sparse/models/conditional.py: ConditionalInvariantModel.cond_p_ij, p_jac_ij, exp_edges"]}
{"id": "C59", "title": "Conditional expected degrees add up", "statement": "In the conditional model expected out-degrees and in-degrees both sum to the expected number of edges.", "quantifier": "for every aggregate graph, symmetric or not", "why_tests_cant": "Test aggregate graphs are nearly symmetric.", "anchors": ["src/graph_ensembles/sparse/models/conditional.py: ConditionalInvariantModel.exp_degrees, exp_edges"]}
{"id": "C60", "title": "Aggregate-consistent weights preserve block weights", "statement": "With the aggregate weight option the weights of sampled links between two groups sum to the aggregate weight between the groups.", "quantifier": "for every aggregate weighted graph, fitnesses and random draws", "why_tests_cant": "Quantifies over all random draws.", "anchors": ["src/graph_ensembles/sparse/models/conditional.py: ConditionalInvariantModel._wagg_sample"]}
{"id": "C61", "title": "Incompatible graphs have zero conditional likelihood", "statement": "The conditional log-likelihood is minus infinity for graphs with a link in an unlinked block or no link in a linked block, and otherwise the log of the conditional probability.", "quantifier": "for every graph and aggregate graph", "why_tests_cant": "All graphs.", "anchors": ["src/graph_ensembles/sparse/models/conditional.py: ConditionalInvariantModel.log_likelihood, _agg_likelihood"]}
{"id": "C62", "title": "Spark partitions visit every pair exactly once", "statement": "The square partition of the pair matrix covers each ordered pair once and the triangular partition each unordered pair once (diagonal included), so all distributed expected measures equal the single-process ones.", "quantifier": "for every number of vertices and requested blocks, including fewer vertices than blocks", "why_tests_cant": "Rounding of block sizes over all combinations.", "anchors": ["src/graph_ensembles/spark/models.py: FitnessModel.__init__, DiGraphEnsemble.exp_edges, exp_degrees, in_range, fit_map"]}
{"id": "C63", "title": "Confusion matrix counts partition the pairs", "statement": "At every threshold true positives plus false negatives equal the number of links among admissible pairs, false positives plus true negatives the number of non-links; raising the threshold never increases the positives.", "quantifier": "for every model, graph, threshold list", "why_tests_cant": "All thresholds and graphs.", "anchors": ["src/graph_ensembles/spark/models.py: DiGraphEnsemble._confusion_matrix, confusion_matrix"]}
{"id": "C64", "title": "Model constructors accept exactly the documented arguments", "statement": "Keyword arguments override values taken from the graph, an unknown keyword is rejected, missing required data is rejected, negative values are rejected, and otherwise the model holds the supplied values.", "quantifier": "for every combination of graph and keyword arguments", "why_tests_cant": "Exponentially many keyword combinations.", "anchors": ["src/graph_ensembles/sparse/models/fitness.py: FitnessModel.__init__, MultiFitnessModel.__init__", "src/graph_ensembles/sparse/models/random.py: RandomDiGraph.__init__", "src/graph_ensembles/sparse/models/conditional.py: ConditionalInvariantModel.__init__"]}
{"id": "C65", "title": "Answers of a model do not depend on earlier queries", "statement": "Whatever sequence of expected-measure queries (number of edges, degrees, nearest-neighbour averages) is made on a fitted model, each query returns the value determined by the model's parameter and the query's arguments alone.", "quantifier": "all models, all finite histories of queries with any mix of directions, self-loop arguments and recompute flags", "why_tests_cant": "Caches make the answer depend on the history; the number of histories is unbounded.", "anchors": ["src/graph_ensembles/sparse/models/ensembles.py: DiGraphEnsemble.expected_num_edges, expected_degree, expected_av_nn_property, expected_av_nn_degree", "src/graph_ensembles/models.py: DiGraphEnsemble"]}
{"id": "C66", "title": "Erdos-Renyi samples follow the likelihood", "statement": "The probability that RandomDiGraph.sample returns a given graph is the exponential of the log_likelihood of that graph; at p=0 and p=1 the sample is certain.", "quantifier": "every number of vertices, self-loop option, p in [0,1] and graph of the ensemble", "why_tests_cant": "It is a statement about a probability distribution over exponentially many graphs.", "anchors": ["src/graph_ensembles/sparse/models/random.py: RandomDiGraph.sample, _binary_sample"]}
{"id": "C67", "title": "Erdos-Renyi weights are reproduced", "statement": "After fitting with a total weight, expected_total_weight returns that weight and sample(weights='random'|'cremb') returns a weighted graph.", "quantifier": "every fitted RandomDiGraph with a total weight and every sequence of random draws", "why_tests_cant": "It must hold for every sequence of draws and every fitted model.", "anchors": ["src/graph_ensembles/sparse/models/random.py: RandomDiGraph.expected_total_weight, sample, _weighted_sample, _discrete_weighted_sample, _cremb_sample"]}
{"id": "C68", "title": "Conditional measures are means over the conditional ensemble", "statement": "Expected edges, out-degrees, in-degrees and degrees of the conditional model are the means, over the ensemble of graphs given the aggregate graph, of the number of links, out-degree, in-degree and number of neighbours.", "quantifier": "for every aggregate graph of positive probability, all fitnesses and parameters", "why_tests_cant": "The mean runs over exponentially many graphs and must hold for every aggregate graph and fitness.", "anchors": ["src/graph_ensembles/sparse/models/conditional.py: ConditionalInvariantModel.exp_edges, exp_degrees, cond_p_ij"]}
{"id": "C69", "title": "A converged conditional fit reproduces the number of edges", "statement": "The objective given to the solver equals the expected number of edges of the conditional model up to the stated approximation near zero, so a fit that reports convergence reproduces the requested number of edges within the tolerance, and a warning is given exactly when it does not converge.", "quantifier": "for every aggregate graph of positive probability, all fitnesses, targets, tolerances and starting points", "why_tests_cant": "The approximation of the objective near zero makes the result wrong only in regions that sampled parameters do not visit.", "anchors": ["src/graph_ensembles/sparse/models/conditional.py: ConditionalInvariantModel.fit, density_fit_fun, exp_edges_f_jac, p_jac_ij"]}
{"id": "C70", "title": "Automatic thresholds span the model's probabilities", "statement": "When no thresholds or a number of thresholds is given, the confusion matrix is evaluated at that many (20 by default) thresholds evenly spaced on a logarithmic scale from the smallest to the largest link probability of the model.", "quantifier": "for every model with at least one possible link and every number of thresholds", "why_tests_cant": "The relation between the thresholds and the extreme probabilities must hold for all fitness sequences; a wrong logarithm base still gives increasing thresholds in the unit interval.", "anchors": ["src/graph_ensembles/spark/models.py: DiGraphEnsemble.confusion_matrix"]}
{"id": "C71", "title": "Label-resolved measures of a multi-label object follow its parameters", "statement": "In any sequence of queries for inherited and label-resolved expected measures of a fitted multi-label object, each answer is the measure of the current parameters and self-loop option, the queries change neither, and asking with recompute gives the current value whatever was asked before.", "quantifier": "for every multi-label model, parameters, self-loop option and every finite sequence of queries, in the sparse, dense and Spark modules", "why_tests_cant": "The space of query sequences is unbounded, and a cache keyed on the wrong attribute only shows for particular orders of calls.", "anchors": ["src/graph_ensembles/sparse/models/ensembles.py: MultiDiGraphEnsemble", "src/graph_ensembles/models.py: MultiDiGraphEnsemble", "src/graph_ensembles/spark/models.py: MultiDiGraphEnsemble"]}
{"id": "C72", "title": "log_likelihood of a multi-label model treats all graph arguments alike", "statement": "The log likelihood of a graph with labels is the same for a library multigraph, a three-dimensional array and a list of sparse matrices, namely the logarithm of the product over the labels and pairs; a graph without labels gives the likelihood of the projection; arguments with the wrong number of labels, the wrong shape or of another type raise ValueError.", "quantifier": "for every multi-label model, fitted parameters, graph and form of the argument, in the sparse, dense and Spark modules", "why_tests_cant": "The forms of the argument follow different code paths for every number of labels, vertices and links; agreement on sampled graphs does not cover the paths that depend on the shape.", "anchors": ["src/graph_ensembles/sparse/models/ensembles.py: MultiDiGraphEnsemble.log_likelihood", "src/graph_ensembles/models.py: MultiDiGraphEnsemble.log_likelihood", "src/graph_ensembles/spark/models.py: MultiDiGraphEnsemble.log_likelihood"]}
{"id": "C73", "title": "sample of a multi-label model follows the layer probabilities and the given strengths", "statement": "Whatever accepted strengths are given (the model's own, an array or a sparse array), the links of all layers of a sample are independent with the documented probabilities; without weights every link weighs one; with CReMB weights the expected weight of a pair in a layer is the product of its strengths over the layer total, and with self-loops the expected strengths by label are the given ones. Unfitted models, strengths of another type or shape, unknown weights and unbalanced strengths are rejected.", "quantifier": "for every multi-label model, fitted parameters, self-loop option, form of the strengths and graph, in the sparse, dense and Spark modules", "why_tests_cant": "A distribution over all multigraphs cannot be compared exactly by sampling, and every form of the strengths has a path of its own for every number of labels.", "anchors": ["src/graph_ensembles/sparse/models/ensembles.py: MultiDiGraphEnsemble.sample", "src/graph_ensembles/models.py: MultiDiGraphEnsemble.sample", "src/graph_ensembles/spark/models.py: MultiDiGraphEnsemble.sample"]}
{"id": "C74", "title": "constructor warns about exactly the vertices without edges", "statement": "Constructing a graph, or a multigraph, warns about the vertices of the vertex table that appear as source or destination of no row of the edge table, and about no other: there is no warning if there is no such vertex, the single-vertex message names the vertex if there is one, and otherwise the message lists all of them once each in increasing order. The warning never fails to be produced.", "quantifier": "for every accepted vertex and edge table, weighted or not, directed or not, with any labels, in the sparse and dense modules", "why_tests_cant": "Tests use a handful of tables; a vertex with only incoming edges, only a self-loop, or whose position differs from its row number distinguishes wrong versions only in some tables.", "anchors": ["src/graph_ensembles/sparse/graphs.py: Graph.__init__", "src/graph_ensembles/graphs.py: Graph.__init__"]}
{"id": "C75", "title": "a sample is a graph object with the drawn links", "statement": "The object returned by sample has the model's vertices, named by their index or by the reference graph; its number of edges, degrees, total weight and strengths are those of the drawn links; averaged over the draws, number of edges and degrees are the model's expected_num_edges and expected degrees, and with CReMB weights and self-loops the strengths and total weight are the given ones. Sampled objects can be used like constructed ones (for a random model, for nearest-neighbour averages), and a reference graph describes the vertices of the sample.", "quantifier": "for every library model, fitted parameter, self-loop option, reference graph and sequence of draws, sparse and dense", "why_tests_cant": "Agreement of expectations with sampled measures can only be tested approximately and on a few models; objects assembled without the constructor may lack any attribute some method reads.", "anchors": ["src/graph_ensembles/sparse/models/ensembles.py: DiGraphEnsemble.sample", "src/graph_ensembles/models.py: DiGraphEnsemble.sample", "src/graph_ensembles/spark/models.py: DiGraphEnsemble.sample", "src/graph_ensembles/sparse/models/random.py: RandomDiGraph.__init__"]}
{"id": "C76", "title": "expected nearest-neighbour averages are means over the samples", "statement": "expected_av_nn_property, documented as the expected value of the nearest neighbour average, is the mean over the samples of the model of average_nn_property.", "quantifier": "for every library model, property array, direction and vertex", "why_tests_cant": "The two differ by the probability of an empty neighbourhood and by the correlation of degree and average; tests compare with a tolerance on models where both are small.", "anchors": ["src/graph_ensembles/sparse/models/ensembles.py: DiGraphEnsemble.expected_av_nn_property", "src/graph_ensembles/sparse/graphs.py: DiGraph.average_nn_property"]}
{"id": "C77", "title": "measures of a conditional model object are those of the conditional ensemble", "statement": "Whatever sequence of queries is made on a ConditionalInvariantModel object, expected_num_edges and the expected degrees are the means over the graphs that agree with the aggregate graph, and the nearest-neighbour averages are the expected totals over the neighbours divided by the expected degree, both in the conditional ensemble; the queries leave the object's self-loop option as it was.", "quantifier": "for every parameter, fitness, grouping, symmetric aggregate graph of positive probability, self-loop option and sequence of queries", "why_tests_cant": "The class inherits part of its methods from the unconditional model; whether a value belongs to the conditional ensemble shows only by comparison with a sum over all compatible graphs.", "anchors": ["src/graph_ensembles/sparse/models/conditional.py: ConditionalInvariantModel.expected_num_edges, expected_degree, expected_out_degree, expected_in_degree", "src/graph_ensembles/sparse/models/ensembles.py: DiGraphEnsemble.expected_av_nn_property"]}
{"id": "C78", "title": "the fitted parameters do not depend on the number type of the start", "statement": "MultiFitnessModel.fit with one parameter per label stores, for every start, the parameters its solver found; in particular an integer start and the floating point start with the same values leave the same model.", "quantifier": "for every multi-label fitness table, targets, tolerances, iteration limit and start, with integer or floating point entries", "why_tests_cant": "The tests start from the default or from floating point arrays; the dtype of the start is a Python detail that no numerical test varies.", "anchors": ["src/graph_ensembles/sparse/models/fitness.py: MultiFitnessModel.fit", "src/graph_ensembles/models.py: MultiFitnessModel.fit"]}
{"id": "C79", "title": "constructors read the columns they are given and leave the caller's tables as they were", "statement": "A graph constructor builds the object described by the columns named in its arguments, leaves every column of the caller's data frames unchanged, and building several graphs from the same frames gives the same objects as building each from fresh copies.", "quantifier": "for all frames, column names (single or lists), weights, groups, labels, and sequences of constructor calls, successful or not", "why_tests_cant": "The tests use one frame per graph and column names that differ from the helper names; a collision silently changes the graph.", "anchors": ["src/graph_ensembles/sparse/graphs.py: Graph.__init__, MultiGraph.__init__", "src/graph_ensembles/graphs.py: Graph.__init__, MultiGraph.__init__"]}
{"id": "C80", "title": "the conditional model can be fitted to every attainable number of edges", "statement": "The objective of ConditionalInvariantModel.fit is defined, non-decreasing and has a non-negative derivative at every non-negative parameter; it goes from the number of links of the aggregate graph (parameter 0) to the number of pairs with positive fitness between linked groups (infinite parameter). For every target in between the fit returns a non-negative parameter and tries no other points, and from a start below the solution the iterates do not pass it.", "quantifier": "for every size, fitnesses, groups, aggregate graph of positive probability, target in the range, tolerances with positive atol, iteration limit and non-negative start", "why_tests_cant": "The fit is tested on one network with one target; failures of the bracketing need particular combinations of fitnesses and targets, and the curvature depends on all fitnesses of a block.", "anchors": ["src/graph_ensembles/sparse/models/conditional.py: ConditionalInvariantModel.fit, exp_edges_f_jac, p_jac_ij", "src/graph_ensembles/solver.py: monotonic_newton_solver"]}
{"id": "C81", "title": "objects of the spark module answer like single-process objects", "statement": "The answers of a DiGraphEnsemble object of the spark module to any history of measure calls, parameter changes and self-loop option changes do not depend on the number of blocks and equal those of the single-process object; with the fitted parameter they are the documented values; log_likelihood and sample follow their selfloops argument.", "quantifier": "for all models, sizes, numbers of blocks, cache contents, histories of calls and options", "why_tests_cant": "The tests call each method of an object once, with the default partition; interactions between caches, options and partitions need histories of several calls.", "anchors": ["src/graph_ensembles/spark/models.py: DiGraphEnsemble.expected_num_edges, expected_degree, expected_av_nn_property, expected_av_nn_degree, log_likelihood, sample", "src/graph_ensembles/sparse/models/ensembles.py: DiGraphEnsemble"]}
{"id": "C82", "title": "neighbour averages of several properties at once", "statement": "The methods expected_av_nn_property and average_nn_property accept a property array with one row per vertex (the check is prop.shape[0]); given a table with K columns the result is the table whose columns are the neighbour averages of the columns, vertices without neighbours get 0, and the self-loop option of the object is as before. Given a boolean property the result is the fraction of the neighbours that have it.", "quantifier": "for every model or graph, number of columns, direction, self-loop option and table", "why_tests_cant": "The tests pass one-dimensional float properties; the outcome for tables depends on how many vertices have neighbours.", "anchors": ["src/graph_ensembles/sparse/models/ensembles.py: DiGraphEnsemble.expected_av_nn_property, exp_av_nn_prop", "src/graph_ensembles/sparse/models/random.py: RandomDiGraph.expected_av_nn_property", "src/graph_ensembles/spark/models.py: DiGraphEnsemble.expected_av_nn_property, exp_av_nn_prop", "src/graph_ensembles/sparse/graphs.py: Graph.average_nn_property, DiGraph.average_nn_property, av_nn_prop", "src/graph_ensembles/graphs.py: Graph.average_nn_property, DiGraph.average_nn_property"]}
{"id": "C83", "title": "RandomDiGraph objects: inherited neighbour degrees, histories and the Spark class", "statement": "expected_av_nn_degree of a RandomDiGraph (inherited, cached by attribute name) is, for every kind of degree and neighbourhood, the expected total degree of the neighbours divided by the expected degree; after any sequence of calls, fits and assignments of the parameter or self-loop option every answer is the one a new object would give; the class of the Spark module gives the same answers; its inherited confusion_matrix counts all pairs as links exactly at the thresholds not above the probability, and its automatic thresholds range over the probabilities of the model.", "quantifier": "for every probability, number of vertices, self-loop option, direction and sequence of calls", "why_tests_cant": "The tests call each measure once on a new object with one probability; staleness depends on sequences of calls and the thresholds on the probability.", "anchors": ["src/graph_ensembles/sparse/models/random.py: RandomDiGraph", "src/graph_ensembles/sparse/models/ensembles.py: DiGraphEnsemble.expected_av_nn_degree", "src/graph_ensembles/spark/models.py: RandomDiGraph, DiGraphEnsemble.expected_av_nn_degree, DiGraphEnsemble.confusion_matrix"]}
{"id": "C84", "title": "multi-label classes of the spark module at the level of vertex pairs", "statement": "The distributed multi-label classes cut the compressed sparse fitness matrices into row blocks without loss; their expected number of links, degrees, neighbour totals, likelihood of a graph given by one matrix and confusion counts are those of the projection (at least one layer linked), for any number of blocks; every history of total and label-resolved queries gives the documented answers; the automatic thresholds of confusion_matrix exist and span the probabilities of the pairs.", "quantifier": "for all tables, parameters, link functions, numbers of blocks, self-loop options, graphs, thresholds and histories of calls", "why_tests_cant": "The tests use one data set, the default number of blocks and one call per object; the block slices depend on the positions of stored entries, and the attribute that is tested before the cached number of links only matters for particular orders of calls.", "anchors": ["src/graph_ensembles/spark/models.py: MultiDiGraphEnsemble.expected_num_edges, expected_degree, expected_av_nn_property, expected_av_nn_degree, log_likelihood, confusion_matrix, exp_edges, exp_degrees, exp_av_nn_prop, _likelihood, _confusion_matrix", "src/graph_ensembles/spark/models.py: MultiFitnessModel.__init__, p_ij, logp, log1mp"]}
{"id": "C85", "title": "effect of fitting a multi-label model on the object", "statement": "A call of fit with invalid arguments raises and leaves the object unchanged. A successful fit leaves the fitted parameter of every label and its solution, the same for the sparse and the Spark class, and a solution is marked converged exactly when the expected number of edges at the stored parameter meets the target. A fit that raises leaves the object unchanged.", "quantifier": "for all tables, targets, starts of any type, tolerances, numbers of iterations, numbers of blocks and previous states of the object", "why_tests_cant": "The tests look at parameters after successful fits on one data set; they do not look at the object after a failed fit, nor do they compare the distributed objective with the sequential one at every parameter.", "anchors": ["src/graph_ensembles/sparse/models/fitness.py: MultiFitnessModel.fit, density_fit_fun, density_fit_layer", "src/graph_ensembles/models.py: MultiFitnessModel.fit", "src/graph_ensembles/spark/models.py: MultiFitnessModel.fit, density_fit_fun, density_fit_layer, exp_edges_f_jac"]}
{"id": "C86", "title": "constructors of the Spark classes", "statement": "The constructors of the Spark classes require a SparkContext as first argument and a graph of the right kind as second (if any), and otherwise accept and reject the same arguments as the sparse classes, with the same exceptions, and hold the same values. The number of blocks is ten or the positive whole number given, reduced to a tenth of the vertices but no less than two; the blocks divide the pairs of vertices exactly and there are fewer blocks than vertices.", "quantifier": "for all positional arguments, keyword arguments and graphs", "why_tests_cant": "The tests construct Spark objects from a few valid argument lists and one invalid one of each kind; they do not compare rejections with the sparse classes nor look at the number of blocks.", "anchors": ["src/graph_ensembles/spark/models.py: RandomDiGraph.__init__, FitnessModel.__init__, MultiFitnessModel.__init__", "src/graph_ensembles/sparse/models/fitness.py: FitnessModel.__init__, MultiFitnessModel.__init__", "src/graph_ensembles/sparse/models/random.py: RandomDiGraph.__init__"]}
{"id": "C87", "title": "from an observed graph to the model fitted to it", "statement": "FitnessModel and ScaleInvariantModel built from a directed graph read its number of linked pairs and its strengths; undirected graphs and empty vertex sets are rejected. The density fit raises nothing and is marked converged exactly when the mean number of links over the fitted ensemble is the graph's up to the tolerance. A parameter reproducing the number of links exists exactly when the graph has no links or leaves open some pair that can be linked; it is then unique, and the fit stops by itself. With self-loops admitted, weighted samples of a converged fit have on average the strengths of the graph.", "quantifier": "for all graphs built by the library, both models, starts, tolerances and numbers of iterations", "why_tests_cant": "The tests fit models to a few graphs and compare one number with a tolerance; they cannot enumerate graphs, decide for which graphs no parameter exists, nor average over all graphs of the ensemble.", "anchors": ["src/graph_ensembles/sparse/models/fitness.py: FitnessModel.__init__, FitnessModel.fit, FitnessModel.density_fit_fun", "src/graph_ensembles/sparse/graphs.py: DiGraph.num_edges, DiGraph.out_strength, DiGraph.in_strength", "src/graph_ensembles/sparse/models/invariant.py: ScaleInvariantModel.p_jac_ij"]}
{"id": "C88", "title": "from an observed multi-label graph to the model fitted to it", "statement": "MultiFitnessModel and MultiInvariantModel built from a directed multi graph hold, by vertex, the strengths of every label, the links of every label and the number of pairs linked in some label; other graphs are rejected. With per_label the fit finds a parameter for every label, marked converged exactly when the mean number of links of that label over the fitted ensemble is the graph's up to the tolerance; without it one parameter is found, marked converged exactly when the expected number of linked pairs is the observed one up to the tolerance. A parameter reproducing the number exists exactly when there are no links or a pair is left open, and is then unique.", "quantifier": "for all graphs built by the library, both models, options, starts, tolerances and numbers of iterations", "why_tests_cant": "The tests fit one multi-label graph and compare a few numbers; they cannot enumerate graphs, label counts, starts and tolerances, nor decide for which graphs no parameter exists.", "anchors": ["src/graph_ensembles/sparse/models/fitness.py: MultiFitnessModel.__init__, MultiFitnessModel.fit, MultiFitnessModel.density_fit_fun", "src/graph_ensembles/sparse/graphs.py: MultiDiGraph.out_strength_by_label, MultiDiGraph.in_strength_by_label, MultiDiGraph.num_edges_label", "src/graph_ensembles/sparse/models/invariant.py: MultiInvariantModel.p_jac_ij"]}
{"id": "C89", "title": "fitting the number of links maximises the likelihood", "statement": "For FitnessModel the parameter whose expected number of links is that of a graph is the one and only parameter of maximal log_likelihood of that graph; a graph with every link its fitnesses allow has a likelihood that grows with the parameter. After a converged fit to an observed graph no other parameter is more likely by more than the tolerance times the logarithm of the ratio of the parameters. The probability fitted by RandomDiGraph is the one of maximal likelihood.", "quantifier": "for all fitnesses, graphs, parameters, tolerances and starts", "why_tests_cant": "Comparing the likelihood at one parameter with that at all others, for all graphs, is beyond examples; the tests never relate fit and log_likelihood.", "anchors": ["src/graph_ensembles/sparse/models/fitness.py: FitnessModel.fit, FitnessModel.density_fit_fun, FitnessModel.logp, FitnessModel.log1mp", "src/graph_ensembles/sparse/models/ensembles.py: DiGraphEnsemble.log_likelihood", "src/graph_ensembles/sparse/models/random.py: RandomDiGraph.fit, RandomDiGraph.log_likelihood"]}
{"id": "C90", "title": "from an observed graph to the Erdos-Renyi model of it, and the likelihood of the graph itself", "statement": "RandomDiGraph built from a graph holds its number of vertices, of edges and, if it is weighted, its total weight. For a directed graph without self-loops the model does not admit, the fitted probability is the fraction of admissible pairs that are linked, the mean number of links over the graphs of the model is the observed one, and if some but not all pairs are linked, log_likelihood called with the graph is largest at the fitted probability. A fitness model fitted to the graph is the most likely one up to the tolerance, by log_likelihood called with the graph.", "quantifier": "for all graphs built by the library, options, starts, tolerances and numbers of iterations", "why_tests_cant": "The tests fit one graph and compare a few numbers; that a probability is the most likely one is a statement about all other probabilities and all graphs.", "anchors": ["src/graph_ensembles/sparse/models/random.py: RandomDiGraph.__init__, RandomDiGraph.fit, RandomDiGraph.log_likelihood", "src/graph_ensembles/sparse/graphs.py: Graph.num_edges, Graph.total_weight, Graph.adjacency_matrix, DiGraph.adjacency_matrix", "src/graph_ensembles/sparse/models/ensembles.py: DiGraphEnsemble.log_likelihood"]}
{"id": "C91", "title": "the likelihood of an observed multi-label graph under the model fitted to it", "statement": "MultiFitnessModel and MultiInvariantModel built from a multi-label graph accept the graph itself in log_likelihood and return the logarithm of the product over labels of the probability of the links of that label under the single-label model of its strengths; the model that sums in blocks returns the same. For the fitness model and a change of parameters the difference of the values is bounded by the differences between observed and expected numbers of links per label, so parameters at which every label has its observed number of links on average are the only ones of maximal likelihood, and after a converged fit label by label no other parameters are better by more than the tolerances allow.", "quantifier": "for all multi-label graphs built by the library, options, parameters, starts, tolerances and numbers of iterations", "why_tests_cant": "The tests compare the likelihood of one graph with one number; that fitted parameters are the most likely ones is a statement about all other parameters and all graphs.", "anchors": ["src/graph_ensembles/sparse/models/ensembles.py: MultiDiGraphEnsemble.log_likelihood, MultiDiGraphEnsemble._likelihood_layer", "src/graph_ensembles/sparse/models/fitness.py: MultiFitnessModel.__init__, MultiFitnessModel.fit", "src/graph_ensembles/sparse/models/invariant.py: MultiInvariantModel", "src/graph_ensembles/sparse/graphs.py: MultiDiGraph.adjacency_tensor"]}
{"id": "C92", "title": "log_likelihood of the single-label classes treats all graph arguments alike", "statement": "log_likelihood of the single-label classes (fitness and scale-invariant models and RandomDiGraph, of the sparse, dense and Spark modules) returns the same value whether the observed graph is passed as a graph object of any class, a sparse matrix or a numpy array: the logarithm of the probability of its links, minus infinity where a self-loop is present but not admitted. The three modules return the same value for the same model. An object without parameter, an argument that is neither graph nor matrix and a matrix of another size are refused with an exception.", "quantifier": "for all models of the library, graphs, forms of the graph argument, options and numbers of blocks", "why_tests_cant": "Each test passes one form of one graph to one class; that all forms of all graphs give one value in all modules is a statement about every combination.", "anchors": ["src/graph_ensembles/sparse/models/ensembles.py: DiGraphEnsemble.log_likelihood", "src/graph_ensembles/sparse/models/random.py: RandomDiGraph.log_likelihood", "src/graph_ensembles/models.py: DiGraphEnsemble.log_likelihood, RandomDiGraph.log_likelihood", "src/graph_ensembles/spark/models.py: DiGraphEnsemble.log_likelihood, RandomDiGraph.log_likelihood"]}
{"id": "C93", "title": "The log-likelihood a model gives to its own samples", "statement": "log_likelihood of a graph that the same model returned from sample is finite and at most 0, in the sparse, dense and Spark classes and in RandomDiGraph. With M possible links the probability that a sample fails this, or has log-likelihood -x or less, is at most exp(M ln 2 - x), and in n calls at most n times that: the loops of the package's own sampling tests (n = 100, x = 2.3 per possible link) almost never fail. The mean log-likelihood of the samples is minus the sum of the entropies of the links.", "quantifier": "for all models of the library with a parameter, both self-loop options, all thresholds, all numbers of calls and of blocks", "why_tests_cant": "The tests draw 100 samples of one model and assert a bound that holds with high probability only; how probable a failure is, and for which models, is a statement about the law of the sampler.", "anchors": ["src/graph_ensembles/sparse/models/ensembles.py: DiGraphEnsemble.sample, DiGraphEnsemble.log_likelihood", "src/graph_ensembles/models.py: DiGraphEnsemble.sample, DiGraphEnsemble.log_likelihood", "src/graph_ensembles/spark/models.py: DiGraphEnsemble.sample, DiGraphEnsemble.log_likelihood", "src/graph_ensembles/sparse/models/random.py: RandomDiGraph.sample, RandomDiGraph.log_likelihood"]}
{"id": "C94", "title": "Averages over many samples approach the expected values", "statement": "Averages over n independent calls of sample of the number of links, of the in-, out- and undirected degree of each vertex (measured with the methods of the returned graph) and of the log-likelihood converge to what expected_num_edges and expected_degree report: the probability of being off by eps or more, or of a measure failing, is at most V / (n eps^2) with V the sum of q (1 - q) over the links concerned. So n >= N^2 / (4 delta eps^2) samples give accuracy eps with confidence 1 - delta.", "quantifier": "for all models of the library with a parameter, both self-loop options, all vertices, directions, numbers of samples and accuracies, in the sparse, dense and Spark classes", "why_tests_cant": "A test sees one run of finitely many samples; convergence and its rate concern the law of all runs.", "anchors": ["src/graph_ensembles/sparse/models/ensembles.py: DiGraphEnsemble.sample, DiGraphEnsemble.log_likelihood", "src/graph_ensembles/models.py: DiGraphEnsemble.sample, DiGraphEnsemble.log_likelihood", "src/graph_ensembles/spark/models.py: DiGraphEnsemble.sample, DiGraphEnsemble.log_likelihood", "src/graph_ensembles/sparse/models/ensembles.py: DiGraphEnsemble.expected_num_edges, DiGraphEnsemble.expected_degree", "src/graph_ensembles/sparse/graphs.py: DiGraph.out_degree, Graph.degree"]}
{"id": "C95", "title": "Samples of a conditional model object and their conditional likelihood agree", "statement": "For a ConditionalInvariantModel with a parameter, the log_likelihood of a graph, passed as a graph object or as a matrix, is the logarithm of the probability that sample returns a graph with these links, with each of the three kinds of weights; graphs that do not aggregate to the given graph get minus infinity. A sample has finite log-likelihood, at most 0, under the model that drew it; it aggregates back to exactly the links of the given graph and, with weights \"wagg\", to its weights; the mean number of links and mean degrees of the samples are what expected_num_edges and expected_degree report.", "quantifier": "for all conditional models whose aggregate graph is possible, both self-loop options, all forms of the argument, all kinds of weights and all strengths, all draws", "why_tests_cant": "The tests compare a few samples of one model with their aggregate graph; that the probability of every graph under the sampler equals the value of another method is a statement about the law of the sampler for all models.", "anchors": ["src/graph_ensembles/sparse/models/conditional.py: ConditionalInvariantModel.log_likelihood, ConditionalInvariantModel.sample, ConditionalInvariantModel.expected_num_edges, ConditionalInvariantModel.expected_degree", "src/graph_ensembles/sparse/graphs.py: DiGraph.adjacency_matrix, DiGraph.out_degree"]}
{"id": "C96", "title": "In double precision probabilities stay probabilities and computed measures stay within their bounds", "statement": "Evaluated in IEEE double precision, p_ij of the fitness and of the scale-invariant model is a double between 0 and 1 for all non-negative finite data, also where intermediate products overflow or underflow; the log-probabilities are never NaN, and are -inf exactly for links (non-links) that have computed probability 0 (1); the scale-invariant probability is monotone in the parameter and the fitnesses; the expected number of links and the expected degrees are between 0 and the number of pairs and of vertices. The fitness probability is monotone as well, p_jac_ij agrees with p_ij, the neighbour average of the constant 1 is 1 for vertices with positive degree, and the conditional sampler draws at least one link for each link of the aggregate graph.", "quantifier": "for all non-negative finite doubles as parameter and fitnesses, all numbers of vertices up to 2^53 (2^53 pairs), both self-loop options, all draws", "why_tests_cant": "The failures are at magnitudes that no test uses (fitnesses of 2^53, products below 2^-53 or above 2^1024), and that no input leads out of the bounds is a statement about every triple of doubles.", "anchors": ["src/graph_ensembles/sparse/models/fitness.py: FitnessModel.p_ij, FitnessModel.logp, FitnessModel.log1mp, FitnessModel.p_jac_ij", "src/graph_ensembles/sparse/models/invariant.py: ScaleInvariantModel.p_ij, ScaleInvariantModel.logp, ScaleInvariantModel.log1mp, ScaleInvariantModel.p_jac_ij", "src/graph_ensembles/sparse/models/ensembles.py: DiGraphEnsemble.exp_edges, DiGraphEnsemble.exp_degrees, DiGraphEnsemble.exp_av_nn_prop, DiGraphEnsemble.expected_av_nn_property", "src/graph_ensembles/sparse/models/conditional.py: ConditionalInvariantModel._binary_sample"]}
{"id": "C97", "title": "In double precision samples are possible under the model that drew them and are drawn with the stated probabilities", "statement": "Evaluated in IEEE double precision, the log-likelihood of any graph under the fitness and scale-invariant model is -inf or a number that is not positive, never NaN; a graph drawn by the sampler of the same model has a finite log-likelihood, without overflow of the sum; in the fitness model exactly the graphs that the sampler cannot draw have log-likelihood -inf. A link is drawn with its computed probability, rounded up to a multiple of 2^-53 at most, in particular rare links are drawn rarely; a drawn link gets a finite weight.", "quantifier": "for all non-negative finite doubles as parameter, fitnesses and strengths, all graphs, all numbers of pairs up to 2^53, both self-loop options, all values of the random generator", "why_tests_cant": "Probabilities below 2^-53 are never met by a test that samples, and that no sample of any model gets log-likelihood -inf from rounding is a statement about all models and all draws.", "anchors": ["src/graph_ensembles/sparse/models/ensembles.py: DiGraphEnsemble._likelihood, DiGraphEnsemble._binary_sample, DiGraphEnsemble._cremb_sample", "src/graph_ensembles/sparse/models/fitness.py: FitnessModel.p_ij, FitnessModel.logp, FitnessModel.log1mp", "src/graph_ensembles/sparse/models/invariant.py: ScaleInvariantModel.p_ij, ScaleInvariantModel.logp, ScaleInvariantModel.log1mp"]}
{"id": "C98", "title": "In double precision the root finder reports truthfully and keeps to its bracket, and density fits of moderate data do not fail", "statement": "Evaluated in IEEE double precision, the solution returned by the Newton solver contains exactly the points tried and the differences computed there, and it is flagged as converged exactly when the distance between the computed objective and the target is at most the computed tolerance. For an objective on [0, inf] with non-negative derivative that is below the target near 0, above it and flat near infinity, and stays within 2^50 times the tolerance of it, the solver never raises its monotonicity assertion and never leaves the bracket. In particular a density fit of the fitness or scale-invariant model from any starting point, to a number of edges between 2^-50 N^2 / rtol and the number of connectable pairs, returns a solution.", "quantifier": "for all objectives with double values (report), all fitnesses and dyadic terms that are zero or between 2^-130 and 2^130, all starting points in [0, inf], all iteration limits, both self-loop options, all N with N^2 <= 2^53, rtol <= 1/8, 2^-900 <= atol <= target/8", "why_tests_cant": "Whether a rounded Newton or secant step can leave the bracket depends on the last bits of the values met during the iteration; a test sees only the few runs it makes.", "anchors": ["src/graph_ensembles/solver.py: monotonic_newton_solver, Solution.__init__", "src/graph_ensembles/sparse/models/fitness.py: FitnessModel.density_fit_fun, FitnessModel.exp_edges_f_jac, FitnessModel.p_jac_ij", "src/graph_ensembles/sparse/models/invariant.py: ScaleInvariantModel.p_jac_ij"]}
{"id": "C99", "title": "In double precision the Erdos-Renyi fit gives a probability that is 0 or 1 only for empty or complete graphs", "statement": "Evaluated in IEEE double precision, fitting RandomDiGraph to E of M pairs gives a parameter in [0,1] within relative distance 2^-53 of E/M, which is 0 exactly for E = 0 and 1 exactly for E = M; the expected number of edges computed from it is at most M and within relative distance 2^-51 of E; expected degrees stay between 0 and the number of possible neighbours. Every graph of the ensemble gets a finite log-likelihood that is not positive, in particular the graph the model was fitted to, unless it is empty or complete.", "quantifier": "for all numbers of vertices with at most 2^53 pairs, all numbers of edges up to the number of pairs, all double parameters in [0,1] (degrees) or strictly between (likelihood), all graphs, both self-loop options", "why_tests_cant": "That no number of edges short of all pairs is rounded to probability 1 (which would give the observed graph log-likelihood -inf) is a statement about all pairs of integers; tests use a handful with comparisons up to a tolerance.", "anchors": ["src/graph_ensembles/sparse/models/random.py: RandomDiGraph.fit, RandomDiGraph.expected_num_edges, RandomDiGraph.expected_degree, RandomDiGraph.expected_out_degree, RandomDiGraph.log_likelihood"]}
{"id": "C100", "title": "In double precision the multi-label kernels give probabilities and consistent logarithms, and their density fits end", "statement": "Evaluated in IEEE double precision, the probability of a link in the projection of the multi-label models is a double in [0,1]; in the fitness model it is 0 exactly if the product of parameter and fitnesses is at most 2^-53 in every label, in the scale-invariant model exactly if the probability is 0 in every layer, and it is never below that of a layer. The logarithm of the probability is -inf exactly where the probability is 0, that of the complement only where the probability is 1, and no logarithm is NaN or positive. For fitnesses that are 0 or between 2^-130 and 2^130 the error is at most (L+1) 2^-50 (fitness model, L labels) or a factor between (1-2^-53)^(L+3) and (1+2^-53)^(L+3) (scale-invariant model), and the density fit of all labels or of one label ends with a report that says whether the target was met.", "quantifier": "for all numbers of labels (up to 2^53 in the error bounds and fits), all canonical sparse rows with finite non-negative double entries, all finite non-negative double parameters per label; for the fits all starting points and iteration limits", "why_tests_cant": "Tests compare a few pairs of a small network up to a tolerance; when the running product of the labels rounds to 1, and that it then agrees with the logarithms, depends on all labels and on the last bit.", "anchors": ["src/graph_ensembles/sparse/models/fitness.py: MultiFitnessModel.p_ij, MultiFitnessModel.logp, MultiFitnessModel.log1mp, MultiFitnessModel.p_jac_ij, MultiFitnessModel.p_ijk, MultiFitnessModel.logp_ijk, MultiFitnessModel.log1mp_ijk, MultiFitnessModel.p_jac_ijk", "src/graph_ensembles/sparse/models/invariant.py: MultiInvariantModel.p_ij, MultiInvariantModel.logp, MultiInvariantModel.log1mp, MultiInvariantModel.p_jac_ij, MultiInvariantModel.p_ijk, MultiInvariantModel.logp_ijk, MultiInvariantModel.log1mp_ijk, MultiInvariantModel.p_jac_ijk"]}
{"id": "C101", "title": "In double precision every sample of a multi-label model has a finite log-likelihood", "statement": "With fitnesses and parameters that are finite non-negative doubles, and L N^2 <= 2^53: a multi-label graph drawn layer by layer with the computed probabilities has, under the model that drew it and evaluated in double precision, a finite log-likelihood between -2048 L N^2 and 0. In the scale-invariant model the same holds for the union of its layers in the projected model. The log-likelihood of any multi-label graph is -inf or a number that is not positive, never NaN. The expected number of links of a layer is a finite double between 0 and the number of its pairs and not below the probability of any of its links.", "quantifier": "for all tables of fitnesses by vertex and label (finite non-negative doubles), both multi-label models, all parameters, all draws in [0,1), with and without self-loops, all graphs", "why_tests_cant": "Whether a drawn link can have a logarithm of -inf depends on the last bit of probabilities near 0 and 1, for every layer of every graph the sampler can draw.", "anchors": ["src/graph_ensembles/sparse/models/ensembles.py: MultiDiGraphEnsemble.log_likelihood, MultiDiGraphEnsemble._likelihood_layer, MultiDiGraphEnsemble.sample, MultiDiGraphEnsemble._binary_sample_layer, MultiDiGraphEnsemble.exp_edges_layer", "src/graph_ensembles/sparse/models/fitness.py: MultiFitnessModel.p_ijk, MultiFitnessModel.logp_ijk, MultiFitnessModel.log1mp_ijk", "src/graph_ensembles/sparse/models/invariant.py: MultiInvariantModel.p_ijk, MultiInvariantModel.logp_ijk, MultiInvariantModel.log1mp_ijk, MultiInvariantModel.logp, MultiInvariantModel.log1mp"]}
{"id": "C102", "title": "In double precision the conditional model gives probabilities, expectations, samples and weights in range, or raises ZeroDivisionError", "statement": "With a parameter and fitnesses that are finite non-negative doubles (fitnesses at most 2^450, N^2 <= 2^53): the conditional probability of a link is a double in [0,1], or ZeroDivisionError is raised because the probability of the block was rounded to 0. When self-loops are allowed or no group is linked to itself, the expected number of links is between 0 and the number of possible links, each expected degree is between 0 and N, and the objective of the fit is in the same range; ZeroDivisionError is raised only if a parameter or fitness that is not 0 is below 2^-300. A sample contains only links between vertices of linked groups, none twice, each with a computed probability that is not 0, and no exception but ZeroDivisionError. If every group has one vertex and no number is below 2^-300, the sample is the aggregate graph whatever the draws. The weights given to the n links of a block are between 0 and the weight w of the block, and add up to w within a relative error of about (n+2) 2^-53.", "quantifier": "for all doubles in the stated ranges, all partitions into groups, all aggregate graphs, all draws, with and without self-loops", "why_tests_cant": "The claims concern every combination of doubles, partitions and draws; the exceptions occur only where a product of fitnesses underflows or a difference cancels.", "anchors": ["src/graph_ensembles/sparse/models/conditional.py: ConditionalInvariantModel.cond_p_ij", "src/graph_ensembles/sparse/models/conditional.py: ConditionalInvariantModel.p_jac_ij", "src/graph_ensembles/sparse/models/conditional.py: ConditionalInvariantModel.exp_edges", "src/graph_ensembles/sparse/models/conditional.py: ConditionalInvariantModel.exp_degrees", "src/graph_ensembles/sparse/models/conditional.py: ConditionalInvariantModel.exp_edges_f_jac", "src/graph_ensembles/sparse/models/conditional.py: ConditionalInvariantModel.log_likelihood", "src/graph_ensembles/sparse/models/conditional.py: ConditionalInvariantModel._agg_likelihood", "src/graph_ensembles/sparse/models/conditional.py: ConditionalInvariantModel._binary_sample", "src/graph_ensembles/sparse/models/conditional.py: ConditionalInvariantModel._cremb_sample", "src/graph_ensembles/sparse/models/conditional.py: ConditionalInvariantModel._wagg_sample"]}
{"id": "C103", "title": "From the tables of a graph and of its groups to a fitted conditional model", "statement": "ConditionalInvariantModel called with a DiGraph that has groups and the DiGraph of the groups holds the strengths and groups of the first and the weights of the second; it raises ValueError unless both are directed and the first has groups, and AssertionError unless there are as many groups as vertices of the second. If the two graphs are built from tables in which the macro vertices are the group names and the macro edges are the pairs of groups linked by an edge, in any order of rows, then group k of the model is vertex k of the macro graph and the graphs fit together: the observed graph has positive probability given the macro graph and its log-likelihood is the logarithm of that probability, at most 0; a fit that reports convergence has the observed number of links as mean, within the tolerance; samples link exactly the groups linked in the observed graph, and weighted samples give every pair of groups the weight of the macro graph; if that is the total weight of the edges between the groups, every group keeps its total out- and in-strength. This holds for any names of the macro vertices that correspond one to one to the groups.", "quantifier": "for all vertex, edge and group tables, names of any ordered type, weights, parameters, draws and options", "why_tests_cant": "The tests use one pair of tables in which names, positions and groups coincide and every group has links in both directions; the agreement of the two enumerations is a statement about all tables.", "anchors": ["src/graph_ensembles/sparse/models/conditional.py: ConditionalInvariantModel.__init__", "src/graph_ensembles/sparse/models/conditional.py: ConditionalInvariantModel.fit", "src/graph_ensembles/sparse/models/conditional.py: ConditionalInvariantModel.density_fit_fun", "src/graph_ensembles/sparse/models/conditional.py: ConditionalInvariantModel.log_likelihood", "src/graph_ensembles/sparse/models/conditional.py: ConditionalInvariantModel._agg_likelihood", "src/graph_ensembles/sparse/models/conditional.py: ConditionalInvariantModel._binary_sample", "src/graph_ensembles/sparse/models/conditional.py: ConditionalInvariantModel._wagg_sample", "src/graph_ensembles/sparse/graphs.py: Graph.__init__, DiGraph.adjacency_matrix, DiGraph.out_strength, DiGraph.in_strength"]}
{"id": "C104", "title": "PageRank and trophic depth converge to the solution of their equations", "statement": "For alpha in [0, 1) and any graph of the library, the walk that follows a link chosen by weight with probability alpha (any vertex if there is none) and jumps to any vertex otherwise has exactly one stationary vector. pagerank returns it up to 2 alpha^n in total after n iterations and up to alpha / (1 - alpha) N tol if it reports convergence, and it reports convergence within k iterations if alpha^k < tol; with the default arguments, always, within 86 iterations and with a total error of at most 6 N 1e-6. Renumbering the vertices renumbers the ranks, and multiplying the weights of the links of a vertex by a positive number does not change them. trophic_depth: if at least the fraction 1 - c > 0 of the strength of every vertex is final, its equation has one solution, between 1 and 1 / (1 - c); the result is within c / (1 - c) tol of it if convergence is reported, and this happens for enough iterations.", "quantifier": "for all graphs built by the library, weights, alpha, tolerances and numbers of iterations; for all sparse matrices and final weights", "why_tests_cant": "Tests compare the ranks of one or two graphs with recorded values at one alpha and tolerance; convergence for every graph and the distance to the exact solution are statements about all of them.", "anchors": ["src/graph_ensembles/lib.py: pagerank", "src/graph_ensembles/lib.py: trophic_depth", "src/graph_ensembles/lib.py: propagate_measure", "src/graph_ensembles/lib.py: normalise_rows", "src/graph_ensembles/sparse/graphs.py: Graph.adjacency_matrix, DiGraph.adjacency_matrix"]}
{"id": "C105", "title": "PageRank in double precision converges and is accurate", "statement": "With every operation rounded to IEEE 754 doubles, pagerank on weights that are positive doubles returns ranks that are not negative and sum to one within d = 32 N 2^-53 / (1 - alpha); they are within 2 alpha^n + d of the exact stationary vector in total after n iterations, and within alpha / (1 - alpha) N tol + 2 d if convergence is reported. Convergence is reported within k + 1 iterations if 4 alpha^k + 3 d < tol; with the default arguments, for every graph with at most 2^20 vertices, with a total error of at most 6 N 1e-6.", "quantifier": "for all sparse matrices with distinct columns in every row and positive doubles as weights, dampings, tolerances, numbers of iterations and of vertices (at most 2^40)", "why_tests_cant": "Rounding errors add up over all links and iterations; tests on a few small graphs show neither a bound on them nor that the stopping test is met for every graph.", "anchors": ["src/graph_ensembles/lib.py: pagerank", "src/graph_ensembles/lib.py: propagate_measure", "src/graph_ensembles/lib.py: normalise_rows"]}
{"id": "C106", "title": "Probabilities, expected numbers of links and degrees, and density fits are accurate in double precision", "statement": "With every operation rounded to IEEE 754 doubles, the probabilities of FitnessModel and ScaleInvariantModel (p_ij and the first component of p_jac_ij) have a relative error of at most 2^-49, for fitnesses and dyadic terms that are zero or between 2^-130 and 2^130 and every parameter. The expected number of links of N vertices is the exact mean over the ensemble with a relative error of (N^2 + 16) 2^-52, and every expected degree is with a relative error of (N + 128) 2^-52. If a density fit reports convergence, the exact mean number of links at the returned parameter meets the target within the tolerance, up to a relative error of (N^2 + 16) 2^-50; it reports convergence whenever the exact mean is within the tolerance by that margin.", "quantifier": "for all vertex counts (N^2 up to 2^50), fitnesses and dyadic terms zero or between 2^-130 and 2^130, parameters, options for self-loops, targets, tolerances, initial values and numbers of iterations", "why_tests_cant": "Tests compare doubles with doubles computed the same way; they cannot show how far the result is from the exact mean, nor bound the error for every data set and parameter.", "anchors": ["src/graph_ensembles/sparse/models/fitness.py: p_ij", "src/graph_ensembles/sparse/models/fitness.py: p_jac_ij", "src/graph_ensembles/sparse/models/invariant.py: p_ij", "src/graph_ensembles/sparse/models/invariant.py: p_jac_ij", "src/graph_ensembles/sparse/models/ensembles.py: exp_edges", "src/graph_ensembles/sparse/models/fitness.py: exp_edges_f_jac", "src/graph_ensembles/sparse/models/ensembles.py: exp_degrees", "src/graph_ensembles/solver.py: monotonic_newton_solver"]}
{"id": "C107", "title": "The log-likelihood is accurate in double precision", "statement": "With every operation rounded to IEEE 754 doubles, the log-likelihood of a graph under FitnessModel and ScaleInvariantModel is minus infinity if the graph has probability zero, and otherwise the logarithm of its exact probability, with a relative error of (N^2 + 4) 2^-51 and an absolute one of N^2 M 2^-45, for data and parameters that are zero or between 2^-130 and 2^130 and products of parameter and data up to M, which is at most 2^30. So of two graphs whose exact log-probabilities differ by more than the errors, the likelier one gets the larger value.", "quantifier": "for all graphs, vertex counts (N^2 up to 2^50), fitnesses, dyadic terms and parameters zero or between 2^-130 and 2^130 with products up to M, all M up to 2^30, options for self-loops", "why_tests_cant": "The errors depend on the data and on the graph and add up over all pairs; tests check a few graphs against the same floating point formulas.", "anchors": ["src/graph_ensembles/sparse/models/fitness.py: logp", "src/graph_ensembles/sparse/models/fitness.py: log1mp", "src/graph_ensembles/sparse/models/invariant.py: logp", "src/graph_ensembles/sparse/models/invariant.py: log1mp", "src/graph_ensembles/sparse/models/ensembles.py: _likelihood"]}
{"id": "C108", "title": "Samples drawn in double precision follow the exact distribution, up to small errors", "statement": "With probabilities computed in IEEE 754 doubles and compared with uniform draws from the 2^53 values of rng.random(), the links of a sample of FitnessModel or ScaleInvariantModel are independent, each with its computed probability rounded up to a multiple of 2^-53. For data that are zero or between 2^-130 and 2^130, the probability of any event differs from its exact value by at most 2^-49 times the mean number of links plus N^2 2^-52, and the mean number of links and mean degrees of samples are as near to their exact values. After a density fit in doubles that reports convergence, the mean number of links of the samples is the target, within the tolerance and these errors. The weighted sampler in doubles never raises, for totals of the strengths that agree to 5e-7 and probabilities that are at least pi (or zero, where a strength is zero), and the mean weight of each pair and the mean strengths have a relative error of at most (N + 2) 2^-51 + 2^-52 / pi.", "quantifier": "for all vertex counts (up to 2^20 for weights), fitnesses, strengths and dyadic terms zero or between 2^-130 and 2^130, parameters, options for self-loops, events and bounded functions of the graph, tables of probabilities with smallest positive value pi at least 2^-40", "why_tests_cant": "A statement about the distribution over all random streams; errors of 2^-49 are far below what sampling tests can resolve, and the number of graphs is exponential.", "anchors": ["src/graph_ensembles/sparse/models/fitness.py: p_ij", "src/graph_ensembles/sparse/models/invariant.py: p_ij", "src/graph_ensembles/sparse/models/ensembles.py: _binary_sample", "src/graph_ensembles/sparse/models/ensembles.py: _cremb_sample"]}
{"id": "C109", "title": "Layers of the multi-label models in double precision: same numbers as the single-label loops, accurate likelihood and samples", "statement": "In IEEE 754 doubles the loops of MultiFitnessModel and MultiInvariantModel over the stored fitnesses of a layer give bit for bit the expected number of links, the log-likelihood and the distribution of samples that the single-label loops over all pairs give for the same fitnesses without dyadic term. For fitnesses and parameters that are zero or between 2^-130 and 2^130, the expected number of links of a layer has a relative error of 2^-52 (N^2 + 16); the log-likelihood of a multi-label graph is minus infinity if the graph is impossible and otherwise the logarithm of the product of the exact probabilities of its layers, with a relative error of 2^-51 (N^2 + L + 4) and an absolute one of 2^-44 L N^2 M, M bounding the products of parameter and fitnesses; and the probability of any event on the layers of a sample differs from its exact value, for independent layers, by at most 2^-49 times the mean number of links plus L N^2 2^-52.", "quantifier": "for all numbers of vertices and labels, canonical tables of fitnesses with or without stored zeros, parameters per label, options for self-loops, multi-label graphs, events and bounded functions of the layers", "why_tests_cant": "Rounding depends on the order of all additions, so equality with another loop and error bounds have to hold for every table of doubles; the distribution of samples is over all random streams and exponentially many graphs.", "anchors": ["src/graph_ensembles/sparse/models/fitness.py: p_ijk", "src/graph_ensembles/sparse/models/invariant.py: p_ijk", "src/graph_ensembles/sparse/models/ensembles.py: exp_edges_layer", "src/graph_ensembles/sparse/models/ensembles.py: _likelihood_layer", "src/graph_ensembles/sparse/models/ensembles.py: _binary_sample_layer", "src/graph_ensembles/sparse/models/ensembles.py: log_likelihood", "src/graph_ensembles/sparse/models/ensembles.py: sample"]}
{"id": "C110", "title": "Fit of one parameter per label, then sampling, in double precision", "statement": "Computed without rounding, the model of the density fit of one parameter per label is that of the exact one. In IEEE 754 doubles, for fitnesses that are zero or between 2^-130 and 2^130 and for each label a positive target that the pairs of vertices with fitness for the label can reach, the fit of MultiFitnessModel and MultiInvariantModel does not raise, and the report of each label is right: if it says converged, the exact expected number of links of the label at the fitted parameter is the target T within (1 + 2^-50)(atol + rtol T) + 2^-50 (N^2 + 16) T, and conversely an exact value within the tolerance less these errors is reported as converged. The mean number of links of each converged label in the samples of the fitted object is its target within the tolerance, 2^-49 (N^2 + 16) T and N^2 2^-52.", "quantifier": "for all numbers of vertices with N^2 <= 2^50, numbers of labels, canonical tables of fitnesses, targets per label, tolerances (at least 2^-900 absolute, rtol T at least 2^-50 N^2, both at most T/8), starting points including infinity, iteration limits and options for self-loops", "why_tests_cant": "The iterates of the solver depend on every rounding of the objective and its derivative; the guarantee has to hold for every table and start, and the samples are over all random streams.", "anchors": ["src/graph_ensembles/sparse/models/fitness.py: fit", "src/graph_ensembles/sparse/models/fitness.py: density_fit_layer", "src/graph_ensembles/sparse/models/fitness.py: exp_edges_f_jac_layer", "src/graph_ensembles/sparse/models/fitness.py: p_jac_ijk", "src/graph_ensembles/sparse/models/invariant.py: p_jac_ijk", "src/graph_ensembles/sparse/models/ensembles.py: _binary_sample_layer", "src/graph_ensembles/solver.py: monotonic_newton_solver"]}
{"id": "C111", "title": "Projection of the multi-label models in double precision: expected links and linked pairs of the samples", "statement": "For fitnesses and parameters that are zero or between 2^-130 and 2^130, the expected number of links that MultiFitnessModel and MultiInvariantModel compute in IEEE 754 doubles is a finite number and is the mean, over independent layers drawn with the exact probabilities, of the number of pairs linked in at least one layer, within 2^-52 N^2 times the mean and 2^-49 (L + 1) for each pair (fitness), or 2^-52 (N^2 + 2 L + 6) times the mean (scale invariant). The mean number of pairs linked in at least one layer of the samples drawn in doubles is this mean within 2^-49 times the mean number of links over all layers and 2^-52 for each pair and layer.", "quantifier": "for all numbers of vertices with N^2 <= 2^52, numbers of labels up to 2^40 (any number for the samples), canonical tables of fitnesses, parameters (for the samples any double that is not negative, or infinity), options for self-loops, and seeds", "why_tests_cant": "The expected number of links is a sum of 1 minus products over labels, and its distance from what the samples contain is a statement about every random stream and every rounding.", "anchors": ["src/graph_ensembles/sparse/models/fitness.py: p_ij", "src/graph_ensembles/sparse/models/invariant.py: p_ij", "src/graph_ensembles/sparse/models/ensembles.py: exp_edges", "src/graph_ensembles/sparse/models/ensembles.py: expected_num_edges", "src/graph_ensembles/sparse/models/ensembles.py: _binary_sample_layer", "src/graph_ensembles/sparse/models/ensembles.py: sample"]}
{"id": "C112", "title": "Fit of one parameter for all labels, then sampling, in double precision", "statement": "Computed without rounding, the model of the density fit of one parameter for all labels is that of the exact one. In IEEE 754 doubles, for fitnesses that are zero or between 2^-130 and 2^130 and a positive target that the pairs of vertices with a common label can reach, the fit of MultiFitnessModel and MultiInvariantModel does not raise, and the report is right: if it says converged, the exact mean number of pairs linked in at least one layer at the fitted parameter is the target T within (1 + 2^-50)(atol + rtol T) and a margin, and conversely an exact mean within the tolerance less these errors is reported as converged, unless the scale-invariant fit ends at infinity. The margin is 2^-50 N^2 T + 2^-48 (L + 1) N^2 (fitness) or 2^-50 (N^2 + 2 L + 36) T (scale invariant). The mean number of pairs linked in at least one layer of the samples drawn in doubles from the converged object is T within the same bound, 2^-49 times the mean number of links over all layers, and 2^-52 for each pair and layer.", "quantifier": "for all numbers of vertices with N^2 <= 2^50, numbers of labels up to 2^40, canonical tables of fitnesses, targets, tolerances (2^-900 <= atol <= T/8, 2^-50 N^2 <= rtol T, rtol <= 1/8), lists of starting points that are non-negative doubles or infinity, iteration limits, options for self-loops and random streams", "why_tests_cant": "The iterates of the solver depend on every rounding of the products over labels; the guarantee has to hold for every table and start, and the samples are over all random streams.", "anchors": ["src/graph_ensembles/sparse/models/fitness.py: fit", "src/graph_ensembles/sparse/models/fitness.py: density_fit_fun", "src/graph_ensembles/sparse/models/fitness.py: exp_edges_f_jac", "src/graph_ensembles/sparse/models/fitness.py: p_jac_ij", "src/graph_ensembles/sparse/models/invariant.py: p_jac_ij", "src/graph_ensembles/sparse/models/ensembles.py: _binary_sample_layer", "src/graph_ensembles/solver.py: monotonic_newton_solver"]}
{"id": "C113", "title": "Strengths and total weights in double precision", "statement": "In IEEE 754 doubles, whatever the order and bracketing of the additions in scipy and numpy, the out- and in-strengths of a DiGraph and the strengths of a Graph are the sums of the weights of the rows of the edge table that leave, enter or touch the vertex (a loop once, repeated edges included), with a relative error of at most 2^-52 for each such row; the total weight of a DiGraph has a relative error of at most 2^-52 n for a table of n rows, that of a Graph of 2^-51 (n + 1) and an absolute one of 2^-1074; the exact sums of the computed strengths of a DiGraph differ from its computed total weight by at most 2^-51 n times the weight. Integer weights with a sum of at most 2^52 give exact strengths and totals. Without rounding the model is that of C10. It is not true that the in-strengths added in doubles give the total weight.", "quantifier": "for all tables of up to 2^50 edges with positive doubles as weights and a sum of at most 2^1000, numbers of vertices, and orders of the additions for repeated edges, rows and columns, and whole arrays", "why_tests_cant": "The order of the additions depends on the library and the layout of the data; the bound has to hold for all orders and tables.", "anchors": ["src/graph_ensembles/sparse/graphs.py: total_weight", "src/graph_ensembles/sparse/graphs.py: strength", "src/graph_ensembles/sparse/graphs.py: out_strength", "src/graph_ensembles/sparse/graphs.py: in_strength", "src/graph_ensembles/sparse/graphs.py: adjacency_matrix", "src/graph_ensembles/sparse/graphs.py: __init__"]}
{"id": "C114", "title": "From an observed weighted graph to the samples of the fitted model in double precision", "statement": "The number of links read from a DiGraph is the number of different pairs in its edge table. In IEEE 754 doubles, if the strengths of the DiGraph are computed in any order and used for the Newton fit of the density to that number of links, and the fit reports convergence, the mean number of links of the samples is the number of observed links within the tolerance (a + rho T) (1 + 2^-50) plus 2^-49 (N^2 + 16) T + 2^-52 N^2. The computed out- and in-strengths always pass the check on their totals in the weighted sampler, which then does not raise, and the mean out- and in-strengths of the samples with self-loops are the sums of the weights of the rows that leave or enter the vertex, with a relative error of at most 2^-49 (n + N + 2) + 2^-51 / pi for a table of n rows.", "quantifier": "for all tables of up to 2^29 edges with doubles between 2^-100 and 2^100 as weights, both functional forms, orders of the additions within rows, columns and repeated edges, starting points and numbers of iterations; for the links N^2 at most 2^50, self-loops allowed or none in the table, rho at most 1/8, rho T at least 2^-50 N^2, a between 2^-900 and T / 8; for the strengths at least one edge, N at most 2^20, and any computed probabilities at most one that are at least pi (2^-40 or more), or zero where one of the two strengths is zero", "why_tests_cant": "Means over all samples, for all tables and orders of additions; the check on the totals compares two sums with different rounding errors.", "anchors": ["src/graph_ensembles/sparse/graphs.py: in_strength", "src/graph_ensembles/sparse/graphs.py: num_edges", "src/graph_ensembles/sparse/graphs.py: out_strength", "src/graph_ensembles/sparse/models/ensembles.py: _binary_sample", "src/graph_ensembles/sparse/models/ensembles.py: _cremb_sample", "src/graph_ensembles/sparse/models/fitness.py: __init__", "src/graph_ensembles/sparse/models/fitness.py: p_ij", "src/graph_ensembles/sparse/models/invariant.py: __init__", "src/graph_ensembles/sparse/models/invariant.py: p_ij"]}
{"id": "C115", "title": "Strengths by group in double precision", "statement": "In IEEE 754 doubles, the entry of a vertex and a group of out_strength_by_group, in_strength_by_group and strength_by_group is the sum of the weights of the rows of the edge table that leave the vertex for the group, enter it from the group, or touch it with the other end in the group (a loop once, in the vertex's own group; repeated edges included), with a relative error of at most 2^-52 for each such row. The out- or in-entries of a vertex for all groups, added exactly, differ from its computed out- or in-strength by at most 2^-51 n S, if n rows with total weight S leave or enter it. Without rounding the model is that of C11.", "quantifier": "for all tables of up to 2^50 edges with positive doubles as weights and a sum of at most 2^1000, numbers of vertices, assignments of vertices to groups, and orders of the additions for repeated edges and in the sums of rows and columns", "why_tests_cant": "The bound has to hold for all tables, groupings and orders of additions.", "anchors": ["src/graph_ensembles/sparse/graphs.py: sum_by_group", "src/graph_ensembles/sparse/graphs.py: strength_by_group", "src/graph_ensembles/sparse/graphs.py: out_strength_by_group", "src/graph_ensembles/sparse/graphs.py: in_strength_by_group", "src/graph_ensembles/sparse/graphs.py: out_strength", "src/graph_ensembles/sparse/graphs.py: in_strength"]}
{"id": "C116", "title": "Strengths of multigraphs in double precision", "statement": "In IEEE 754 doubles, the out- and in-strengths of a MultiDiGraph, computed from the sum of the matrices of its labels, are the sums of the weights of the rows of the edge table that leave or enter the vertex, of all labels, with a relative error of at most 2^-52 for each such row; the entries of out_strength_by_label and in_strength_by_label are those of the rows with the given label, with the same error. The strengths of a MultiGraph and the entries of strength_by_label are those of the rows that touch the vertex (a loop once), with the same error. Without rounding the model is that of the sparse graph classes.", "quantifier": "for all tables of up to 2^50 labelled edges with positive doubles as weights and a sum of at most 2^1000, numbers of vertices and labels (at least one), and orders of the additions for repeated edges and in the sums of rows and columns", "why_tests_cant": "The bound has to hold for all tables, labels and orders of additions.", "anchors": ["src/graph_ensembles/sparse/graphs.py: adjacency_matrix", "src/graph_ensembles/sparse/graphs.py: adjacency_tensor", "src/graph_ensembles/sparse/graphs.py: out_strength", "src/graph_ensembles/sparse/graphs.py: in_strength", "src/graph_ensembles/sparse/graphs.py: out_strength_by_label", "src/graph_ensembles/sparse/graphs.py: in_strength_by_label", "src/graph_ensembles/sparse/graphs.py: __init__", "src/graph_ensembles/sparse/graphs.py: strength", "src/graph_ensembles/sparse/graphs.py: strength_by_label"]}
