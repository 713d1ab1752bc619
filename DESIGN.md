# Design of the graph-ensembles model

Language: Rocq/Coq 8.16.1, sources in `rocq/theories`, build with
`coq_makefile -f _CoqProject -o Makefile && make -j4` in `rocq/`.

## How the code is modelled

* Every function of the code is a small total Gallina function over `list`, `nat`, `bool`, `R` and,
  for numbers that may be infinite, `num := Fin r | PInf | NInf | NaN` (`Num.v`).  `num` has the IEEE
  rules for infinities and NaN and exact arithmetic on finite values.  Outside the `Float*` files there is no rounding and no overflow of finite values.
* Python loops are `for_range`/`for_each`/`for_flow` loops over the same loop variables in the same
  order, with array writes as function updates.  Specifications are plain sums, products and sets.
* Exceptions are values: `res A := Ok a | Raise e` with the Python exception class in `e`.
* Random draws: a sampler is a tree `Draw p k` (one node per `rng.random() < p` test).  The tree is
  interpreted with a list of uniform draws (`run_draws`) and as a finite probability distribution in
  which the branch `true` has probability `p` (`prob`).  Exponential weights are represented by the
  scale given to the generator.
* Objects with cached attributes are state machines: a record with one `option` per attribute and one
  step function per method, which also returns the state left behind when an exception is raised.
* A property file contains only specification vocabulary, theorem statements, their proofs from the
  `*Facts`/`*Props` files, `Print Assumptions`, and beside each theorem an `Example` in which a concrete
  non-trivial case meets its hypotheses.
* Naming: `Cnn_x` is proved as stated in `properties.jsonl` (or one part of it), `Cnn_x_partial` proves
  less than the property (the comment above it has the full statement and what is missing),
  `Cnn_x_refuted` exhibits an input for which the property is false of the modelled code.

## Files (bottom up)

| files | code modelled |
|---|---|
| `Base` | `res`, loops, finite sums and products |
| `Num` | extended numbers with IEEE special values |
| `Spec` | link functions and products of non-negative extended numbers (specification only) |
| `Kernels`, `KernelFacts` | p_ij, logp, log1mp, p_jac of the single-label models; sparse, dense, spark |
| `MultiKernels`, `MultiFacts` | the two-pointer label walks and the dense label loops |
| `Prob` | sampler trees and their distributions |
| `Ensemble`, `EnsembleFacts`, `EnsembleProps` | exp_edges, exp_degrees, exp_av_nn_prop, _likelihood, samplers |
| `EnsembleState`, `StateFacts`, `StateProps` | cached expected measures and the self-loop switch of DiGraphEnsemble |
| `Models`, `ModelFacts` | the eight library models as instances of the generic code |
| `Solver`, `SolverFacts`, `SolverConcave`, `SolverFinite`, `SolverFlat` | `monotonic_newton_solver`, `Solution` |
| `Fit`, `FitFacts`, `FitModels`, `FitLib` | density fitting of all models |
| `Aggregate` | aggregation of the scale-invariant model |
| `Lib`, `LibFacts` | normalise_rows, propagate_measure, pagerank, trophic_depth |
| `Random`, `RandomFacts` | RandomDiGraph |
| `Ids`, `IdFacts` | identifier dictionaries, byte widths, group arrays |
| `Frames` | data frames of the caller, columns read and helper columns written by the constructors |
| `Graphs`, `GraphFacts` | sparse graphs and multigraphs and their measures |
| `DenseGraphs`, `DenseFacts` | the same of the dense module |
| `Warnings` | warnings about vertices without edges |
| `GraphState`, `GraphStateFacts` | cached graph measures |
| `Sampled` | the graph objects returned by `sample` |
| `Networkx` | conversion to networkx |
| `Layers`, `LayerFacts`, `LayerProps`, `LayerLib`, `LayerFit`, `FitStart` | label-resolved measures, layered likelihood and sampling, tuple conversions, per-label fit and the number type of its start |
| `FitState` | `fit` of the multi-label classes as a change of the object, with what is left when it raises |
| `Conditional`, `CondDist`, `CondFacts`, `CondModel`, `CondMeasures`, `CondPairs`, `CondLik`, `CondKernel`, `CondFit`, `CondProps` | ConditionalInvariantModel |
| `CondState` | objects of the conditional model: caches and inherited methods |
| `CondObject` | the graph argument of `log_likelihood` and the graph object returned by `sample` of the conditional model |
| `CondPipeline` | `ConditionalInvariantModel` called with two graphs of the library, and `fit` on the object it builds |
| `LibGraph` | `pagerank` called with the graph objects |
| `FloatLib` | `normalise_rows`, `propagate_measure` and `pagerank` with rounding |
| `Float` | rounding to binary64; kernels, `exp_edges`, `exp_degrees`, the out-in neighbour average and the block sampler of the conditional model with every operation rounded |
| `FloatSample` | `_likelihood` and `_cremb_sample` with every operation rounded; the values of the random generator |
| `FloatSolver` | `monotonic_newton_solver`, `Solution` and `exp_edges_f_jac` with every operation rounded |
| `FloatRandom` | `fit`, expected edges and degrees and `log_likelihood` of `RandomDiGraph` with every operation rounded |
| `FloatMulti` | kernels of `MultiFitnessModel` and `MultiInvariantModel`, of the projection and of a layer, with every operation rounded |
| `FloatMultiFacts` | lemmas about the rounded loops over labels |
| `FloatLayers` | expected links and log-likelihood of the layers of the multi-label models, with every operation rounded |
| `FloatLayerFit` | density fit of one parameter per label, with every operation rounded |
| `FloatSharedFit` | density fit of one parameter for all labels, with every operation rounded |
| `FloatGraphs` | strengths and total weights of a weighted graph, with every operation rounded and sums in any order |
| `FloatGroups` | strengths by group, with every operation rounded |
| `FloatMultiGraphs` | strengths of directed and undirected multigraphs, in total and by label, with every operation rounded |
| `FloatCond` | the conditional model (kernels, expectations, objective, log-likelihood, samplers) with every operation rounded |
| `Spark`, `SparkFacts`, `SparkMeasures`, `SparkConfusion`, `SparkLib` | block partitions, distributed measures, likelihood, sampling, confusion matrix |
| `SparkState`, `SparkStateFacts` | Spark objects: caches, options, histories of calls |
| `SparkMulti`, `SparkMultiFacts` | the multi-label classes of the Spark module: slices of compressed sparse rows, block functions, objects, confusion matrix |
| `RndState` | RandomDiGraph objects: cached neighbour degrees, sequences of calls, class of the Spark module |
| `NnTable`, `NnTableFacts` | neighbour averages of several properties at once (a table) and of boolean properties |
| `Construct`, `ConstructFacts` | the constructors |
| `SparkConstruct` | the constructors of the Spark classes: context, graph, number of blocks |
| `Pipeline` | what the models read from an observed graph, and the fit of the object built from it |
| `RandomPipeline` | what RandomDiGraph reads from an observed graph, the object built from it, and the matrix `log_likelihood` takes from a graph |
| `GraphArgs` | the graph argument of `log_likelihood` of the single-label classes of all modules; `log_likelihood` of RandomDiGraph on it |
| `Repeat` | repeated independent calls of a sampler; union bound and Chebyshev's inequality |
| `MultiPipeline` | the same for multi-label graphs: label vectors by vertex, counts by label, and the fit with one parameter or one per label |
| `MultiState`, `MultiStateFacts`, `MultiStateProps`, `MultiLik`, `MultiSample` | the multi-label objects: caches, graph arguments of log_likelihood, options and distribution of sample |
| `Prop*` | the property theorems |

## Properties: what is modelled and how it is proved

* C01, C03, C04 (`Ids`): `np.unique` as sort and dedup, dictionary as association list; bijection and
  order by induction on sorted lists; byte width by arithmetic.
* C02: constructor as a chain of guards returning `res`; equivalence by case analysis.
* C05–C15 (`Graphs`, `DenseGraphs`): COO list of `(row, col, weight)`; sparse sums duplicates, dense keeps
  the last write; measures as list and range sums; proofs by exchanging finite sums.
* C16, C17, C18: measures, caches and export; C17 by the invariant "every cached attribute equals
  recomputation", preserved by every query.
* C19–C22: loops over CSR rows; conservation by sum exchange; integer typed row normalisation refuted.
* C23–C27: solver as a loop with the remaining iterations as structural argument; invariants by
  induction; concavity gives monotone approach; convergence by a monotone bounded sequence argument.
* C28–C32, C51: case analysis on the kernels, elementary real analysis, `derivable_pt_lim`.
* C33–C35: induction on the two-pointer walk with the specification over all labels.
* C36–C43: loop = sum lemmas; induction on the list of pairs for sums over all graphs.
* C44–C46, C65: the object as a state machine, all histories by an invariant.
* C47, C48, C66, C67: closed forms of the Erdos-Renyi model against sums over all pairs and graphs.
* C49, C26, C25: solver theorems instantiated at every density objective.
* C50: product of exponentials over blocks.
* C52–C55: label layers.
* C56–C61, C68, C69: conditional model; the sampler tree against the conditional distribution.
* C62, C63, C70: partition of index ranges, counting, thresholds.
* C71, C72: multi-label objects as state machines extending that of C45; graph arguments as a sum type, each
  form reduced to the row lists read by the likelihood loops.
* C73: the three forms of the strengths are described by one relation (`strength_form`); the loop over the
  labels is a product of independent layer samplers.
* C74: the message as a value naming identifiers; zero row totals of the undirected view against the rows of the
  edge table.
* C75, C76: a sample as an object around the drawn links; its measures reduce to counts of links, whose means are
  sums over all graphs of the ensemble (C39, C45).
* C77: state machine of a conditional model object, invariant "caches are missing or current"; two links of
  one block or of two blocks under the conditional distribution (`CondPairs`).
* C78: the per-label loop with a typed store; reduction to the fit of C49, and for the other outcomes a comparison
  of the integer with the floating point loop.
* C79: frames as association lists; two frames that differ in helper columns only give the same object, which is the one
  of C01-C05.
* C80 (`CondFit`): each term (1-e^(-ta))/(1-e^(-tb)) is monotone by the mean value theorem, with ends a/b and 1; sums over
  blocks give the ends of the objective; the solver theorem of C23 gives totality.
* C81 (`SparkStateFacts`): both kinds of objects are instances of one state machine over the functions that compute
  the measures; a simulation relation (equal options, caches that agree on 0..N-1) is kept by every call.
* C82 (`NnTableFacts`): the columns of the accumulated table are those of C38; the final division is classified by the
  number of vertices with neighbours against the number of columns (numpy broadcasting).
* C83 (`PropRndState`): the cache invariant "every stored array is what a fresh computation gives" over all sequences of
  calls with one self-loop option and one parameter; all vertices are alike, so every average is the common degree.
* C84 (`SparkMultiFacts`): the slices of compressed rows hold the rows of the slice, so every distributed measure is that of
  C62 with rows as properties; histories by the machine of C81 and the label caches of C71 together.
* C85 (`PropFitState`): the arrays being filled are a fitted prefix followed by the start; the distributed objective equals the
  sequential one (C84, C62), so the convergence of C49 and C78 carries over.
* C64: constructors characterised by an "if and only if" over a specification of the accepted values.
* C86 (`PropSparkConstruct`): the Spark constructors accept exactly what the sparse ones accept after a context, with the
  same exceptions; the number of blocks is checked last; every object built satisfies the hypotheses of C62.
* C87 (`PropPipeline`): composition of the graph (C05, C07), constructor (C64) and fit (C40) models; the pairs that can be linked
  are counted, and the expected number of links is a continuous strictly increasing bijection onto the numbers below that count.
* C88 (`PropMultiPipeline`): the same for multi-label graphs (C13, C64, C85); each label of the fit is a fit of C87 to the graph of that
  label, and the fit with one parameter counts the pairs linked in some label.
* C89 (`PropLikelihood`): the log-likelihood of a graph as a function of the parameter, from C39; concavity of the logarithm gives a bound
  on its increments by the difference between observed and expected number of links.
* C90 (`PropRandomPipeline`): the adjacency matrix of a graph object is the list of its links (C07), so C89 applies to it; graphs the
  model does not fit give the refuted parts.
* C91 (`PropMultiLikelihood`): the adjacency tensor of a graph object is the list of links per label, the tables the object reads from it
  give the strengths of each label, so the tensor likelihood is a product to which C89 applies factor by factor.
* C92 (`PropGraphArgs`): each form of the argument stores exactly the links of the graph, so that the loops of C44 and C81 run over
  the same pairs; for RandomDiGraph only their number and the diagonal matter.
* C93 (`PropSampleLik`): the value is the logarithm of the probability of the drawn graph (C92); the graphs of probability at most
  exp(-x) are at most 2^M, so their total probability is at most 2^M exp(-x); the loop over calls by the union bound.
* C94 (`PropAverage`): Chebyshev's inequality for independent calls (`Repeat`); the links are independent, so the variance of a count
  is the sum of q (1 - q).
* C95 (`PropCondObject`): every form of the argument is reduced to its links (C92), the samplers of C56/C57 to one lemma for the
  three kinds of weights, and an outcome of a sampler has positive probability.
* C96 (`PropFloat`): the operations are parametrised by a rounding function; `C96_exact` and `C96_exact_block` say that without
  rounding they are the definitions of the exact model, the other theorems instantiate it with binary64 (`b64`, characterised
  by `C96_rounding`). `FloatFacts` has monotonicity, the fixed points and an evaluation lemma for concrete values.
* C97 (`PropFloatSample`): the terms of the log-likelihood are bounded by -2048 wherever the sampler can draw the pair as it is
  (C96), so that sums of at most 2^53 terms stay finite; the draws of the generator are the multiples of 2^-53.
* C98 (`PropFloatSolver`): `FloatSolverFacts` shows by relative error bounds that a rounded secant point stays in the bracket
  when the objective varies by at most 2^50 times the tolerance; the convergence flag is exact because the difference of two
  doubles within a factor of two is computed exactly. The condition on the target admits densities from 2^-20 on at the default
  tolerance 1e-9.
* C99 (`PropFloatRandom`): relative error bounds as for C98; `2 p - p^2` stays below 1 because the rounded square is at least
  the double 2 p - 1.
* C100 (`PropFloatMulti`): the loop over common labels is a loop over all labels (`walk_dense`); its invariant carries the
  error of the running product or sum. `1 - exp(-s)` keeps a relative error of s because it is concave. The fits follow from
  `fit_generic` of C98 once the kernels satisfy `kernel_ok`.
* C101 (`PropFloatLayers`): the layer kernels are the single-label ones (C100_layers), so each term of the sum is in
  [-2048, 0] or -inf (`link_term` of C97). A drawn link has positive probability and a link not drawn probability below 1,
  which excludes -inf; an invariant counts the terms added. The projected terms are bounded through the labels of the pair.
* C102 (`PropFloatCond`): rounding is monotone, so the sum of a group is not below any of its fitnesses and a quotient of a smaller by a
  larger double stays in [0,1]; an invariant counts the pairs added. A product of three numbers not below 2^-300 does not underflow, which
  leaves the block probability positive. The samplers are followed draw by draw; 0 divided by anything gives the chance 0. The weights use
  the relative error of each rounded operation in the range where it does not underflow.
* C103 (`PropCondPipeline`): both constructors enumerate sorted distinct names, so equal sets of names get equal positions; the rows of the
  macro graph are the sorted non-zero entries of its matrix. Every observed link is then between linked groups (C95 gives the likelihood),
  every linked pair of groups has an observed link, hence positive strengths at both ends, which gives the possible set of C57 and rules out
  the divisions by zero. The fit is C61 on the object.
* C104 (`PropRank`): the damped step contracts the sum of the absolute differences by alpha, the step of the depths contracts the largest
  difference by c; an orbit of a contraction has a limit, the unique fixed point (`RankFacts`). The adjacency matrix gives the rows (C08, `GraphFacts`).
* C105 (`PropFloatRank`): a product or quotient has a relative error of 2^-53 and an absolute one of 2^-1074, a sum of doubles only the
  former; n sums from left to right have a relative error of 2 n 2^-53. So an iteration differs from the exact one by 32 N 2^-53 in total
  (`FloatRankFacts`), and the contraction of C104 keeps the accumulated error below that divided by 1 - alpha.
* C106 (`PropFloatAccuracy`): a product of a parameter and three bounded data either is computed with a relative error of 8 2^-53 or
  both it and the computed product exceed 2^610, where the probability is 1 within 2^-600 (`tracked`, in `FloatAccuracy`). The error
  bounds of C105 for sums give those of expected values, and those at the returned parameter give the claim on the fit.
* C107 (`PropFloatLik`): by C106 a computed probability has a small relative error, so its logarithm has a small absolute one; the
  relative error of one minus it is larger by the product of parameter and data. The loop is followed with the exact probability of the
  part of the graph read so far.
* C108 (`PropFloatDraws`): averages over the 2^53 values of `rng.random()` replace the exact ones, so a test of probability p becomes a
  test of probability p rounded up to a multiple of 2^-53 (C97_draw). The distance of two products of such tests is at most the sum of
  the distances of the factors (C106). For weights the error of the probability cancels between the test and the scale.
* C109 (`PropFloatLayerAccuracy`): a pair without a stored fitness would add 0 to a sum of doubles, which changes nothing, so the loops
  over stored entries equal the loops over all pairs (C109_same) and C106, C107 and C108 apply to each layer. The sum of the layers'
  log-likelihoods is bounded as in C107; distances of independent layers add.
* C110 (`PropFloatLayerFit`): the objective of a label is that of a single-label model (`jac_same`, the argument of C109_same), so C106_fit
  and C108_fit apply to each label; a function of one layer has the same mean over all layers as over that layer (`tensor_margin`).
* C111 (`PropFloatProjection`): the mean number of pairs linked in some layer is the sum of 1 minus the products over the labels
  (`union_mean`); C100_error bounds each term in doubles, and the products of two families in [0, 1] differ by at most the sum of the
  differences (`prodn_gap`).
* C112 (`PropFloatSharedFit`): for every finite parameter, however large, a factor 1 / (1 + d x y) of the objective has an absolute error of
  2^-51 (`shared_tmp`), and the product d s of the scale-invariant model is followed as in C106; the solver is that of C100_fit. At infinity
  both objectives count pairs (`mfit_kernel`, `minv_kernel`).
* C113 (`PropFloatGraphs`): `summed` says that a number results from adding the weights of some rows in some order; nested sums are again
  such sums (`total_summed`), so splitting the table by a key is all that is needed. Sums of doubles have no error from underflow, and
  (a + a) - a on the diagonal is exact.
* C114 (`PropFloatPipeline`): C113 shows that the strengths of an observed graph are zero or of moderate size (`part_moderate`) and that
  their totals are equal up to 2^-50 n; C108 then applies. Each observed link is a connectable pair, so the target can be reached.
* C115 (`PropFloatGroups`): the dictionary of `sum_by_group` holds, for each group, a sum in the sense of C113 over the keys of the row in
  that group (`gcnt_summed`).
* C116 (`PropFloatMultiGraphs`): `table_of` says that the entries of a matrix are sums over the rows of a table; adding two such matrices
  joins their tables (`add_table`).

## Findings (properties false of the code, each with a `_refuted` theorem)

| theorem | finding |
|---|---|
| `C02_unknown_refuted` | if every source (or every destination) of the edge table is unknown, TypeError instead of the documented error |
| `C06_refuted` | dense graphs keep the last of several parallel edges instead of their sum |
| `C07_undirected_refuted`, `C08_unweighted_refuted` | the weighted undirected view of an unweighted sparse graph loses self-loops |
| `C08_directed_view_refuted`, `C08_dense_directed_view_refuted` | undirected graphs ignore `directed=True` |
| `C10_dense_multi_refuted`, `C13_dense_refuted`, `C15_refuted` | dense undirected multigraphs count self-loop weights twice |
| `C12_refuted` | dense by-group strengths are truncated to integers |
| `C13_unweighted_refuted` | label strengths of unweighted multigraphs do not add up to the plain ones |
| `C16_selfloop_refuted`, `C16_dense_in_refuted` | neighbour averages with `selfloops=False` keep the self-loop in the divisor (dense, incoming: also in the sum) |
| `C17_selfloops_refuted`, `C17_name_refuted` | the cache of nearest-neighbour degrees ignores `selfloops`, and accepts "out_in" once "out-in" was asked for |
| `C18_*_refuted` | networkx export: undirected multigraphs lose one of two orientations of a label; unweighted graphs lose self-loops |
| `C19_*_refuted`, `C20_*_refuted`, `C22_*_refuted` | integer weights are truncated when rows are normalised; pagerank and trophic_depth fail with `max_iter=0`; trophic_depth uses `.A1`, which sparse arrays do not have; isolated vertices get depth 0 |
| `C23_refuted` | without a root inside the bounds the secant fallback leaves the bracket |
| `C26_exact_start_refuted`, `C27_exact_refuted` | a start exactly on the root with `atol=0` raises AssertionError |
| `C35_multi_invariant_infinite_refuted` | at infinite parameter the objective of MultiInvariantModel gives 1 to pairs without common label |
| `C38_stale_dyad_refuted` | the self-loop pass of exp_av_nn_prop uses a stale loop index for the dyadic factor |
| `C38_random_selfloop_refuted` | RandomDiGraph counts the vertex itself with probability 2p-p^2 in out-in neighbour averages |
| `C40_selfloop_refuted`, `C54_diagonal_refuted` | likelihoods ignore forbidden self-loops of the graph |
| `C44_*_refuted`, `C55_selfloops_refuted` | the `selfloops` argument of log_likelihood and sample is ignored |
| `C45_stale_refuted` | cached measures survive a change of parameter |
| `C46_unchanged_refuted` | an unknown direction string leaves the self-loop option changed |
| `C47_*_refuted`, `C48_*_refuted` | RandomDiGraph: ZeroDivisionError for a single vertex, parameters above one, wrong likelihoods at p=0 and p=1 |
| `C50_no_selfloop_refuted` | aggregation within a block needs self-loops |
| `C52_no_rows_refuted` | an empty list of tuples cannot be converted back |
| `C53_degrees_refuted`, `C53_spark_degrees_refuted`, `C53_dense_edges_refuted` | degrees by label count pairs twice when two vertices have both fitnesses; the dense edges by label use the number of vertices as the number of labels |
| `C55_cremb_refuted` | the layered weighted sampler fails when only one strength of a pair is stored |
| `C56_*_refuted`, `C59_asymmetric_refuted`, `C60_zero_strength_refuted`, `C61_*_refuted`, `C68_undirected_refuted` | conditional model: single-vertex groups, zero parameter, asymmetric aggregate graphs, zero strengths, compatible graphs that raise, ignored self-loops |
| `C62_dyadic_refuted`, `C63_stored_zero_refuted`, `C70_*_refuted` | Spark: dyadic property at block-relative indices, stored zeros counted as links, thresholds computed with ln and base ten |
| `C64_*_refuted` | constructors: negative or textual num_edges accepted by MultiFitnessModel next to num_edges_label, per-label num_edges does not override the graph, list parameters, probabilities above one, groups of the wrong length |
| `C65_history_refuted` | the cache of expected nearest-neighbour degrees ignores the self-loop option |
| `C67_*_refuted` | RandomDiGraph: no weighted sample and no expected total weight is ever returned |
| `C71_*_refuted` | multi-label objects: stale values after a second fit; Spark: the total number of edges after the one by label raises AttributeError, recompute of out/in degrees by label has no effect, IndexError without admissible pairs |
| `C72_*_refuted` | multi-label log_likelihood: layers of the wrong shape raise AttributeError, dense module fails on lists of sparse layers, stored zeros count as links |
| `C73_*_refuted` | multi-label sample: CReMB weights in the dense module raise AttributeError; one label without strengths makes the whole weighted sample fail |
| `C75_*_refuted` | sampled graphs: a reference graph with another number of vertices is accepted, the attribute `weighted` is missing (RandomDiGraph of a sample raises AttributeError), Spark samples hold a `csr_matrix` and cannot average over neighbours |
| `C76_mean_refuted` | expected neighbour averages are ratios of means, not means of the averages |
| `C77_*_refuted` | conditional model: the inherited neighbour average divides unconditional sums by conditional degrees; it raises for a vertex of an isolated group and then leaves the object with the other self-loop option |
| `C95_*_refuted` | conditional model objects: the argument `selfloops` of `sample` is ignored; matrix weights that cancel within a block hide its links; stored zeros count as links but not in the aggregate, and the log-likelihood can be positive; with zero strengths a sample is impossible under the model that drew it |
| `C96_log1mp_refuted` | fitness model in doubles: from a product of 2^54 on `log1mp` is -inf, so graphs without this link are impossible although the exact log-probability is about -37 |
| `C96_monotone_refuted` | fitness model in doubles: a larger fitness gives a smaller probability (1 for 2^53, less for 2^53 + 2) |
| `C96_always_drawn_refuted` | scale-invariant model in doubles: a link with computed probability 1, which the sampler always draws, has a finite `log1mp` |
| `C96_fit_probability_refuted` | `p_jac_ij` multiplies in another order than `p_ij`: for fitnesses 2^515 and parameter 2^-1030 the fit sees probability 1 with derivative 0 where the model has 1/2 |
| `C96_neighbours_refuted` | the out-in neighbour average cancels: for links of probability 2^-60 the average of the property 1 is 0 while the degree is positive |
| `C96_block_refuted`, `C96_block_error_refuted` | conditional sampler with links of probability 2^-54: no link may be drawn for a link of the aggregate graph; with 2^-56 it may raise ZeroDivisionError |
| `C97_rare_refuted` | samplers: every link with positive computed probability is drawn with probability at least 2^-53, however much smaller its probability is (2^-1000 in the example) |
| `C97_scale_refuted` | weighted sampler: `s_tot * p` can underflow for a drawn link, then ZeroDivisionError is raised |
| `C98_bracket_refuted` | solver in doubles: for an increasing objective of large range the secant point is rounded out of the bracket and the run stops with AssertionError ("does not respect the expected monotonicity"); the exact run succeeds |
| `C98_from_below_refuted` | solver in doubles: Newton's iterates for a concave objective can pass the root (5 x = 1 from 0), unlike C25 |
| `C99_edges_refuted` | `RandomDiGraph` in doubles: the expected number of edges of the fitted model is not the number of edges (one edge, seven vertices, self-loops: below 1) |
| `C100_projection_refuted` | `MultiFitnessModel` in doubles: a link with probability 2^-60 in its layer has probability 0 and log-probability -inf in the projection, because `1 - prod` cancels |
| `C100_objective_refuted` | `MultiInvariantModel` in doubles: the sum of the products of fitnesses can overflow; the objective of the fit is then NaN at its starting value 0, and its derivative NaN at 1, where `p_ij` is 0 and 1 |
| `C101_projection_refuted` | `MultiFitnessModel` in doubles: a sample with a finite log-likelihood as a multi-label graph can have log-likelihood -inf when the union of its layers is passed, for the reason of C100_projection_refuted |
| `C102_diagonal_refuted` | `ConditionalInvariantModel` without self-loops in doubles, a group linked to itself: the factor 1 - diag/(X Y) cancels when one vertex has most of the fitness. With in-fitnesses 1 and 5*2^-54 the expected number of links is 5/4 - 2^-52 although one link is possible (and certain); with 1 and 2^-54 it is 0 |
| `C102_underflow_refuted` | fitnesses of 2^-600: expected links, objective of the fit and sampler raise ZeroDivisionError, and the log-likelihood is NaN, for a graph that is certain given the aggregates |
| `C102_wagg_refuted` | strengths of 2^-600 (2^600): the weighted sampler raises ZeroDivisionError (gives the weight NaN); exactly, the weight is that of the aggregate link |
| `C103_names_refuted` | groups and macro vertices are matched by position, never by name: a macro graph with names that correspond one to one to the groups but sort differently is accepted, and the observed graph then has log-likelihood -inf for every parameter |
| `C103_loop_refuted` | a vertex alone in its group with a self-loop, `selfloops` left at its default: accepted, and the samples never link the group to itself, although the macro graph does |
| `C103_sink_refuted` | without self-loops, a group that has no out-links (or no in-links) in the observed data: `log_likelihood` of the observed graph raises ZeroDivisionError although its probability is positive (`_agg_likelihood` divides by the product of the two sums of the group) |
| `C104_undamped_refuted` | `alpha = 1` on a star: the ranks go back and forth for ever, whatever `max_iter` |
| `C104_unweighted_refuted` | `pagerank` of a graph built without weights, with `weighted` true or false: the row fractions are stored in a boolean matrix and the ranks do not sum to one |
| `C105_overflow_refuted` | `pagerank` when the weights of a vertex are finite but their sum overflows: its links get weight zero and the ranks do not sum to one |
| `C106_underflow_refuted` | `p_ij` of the fitness and scale-invariant models with parameter and one fitness 2^-600, the others 2^600: the computed probability is 0, exactly it is 1/2 (1 - 1/e) |
| `C107_saturated_refuted` | log-likelihood of the fitness model when products reach 2^54: minus infinity for the empty graph on two vertices of fitness 2^27, whose exact log-probability is above -110 |
| `C113_total_refuted` | strengths in doubles: `in_strength().sum()` is not `total_weight()` (1 + 2^-52 against 1, for a weight 1 and four weights 2^-54 out of different vertices into one), a rounding effect within the bound of C113_directed |
| `C78_integer_refuted` | the per-label fit stores its results in a copy of `x0`: an integer start rounds the parameters down while convergence is reported |
| `C79_*_refuted` | constructors write helper columns into the caller's frames; columns with the helper names are overwritten before they are read (all links become self-loops, weights become label numbers) |
| `C80_below_solution_refuted` | the conditional objective is not concave: Newton from zero passes the solution |
| `C81_history_refuted`, `C81_single_vertex_refuted` | Spark objects share the cache defect of C65; with one vertex and self-loops only they answer |
| `C82_error_refuted`, `C82_wrong_refuted`, `C82_dense_refuted`, `C82_random_refuted` | neighbour averages of a table: ValueError unless one vertex has neighbours, and the self-loop option stays changed; with as many columns as vertices with neighbours the divisors are those of other vertices; RandomDiGraph adds the columns up |
| `C82_boolean_refuted` | dense unweighted graphs average a boolean property with a logical product: 1/degree instead of the fraction |
| `C83_either_refuted`, `C83_history_refuted`, `C83_refit_refuted` | RandomDiGraph: neighbour degrees along either direction count the vertex itself with probability 2p-p^2; the cached array is returned after a change of self-loop option or parameter |
| `C83_default_refuted` | Spark RandomDiGraph: all automatic thresholds of the confusion matrix are p^(ln 10) < p, so at each one every pair is predicted to be a link |
| `C84_thresholds_refuted`, `C84_first_label_refuted` | Spark multi-label models: the automatic thresholds of the confusion matrix use the parameter of the first label only and the scale-invariant formula; they miss the range of the probabilities, and the call fails when that parameter is zero |
| `C84_history_refuted` | Spark multi-label models: after the links by label have been asked for, the expected number of links is an AttributeError |
| `C85_atomic_refuted` | a fit per label that raises is not undone: sparse and dense objects keep the labels fitted so far and the start for the others, Spark objects the start; an unfitted object then counts as fitted |
| `C86_smaller_refuted` | a Spark object with one vertex has two blocks, although the code sets out to keep fewer blocks than vertices; a request of one block is replaced by two below ten vertices |
| `C87_saturated_refuted` | a graph that links every pair its strengths allow (a single link) has no model with its number of links: every finite parameter gives fewer |
| `C87_selfloops_refuted` | the number of edges read from a graph counts its self-loops, which the default model cannot have: the fit of a graph with one self-loop never converges |
| `C88_labels_refuted` | fitting every label by itself, the default, does not fit the number of linked pairs: with parameters exact for every label the expected number is short of the observed one |
| `C89_invariant_refuted` | for ScaleInvariantModel the parameter that reproduces the number of links is not the one of maximal likelihood |
| `C90_above_one_refuted` | RandomDiGraph counts the self-loops of the graph it is built from although it has none by default: the fitted probability can exceed 1, and `log_likelihood` then raises ValueError for every graph |
| `C90_own_refuted` | a graph with all admissible links has log-likelihood minus infinity under the model fitted to it, where its probability is 1; one without links raises ValueError |
| `C90_undirected_refuted` | RandomDiGraph accepts undirected graphs and counts their edges once among ordered pairs: expected degrees are too low, and `log_likelihood` of the graph is not maximal at the fitted probability |
| `C91_shared_refuted` | with one parameter for all labels the projected model that gives the observed number of linked pairs on average is not the one of maximal likelihood |
| `C92_selfloops_refuted` | `log_likelihood` of the dense DiGraphEnsemble computes the option `selfloops` and then ignores it |
| `C92_matrix_refuted` | `log_likelihood` of the dense RandomDiGraph returns minus infinity for every `csr_matrix` with a link when self-loops are excluded: the slice meant for the diagonal takes all entries of the `np.matrix` |
| `C92_cancel_refuted` | `log_likelihood` of the sparse and Spark RandomDiGraph tests the sum of the diagonal: self-loops with negative or cancelling weights pass unnoticed |
| `C92_zeros_refuted` | stored zeros of a sparse matrix count as links in `log_likelihood` |

## Simplifications

Stated at each definition; the main ones:

* Numbers: exact reals, no rounding, no overflow, except in the `Float*` files (C96-C102, C105-C116), where every operation is rounded to binary64, the
  functions exp, expm1, log and log1p are taken to be correctly rounded and zero is unsigned.  Divisions follow numpy or numba (Python) semantics
  according to the code around them.  `max_iter` is a natural number.
  Sums over arrays in the `Float*` files go from left to right, except in `FloatGraphs`, `FloatGroups` (repeated edges) and `FloatMultiGraphs`, where the order is arbitrary.
* Tables are lists of rows; identifiers have a decidable total order; fewer than 2^64 rows.  Empty edge
  tables have numeric columns.  scipy boolean subtraction gives 0 for 1-1.
* numba's unchecked array bounds are modelled as IndexError; index dtypes are not modelled beyond C03.
* networkx, pandas, scipy and numpy are modelled by their documented results (`np.unique`, CSR duplicate
  summation, `ravel`, `tocsc`, `MultiGraph.add_edge` keyed by label).
* Caches are keyed by attribute-name strings built as in the code.
* `lib.py`: conversion of floats to bool is a parameter, conversion to integers truncates.
* `multi_fit`: floating point `x0` (other starts in `FitStart`).  `fit_per_label`: conversions are done before the argument checks.
* Conditional model: finite non-negative fitnesses, binary graphs in log_likelihood, the objective is
  evaluated once before the checks of the fit.
* Spark: an RDD is a list, `fold` follows PySpark (the zero value is used once per partition), workers have
  independent random streams, `p_blocks` is an integer.
* Tables of properties (C82): float arrays; Spark RandomDiGraph and the multi-label classes are left out.
* `read_multidigraph`, `fit_multi_object`: as `read_digraph` and `fit_object` below; the number of edges of a label is an array or absent.
* `read_graph`: as `read_digraph` below.  `random_object`: numbers that are absent or finite, no parameter, boolean options.
* `read_matrix`: a numpy array without two dimensions is a ValueError; a graph object has cached nothing.
* `read_digraph`: the graph has cached nothing.  `fit_object`: boolean self-loop option, number of edges absent or a number.
* Constructors: list elements are scalars, object arrays hold no numbers, sparse matrices are numeric,
  their warnings are not modelled, no aliasing between the object and its arguments.

## Not modelled

numba typing and compilation, Spark scheduling and serialisation, printing, warnings other than those of C74, saving of
solutions, plotting, `__init__`/typing helpers, and the parts of `spark/models.py` that repeat the sparse
module textually.

## Trusted base

* The Coq 8.16.1 kernel and its standard library.  The development uses no other library's axioms and
  declares none of its own.
* `Print Assumptions`, printed in the property files after each theorem, lists for every property theorem a
  subset of these four axioms of the standard library:
  - `FunctionalExtensionality.functional_extensionality_dep`
  - `ClassicalDedekindReals.sig_forall_dec`
  - `ClassicalDedekindReals.sig_not_dec`
  - `Classical_Prop.classic`

  Most theorems use all four (through the real numbers and real analysis).  Exceptions: most theorems about
  graphs, tables and most of the Erdos-Renyi model use only the first two; C52 uses only `sig_forall_dec`;
  `C01_names` and `C62_blocks` are closed under the global context.
* The model itself: the correspondence between Python and Gallina is by reading; each definition cites the
  lines it models.  `seeded/LOG.jsonl` records the wrong programs against which the theorems were tested.
