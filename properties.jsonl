{"id": "C01", "title": "IDs are dense, first-come, stable and two-way", "statement": "After any sequence of get_id calls on an IDMapping, the mapping holds exactly the inserted labels, numbered 0..n-1 in order of first insertion; asking again returns the same number and changes nothing; inverse[id] gives the label back; get_id(label, insert=False) on an absent label raises KeyError and changes nothing.", "quantifier": "every sequence of get_id calls, labels of any hashable type", "why_tests_cant": "unbounded call histories and label types", "anchors": ["truthdiscovery/input/dataset.py:IDMapping.get_id"]}
{"id": "C02", "title": "Repeated (source, variable) claims are rejected exactly, or resolved to the first", "statement": "Dataset(triples) raises the multiple-claims ValueError iff two triples share the same (source, variable), even with equal values, and the error names the pair of the earliest offending triple. With allow_multiple=True that error is never raised and the dataset is the one built from the first triple of every (source, variable) pair.", "quantifier": "every list of triples", "why_tests_cant": "all lengths/positions of the duplicate", "anchors": ["truthdiscovery/input/dataset.py:Dataset.__init__"]}
{"id": "C03", "title": "Source-claim matrix is exactly the claim relation", "statement": "data.sc has shape (num_sources, num_claims) and entry (i,j) is 1 iff source i's first triple for the variable of claim j gives the value of claim j, otherwise 0 (never 2 or more).", "quantifier": "every accepted list of triples, every (i,j)", "why_tests_cant": "must hold for every input; csr_matrix sums duplicate coordinates, so a missed duplicate would silently give 2", "anchors": ["truthdiscovery/input/dataset.py:Dataset.__init__"]}
{"id": "C04", "title": "Mutual-exclusion matrix is 'same variable'", "statement": "data.mut_ex entry (i,j) is 1 iff claims i and j are about the same variable (including i=j), otherwise 0; hence it is an equivalence relation on claims.", "quantifier": "every accepted list of triples, every (i,j)", "why_tests_cant": "every input", "anchors": ["truthdiscovery/input/dataset.py:Dataset.__init__"]}
{"id": "C05", "title": "Implication matrix is exactly the user's function on distinct claims of one variable", "statement": "With an implication function f, construction raises ValueError iff f(var,v1,v2) compares < -1 or > 1 for some two distinct claims of one variable; otherwise imp[i][j] is f(var,v1,v2) when claims i != j share a variable and f is not None there, and 0 elsewhere (no implication function: all zero).", "quantifier": "every accepted list of triples, every implication function", "why_tests_cant": "functions and inputs are unbounded", "anchors": ["truthdiscovery/input/dataset.py:Dataset.__init__"]}
{"id": "C06", "title": "Counts and non-degeneracy of a dataset", "statement": "num_sources / num_variables / num_claims are the numbers of distinct sources, variables and (variable, used value) pairs; every source makes at least one claim and at most one per variable, every claim has at least one source, every variable at least one claim.", "quantifier": "every accepted list of triples", "why_tests_cant": "every input; algorithms divide by these counts", "anchors": ["truthdiscovery/input/dataset.py:Dataset.__init__"]}
{"id": "C07", "title": "Score vectors are reported under the right labels", "statement": "get_source_trust_dict has exactly the source labels as keys and maps each to its entry of the vector; get_belief_dict has exactly the variables as keys, under each exactly the claimed values, each mapped to the entry of its claim; nothing is lost or overwritten.", "quantifier": "every dataset, every vector of matching length", "why_tests_cant": "every input; overwriting needs colliding labels", "anchors": ["truthdiscovery/input/dataset.py:Dataset.get_belief_dict", "truthdiscovery/input/dataset.py:Dataset.get_source_trust_dict"]}
{"id": "C08", "title": "num_connected_components against the connected components", "statement": "num_connected_components() always returns a number, never smaller than the number of connected components of the source/claim/variable graph, and equal to it if and only if no source makes claims about variables of two components formed by earlier sources alone. (So the documented equality is false: a witness dataset with one component for which 2 is returned is part of the proof.)", "quantifier": "every dataset", "why_tests_cant": "every graph shape and source order", "anchors": ["truthdiscovery/input/dataset.py:Dataset.num_connected_components"]}
{"id": "C09", "title": "Matrix datasets mean what the matrix says", "statement": "MatrixDataset never raises the multiple-claims error; source i claims variable j = v iff cell (i,j) is unmasked and holds v; fully masked rows/columns are absent.", "quantifier": "every rectangular matrix with masks", "why_tests_cant": "every shape/mask", "anchors": ["truthdiscovery/input/matrix_dataset.py:MatrixDataset.get_triples"]}
{"id": "C10", "title": "CSV acceptance", "statement": "from_csv accepts a text iff all lines of the stripped text have the same number of comma-separated cells and each non-blank cell (after stripping) parses as a float; the resulting cell is masked iff blank or NaN; otherwise ValueError, naming expected width, 1-based row and found width for the first ragged line reached before any unparsable cell.", "quantifier": "every input text", "why_tests_cant": "unbounded texts", "anchors": ["truthdiscovery/input/matrix_dataset.py:csv_to_masked_array", "truthdiscovery/input/matrix_dataset.py:MatrixDataset.from_csv"]}
{"id": "C11", "title": "CSV export/import round trip", "statement": "from_csv(to_csv(m)) gives back the same cells and mask, for every non-empty matrix with at least two columns, and for single-column matrices iff the first and last rows are unmasked (or there is just one row): otherwise leading/trailing masked rows of a single-column matrix are lost.", "quantifier": "every non-empty rectangular masked matrix", "why_tests_cant": "all shapes/masks; the failing family is easy to miss", "anchors": ["truthdiscovery/input/matrix_dataset.py:MatrixDataset.to_csv", "truthdiscovery/input/matrix_dataset.py:csv_to_masked_array"]}
{"id": "C12", "title": "Supervised CSV", "statement": "SupervisedData.from_csv uses the first row as known true values (masked cells unknown) and the remaining rows, renumbered from 0, as the dataset.", "quantifier": "every accepted CSV matrix with at least one row", "why_tests_cant": "every shape/mask", "anchors": ["truthdiscovery/input/supervised_data.py:SupervisedData.from_csv"]}
{"id": "C13", "title": "Accuracy", "statement": "get_accuracy, for every outcome of the random tie-break, is correct/total where total counts known variables with more than one claimed value in the results and correct is between the number of those whose only most-believed value is the true one and the number of those whose most-believed values include it; it lies in [0,1], is deterministic without ties, and raises ValueError iff no true values are known or total is 0.", "quantifier": "every result, every true-value table, every tie-break outcome", "why_tests_cant": "random outcomes and inputs unbounded", "anchors": ["truthdiscovery/input/supervised_data.py:SupervisedData.get_accuracy"]}
{"id": "C14", "title": "Synthetic data parameter checks", "statement": "SyntheticData raises ValueError for every invalid parameter combination (empty or non 1-d trust, a trust that is NaN or outside [0,1], a claim_probability that is <= 0 or > 1 (NaN slips through), domain_size <= 1, num_variables <= 0), and accepts every other one for every random outcome; the probability list handed to the sampler always has entries in [0,1] summing to 1.", "quantifier": "every parameter combination and every random outcome", "why_tests_cant": "random outcomes cannot be enumerated", "anchors": ["truthdiscovery/input/synthetic_data.py:SyntheticData.__init__", "truthdiscovery/input/synthetic_data.py:SyntheticData.generate_claim"]}
{"id": "C15", "title": "Synthetic data is complete and in-domain", "statement": "For every outcome of the random generator, every source makes at least one claim, every variable gets at least one claim, all claims and true values lie in 0..domain_size-1, all true values are known; a source with trust 1 only makes true claims and one with trust 0 only false ones.", "quantifier": "every valid parameter choice and every random outcome", "why_tests_cant": "branches that repair empty rows/columns are random (marked no cover in the code)", "anchors": ["truthdiscovery/input/synthetic_data.py:SyntheticData.__init__"]}
{"id": "C16", "title": "Synthetic CSV round trip", "statement": "SupervisedData.from_csv(synth.to_csv()) gives the same true values and the same source/variable matrix as synth.", "quantifier": "every generated synthetic data set (all random outcomes)", "why_tests_cant": "random", "anchors": ["truthdiscovery/input/synthetic_data.py:SyntheticData.to_csv", "truthdiscovery/input/supervised_data.py:SupervisedData.from_csv"]}
{"id": "C17", "title": "Most believed values are the argmax", "statement": "get_most_believed_values(var) yields exactly the values whose belief is maximal for var, each once, at least one, in order of first appearance; unknown variable raises KeyError.", "quantifier": "every result with comparable (non-NaN) beliefs", "why_tests_cant": "every dict and tie pattern", "anchors": ["truthdiscovery/output/result.py:Result.get_most_believed_values"]}
{"id": "C18", "title": "Filtering results", "statement": "filter(sources, variables) keeps exactly the requested scores that exist, with unchanged values, time and iterations; None keeps everything; unknown or repeated labels are ignored; filtering is idempotent and source/variable filters commute.", "quantifier": "every result and filter iterables", "why_tests_cant": "every input", "anchors": ["truthdiscovery/output/result.py:Result.filter", "truthdiscovery/utils/__init__.py:filter_dict"]}
{"id": "C19", "title": "Result differences", "statement": "ResultDiff(r1,r2) has exactly the common sources and the common (variable,value) pairs (variables without a common value omitted) mapped to r2-r1; iterations is None iff either is None; swapping arguments negates; a result diffed with itself is all zero.", "quantifier": "every pair of results (finite scores)", "why_tests_cant": "every pair of key sets", "anchors": ["truthdiscovery/output/diff.py:ResultDiff.__init__"]}
{"id": "C20", "title": "Score statistics", "statement": "get_trust_stats returns (mean, population standard deviation): the mean is between the smallest and largest score, the deviation is >= 0, and 0 iff all scores are equal; get_belief_stats does this per variable.", "quantifier": "every non-empty table of finite scores", "why_tests_cant": "every table", "anchors": ["truthdiscovery/output/result.py:Result._get_stats"]}
{"id": "C21", "title": "Fixed iteration", "statement": "A loop driven by FixedIterator(n) performs exactly n comparisons whatever is compared (n=0: none; default 20), also after reset(); a negative limit raises ValueError.", "quantifier": "every n, every sequence of compared vectors", "why_tests_cant": "unbounded n and data", "anchors": ["truthdiscovery/utils/iterator.py:FixedIterator"]}
{"id": "C22", "title": "Iteration until convergence", "statement": "A loop driven by ConvergenceIterator(measure, threshold, limit) stops after the first comparison whose distance is < threshold if that is among the first limit comparisons, and otherwise raises ConvergenceError after exactly limit comparisons; it never exceeds limit, also after reset().", "quantifier": "every measure, threshold, limit and sequence of compared vectors", "why_tests_cant": "unbounded sequences", "anchors": ["truthdiscovery/utils/iterator.py:ConvergenceIterator"]}
{"id": "C23", "title": "Distance measures", "statement": "L1, L2 and L_INF distances are non-negative, symmetric, zero iff the vectors are equal and satisfy the triangle inequality; COSINE is symmetric, in [0,1], 1 if a vector is zero, and 0 for positive multiples.", "quantifier": "every pair/triple of finite vectors of one length", "why_tests_cant": "every dimension and entries", "anchors": ["truthdiscovery/utils/iterator.py:ConvergenceIterator.get_distance"]}
{"id": "C24", "title": "Ordinal convergence", "statement": "OrdinalConvergenceIterator(t) is finished iff the last t comparisons since reset all had equal rankings on both sides (t <= 0: at once).", "quantifier": "every history of comparisons and resets", "why_tests_cant": "unbounded histories", "anchors": ["truthdiscovery/utils/iterator.py:OrdinalConvergenceIterator"]}
{"id": "C25", "title": "Ranking vector", "statement": "get_ranking_vector(v)[i] is the number of distinct values in v smaller than v[i]; so equal entries get equal ranks, order is preserved, ranks are 0..k-1 with none skipped, and applying a strictly increasing function changes nothing.", "quantifier": "every vector without NaN", "why_tests_cant": "every length and tie pattern", "anchors": ["truthdiscovery/utils/iterator.py:OrdinalConvergenceIterator.get_ranking_vector"]}
{"id": "C26", "title": "Empty data sets are refused", "statement": "run and run_iter raise EmptyDatasetError iff the dataset has no claims, for every algorithm, and leave the algorithm's iterator untouched in that case.", "quantifier": "every algorithm and dataset", "why_tests_cant": "every input", "anchors": ["truthdiscovery/algorithm/base.py:BaseAlgorithm.run", "truthdiscovery/algorithm/base.py:BaseIterativeAlgorithm.run"]}
{"id": "C27", "title": "Runs do not depend on history", "statement": "The outcome of run/run_iter depends only on the algorithm's parameters and the dataset: any earlier runs (successful, failed with an exception, or of other algorithms sharing the iterator object) make no difference.", "quantifier": "every history of runs over any algorithms sharing iterator objects", "why_tests_cant": "unbounded histories", "anchors": ["truthdiscovery/algorithm/base.py:BaseIterativeAlgorithm.run", "truthdiscovery/utils/iterator.py:Iterator.reset"]}
{"id": "C28", "title": "Reported iteration count", "statement": "A result's iterations is the number of rounds performed; with FixedIterator(n) it is n unless the algorithm stops early, with ConvergenceIterator it is at most limit; the reported scores are those of that round.", "quantifier": "every iterative algorithm, dataset, iterator", "why_tests_cant": "unbounded", "anchors": ["truthdiscovery/algorithm/base.py:BaseIterativeAlgorithm.run"]}
{"id": "C29", "title": "Partial results", "statement": "For Sums, AverageLog, Investment, PooledInvestment and TruthFinder, run_iter yields one result per round preceded by the initial scores, numbered 0,1,...,n, and the last equals what run returns (except time). For CRH the initial scores are not reported, and for UnboundedSums the last partial result holds raw scores whereas run returns ranks.", "quantifier": "every dataset, parameters, iterator", "why_tests_cant": "unbounded numbers of rounds", "anchors": ["truthdiscovery/algorithm/base.py:BaseIterativeAlgorithm.run_iter", "truthdiscovery/algorithm/base.py:BaseIterativeAlgorithm.log"]}
{"id": "C30", "title": "Partial-result generators do not interfere", "statement": "Generators obtained from run_iter on one algorithm object each yield exactly the results they would yield alone, whatever the interleaving of creating them, advancing them and calling run.", "quantifier": "every schedule of create/next/run operations", "why_tests_cant": "schedules are unbounded", "anchors": ["truthdiscovery/algorithm/base.py:BaseIterativeAlgorithm.run_iter"]}
{"id": "C31", "title": "Majority voting", "statement": "MajorityVoting gives every source trust 1 and each claim (number of sources making it)/(largest such number), so beliefs are in (0,1] with maximum 1 and the most believed values of a variable are its most voted ones.", "quantifier": "every non-empty dataset", "why_tests_cant": "every input", "anchors": ["truthdiscovery/algorithm/voting.py:MajorityVoting.run"]}
{"id": "C32", "title": "Prior beliefs", "statement": "FIXED gives 0.5 to every claim; COUNT its number of sources; VOTED its share of the variable's votes and UNIFORM 1/(number of claims of the variable), both summing to 1 over each variable; all positive; any other priors value raises ValueError.", "quantifier": "every non-empty dataset", "why_tests_cant": "every input", "anchors": ["truthdiscovery/algorithm/base.py:BaseIterativeAlgorithm.get_prior_beliefs"]}
{"id": "C33", "title": "Sums computes the published recurrence", "statement": "After k rounds Sums returns exactly the label-level recurrence: trust of a source = sum of the beliefs of its claims, belief of a claim = sum of new trusts of its sources, each divided by its maximum; equivalently the unnormalised recurrence run k rounds, normalised once at the end.", "quantifier": "every non-empty dataset, prior, iterator", "why_tests_cant": "unbounded rounds", "anchors": ["truthdiscovery/algorithm/sums.py:Sums._run"]}
{"id": "C34", "title": "Sums scores are well defined and in [0,1], in floating point", "statement": "In IEEE double arithmetic as performed by the code, after at least one round all Sums scores are finite numbers in [0,1] (never NaN), and the largest trust and largest belief are exactly 1.", "quantifier": "every non-empty dataset of at most 2^53 sources and claims, every valid priors choice, every iterator, every number of rounds, whatever log/exp/pow the C library provides", "why_tests_cant": "rounding behaviour over all inputs", "anchors": ["truthdiscovery/algorithm/sums.py:Sums._run"]}
{"id": "C35", "title": "AverageLog", "statement": "AverageLog computes its published recurrence; scores are in [0,1] with maxima 1 when some source makes at least two claims; when every source makes exactly one claim all scores are NaN after any round (the log weights are all zero).", "quantifier": "every non-empty dataset, prior, number of rounds", "why_tests_cant": "degenerate datasets", "anchors": ["truthdiscovery/algorithm/average_log.py:AverageLog._run"]}
{"id": "C36", "title": "Investment", "statement": "Investment computes its published recurrence; every round's trust and belief are in (0,1] with maximum 1, no early finish occurs in exact arithmetic, and the trust returned to sources before normalisation adds up to the total belief (conservation).", "quantifier": "every non-empty dataset, prior, real g, number of rounds", "why_tests_cant": "unbounded rounds", "anchors": ["truthdiscovery/algorithm/investment.py:Investment._run", "truthdiscovery/algorithm/investment.py:Investment.update_trust"]}
{"id": "C37", "title": "PooledInvestment", "statement": "PooledInvestment computes its published recurrence with pooling over claims of the same variable; scores in (0,1] with maximum 1.", "quantifier": "every non-empty dataset, prior, real g, number of rounds", "why_tests_cant": "unbounded rounds", "anchors": ["truthdiscovery/algorithm/pooled_investment.py:PooledInvestment._run"]}
{"id": "C38", "title": "TruthFinder", "statement": "TruthFinder computes its published recurrence; every round's beliefs and trusts are strictly between 0 and 1, a source's trust is the mean of its claims' beliefs, and without implications beliefs are at least 1/2 for non-negative dampening factor.", "quantifier": "every non-empty dataset, implications, parameters with initial trust in [0,1), number of rounds", "why_tests_cant": "unbounded rounds", "anchors": ["truthdiscovery/algorithm/truth_finder.py:TruthFinder._run"]}
{"id": "C39", "title": "CRH", "statement": "CRH computes its published recurrence; with eps > 0 all trusts are >= eps, beliefs are in [0,1], and the beliefs for one variable sum to at most 1, and to exactly 1 if every source claims a value for it. Trust may exceed 1.", "quantifier": "every non-empty dataset, eps > 0, number of rounds", "why_tests_cant": "unbounded rounds", "anchors": ["truthdiscovery/algorithm/crh.py:CRH._run"]}
{"id": "C40", "title": "UnboundedSums returns the ranking of the unnormalised recurrence", "statement": "UnboundedSums returns the ranking vectors of the plain Sums recurrence with COUNT-like priors: the division by 1000 never changes the outcome; it is the same ranking as that of Sums after the same number of rounds; with an iterator that is not ordinal, run raises AttributeError instead of returning. With an ordinal iterator it never fails to rank.", "quantifier": "every non-empty dataset, prior, threshold", "why_tests_cant": "unbounded rounds", "anchors": ["truthdiscovery/algorithm/unboundedsums.py:UnboundedSums._run"]}
{"id": "C41", "title": "Order and naming of input do not matter", "statement": "In exact arithmetic, permuting the triples and/or renaming sources, variables and values one-to-one changes neither whether the triples are accepted nor the outcome of any algorithm (error, number of iterations, scores up to the renaming) as long as a source claims one value per variable; with allow_multiple and repeated claims the order can matter, because the first claim counts.", "quantifier": "every accepted list of triples, permutation, renaming, algorithm, number of rounds", "why_tests_cant": "permutations and renamings unbounded", "anchors": ["truthdiscovery/algorithm/*.py", "truthdiscovery/input/dataset.py:Dataset.__init__"]}
{"id": "C42", "title": "Same support, same score; more support, no lower score", "statement": "Two sources making the same claims get the same trust from every algorithm, in the result and in every partial result, in any arithmetic (so also with floating-point rounding). Two claims made by the same sources get the same belief after any round, for every algorithm whose belief depends on the supporters only (all but PooledInvestment; TruthFinder without implications). In exact arithmetic a claim whose supporters include another's gets at least its belief (voting, Sums, AverageLog, Investment, CRH, TruthFinder without implications, UnboundedSums), and a source whose claims include another's gets at least its trust (Sums, UnboundedSums).", "quantifier": "every non-empty dataset, algorithm, number of rounds", "why_tests_cant": "every pair", "anchors": ["truthdiscovery/algorithm/*.py"]}
{"id": "C43", "title": "Iterator strings", "statement": "get_iterator accepts exactly 'fixed-<digits>' and '<measure>-convergence-<threshold>[-limit-<digits>]' with a known measure, a threshold without '-' that parses as float, and a number not above max_limit, and returns an iterator with exactly those parameters (limit max_limit if omitted); everything else raises ValueError. So a user-supplied iterator never performs more than max_limit (200) rounds.", "quantifier": "every string", "why_tests_cant": "every string", "anchors": ["truthdiscovery/client/base.py:BaseClient.get_iterator"]}
{"id": "C44", "title": "Parameter strings", "statement": "algorithm_parameter splits at the first '=', strips both sides, converts 'iterator' and 'priors' specially and everything else to float; no '=' raises ValueError.", "quantifier": "every string", "why_tests_cant": "every string", "anchors": ["truthdiscovery/client/base.py:BaseClient.algorithm_parameter"]}
{"id": "C45", "title": "Parameters are split into used and ignored", "statement": "get_algorithm_params returns the given parameters whose names the algorithm's constructor accepts, unchanged, and the set of the other names; nothing is lost or duplicated, and construction with the kept parameters never raises a TypeError.", "quantifier": "every algorithm and parameter table", "why_tests_cant": "every table", "anchors": ["truthdiscovery/client/base.py:BaseClient.get_algorithm_params", "truthdiscovery/algorithm/base.py:BaseAlgorithm.get_parameter_names"]}
{"id": "C46", "title": "Output fields", "statement": "get_output_obj contains exactly the requested fields (all if none requested; accuracy only with supervised data) and each holds the corresponding quantity of the result.", "quantifier": "every result and field list", "why_tests_cant": "every list", "anchors": ["truthdiscovery/client/base.py:BaseClient.get_output_obj"]}
{"id": "C47", "title": "Algorithm labels", "statement": "Each algorithm label selects exactly one algorithm and back; unknown labels raise ValueError.", "quantifier": "every string", "why_tests_cant": "every string", "anchors": ["truthdiscovery/client/base.py:BaseClient.ALG_LABEL_MAPPING", "truthdiscovery/client/base.py:BaseClient.algorithm_cls"]}
{"id": "C48", "title": "Web /run/ responses", "statement": "A /run/ request gets status 200 with one entry per requested algorithm (scores of that algorithm alone, a picture, an animation of its partial results, the differences from previous results), 400 for missing or invalid input, 500 with a JSON error for non-convergence, and which of these is determined by the first thing that is wrong. A request with finite parameter values (eps > 0, 0 <= initial_trust < 1), with usums only without an iterator parameter, average_log only when some source makes two claims, and previous results that are absent, not JSON, or an object with numbers in the expected places never ends in an unhandled exception. The claim that no request does is refuted: average_log on data where every source makes one claim, usums with an iterator parameter, and previous results that are JSON but not an object all end in an unhandled exception.", "quantifier": "every request, clock and loop bound", "why_tests_cant": "all combinations", "anchors": ["truthdiscovery/client/web/server.py:WebClient.run"]}
{"id": "C49", "title": "Command-line run", "statement": "The run command outputs one entry per requested algorithm, filtered to requested sources/variables; asking for accuracy without --supervised is an error before anything is run; all algorithms sharing one parsed iterator behave as if each had its own.", "quantifier": "every argument combination", "why_tests_cant": "combinations", "anchors": ["truthdiscovery/client/cli.py:CommandLineClient.run_algorithm"]}
{"id": "C50", "title": "Graph layout", "statement": "Every node drawn lies inside the image and two nodes of the same kind are at least 2*radius+spacing apart vertically (sources, claims and variables).", "quantifier": "every dataset and positive integer renderer sizes", "why_tests_cant": "every dataset", "anchors": ["truthdiscovery/graphs/draw.py:GraphRenderer.compile", "truthdiscovery/graphs/draw.py:GraphRenderer.get_height", "truthdiscovery/graphs/draw.py:GraphRenderer._get_y_coord"]}
{"id": "C51", "title": "Graph contents", "statement": "The drawn graph has exactly one node per source, claim and variable, one edge per (source, claim) pair made and one per claim to its variable, from the right node to the right node, and nothing else but the background (and progress bar).", "quantifier": "every dataset", "why_tests_cant": "every dataset", "anchors": ["truthdiscovery/graphs/draw.py:GraphRenderer.compile"]}
{"id": "C52", "title": "Gradient colours", "statement": "get_graded_colours gives a valid colour index for every level in [0,1], monotone in the level, darkest only from 8/9 up, with dark label below 0.5 and light otherwise; levels above 1 are clamped to the darkest; NaN raises ValueError; levels in (-1/9,0) give the lightest colour, levels in (-1,-1/9] wrap around to dark colours. All other colours are constants of the scheme: nodes, labels and borders by kind of node, white background (transparent in the plain scheme), grey edges (black in the plain scheme), black progress bar.", "quantifier": "every level", "why_tests_cant": "every real", "anchors": ["truthdiscovery/graphs/colours.py:ResultsGradientColourScheme.get_graded_colours"]}
{"id": "C53", "title": "JSON serialisation of drawings", "statement": "entity_to_dict keeps every attribute of every entity, with its type name, nested labels included, so the entity can be recovered from the JSON object.", "quantifier": "every entity", "why_tests_cant": "every entity", "anchors": ["truthdiscovery/graphs/backends/json_backend.py:JsonBackend.entity_to_dict"]}
{"id": "C54", "title": "Animations", "statement": "An animation has exactly one frame per partial result, in order, drawn with that result's colours; progress runs from 0 to 1; with show_progress and a single partial result it raises ZeroDivisionError.", "quantifier": "every iterative algorithm, dataset", "why_tests_cant": "unbounded frame counts", "anchors": ["truthdiscovery/graphs/animation.py:BaseAnimator.get_frames"]}
{"id": "C55", "title": "Rendering does not depend on history", "statement": "render(dataset) produces the same drawing whatever was rendered before with the same renderer (whereas calling compile directly reuses the height computed for an earlier dataset).", "quantifier": "every history of render calls", "why_tests_cant": "unbounded histories", "anchors": ["truthdiscovery/graphs/draw.py:GraphRenderer.render", "truthdiscovery/graphs/draw.py:GraphRenderer.compile"]}
{"id": "C56", "title": "CLI synth command", "statement": "The synth command prints a CSV that holds the generated matrix below a row with the true values, for exactly the argument combinations SyntheticData accepts (omitted arguments taking its defaults), and reports a usage error for the others.", "quantifier": "every combination of arguments, every random outcome", "why_tests_cant": "all argument combinations and random draws", "anchors": ["truthdiscovery/client/cli.py:CommandLineClient.generate_synthetic", "truthdiscovery/input/synthetic_data.py:SyntheticData"]}
{"id": "C57", "title": "CLI graph command", "statement": "The graph command draws exactly one node per source, variable and claim of the CSV, with labels numbered from 0 or 1 as asked, sizes taken from the arguments or the defaults, and reports a usage error exactly when the CSV is invalid.", "quantifier": "every CSV text and arguments", "why_tests_cant": "all inputs", "anchors": ["truthdiscovery/client/cli.py:CommandLineClient.generate_graph", "truthdiscovery/graphs/draw.py:MatrixDatasetGraphRenderer"]}
{"id": "C58", "title": "Scores are non-negative real numbers", "statement": "With finite parameters (eps > 0, 0 <= initial_trust < 1; for AverageLog a source with at least two claims), every score in the result of run, and in every partial result of run_iter, is a non-negative real number: never negative, infinite or NaN.", "quantifier": "every iterative algorithm, dataset, prior, iterator and number of rounds (exact arithmetic)", "why_tests_cant": "unbounded data and rounds", "anchors": ["truthdiscovery/algorithm/base.py:BaseIterativeAlgorithm.run", "truthdiscovery/algorithm/base.py:BaseIterativeAlgorithm.run_iter"]}
{"id": "C59", "title": "Ranking-based stopping always terminates", "statement": "In exact arithmetic, running UnboundedSums (or Sums, or AverageLog on data where some source makes at least two claims) with an OrdinalConvergenceIterator on a non-empty data set always returns a result: there is N, depending only on the data, the algorithm and the prior, such that with threshold t the run stops after at least t and at most N + t rounds. The rankings of the underlying recurrence settle, and with a large enough threshold UnboundedSums reports that final ranking, whatever the clock and the logging.", "quantifier": "all non-empty data sets, the four valid priors, all thresholds, clocks, earlier iterator states and logging options", "why_tests_cant": "OrdinalConvergenceIterator has no iteration limit, so a test can only observe that particular data sets stop; termination for every data set is a statement about infinitely many rounds and needs a spectral argument.", "anchors": ["truthdiscovery/algorithm/unboundedsums.py:UnboundedSums", "truthdiscovery/algorithm/sums.py:Sums", "truthdiscovery/algorithm/average_log.py:AverageLog", "truthdiscovery/utils/iterator.py:OrdinalConvergenceIterator"]}
{"id": "C60", "title": "Sums and AverageLog converge", "statement": "In exact arithmetic the scores of Sums, and of AverageLog when some source makes at least two claims, converge: for every non-empty data set and valid prior there are limit scores - a fixed point of the published round, with a source of trust 1 and a claim of belief 1 - such that for every eps every run of sufficiently many rounds reports scores within eps of them. Consequently a ConvergenceIterator with any of the four measures and any positive threshold stops without ConvergenceError provided its limit is large enough.", "quantifier": "all non-empty data sets, valid priors, distance measures, positive thresholds and eps, clocks and logging options", "why_tests_cant": "Convergence is a limit statement over infinitely many rounds and all data sets; a test observes finitely many rounds of particular data.", "anchors": ["truthdiscovery/algorithm/sums.py:Sums", "truthdiscovery/algorithm/average_log.py:AverageLog", "truthdiscovery/utils/iterator.py:ConvergenceIterator"]}
{"id": "C61", "title": "TruthFinder is monotone and converges from a low initial trust", "statement": "In exact arithmetic, when claims never count against each other (no implication function, or one with no negative values), TruthFinder with non-negative influence and dampening is monotone: adding claims made by new sources, or raising the initial trust (below 1), never lowers any trust or belief after the same number of rounds; with an initial trust of at most 1/2, more rounds never lower any score, the scores converge to limits between 1/2 and 1, and a ConvergenceIterator with any measure and positive threshold stops with a result if its limit is large enough.", "quantifier": "all pairs of data sets in which the sources of the first make the same claims in the second, all implication functions without negative values, all non-negative parameters, initial trusts, numbers of rounds, measures, positive thresholds, clocks and logging options", "why_tests_cant": "The claim compares two runs for every pair of data sets and every number of rounds, and convergence is a limit statement.", "anchors": ["truthdiscovery/algorithm/truth_finder.py: TruthFinder._run, get_log_trust", "truthdiscovery/utils/iterator.py: FixedIterator, ConvergenceIterator", "truthdiscovery/input/dataset.py: Dataset"]}
{"id": "C62", "title": "Unrelated data does not change comparisons", "statement": "In exact arithmetic, adding claims by other sources about other variables leaves the scores of a data set unchanged up to normalisation: after the same number of rounds of Sums, AverageLog (if some original source makes two claims), Investment or PooledInvestment, and for voting, all trusts of the original sources are multiplied by one positive number and all beliefs in the original claims by another, so every comparison between two original sources or two original claims has the same outcome; for TruthFinder (initial trust below 1) the scores are equal. CRH is not local in this sense: there are a data set and unrelated claims of one further source that turn round which of two values of a variable CRH believes more.", "quantifier": "all pairs of data sets where the second adds claims of sources and variables not in the first (in any order, in particular any concatenation of two data sets with no common source or variable), all implication functions, priors, parameters, numbers of rounds, clocks and logging options", "why_tests_cant": "It relates two runs for every pair of data sets and every number of rounds.", "anchors": ["truthdiscovery/algorithm/sums.py", "truthdiscovery/algorithm/average_log.py", "truthdiscovery/algorithm/investment.py", "truthdiscovery/algorithm/pooled_investment.py", "truthdiscovery/algorithm/truth_finder.py", "truthdiscovery/algorithm/voting.py", "truthdiscovery/algorithm/base.py: get_prior_beliefs"]}
{"id": "C63", "title": "Majority voting in IEEE doubles is correctly rounded and never creates or hides ties", "statement": "With fewer than 2^53 sources, running MajorityVoting in IEEE double arithmetic gives every claim the double nearest to (number of its supporters)/(largest number of supporters of any claim); two beliefs are equal, or ordered, exactly as the two integer vote counts are; consequently get_most_believed_values of a variable is exactly the set of values with the most votes.", "quantifier": "all datasets with fewer than 2^53 sources, all variables and values, every run of MajorityVoting in double arithmetic", "why_tests_cant": "Rounding could merge two different vote counts or split equal ones for some pair of counts among the 2^106 possible ones; tests sample a handful.", "anchors": ["truthdiscovery/algorithm/voting.py: MajorityVoting._run", "truthdiscovery/output/result.py: Result.get_most_believed_values"]}
{"id": "C64", "title": "TruthFinder in IEEE doubles can turn unanimous data into all-NaN results", "statement": "TruthFinder with its default parameters, run with two or more fixed iterations on data where at least 70 sources all agree on a number n of claims for which the double sum of n copies of the double 1/n exceeds 1 (for instance n = 9, 11, 18, 20, 21, 25, 35, 36, 39, 40), finishes without an error and reports NaN as every trust and every belief; after exactly one iteration all trusts exceed 1 although all beliefs are exactly 1. Assumes of log/exp only that the logarithm of a negative number and functions of NaN are NaN, log(0.1) is between -4 and -2 and exp(x) <= 2^-53 for x <= -37.", "quantifier": "all unanimous datasets with 70 to 2^50 sources and an overshooting number of claims, all priors, iteration counts >= 2, all libm implementations with the stated gross facts", "why_tests_cant": "The failure depends on the rounding error of a sum whose length is the number of variables; the project's tests use a handful of variables and never see it. It shows that the documented range of the scores is not kept in floating point.", "anchors": ["truthdiscovery/algorithm/truth_finder.py: TruthFinder._run, get_log_trust"]}
{"id": "C65", "title": "When a convergence-controlled run stops", "statement": "A run with ConvergenceIterator(measure, threshold, limit) that returns after k iterations moved the trust scores by at least the threshold in each round before k and by less than the threshold in round k (or the algorithm ended by itself after k < limit rounds, so no iterator could make it do more); a run that raises ConvergenceError moved them by at least the threshold in every permitted round. The movement in round j is the chosen distance between the trust scores reported by the same algorithm after j-1 and after j fixed iterations.", "quantifier": "all datasets, all iterative algorithms except UnboundedSums, parameters, priors, measures, thresholds, limits, clocks, logging options and any arithmetic (floats included)", "why_tests_cant": "It ties the stopping decision to the scores of every earlier round, for every data set, measure and threshold.", "anchors": ["truthdiscovery/utils/iterator.py: ConvergenceIterator", "truthdiscovery/algorithm/sums.py", "truthdiscovery/algorithm/average_log.py", "truthdiscovery/algorithm/investment.py", "truthdiscovery/algorithm/pooled_investment.py", "truthdiscovery/algorithm/truth_finder.py", "truthdiscovery/algorithm/crh.py"]}
{"id": "C66", "title": "Datasets and true values read from files", "statement": "A FileDataset subclass whose get_tuples finishes yields the same dataset, or the same error, as the Dataset constructor applied to the tuples it yields. If get_tuples raises, that exception comes out, unless (multiple claims not being allowed) an earlier tuple already repeated a source-variable pair, in which case that error is raised. The abstract class itself raises NotImplementedError. FileSupervisedData keeps, for every variable, the value of the last pair yielded for it, and lists the variables in the order of their first pairs.", "quantifier": "all readers, file contents, exceptions, implication functions and allow_multiple settings", "why_tests_cant": "It ranges over every reader a user may write and every point at which it may fail.", "anchors": ["truthdiscovery/input/file_helpers.py: FileDataset, FileSupervisedData"]}
{"id": "C67", "title": "Tab-separated files", "statement": "The lines of a text make up the text. Records without tabs or newlines inside their fields, written one per line, are read back as exactly those claims, except that the newline is kept at the end of the last field; a last line without newline is read as it is, so whether a file ends in a newline decides whether two sources making the same claim agree. A line without a tab is skipped and reported with its number and does not affect the others. No text is refused.", "quantifier": "all texts, all lists of records", "why_tests_cant": "It is a round-trip and robustness statement over all texts.", "anchors": ["truthdiscovery/examples/real-world-datasets/tsv_dataset.py: TsvDataset.get_tuples"]}
{"id": "C68", "title": "Stock data files", "statement": "Cleaning removes exactly the characters $, %, +, - and the white space around the rest, and is idempotent; in particular signs are lost. Variable names are different for different symbols, dates or columns if symbols and dates contain no underscore, and can coincide otherwise. Each complete row gives exactly one claim of its source per attribute that is not empty after cleaning; a row with too few columns makes loading fail; loading succeeds exactly if all rows are complete and no source gives two values for a variable. In a truth file the last row that gives a value for a variable counts.", "quantifier": "all tables of strings", "why_tests_cant": "It is a statement about all rows and all strings in them.", "anchors": ["truthdiscovery/examples/real-world-datasets/stock/stock_dataset.py: StockDataset, StockTrueValues"]}
{"id": "C69", "title": "Graphs drawn as PNG images", "statement": "Drawing entities with proper (3- or 4-component) colours as PNG succeeds exactly if width and height are between 1 and 32767 pixels. The picture then consists, in order, of the marks of each entity, which do not depend on what was drawn before: a filled rectangle, a filled disc in the entity's colour, a line stroked with its colour, width and dash pattern; a label's text in the label's colour, or, if it is wider than its disc, in the inverse of the background colour on a box 5 pixels larger than the text. The text is centred on its node unless it would leave the image, never starts left of the image, and ends inside it if it is not wider than the image. Drawing the same entities again gives the same picture, though labels are modified. A dataset's graph is drawn exactly if the colour scheme has a colour for every node and the sizes are in range; with the default sizes, exactly if the largest column has between 1 and 273 nodes (an empty dataset cannot be drawn).", "quantifier": "all lists of entities, all datasets, renderer sizes, colour schemes, progress values and text metrics", "why_tests_cant": "The marks of an entity must not depend on the drawing state left by any earlier sequence of entities, and placement must hold for all text widths.", "anchors": ["truthdiscovery/graphs/backends/png_backend.py: PngBackend.draw_entities, PngBackend.draw_label", "truthdiscovery/graphs/draw.py: GraphRenderer.render, get_height"]}
{"id": "C70", "title": "CRH minimises a weighted deviation", "statement": "Let a source's deviation be the sum of (belief - vote)^2 over the claims about the variables it says something about (vote 1 for the value it gives, else 0), and the objective the sum over sources of trust times (eps + deviation). The trust scores CRH returns after k+1 iterations satisfy sum exp(eps - trust) = 1 and give the least objective any such weights can give for the beliefs returned after k iterations. The beliefs returned minimise the trust-weighted sum of (belief - vote)^2 over all sources and claims, silent sources counting as voting against. If every source says something about every variable then the objective never increases from one iteration to the next (from the first on), and tends to a limit as the number of iterations grows. With silent sources the beliefs need not minimise the objective.", "quantifier": "every dataset, eps > 0, iterator, number of iterations, alternative weights and alternative beliefs (exact arithmetic)", "why_tests_cant": "Minimality is over all real-valued weights and beliefs, and monotonicity over all datasets and iteration counts; a test compares finitely many points.", "anchors": ["truthdiscovery/algorithm/crh.py:CRH._run"]}
{"id": "C71", "title": "CRH with a convergence test stops", "statement": "If every source says something about every variable, CRH iterated until convergence (any of the four distance measures, any positive threshold, any eps > 0) returns a result after some number N of iterations that depends only on the data, eps, the measure and the threshold, whenever the iteration limit is at least N; it does not raise the error for reaching the limit.", "quantifier": "every complete dataset, eps > 0, measure, threshold > 0, sufficiently large limit, clock (exact arithmetic)", "why_tests_cant": "Termination for all datasets and thresholds is a limit statement; tests run finitely many cases with finitely many iterations.", "anchors": ["truthdiscovery/algorithm/crh.py:CRH._run", "truthdiscovery/utils/iterator.py:ConvergenceIterator"]}
{"id": "C72", "title": "Labels are only names, and ignored claims leave no trace, to the last bit", "statement": "Renaming sources, variables and (variable by variable) values so that labels that differ in the data still differ, with the implication function renamed accordingly, gives a dataset that is accepted exactly when the original is, and every algorithm run on it (final result, every partial result, and majority voting) returns exactly the same numbers in the same order under the new names, or raises the same error. Removing the repeated claims that allow_multiple ignores gives data that is accepted without allow_multiple and every result is exactly the same. This holds in any arithmetic, in particular IEEE doubles, where listing the same triples in another order may change a score.", "quantifier": "every list of triples, renaming, implication function, algorithm, prior, iterator, clock and number type (exact or IEEE doubles)", "why_tests_cant": "Bit-for-bit equality must hold for all data and all renamings; a test fixes a few labels.", "anchors": ["truthdiscovery/input/dataset.py: Dataset.__init__", "truthdiscovery/input/dataset.py: IDMapping", "truthdiscovery/algorithm/base.py: BaseIterativeAlgorithm.run", "truthdiscovery/algorithm/base.py: BaseIterativeAlgorithm.run_iter", "truthdiscovery/algorithm/voting.py: MajorityVoting.run"]}
{"id": "C73", "title": "The doubles Sums and AverageLog report are the exact scores, to a stated accuracy", "statement": "After k >= 1 rounds, every trust and belief score that Sums reports is a finite double whose relative distance from the number the published recurrence gives (equivalently: from the score the same code would compute in exact arithmetic) is at most (k+1)(sources+claims+1)*2^-50, with every prior, as long as that size is sensible ((k+1)(sources+claims+1) <= 2^50 and (sources*claims)^(k+1) <= 2^900). The same holds for AverageLog with sources+claims+5 in place of sources+claims+1 and (sources*claims^2)^(k+1) <= 2^900, if the C library's logarithm is right to a relative error of 2^-52 on the integers up to the number of claims and some source makes two claims. In particular a value that is ahead of its rivals in exact arithmetic by more than that error is the single most believed value reported.", "quantifier": "every dataset, prior, iterator, number of rounds within the size bounds, clock; IEEE 754 double arithmetic", "why_tests_cant": "An error bound for accumulated rounding is a statement about all inputs and all round counts; a test compares one computed value with another computed value.", "anchors": ["truthdiscovery/algorithm/sums.py:Sums._run", "truthdiscovery/algorithm/average_log.py:AverageLog._run", "truthdiscovery/output/result.py:Result.get_most_believed_values"]}
{"id": "C74", "title": "Synthetic experiments", "statement": "If Experiment.run of a newly constructed experiment returns, the result has exactly the labels as keys, in order; for each label, exactly the algorithms, in order (none if there are no repetitions), each with one accuracy per repetition; the accuracy for label i, repetition r and an algorithm is that of a new object of the algorithm on synthetic data made with the i-th values of the parameters (constants repeated, sequences and arrays item by item, callables called once per trial), and is a fraction between 0 and 1. RuntimeError is raised only if a parameter has fewer values than there are labels, and then there is never a result. The parameters belong to the class and are used up: constructing an object always restores them, whatever was constructed or run before, but after that only one run, of any object of the class, can succeed until the next construction; a run after a successful one raises RuntimeError at once.", "quantifier": "every list of distinct labels, parameter dict, algorithm objects and their earlier uses, number of repetitions, random draws, clock, and history of constructions and runs; every number type", "why_tests_cant": "It is about all histories of a mutable class attribute and all parameter shapes; the script has no tests, and its outputs are random.", "anchors": ["truthdiscovery/examples/synthetic_experiment.py:Experiment.__init__", "truthdiscovery/examples/synthetic_experiment.py:Experiment.run", "truthdiscovery/examples/synthetic_experiment.py:Experiment.get_synth_params", "truthdiscovery/input/synthetic_data.py:SyntheticData.__init__", "truthdiscovery/input/supervised_data.py:SupervisedData.get_accuracy"]}
{"id": "C75", "title": "The timing test", "statement": "If perform_test(matrix, shapes) returns, it has the algorithms as keys, in order (none if there are no shapes), each with one time per shape, in order: that of the algorithm's run on the data set of the first rows and columns of the matrix. That data set consists of exactly the claims of the matrix by the first sources about the first variables, in the same order; a shape larger than the matrix stands for the whole of it. A negative number in a shape drops that many rows or columns at the end.", "quantifier": "every matrix, list of shapes, dict of algorithms and clock", "why_tests_cant": "The script has no tests, and the claim is about all matrices and shapes.", "anchors": ["truthdiscovery/examples/timing_test.py:perform_test", "truthdiscovery/input/matrix_dataset.py:MatrixDataset.get_triples"]}
{"id": "C76", "title": "Coherence of trust and belief", "statement": "In exact arithmetic, after at least one round: (Sums, AverageLog, CRH, UnboundedSums) if the supporters of a claim can be matched with different supporters of another claim, each at least as trusted in the result, the first claim is at most as believed in that result, and less believed if one of its supporters is less trusted than its match; (Investment with a non-negative exponent) the same non-strictly when the matched supporters make at most as many claims. (TruthFinder) the trust of a source in a result is the average of the beliefs of its claims in that result, so some claim is at least and some claim at most as believed as the source is trusted. (Sums) a source whose claims can be matched with different claims of another source, each at least as believed after n rounds, is at most as trusted after n+1 rounds, strictly if one is less believed.", "quantifier": "every data set, prior, iterator, object history, number of rounds, pair of claims or sources and matching (AverageLog: some source makes two claims; CRH: positive epsilon)", "why_tests_cant": "It relates all scores of a result for all data sets, all numbers of rounds and all matchings.", "anchors": ["truthdiscovery/algorithm/sums.py:Sums.run", "truthdiscovery/algorithm/average_log.py:AverageLog.run", "truthdiscovery/algorithm/investment.py:Investment.run", "truthdiscovery/algorithm/truth_finder.py:TruthFinder.run", "truthdiscovery/algorithm/crh.py:CRH.run", "truthdiscovery/algorithm/unboundedsums.py:UnboundedSums.run"]}
{"id": "C77", "title": "Debug output of the convergence iterator", "statement": "With a ConvergenceIterator made with debug=True, alg.run(data) prints lines numbered 1, 2, 3, ... in order, whatever the iterator was used for before; line j shows the distance, in the iterator's measure, between the trust scores after j-1 and after j rounds. If the run returns, the number of lines is the number of iterations of the result, at most the limit; no line but the last shows a distance below the threshold, and the last one does unless the algorithm ended by itself. If it raises ConvergenceError there are exactly as many lines as the limit allows, none below the threshold.", "quantifier": "every data set, algorithm but UnboundedSums, prior, measure, threshold, limit, previous use of the iterator, clock; every number type including doubles", "why_tests_cant": "The printing branch is excluded from the test coverage (pragma: no cover), and the claim ranges over all data sets, configurations and histories.", "anchors": ["truthdiscovery/utils/iterator.py:ConvergenceIterator.compare", "truthdiscovery/utils/iterator.py:ConvergenceIterator.finished", "truthdiscovery/algorithm/base.py:BaseIterativeAlgorithm.run"]}
{"id": "C78", "title": "The convergence experiment", "statement": "If the experiment finishes, it plots one column for each of Sums, AverageLog, Investment, PooledInvestment and TruthFinder (default parameters and priors), in this order; all columns have the length of the longest curve; each is the curve of its algorithm followed by blanks, where entry j of a curve is the Euclidean distance between the trust scores before and after round j, and a curve has exactly 100 entries unless the algorithm ended by itself before. The shared iterator does not let one algorithm influence another. It fails only if the file is not a valid supervised CSV file or contains no claim.", "quantifier": "every CSV text and clock; every number type with non-negative square roots (proved for the reals and for doubles); every str and float functions such that numbers contain no comma or newline and float(str(x)) is x", "why_tests_cant": "The script has no tests; the claim ranges over all files.", "anchors": ["truthdiscovery/examples/convergence_test.py:main", "truthdiscovery/utils/iterator.py:ConvergenceIterator", "truthdiscovery/input/supervised_data.py:SupervisedData.from_csv"]}
{"id": "C79", "title": "The home page offers what the server accepts", "statement": "The algorithm labels given to the browser by the home page are exactly those that the server accepts in a request, each once, with the name of the algorithm's class; the distance measures given are exactly those strings m for which an iterator m-convergence-t is accepted, for every valid threshold t.", "quantifier": "every string as label or measure (without a dash), every threshold string, every maximal limit", "why_tests_cant": "The other direction ranges over all strings.", "anchors": ["truthdiscovery/client/web/server.py:home_page", "truthdiscovery/client/base.py:BaseClient.get_iterator", "truthdiscovery/client/base.py:BaseClient.algorithm_cls"]}
{"id": "C80", "title": "The law of synthetic data", "statement": "In exact arithmetic: a source of trust a claims the true value for a set of random numbers of measure exactly a, and each of the other domain_size - 1 values for a set of measure (1 - a) / (domain_size - 1); each such set is an interval. With valid parameters, a matrix and true values can come out of SyntheticData for some random numbers exactly if they have the right sizes, all values lie in the domain, every source and every variable has a claim, no source of trust 0 makes a true and no source of trust 1 a false claim, and, when claim_probability is 1, no claim is missing. In particular no two claims are tied to each other: every combination of possible claims is possible.", "quantifier": "every trust vector, domain size, number of variables, claim probability, matrix and list of true values; every random number", "why_tests_cant": "Ranges over all random outcomes and all matrices; sampling cannot show that an outcome is impossible, nor an exact probability.", "anchors": ["truthdiscovery/input/synthetic_data.py:SyntheticData.__init__", "truthdiscovery/input/synthetic_data.py:SyntheticData.generate_claim"]}
{"id": "C81", "title": "Options of the run command", "statement": "The run command of the command line ends in a usage error, before anything else happens, exactly if some value given to an option is bad (an unknown algorithm label, a malformed parameter, an unknown output field, a source or variable that is not an integer, a dataset that cannot be opened, an option without values), or --algorithm or --dataset is missing, or the fields asked for hold accuracy without --supervised. Otherwise the command runs with the classes, parameters, text, restrictions and fields that the options stand for: of repeated options the last one counts, and an omitted --output means trust, belief, iterations and time. The only uncaught exceptions are those of an invalid CSV text and of an algorithm.", "quantifier": "every sequence of options with any values, every file contents", "why_tests_cant": "all orders, repetitions and values of options", "anchors": ["truthdiscovery/client/cli.py:CommandLineClient.get_parser", "truthdiscovery/client/cli.py:CommandLineClient.make_argparse_type", "truthdiscovery/client/cli.py:CommandLineClient.run"]}
{"id": "C82", "title": "Options of the synth and graph commands, and the files the graph command changes", "statement": "The synth command ends in a usage error exactly if a value is not a number, --trust is missing, or SyntheticData refuses the values; otherwise what it prints reads back as a supervised dataset with a source for each trust value and the requested number of variables. The graph command changes no file but those named by --outfile; these are emptied when the option is met, even if the command is then refused because of a later option or because the dataset is no matrix, or fails because the image would not have between 1 and 32767 pixels in both directions; otherwise the last of them holds, in the end, the picture of the dataset. A dataset that is also named as the output file is therefore lost, and the command fails (if the spacing is not negative).", "quantifier": "every sequence of options with any values, every file contents, every random outcome", "why_tests_cant": "all orders, repetitions and values of options", "anchors": ["truthdiscovery/client/cli.py:CommandLineClient.get_parser", "truthdiscovery/client/cli.py:CommandLineClient.run", "truthdiscovery/client/cli.py:CommandLineClient.generate_graph"]}
{"id": "C83", "title": "Copies of the data change nothing", "statement": "In exact arithmetic, if every source is replaced by k copies making the same claims, or every variable by k copies about which every source says the same (with the same implications), or the data set by k separate copies of itself, then after the same number of rounds every copy of a source has the trust and every copy of a claim the belief of its original: for Sums, Investment, PooledInvestment and majority voting in all three cases, for AverageLog when the number of claims per source stays the same, for TruthFinder (initial trust below 1) when the number of supporters per claim stays the same. The only exception are the initial scores themselves (0 rounds) with the 'count' prior when sources are copied. TruthFinder does change when sources are copied: it counts them.", "quantifier": "all data sets, implication functions, numbers of copies, orders of the copied claims, priors, parameters, numbers of rounds, clocks and logging options; more generally all data sets consisting of copies where every claim has p copies of each of its supporters and every source makes q copies of each of its claims", "why_tests_cant": "It relates two runs for every data set, every number of copies and every number of rounds.", "anchors": ["truthdiscovery/algorithm/sums.py", "truthdiscovery/algorithm/average_log.py", "truthdiscovery/algorithm/investment.py", "truthdiscovery/algorithm/pooled_investment.py", "truthdiscovery/algorithm/truth_finder.py", "truthdiscovery/algorithm/voting.py", "truthdiscovery/algorithm/base.py: get_prior_beliefs"]}
{"id": "C84", "title": "Synthetic data in double arithmetic", "statement": "With the doubles the program computes with, and a random generator returning doubles in [0, 1), synthetic data with a domain of at most 2^24 values is generated exactly when trust is a non-empty one-dimensional array of doubles between 0 and 1, the claim probability is in (0, 1] (or NaN, which slips through), the domain has at least two values and there is at least one variable: rounding in the probabilities never makes the sampler refuse them or run off their end. A source of trust 1 then makes only true claims and a source of trust 0 only false ones, and every probability handed to the sampler is within two roundings of the exact one.", "quantifier": "all trust arrays, numbers of variables, claim probabilities, domain sizes up to 2^24 and sequences of random draws", "why_tests_cant": "It must hold for every double and every outcome of the random generator; a failure would need a particular rounding.", "anchors": ["truthdiscovery/input/synthetic_data.py: SyntheticData.__init__, generate_claim"]}
{"id": "C85", "title": "The data table of the web form is always a table", "statement": "Whatever the user does in the data form (add or delete sources and variables, clear, edit cells, load a preset, type or load CSV), no action the form offers raises an exception, the data always stays a rectangular table with at least one source and one variable, and each action changes exactly the cells it is for: adding appends an empty row or column, deleting removes that row or column and moves no other claim, clearing empties all cells and keeps the size, editing changes one cell. The form offers to delete a source (variable) exactly if there are two or more, to edit every cell, to type and load text exactly while its dialogue is open, and to load exactly the listed datasets.", "quantifier": "all sequences of actions offered by the form, starting from any preset table", "why_tests_cant": "It must hold after every possible sequence of edits.", "anchors": ["truthdiscovery/client/web/static/app/matrix.js: Matrix", "truthdiscovery/client/web/static/app/app.js: MainformController", "truthdiscovery/client/web/static/app/templates/form.html"]}
{"id": "C86", "title": "The server receives the table the user sees", "statement": "The CSV text sent for a table with two or more columns is read by the server as exactly that table, so the results are those of the claims in the cells, source i being row i; a table with a single column arrives without the empty rows at its top and bottom (sources are then renumbered), and exactly then something is lost.", "quantifier": "all tables, numbers printed as Python reads them", "why_tests_cant": "It relates two programs (page and server) for every table.", "anchors": ["truthdiscovery/client/web/static/app/matrix.js: asCSV", "truthdiscovery/client/web/server.py: run", "truthdiscovery/input/matrix_dataset.py: from_csv"]}
{"id": "C87", "title": "Loading CSV text in the page", "statement": "Text loads exactly when all its lines have the same number of comma-separated cells; otherwise the table stays as it was and an error shows. Each cell becomes the number at its start, but zeros and texts without a number become empty. So a CSV file written by the library loads as the same table if and only if it contains no zero, and the text the page itself exports is refused (two or more columns) or gains an empty row (one column).", "quantifier": "all texts and tables", "why_tests_cant": "It must hold for every text.", "anchors": ["truthdiscovery/client/web/static/app/matrix.js: loadFromCSV, asCSV", "truthdiscovery/client/web/static/app/app.js: loadFromCSV"]}
{"id": "C88", "title": "What the Run button asks for", "statement": "With valid settings, pressing Run sends the selected labels, the table and the user's parameter lines followed by an iterator line, and the server reads from it the user's parameters with the iterator chosen in the form (which wins over the user's own). The request is not sent, because of an exception, exactly if the field of the chosen kind of iteration is not filled in properly. Negative thresholds are sent but refused. The iterator line is sent for voting too, which always produces a warning, and for usums, which therefore never has results.", "quantifier": "all form settings, parameter texts, tables and server states", "why_tests_cant": "It relates the page's request to the server's parser for all settings.", "anchors": ["truthdiscovery/client/web/static/app/app.js: getResults, getIterationString", "truthdiscovery/client/base.py: algorithm_parameter, get_iterator", "truthdiscovery/client/web/server.py: get_param_dict"]}
{"id": "C89", "title": "What the page shows and compares with", "statement": "At any time the page holds the results and warnings of the last press of Run that was answered with results, whatever failed since, and shows one of its algorithms. Those results are kept for comparison exactly if a single algorithm was selected (in a changed selection: the untouched default selection is a string and is not kept). If the compare box is ticked and results are kept, every algorithm's entry in the next answer has the differences new minus old for exactly the sources and claims present in both; otherwise there are none. The kept results never cause an error, and with safe settings every press is answered. After a press the error shown is none if results came or are awaited, the server's message if it refused or failed, and \"unknown error\" if the answer was not JSON; only results change what is shown.", "quantifier": "all histories of presses of Run and answers, all clocks and set orders, any JSON printer whose text the server reads back as the same value up to key order", "why_tests_cant": "It quantifies over all histories of the page.", "anchors": ["truthdiscovery/client/web/static/app/app.js: getResults, MainformController.run", "truthdiscovery/client/web/server.py: get_results_object, run", "truthdiscovery/output/diff.py"]}
{"id": "C90", "title": "Displaying an answer and playing its animation", "statement": "An answer with results is displayed without an exception for every algorithm in it (drawing, animation at its first frame, a table of the trust scores and one of the belief scores per variable), except if CRH made no rounds: then there is an exception, the drawing of CRH is shown but its player has no frames (an arrow key is then an exception too), and its tables, and drawings and tables of the algorithms after it, are missing; those before it are displayed. In the player, after any sequence of offered button presses, arrow keys and slider moves, the number shown is that of a frame and the canvas shows exactly this frame; it moves by one, stops at the ends. Frame j (\"Iteration j\") shows the scores after j rounds, with CRH those after j+1 rounds.", "quantifier": "all requests answered with results, all states of the page before, all sequences of user actions on the player, all datasets and clocks", "why_tests_cant": "It quantifies over all answers and all sequences of user actions.", "anchors": ["truthdiscovery/client/web/static/app/animator.js: load, redraw, previousFrame, nextFrame, setFrame", "truthdiscovery/client/web/static/app/app.js: getResults, animationKeyHandler", "truthdiscovery/client/web/static/app/templates/results.html", "truthdiscovery/graphs/animation.py: get_frames", "truthdiscovery/algorithm/base.py: run_iter"]}
{"id": "C91", "title": "The canvas shows the same picture as the PNG", "statement": "The page draws every picture the server sends, whatever was on the canvas before: its size, and for each entity in order exactly its shapes, colours (scaled to 0..255) and text, labels shifted to stay inside the picture and inverted on a box if wider than their circle. Mark by mark it is the PNG of the same entities, if texts are equally wide, except that lines are not dashed, the box of an overflowing label has the height of the font, and for the vertical anchor of texts.", "quantifier": "all pictures with well-formed colours, all canvases, all text measures", "why_tests_cant": "It quantifies over all pictures and all previous contents of the canvas.", "anchors": ["truthdiscovery/client/web/static/app/graph_drawer.js: draw_graph, draw_label, get_colour_string", "truthdiscovery/graphs/backends/js_backend.py", "truthdiscovery/graphs/backends/png_backend.py"]}
{"id": "C92", "title": "The results tables", "statement": "In a table exactly the rows with the greatest score are bold. The rows are a permutation of the scores sorted by the chosen column in the chosen direction, equal rows keeping their order; names are compared as strings, so source ids are in numerical order if all are below 10, and otherwise source 11 comes before source 3. Before any click a table is sorted by name, increasing; after clicks of which exactly the last k are on one column it is sorted by that column, decreasing iff k is odd, and only its icon shows it. A difference below 1000 is shown with its sign rounded to seven decimals (a plus if it rounds to zero), larger ones as (-NaN); the colour tells the exact sign.", "quantifier": "all finite scores, all sequences of clicks, all real differences", "why_tests_cant": "It quantifies over all score tables, click sequences and differences.", "anchors": ["truthdiscovery/client/web/static/app/app.js: ResultsController (sort, getSortOrderBy, formatDiff, getDiffClass), getResults", "truthdiscovery/client/web/static/app/templates/results.html"]}
{"id": "C93", "title": "AverageLog in floating point", "statement": "In IEEE double arithmetic as performed by the code, if some source makes at least two claims then, after at least one round, all AverageLog scores are finite numbers in [0,1], and the largest trust and the largest belief are exactly 1; every partial result after the starting one is like that too, and with a fixed number n >= 1 of rounds a result is returned. If every source makes exactly one claim, every score is NaN after the first round and stays NaN.", "quantifier": "every dataset of at most 2^53 sources and claims, every valid priors choice, every iterator, every number of rounds, every C library whose log(1) is 0 and whose log(n) is between 1/2 and 64 for 2 <= n <= 2^53", "why_tests_cant": "rounding and underflow over all inputs and any number of rounds", "anchors": ["truthdiscovery/algorithm/average_log.py:AverageLog._run"]}
{"id": "C94", "title": "CRH in floating point", "statement": "In IEEE double arithmetic, with sums added up from left to right, after at least one round of CRH every trust is a finite number not less than eps and every belief is a number in [0,1], never NaN or infinite; so is every partial result, and with a fixed number n >= 1 of rounds a result is returned. The default eps is in the permitted range.", "quantifier": "every non-empty dataset of at most 2^53 sources and claims, every double eps between 2^-400 and 2^400, every iterator, every number of rounds, every C library whose log on doubles in [2^-900, 1] is a number in [-1000, 0]", "why_tests_cant": "rounding, overflow and underflow over all inputs and any number of rounds", "anchors": ["truthdiscovery/algorithm/crh.py:CRH._run"]}
{"id": "C95", "title": "Investment and PooledInvestment in floating point", "statement": "In IEEE double arithmetic, as long as no trust score of the run has become NaN, infinite or smaller than 2^-100, every score after at least one round is a finite number in [0,1], and the largest trust and the largest belief are exactly 1; this holds for the result and for every partial result after the starting one.", "quantifier": "every dataset of at most 2^53 sources and claims, every priors choice, every iterator, every number of rounds, every C library and exponent g for which pow(., g) maps [0, 2^320] into [0, 2^800] and is at least 2^-1000 on [2^-480, 2^320] (a correctly rounded pow does for every g in [0,2])", "why_tests_cant": "rounding, overflow and underflow over all inputs and any number of rounds", "anchors": ["truthdiscovery/algorithm/investment.py:Investment.update_trust, Investment._run", "truthdiscovery/algorithm/pooled_investment.py:PooledInvestment._run"]}
{"id": "C96", "title": "Investment can end in NaN", "statement": "On the three triples (1,1,1), (2,1,2), (3,2,1), Investment(g=2) with its default priors returns NaN for every trust and every belief after any number n >= 12 of rounds, so also with its default iterator (20 rounds); PooledInvestment(g=2) with its default priors does so after any number n >= 540 of rounds. No exception is raised.", "quantifier": "every number of rounds from 12 (540) on, every C library in which pow(x, 2.0) is the rounded x*x", "why_tests_cant": "It is about every number of rounds and every C library; it shows that the restriction to trusts that do not become tiny in C95 is needed.", "anchors": ["truthdiscovery/algorithm/investment.py:Investment.update_trust, Investment._run", "truthdiscovery/algorithm/pooled_investment.py:PooledInvestment._run"]}
{"id": "C97", "title": "The JSON of an answer", "statement": "In an answer of the web server with results, the object of an algorithm has exactly the keys time, iterations, trust, belief, trust_stats, belief_stats, most_believed_values, and also diff if and only if previous results were sent. They show the result of running that algorithm: its time and number of rounds (null if it has none), the trust of exactly the sources by number, the belief of exactly the claims by variable number and value, mean and standard deviation of the trusts and of each variable's beliefs, and for each variable its most believed values in some order. diff holds new minus old for exactly the trust and belief entries present in both, for the time, and for the number of rounds (null if either has none).", "quantifier": "all requests answered with results, all algorithms in them, all datasets, parameters, clocks and set orders, every injective printing of numbers and values", "why_tests_cant": "It is about every request and every result, including which keys are absent.", "anchors": ["truthdiscovery/client/base.py: BaseClient.get_output_obj, OutputFields", "truthdiscovery/client/web/server.py: get_results_object, run", "truthdiscovery/output/diff.py: ResultDiff"]}
{"id": "C98", "title": "The built-in datasets of the web page", "statement": "The page has exactly four built-in datasets with these names and claims, and each is as its description says: \"standard\" has an agreement, a disagreement and a missing value; in \"all_but_one_agree\" on each variable all sources but one agree and that one disagrees with each of them; in \"indep_groups\" sources and variables split into two groups such that no claim of a source in one is about a variable of the other; in \"no_agreement\" no two sources agree on any variable. The page opens with \"standard\", the text dialogue closed and empty.", "quantifier": "all sources and variables of each dataset", "why_tests_cant": "The page's JavaScript has no tests in the repository; agreement and independence are statements about all pairs.", "anchors": ["truthdiscovery/client/web/static/app/app.js: MainformController.preset_datasets"]}
{"id": "C99", "title": "Further votes for a claim", "statement": "Adding one vote for a claim: under majority voting (in doubles) the claim moves strictly ahead of every claim it was not behind, and the order of all other claims does not change. For Sums in exact arithmetic, if one or more new sources make only the claim c, then in the limit of many rounds no claim gains on c: limit'(e)*limit(c) <= limit'(c)*limit(e) for every claim e, and a claim that had the highest belief still has it. AverageLog takes no notice of such sources: with the priors FIXED (the default) or UNIFORM all other scores are the same, and their own trust is 0. PooledInvestment has no such monotonicity: with g=2 and otherwise default settings there is a data set of six triples in which a further vote for a claim puts it below a rival claim it was ahead of.", "quantifier": "all datasets, claims, sets of new sources, priors, numbers of rounds beyond a bound, clocks; for PooledInvestment a concrete data set and every C library with pow(x,2)=x*x", "why_tests_cant": "Relates the results on two different datasets in the limit of the iteration, for all datasets.", "anchors": ["truthdiscovery/algorithm/sums.py: Sums._update", "truthdiscovery/algorithm/voting.py: MajorityVoting.run", "truthdiscovery/algorithm/average_log.py: AverageLog", "truthdiscovery/algorithm/pooled_investment.py: PooledInvestment"]}
{"id": "C100", "title": "UnboundedSums in IEEE doubles", "statement": "In double arithmetic a run of UnboundedSums with an ordinal iterator never raises an exception (on a non-empty dataset, with a valid prior): no score on the way is ever NaN or negative, though it may be infinite, and the scores of the result are dense ranks 0,1,2,... whose order is the order of the scores in the last partial result. But the ranks need not be the exact ones: on a dataset of 39 triples, with the default prior and any threshold of 301 or more, two sources of which one makes all the claims of the other and one more tie at rank 0 because their scores underflow beside those of a larger group, while in exact arithmetic the first is always ranked strictly higher.", "quantifier": "every non-empty dataset with at most 2^53 sources and claims, every prior, threshold, clock, C library; for the false tie a concrete dataset and every threshold from 301", "why_tests_cant": "all datasets and unboundedly many rounds; the underflow only shows after some 300 rounds", "anchors": ["truthdiscovery/algorithm/unboundedsums.py: UnboundedSums._run", "truthdiscovery/utils/iterator.py: OrdinalConvergenceIterator.get_ranking_vector"]}
{"id": "C101", "title": "More support, no lower score, in IEEE doubles", "statement": "In double arithmetic, after at least one round, Sums, AverageLog (when some source makes two claims), CRH and UnboundedSums never give a claim a lower belief than another claim all of whose supporters also make it; hence claims with the same supporters get equal beliefs and no belief exceeds that of a claim made by every source. Sums and UnboundedSums never give a source a lower trust than another source all of whose claims it makes. The same holds for the results of run and for every partial result, and, for Investment, for every partial result as long as no trust before it is below 2^-100 and the C library's pow is non-decreasing. Rounding and overflow may create ties but no inversions.", "quantifier": "every non-empty dataset with at most 2^53 sources and claims, every prior, iterator, clock, number of rounds, C library meeting the weak conditions named", "why_tests_cant": "rounding errors depend on the order and number of summands; a test samples a few datasets, while the order must survive every sequence of roundings", "anchors": ["truthdiscovery/algorithm/sums.py: Sums._run", "truthdiscovery/algorithm/average_log.py: AverageLog._run", "truthdiscovery/algorithm/crh.py: CRH._run", "truthdiscovery/algorithm/unboundedsums.py: UnboundedSums._run", "truthdiscovery/algorithm/investment.py: Investment._run"]}
{"id": "C102", "title": "Runs in several threads", "statement": "If no two threads use a common iterator object, every call of run in a thread returns the scores and iteration count, or raises the exception, that it would alone, whatever the interleaving of the threads between accesses to iterators; what a thread has done depends only on how many steps it was given, and if its calls end when made alone it has made them all after a certain number of its own steps. If two threads share an iterator object this fails: with a FixedIterator(2n) both can do n rounds and report 2n iterations, and with a FixedIterator(1) a thread can do any number k of rounds and report 1.", "quantifier": "every number of threads, lists of calls with any algorithms, priors, datasets and iterators, every schedule, any arithmetic", "why_tests_cant": "schedules are unbounded and not under a test's control", "anchors": ["truthdiscovery/algorithm/base.py: BaseIterativeAlgorithm.run", "truthdiscovery/utils/iterator.py: Iterator.reset, compare, finished", "truthdiscovery/client/web/server.py: WebClient.run"]}
{"id": "C103", "title": "TruthFinder stays in range in doubles when shares do not overshoot", "statement": "In double arithmetic, without implication values, with dampening factor and initial trust in [0,1] and sane log and exp, if for every source the shares 1/n of its n claims add up in doubles to at most 1, then every trust and every belief TruthFinder returns, in the result and in all partial results, is a finite number in [0,1], and after a round of a run that does not start at trust 1 every belief is at least 1/2. Of the numbers up to 40 exactly 9, 11, 18, 20, 21, 25, 35, 36, 39, 40 overshoot; powers of two up to 2^53 never do. Together with C64 this says which datasets make TruthFinder return NaN.", "quantifier": "every dataset of up to 2^53 sources and claims, every influence parameter, every iterator, number of rounds and log", "why_tests_cant": "it is about every dataset, every double parameter and any number of rounds", "anchors": ["truthdiscovery/algorithm/truth_finder.py: TruthFinder._run, get_log_trust"]}
{"id": "C104", "title": "When a run with an ordinal iterator stops", "statement": "In exact arithmetic, for every algorithm with valid parameters, a run controlled by an OrdinalIterator with threshold t returns after exactly the first number k of rounds such that none of the rounds k-t+1..k changed the ranking of the sources by trust (ties included), where the scores are those of the algorithm's published recurrence; it does not return before, and does not raise. A threshold of at most 0 stops before the first round.", "quantifier": "every dataset, every algorithm with valid parameters, prior, threshold and log, any iterator state left by earlier runs", "why_tests_cant": "the number of rounds is unbounded and depends on the data", "anchors": ["truthdiscovery/utils/iterator.py: OrdinalIterator.compare, finished, get_ranking_vector", "truthdiscovery/algorithm/base.py: BaseIterativeAlgorithm.run", "truthdiscovery/algorithm/unboundedsums.py: UnboundedSums._run"]}
{"id": "C105", "title": "Animators: frames, shared renderers, what is written", "statement": "Creating a GifAnimator or JsonAnimator raises ZeroDivisionError for a frame duration of 0 and TypeError for a renderer with another backend, and otherwise never fails; without a renderer the default one is accepted. A generator returned by get_frames gives, at each next(), the frame it would give if it were alone in the program, and then StopIteration for ever: other generators advanced in between on the same animator (hence the same renderer) or the same algorithm object, drawings, reassigned colours and runs of the algorithm change none of its frames. animate raises the exception a consumer of the frames would see; a GIF then holds the frames before it, a JSON file nothing; without an exception the GIF has all frames, the JSON file all frames and 1/frame_duration. Afterwards the renderer keeps the gradient colours of the last partial result.", "quantifier": "every frame duration, renderer backend, initial renderer state, set of generators (several may share renderer, algorithm object and dataset, and be in any state), every interleaving of next() calls, drawings, colour assignments and algorithm runs, every dataset, algorithm object and show_progress", "why_tests_cant": "a test advances one generator to its end; the claim is about every interleaving of several generators that assign and use the same renderer attributes", "anchors": ["truthdiscovery/graphs/animation.py: BaseAnimator.__init__, animate, get_frames, GifAnimator.write, JsonAnimator.write", "truthdiscovery/graphs/draw.py: GraphRenderer.render, compile", "truthdiscovery/algorithm/base.py: run_iter"]}
{"id": "C106", "title": "When a run with an ordinal iterator stops, in double arithmetic", "statement": "In IEEE double arithmetic, a run with an OrdinalIterator of threshold t (algorithms other than UnboundedSums) that returns after k rounds has stopped at the first number of rounds k such that the last t rounds left the order of the sources by trust (ties included) unchanged, comparing the results of the runs with FixedIterator(j) for j up to k, or at the first k after which the algorithm ends by itself however many rounds are asked for, whichever is smaller - provided none of those results has a NaN trust score. Conversely, if such a k exists and there is no NaN up to it, the run does not fail. For Sums there is never a NaN and the algorithm never ends by itself, so the run stops exactly when the ranking has been stable for t rounds. The same, under plausible conditions on the C library's logarithm and exponential, for AverageLog (if some source makes at least two claims) and CRH (any positive eps between 2^-400 and 2^400); and for TruthFinder without an implication function, initial trust and gamma between 0 and 1, if the numbers of claims of the sources are ones whose equal shares do not add up to more than 1 in doubles, the run stops at the first round where the ranking has been stable for t rounds or TruthFinder ends by itself.", "quantifier": "every dataset (below 2^53 sources), algorithm with any parameters, prior, threshold, iterator state, clock and libm", "why_tests_cant": "the claim compares the stopping round of every run with the orders after all earlier rounds, on every dataset, with rounding and ties", "anchors": ["truthdiscovery/utils/iterator.py: OrdinalConvergenceIterator", "truthdiscovery/algorithm/base.py: run", "truthdiscovery/algorithm/sums.py", "truthdiscovery/algorithm/average_log.py", "truthdiscovery/algorithm/investment.py", "truthdiscovery/algorithm/pooled_investment.py", "truthdiscovery/algorithm/truth_finder.py", "truthdiscovery/algorithm/crh.py"]}
{"id": "C107", "title": "Tabs, panels and sections of the results on the web page", "statement": "While the last request from the web page has not been answered with results, the page displays no tabs and no panels. Otherwise it displays exactly one panel, that of one of the algorithms that were requested; and one tab for each of them, in the order of the algorithms' display names, with those names, of which exactly the one of the panel displayed is marked as active. A click on a tab displays its panel; the panel stays until another tab is clicked or an answer arrives that has no results for it, whatever requests fail and sections are opened or closed in between. A section of the panel is open, and its icon shows so, iff its heading has been clicked an even number of times since the page was opened, in whatever panel; the section with the animation is there except for majority voting. The panel shows the number of rounds of the answer, and N/A for majority voting and for algorithms that made no round. The names shown for the four distance measures are L1, L2, L inf and Cosine.", "quantifier": "every history of presses of the Run button with any form settings, answered by the server in any way, clicks on tabs and clicks on section headings; every order in which the browser enumerates the keys of objects", "why_tests_cant": "it is an invariant of all histories of interactions with the page and all answers of the server; there are no tests of the JavaScript code, and a test could only follow one history", "anchors": ["truthdiscovery/client/web/static/app/app.js:getAvailableAlgorithmLabels", "truthdiscovery/client/web/static/app/app.js:getSectionIcon", "truthdiscovery/client/web/static/app/app.js:getResults", "truthdiscovery/client/web/static/app/app.js:formatDistanceMeasure", "truthdiscovery/client/web/static/app/templates/results.html", "truthdiscovery/client/web/server.py:Routes.home_page"]}
{"id": "C108", "title": "When Sums and AverageLog stop under a convergence iterator, in double arithmetic", "statement": "In IEEE double arithmetic, a run of Sums (or of AverageLog, if some source makes at least two claims and the C library's logarithm is correct to a relative error of 2^-52) with a ConvergenceIterator on the L-infinity distance with threshold T that returns after k rounds has stopped where the exact recurrence comes to rest: in round k every exact trust score moves by less than T + m(k), and in each earlier round j some exact trust score moves by at least T - m(j), where m(j) = 3 (j+1)(sources + claims + c) / 2^50 (c = 1 for Sums, 5 for AverageLog) bounds the effect of rounding. If in some permitted round N the exact scores move by less than T - m(N), the run does return, after at most N rounds; a run that raises ConvergenceError had exact scores moving by at least T - m(j) in every permitted round j. Since the exact scores converge, such an N exists for every positive threshold, provided the bounds on it hold (m(N) at most T/2 and at most the iterator's limit).", "quantifier": "every dataset, prior, threshold, limit, iterator state, clock and (for AverageLog) C library logarithm accurate to 2^-52; rounds k with (k+1)(sources+claims+c) <= 2^50 and (sources*claims[*claims])^(k+1) <= 2^900", "why_tests_cant": "it relates the stopping time in floating point to that of the real-number recurrence for all datasets; tests compare a few runs with fixed expected iteration counts.", "anchors": ["truthdiscovery/utils/iterator.py:ConvergenceIterator", "truthdiscovery/algorithm/base.py:BaseIterativeAlgorithm.run", "truthdiscovery/algorithm/sums.py:Sums", "truthdiscovery/algorithm/average_log.py:AverageLog"]}
{"id": "C109", "title": "UnboundedSums in double arithmetic: when it stops and what it returns", "statement": "In IEEE double arithmetic, a run of UnboundedSums with an OrdinalIterator of threshold t (its default kind of iterator) follows this recurrence: new trust scores are the sums of the beliefs of a source's claims and new belief scores the sums of the new trust scores of a claim's sources, added one by one from left to right, after which each kind of score is divided by 1000 if one of them is over 1000. The run returns after k rounds iff k is the first number of rounds such that in each of the last t of them the new trust scores (before the division) put the sources in the same order as the trust scores of the round before, ties included; it never fails otherwise, and the scores it returns are the dense ranks of the recurrence's scores after k rounds. A run that has not returned after any number of steps simulated has met no such k.", "quantifier": "every dataset (below 2^53 sources and claims), valid prior, threshold, iterator state, clock, libm and number of steps", "why_tests_cant": "it is about every dataset and every number of rounds, and about where rounding may change the order of scores; tests compare a few runs with expected ranks.", "anchors": ["truthdiscovery/algorithm/unboundedsums.py:UnboundedSums._run", "truthdiscovery/utils/iterator.py:OrdinalConvergenceIterator", "truthdiscovery/algorithm/base.py:BaseIterativeAlgorithm.get_prior_beliefs"]}
{"id": "C110", "title": "The doubles Investment and PooledInvestment report are the exact scores, to a stated accuracy", "statement": "When a run of Investment or PooledInvestment with exponent g between 0 and 2 returns after k >= 1 rounds, every trust and every belief in the returned result is a finite double whose relative distance from the number given by k rounds of the algorithm's published formula in real arithmetic is at most h(3(NS+NC)+8)(2+h)^k 2^-50, where NS and NC count the sources and the claims and h is max(1,g) for Investment and 1+2g for PooledInvestment - provided that no exact score of rounds 1 to k is below 2^-80, that this bound is at most 1, that there are at most 2^20 sources and as many claims, and that the C library's pow is right to a relative error of 2^-52. With FixedIterator(n), n >= 1, the run does return, after exactly n rounds. It follows that a value whose exact belief is ahead of its rivals' by more than this error is the one get_most_believed_values reports, and that two runs of the same number of rounds, one in doubles and one in exact arithmetic, agree to this accuracy.", "quantifier": "every dataset (with implications or without, strict or not) of at most 2^20 sources and claims, every exponent in [0,2], all four kinds of priors, every iterator, every number of rounds, every C library whose pow is accurate to 2^-52, every clock", "why_tests_cant": "a test compares the result on a few datasets with numbers computed in the same double arithmetic, and cannot bound the rounding error of every dataset, exponent and number of rounds", "anchors": ["truthdiscovery/algorithm/investment.py:Investment.update_trust", "truthdiscovery/algorithm/investment.py:Investment._run", "truthdiscovery/algorithm/pooled_investment.py:PooledInvestment._run", "truthdiscovery/output/result.py:Result.get_most_believed_values"]}
{"id": "C111", "title": "UnboundedSums in doubles ranks well-separated labels correctly", "statement": "UnboundedSums works with scores it divides by 1000 now and then, in double arithmetic, and reports only ranks. After k rounds, the doubles it works with are, for all the sources at once and for all the claims at once, the scores of the exact recurrence (sum of beliefs of a source's claims, sum of trusts of a claim's sources, from the chosen prior) divided by one power of 1000, up to a relative error of (k+1)(sources+claims+1)/2^51. Hence if a run with an ordinal iterator returns after k rounds, a label whose exact score is below another's by more than that error allows is ranked below it; and if the exact scores are all that far apart, except those of sources making the same claims and of claims made by the same sources, the ranks reported are exactly the numbers of different smaller exact scores. If a claim's exact score is that far above those of the other claims about its variable, get_most_believed_values gives its value alone.", "quantifier": "every dataset, prior-belief setting, threshold, clock and number of rounds for which overflow and underflow are out of reach whatever the claims (sources and claims at most 2^m with (2m+10)k+2m <= 900) and the error bound is at most 1", "why_tests_cant": "rounding errors depend on every sum of every round of every dataset; a test sees single ones, and cannot compare with exact scores", "anchors": ["truthdiscovery/algorithm/unboundedsums.py: UnboundedSums._run", "truthdiscovery/algorithm/base.py: BaseIterativeAlgorithm.run, get_prior_beliefs", "truthdiscovery/utils/iterator.py: OrdinalConvergenceIterator.get_ranking_vector"]}
{"id": "C112", "title": "UnboundedSums in doubles does the same run as in exact arithmetic on well-separated data", "statement": "If UnboundedSums with an ordinal iterator of positive threshold returns, in double arithmetic, after k rounds, and the exact scores of the sources after each of the rounds 1..k are far apart (by more than the rounding error of that round allows; sources that make the same claims excepted), then the run in exact arithmetic on the same data, with the same prior beliefs, threshold and step allowance, returns too, after the same number of rounds, and gives every source the same rank; and every claim the same rank, if the exact scores of the claims after round k are far apart in the same sense.", "quantifier": "every dataset, prior-belief setting, positive threshold, clocks and numbers of rounds in the range stated for C111", "why_tests_cant": "tests have only the doubles; when the run stops depends on every comparison of scores in every round, each of which rounding could reverse", "anchors": ["truthdiscovery/algorithm/unboundedsums.py: UnboundedSums._run", "truthdiscovery/utils/iterator.py: OrdinalConvergenceIterator.compare, finished, get_ranking_vector"]}
