# Formal model of joesingo/truthdiscovery in Rocq (Coq 8.16.1)

## Approach

The library is plain sequential Python: dictionaries, lists, numpy/scipy vector arithmetic, a `while` loop per
algorithm.  It is modelled as shallow, total Gallina functions that mirror the Python functions branch by branch, with
exceptions as values (`res E A := Ok a | Err e`).  Every definition of a model file cites the file and lines it models.

* **Numbers.**  All numeric code is written once, over a record `Num` of operations (`+ - * /`, comparisons, `log`,
  `exp`, `**`, `sqrt`, `int()`).  Two instances are used:
  * `XR`: exact extended reals `Fin r | PInf | NInf | NaN` with IEEE rules for the special values (0/0 = NaN,
    x/0 = inf, log 0 = -inf, comparisons with NaN are false) but no rounding and no signed zero.  "A score is a finite
    number in [0,1]" is therefore a real claim: a division by zero shows up as NaN/inf, it is not hidden by
    Coq's total division.
  * `B64`: Flocq's IEEE-754 binary64 (round to nearest even), for theorems about the rounded computation.
    `log/exp/**` are parameters of this instance (libm is not modelled).
  Theorems about structure (datasets, runs, histories, clients, graphs) are proved for every `Num`, hence for both.
* **Loops.**  `while not iterator.finished()` runs on explicit fuel; running out is the distinct error `OutOfFuel`.
  Theorems either exclude it or show that enough fuel exists (C28, C43, C59-C61).
* **Randomness, clock, set order.**  `random.choice`, `np.random.*`, `time.time()` and the iteration order of Python sets
  are oracle arguments; theorems quantify over every oracle (every outcome).
* **Specifications** (`Spec.v`, `SpecAlg.v`, and the "Specification" part at the head of each property file) are stated
  on the *input triples and labels* (lists, sums over lists), with no ids, no matrices, no vectors: a theorem connects the
  id/matrix/vector model to that label-level specification.
* **Non-vacuity.**  Every property file ends in a module `...Examples` showing concrete cases that meet the hypotheses.

## Layout (rocq/theories)

| file | contents |
|---|---|
| Base, Num, Sparse, PyStr, Regex | Python building blocks: dicts as insertion-ordered association lists, exceptions, numbers and numpy reductions, scipy matrices, strings, the used fragment of `re` |
| Spec, SpecAlg | specification vocabulary: meaning of triples; published recurrences |
| Dataset | `input/dataset.py` |
| Matrix | `input/matrix_dataset.py`, `SupervisedData.from_csv` |
| Supervised | `SupervisedData.get_accuracy`, `input/synthetic_data.py` |
| Experiment | `examples/synthetic_experiment.py` (without plots), `examples/timing_test.py` `perform_test` |
| ConvTest | `examples/convergence_test.py` (without plots) |
| File | `input/file_helpers.py`, `examples/real-world-datasets/` loaders |
| Iterators | `utils/iterator.py` |
| Algorithms | `algorithm/*.py`: base class, majority voting, Sums, AverageLog, Investment, PooledInvestment, TruthFinder, CRH, UnboundedSums; `run`, `run_iter` with algorithm objects and interleaved generators |
| Results | `output/result.py`, `output/diff.py`, `utils/__init__.py` |
| Client | `client/base.py` |
| Front | `client/cli.py` (run, synth, graph), `client/web/server.py` |
| Args | `client/cli.py`: options of the sub-commands (`get_parser`, `make_argparse_type`, `run`), without argparse's tokeniser |
| Graph, Png | `graphs/*.py`, `graphs/backends/*.py` |
| Threads | several threads calling `run`, interleaved between accesses to iterator objects |
| Animator | the animator constructor, generators of frames advanced one at a time on a shared renderer, what is written |
| WebTabs | tabs, panels and sections of the results component of the page; the filter for names of distance measures |
| WebForm, WebPage, WebView | the JavaScript of the web page: `matrix.js`, the data form; `tdService` and the Run button; animation, drawing and results view |
| Float, Accuracy, Close | the binary64 instance (Flocq) and rounding lemmas, relative errors |
| DatasetProofs, DatasetRep, Driver, Rounds, Ranking, Distance, AlgRep, AlgRounds, AlgTF, AlgPack, Iso, Local, ExpSum, Spectral, Conv, Accuracy, GraphRep, FrontRep | lemmas connecting the model to the specifications |
| Props*.v | the property theorems `Cnn_...` (PropsTight, PropsSeeds: added after tests against wrong programs; PropsAudit, PropsMore: added after comparing statements with the English) |

## Per property: what is modelled, how it is proved

C01-C07 dataset construction: the constructor is a fold over the triples with the same seven pieces of state; one
  invariant relates the state after each prefix to label-level lists (`distinct`, first triple per (source, variable)).
C08 `num_connected_components`: modelled as written; refuted by a witness; lower bound and exactness condition by
  induction on sources with the components of the prefix graph.
C09-C12, C16 matrix/CSV: text is a list of code points; split/strip/join are modelled; float parsing and printing are
  oracles with the hypotheses parse(print v) = v and "printed floats contain no comma/whitespace and are not empty".
C13 accuracy: tie-break oracle.  C14/C15 synthetic data: oracle for every random draw, with support hypotheses.
C17-C20 results: dictionaries as insertion-ordered association lists, Python's stable `sorted`.
C21-C25 iterators: state machines; ranking modelled with sort + dict; distances over XR.
C26-C30 run/run_iter: algorithm objects with iterator state; generator interleavings as a small-step machine over a
  heap of result logs.
C31-C42, C58 algorithms: generic model over `Num`; XR instance proved equal to label-level recurrences; invariants by
  induction on rounds; C34 over B64 with Flocq; C41 by an isomorphism of data sets.
C43-C49, C56, C57 clients: strings as code points; the regex matcher is specified by a declarative grammar; request
  and command functions run the whole pipeline, theorems characterise every outcome.
C50-C55, C69 graphs: layout over exact reals; entities as data; PNG through a model of cairo's context.
C59, C60 termination and convergence of Sums/AverageLog/UnboundedSums: scores are, up to scaling, sums of exponentials
  (a spectral theorem for N^T N proved from scratch in Spectral.v), whose comparisons are eventually constant.
C61 TruthFinder: monotone iteration bounded above.  C62: locality by splitting sums over the two parts.  That CRH is not local is shown by a pair of data sets where one unrelated source turns a comparison round (`C62_crh_not_local`).
C63, C64 binary64: correct rounding and injectivity on small quotients; a computed counterexample, generalised.
C65: the loop invariant of the iterator tied to the reported trust of fixed-length runs.
C66-C68 files: readers as generators (yielded list, optional exception).
C70, C71 CRH: Gibbs' inequality for the weights, weighted means for the beliefs; the drop of the objective bounds the
  change of the beliefs, hence of the trust scores.
C72 renaming and repeats: two datasets whose ids correspond have equal matrices, hence equal rounds in every `Num`.
C73 accuracy in doubles: all operands are non-negative, so each sum, product and quotient errs by a bounded number of factors 1+2^-52 either way (`Accuracy.rel`); dividing by the maximum keeps the scores up to a common factor, so errors add up only linearly with the rounds; the size bounds exclude underflow. The logarithm's accuracy is a hypothesis (a correctly rounded instance is exhibited). k = 0 (the priors themselves) is not covered.
C74 experiments: `Experiment.exp_run` follows the loops with iterators as data (`repeat` or the items left), the class-level dict as state, one oracle per trial for randomness and clock; the results by induction over labels, repetitions and algorithms (algorithm objects are as good as new by C27's lemma); histories by a relation saying iterators only shrink. Python 3.7+ semantics of StopIteration in a generator; ill-typed or unknown arguments are one error.
C75 timing: slices of the matrix against a filter of its triples; the run itself is an arbitrary function of algorithm, position and data set.
C76 coherence: the belief of a claim is an order-preserving function (division by a positive maximum, ranking) of a sum over supporters, and the reported trust one of the summand; sums over an injection of non-negative terms.

C77 debug output: the state of a running algorithm records the lines its iterator would print with debug=True (the flag changes nothing else); the loop's trace is related to the trust scores of runs with a fixed number of rounds as in C65.

C78 convergence experiment: printing and reading back are inverse by the string lemmas (str and float are oracles); the shared iterator is reset by each run; induction over the algorithms; a square root is never below 0, so only the limit or the algorithm itself stops a run.

C79 home page: the tables are compared with the ones of C47 and with the strings of C43.

C80 law of synthetic data: the draw of np.random.choice is located between two partial sums; for a given matrix the random numbers that produce it are built along the loops (lemmas for each loop, for every generator that starts with these numbers); the other direction follows from C15's invariant.
C81, C82 command-line options: a command line is the sequence of its options with their values (argparse's tokeniser, abbreviations and "-" as standard input or output are not modelled); an invariant says that the namespace after each prefix holds the converted value of the last option of each kind. For graph, files are a function from paths to texts, emptied by --outfile when it is met; the dataset is read after all options.
C83 copies: a map from the copies to the originals whose fibres all have the same size; sums over copies are multiples of sums over originals, maxima are equal, so one normalised round maps copies to copies.
C84 synthetic data in doubles: the probabilities are within two roundings of the exact ones (1 - t is 0 or at least 2^-53, so nothing underflows), hence their sum within 2^-26 of one; partial sums in doubles are monotone and the last one divided by itself is 1, so the drawn index exists and its probability is positive. The sum checked by numpy is compensated, here it is a plain sum (whose error is larger).
C85-C87 data form: the table is a list of rows, an action a function on the form's state, sessions are sequences of actions that the form offers; cells are compared by position. parseFloat and String are oracles (String of a number is read back by Python and by parseFloat; no comma, white space or line break in it).
C88 request: the iterator line is related to the grammar of C43 by the string lemmas; the parameters to C44's dictionary.
C89 visits: a visit is a list of presses with their outcomes; the service is a function of the last answered press, by induction over visits; the differences are those of C48's response, read through any JSON printer/reader pair that is faithful up to key order.
C90 display: the player is a state machine over loaded frames, its invariant proved by induction over action sequences; the display of an answer composes C48's response with C91 and C29/C54 (frames of an animation are proper drawings, their number and round numbers).
C91 canvas: a 2D canvas context (fill, stroke, font, path) with the marks it leaves; each entity's marks are characterised, and compared with those of the PNG context of C69 mark by mark.
C92 tables: orderBy as a stable insertion sort (permutation, sortedness, stability), the click automaton by induction over clicks, the number filter and formatDiff over exact reals.
C93 AverageLog in doubles: error-free bounds for each row (products, sums by their largest term), induction over the rounds; NaN fixed point when all sources make one claim.
C94 CRH in doubles: the same, with the logarithm as an oracle with bounds (`usable_log`).  The model sums left to right; numpy's `np.sum` is pairwise, for which belief <= 1 could be off by one ulp.
C95 Investment/PooledInvestment in doubles: the same with `usable_pow`, under the condition that no trust is below 2^-100 (C96 shows a condition is needed; it is stated about the partial results of run_iter).
C96 NaN: the rounds up to the twelfth (540th) are evaluated by the kernel for an arbitrary C library with pow(x,2) = x*x, the NaN state is a fixed point of the round, induction gives all later rounds.
C97 JSON: the answer of C48 through `entry_json` (the text is an oracle), described by paths into the JSON value (`at_path`); the result shown is that of `alone` (C48), the differences are read from the previous JSON by path.
C98 built-in datasets: the tables of app.js, compared with lists of claims; agreement and independence stated with `cell` for any injective reading of numbers.
C99 further votes: for Sums, the limit of C60 is shown to belong to the largest eigenvalue (TopEigen.v: log-convexity of <y, K^k y>, Rayleigh bound), then a maximum principle for the quotient of the two limits; AverageLog by comparing rounds (the new weight is ln 1 = 0); voting from C63; the PooledInvestment data set is evaluated in Flocq doubles.
C100 UnboundedSums in doubles: the scores stay in {+0, positive finite, +inf} (`nnum`), which sums, products with 1.0 and division by 1000 preserve; with Ranking.v (ranking vectors of vectors without NaN) this gives dense ranks and no KeyError.  The false tie (PropsTies64.v) is evaluated for 300 rounds on a three-number compression of the state (proved equal to the run), small enough for coqchk; from there an invariant shows that the small group stays at zero for ever, and the exact order comes from the plain recurrence (C40).

C101 More support, no lower score, in doubles (Mono64.v, PropsMore64.v): the rounded sum of non-negative doubles taken in a fixed order over a part is at most the one over the whole (infinities included), because rounding is monotone; division by a common positive double, pow (by hypothesis) and ranking keep the order.  The statements use only `says`, `belief_of`, `trust_of` and Flocq's `Bleb`.
C102 Threads (Threads.v): a small-step machine, one step per access to an iterator object, with the iterator objects in a heap; the rounds are the pure rounds of Rounds.v, proved equal to the bodies of the loops. Non-interference: a step reads and writes only the iterator of the current call; then an invariant relates each place of the program to the loop of a run alone. The two interference theorems give the schedules. `it_count += 1` counts as one access; times, debug output and results_log are left out.
C103 TruthFinder in range (PropsTFRange64.v): invariant of the double rounds: all trusts in [0,1]. A trust below 1 is at most 1-2^-53, so 1-t is in [2^-53,1], its logarithm is a finite number <= 0 and 1/(1+exp(..)) is in [1/2,1]; the new trust is bounded, term by term and by monotonicity of rounded addition, by the rounded sum of the shares 1/n. Assumed of libm: usable_log (as C94) and usable_exp (exp of a finite number <= 0 is a number in [0,1]).
C104 Ordinal stopping (PropsOrdStop.v): induction over the loop with the invariant that the iterator's counter is the length of the current streak of comparisons without a change; equality of ranking vectors is shown to be equality of the orders of the sources; for UnboundedSums the compared vectors are multiples of the trusts.
C105 Animators (Animator.v, PropsAnimator.v): generators as state machines over a stage (one renderer, algorithm objects, generators); invariant: each generator still owes the rest of the sequence it would give alone; interference is excluded because every frame assigns the colours and render recomputes the height, and because objects only differ in iterator state that reset clears (PropsRun). Not modelled: the pixels and the GIF encoding (the PNG backend is C69).
C106 Ordinal stopping in doubles (PropsOrdStop64.v; PropsOrdStop64b.v removes the no-NaN condition for AverageLog, CRH and TruthFinder using C93, C94 and C103): the comparison of two ranking vectors of NaN-free doubles is shown to be equality of the orders (dense ranks with the same order are equal, ranks below 2^53 are exact); the loop invariant of C104 with early ends added; results after j rounds are those of FixedIterator(j), so the statement is about API results only. UnboundedSums compares trust with unscaled sums and is left to C104.
C107 results component over the service model (WebTabs.v): shown label, section flags, tabs sorted by String([name, label]); invariant of all histories with the server model of Front.v (answers' keys by C48_run), uniqueness of sorted permutations for the order of tabs (PropsTabs.v).
C108 Convergence stopping in doubles (PropsConv64.v): C65 characterises the stopping round by the distances between consecutive float scores; the distance under L_INF is shown to be within 2^-52 of the maximum of the real differences (subtraction of doubles of size at most 2 rounds to within half an ulp of 1), and C73 bounds the float scores' errors, so the exact movements are within m(j) of the float distance. Termination uses the convergence of the exact recurrence (C60). Only the L_INF measure (np.linalg.norm's and np.dot's order of summation, used by the other measures, is not modelled faithfully for floats); the example shows the exact number of rounds, 5, of a concrete run for every threshold in [0.07, 0.12].
C109 UnboundedSums in doubles (PropsUsumsStop64.v): the specification is the recurrence in doubles (sums from left to right, priors as rounded quotients of counts); sparse products with a 0/1 matrix are shown to be those sums because 1*x = x for doubles that are not NaN, and np.max over 1000 to be 'some entry over 1000'; then the loop invariant and the equality of rankings of C106.
C110 Investment and PooledInvestment accuracy (PropsInvestAcc64.v on Close.v: relative errors of positive doubles on a logarithmic scale: products and quotients add errors, powers multiply them by g, sums keep them, each operation adds 2^-52): every quantity of a round - invested amounts, what a claim receives, returns, powers, pooled shares - is a double in a known range, close to a common factor times the exact quantity; the common factors on the trusts cancel, those on the beliefs pass through, and the division by the maximum brings them back to 1; by induction the error after k rounds is below the solution of A' = (2+h)A + 3(NS+NC)+13.  C73's `agrees` states the result; `never_tiny` states the condition on the exact scores (needed: C96 shows that without it all scores become NaN).
C111 UnboundedSums in doubles ranks well-separated labels correctly (PropsUsumsAcc64.v: C111_usums_scores, C111_usums_order, C111_usums_ranks, C111_usums_winner): rounds of PropsUsumsStop64 (the double recurrence tied to run by C109) against plain_step of SpecAlg; each score is kept `close` (Close.v: ratio within exp(K 2^-52)) to the exact one over a power of 1000, with bounds on its magnitude that exclude overflow and underflow; ranks compared through the dense ranks of C109. Limit: the bound on sizes and rounds does not use the division by 1000, which does keep scores small on small datasets.
C112 UnboundedSums in doubles does the same run as in exact arithmetic on well-separated data (PropsUsumsRun64.v: C112_same_run): the order of the doubles of round j is that of the exact scores (C111), so the double recurrence is settled at k' exactly when the exact one is, for all k' up to k; the two stopping theorems C109 and C104 then give the same round, and C40/C111 the same ranks.

No property had to be given up as inexpressible; C08 and the parts called `..._refuted`, `..._escapes`,
`..._fails`, `..._nan` state what the code really does where that differs from what a user would expect.

## What is modelled, and what is not

Modelled: everything in /repo/truthdiscovery listed in the layout table, function by function.

Simplifications (each is repeated at the definition concerned):
* numpy/scipy: reductions sum left to right (numpy sums pairwise; exact theorems are unaffected, the float theorems use
  sparse products, which scipy accumulates in this order, and say so); shapes are lists; a matrix is its set of
  stored positions and its entries.
* `log`, `exp`, `**` in binary64, `float()` and `str()` of floats, `json.loads`, `csv.reader`, Unicode digit classes, trigonometry
  in floats, text metrics and random draws are oracles (arguments of the definitions; theorems hold for all of them, or for all
  with the stated hypothesis).
* Label equality is decidable equality (`==` and `hash` agree; a label is not a NaN); labels to be sorted are comparable.
* Renderer sizes are integers.  JSON numbers are the numbers of the model; `json.dump` is injective on keys.
* `os.linesep` is `"\n"`; files are given by their text (no encoding errors, no I/O errors).
* Cairo: path, source colour, dash, line width, font size; pixels are not modelled.  imageio/GIF encoding is not modelled.
* argparse's tokeniser, Flask/werkzeug routing, server-side HTML templates, AngularJS itself (its two-way bindings are taken as described in the comments) and the page's HTML are not modelled; a
  request is its parameter dictionary, a command the sequence of its options with their values.
* C59-C61 are for exact arithmetic; in doubles, termination is claimed only as in C106 and C109 (ordinal iterators) and C108 (Sums and AverageLog under a convergence iterator with the L_INF distance).
* Not modelled: `truthdiscovery/test`, `docs`, plotting in `examples`, and the scripts `sample_run`, `drawing` and `animation` there.

## Findings about the code

* `num_connected_components` over-counts (C08_components_refuted).
* CSV round trip loses masked last rows of single-column matrices (C11_single_column).
* A NaN `claim_probability` is accepted (C14); a NaN implication value passes the range check (C05).
* AverageLog gives NaN everywhere if every source makes exactly one claim (C35_single_claims_nan); the web page then fails with an
  uncaught ValueError (C48_average_log_escapes).
* UnboundedSums with a non-ordinal iterator raises AttributeError (C40_needs_ordinal), uncaught by the web client
  (C48_usums_escapes); a `previous_results` that is JSON but not an object is an uncaught TypeError (C48_previous_escapes).
* TruthFinder in doubles: trust can round above 1, the early exit only tests `== 1`, and the next `log(1 - t)` makes every score NaN
  (C64).
* `Investment(g=2)` with all other settings at their defaults returns NaN for every score of the three triples (1,1,1), (2,1,2), (3,2,1): the trust of the
  disagreeing sources squares from round to round, becomes subnormal, its reciprocal is infinite and infinity times zero is NaN; the test for zero
  investment does not see it (C96_investment_nan_default).  PooledInvestment does the same after some 540 rounds (C96_pooled_nan).
* PooledInvestment is not monotone: a further vote for a claim can put it below a rival (C99_pooled_not_monotone).  AverageLog ignores sources with a single claim (C99_avlog_ignores).
* CRH trust may exceed 1 (C39_trust_may_exceed_one), and CRH does not log initial values (C29_crh).
* In doubles the order of the triples can change scores in the last bit (C72_order_matters_in_floats); labels cannot (C72_rename).
* With `allow_multiple`, the order of repeated claims matters (C41_order_matters_for_repeated_claims).
* Animation with a progress bar and a single partial result: ZeroDivisionError (C54_frames).  `compile` reuses a stale height (C55).
* Gradient colours: negative levels wrap round, below -10/9 IndexError, NaN ValueError (C52).  Tuple source labels are misread as
  claims in the gradient scheme (C51_fails/C52).
* Loading CSV in the page loses zeros (`parseFloat(val) || null`), which the library's synthetic data contains (C87_library_text_iff); the page refuses the text it exports itself, or adds a row to it (C87_own_text).
* A one-column table loses its empty first and last rows on the way to the server, and sources are renumbered (C86_one_column).
* The page always sends an iterator (`algorithm !== "voting"` compares an array with a string): voting always warns (C88_voting_warns), usums never has results (C88_usums_never).
* An empty or invalid number of iterations or threshold is an uncaught exception in the page and nothing is sent (C88_not_sent); a negative threshold is refused by the server (C88_negative_threshold).
* "crh" with `iterator=fixed-0` is answered with an animation without frames; the page then throws a TypeError while displaying it, and the tables of "crh" and of the algorithms after it are not shown (C90_crh_zero).  The page's "Iteration j" shows round j + 1 for "crh" (C90_frames).
* The results tables sort source ids and values as strings: source 11 before source 3 (C92_many_names).  Differences of 1000 or more are shown as "(-NaN)" (C92_big_diff); tiny negative ones as "(+0)" in the colour of a decrease.
* The untouched selection is the string "sums" (length 4), so its results are not kept for comparison (C89_kept).
* The graph command empties its output file before it reads the dataset or checks later options: `graph -f x -o x` loses the data, and so does a mistyped later option for an existing picture (C82_graph_same_file, C82_graph_refused).
* The PNG backend cannot draw an empty dataset, nor, with default sizes, more than 273 nodes in a column (C69_default_sizes).
* Iterator strings: thresholds such as `1e-5` are refused, a trailing newline is accepted (C43).  `parameters=""` is a 400 (C48).
* TSV example: the newline stays in the last field, so a final newline decides whether sources agree (C67).  Stock example: signs
  are dropped, variable names can collide, short or blank rows raise (C68).
* Experiments: the iterators are class attributes, so of two objects only one can run; an array meant as a constant is iterated; a
  TypeError raised inside a parameter callable is swallowed and the callable itself passed on (C74).
* UnboundedSums can report false ties in doubles: the scores of a small group of sources underflow to zero beside those of a larger one
  (C100_false_ties; needs a threshold above 300).
* An iterator object shared by runs in two threads makes the number of rounds arbitrary while the reported count is that of the limit (C102).
* An algorithm that ran for zero rounds (`iterator=fixed-0`) is shown with "N/A" iterations, as if it were not iterative: `iterations || "N/A"` in results.html (C107_rounds_shown).
* A renderer passed to an animator keeps the gradient colours of the last partial result: drawing another dataset with it afterwards uses those scores, and raises KeyError for its unknown nodes (C105_colours_left).
* CLI: accuracy and statistics are computed on the filtered results; algorithm and CSV errors are uncaught (C49).

## Tests against wrong programs

`seeded/LOG.jsonl`: one line per edited copy of the model (definition, edit, claim it breaks, theorems that failed, theorems that
were tightened because of it).

## Trusted base

* Coq 8.16.1's kernel, and the reading of the Python source by the author with the facts about Python, numpy, scipy, bidict, re and cairo
  listed in the comments of the model files.
* Axioms: only those of Coq's standard library `Reals` (`ClassicalDedekindReals.sig_forall_dec`,
  `ClassicalDedekindReals.sig_not_dec`, `FunctionalExtensionality.functional_extensionality_dep`) and
  `Classical_Prop.classic` (also standard library; used through Flocq, the real analysis of Reals and one counting lemma).
  Flocq adds no axiom (no other library is used).  No axiom is declared in `theories/`, no kernel check is switched off.
* What `Print Assumptions` lists, theorem by theorem (generated by `tools_assumptions.py`):

<!-- assumptions -->

**Closed under the global context (no axioms)** (235 theorems): `PropsData.C01_ids_dense_first_come`, `PropsData.C01_ids_stable`, `PropsAudit.C01_idmapping`, `PropsData.C02_strict_error_iff`, `PropsData.C02_strict_accepts_iff`, `PropsData.C02_allow_multiple_uses_first`, `PropsData.C02_strict_first_is_only`, `PropsAudit.C02_same_as_first`, `PropsData.C03_sc_exact`, `PropsData.C04_mut_ex_exact`, `PropsData.C05_imp_exact`, `PropsData.C05_bad_implication_iff`, `PropsData.C05_no_other_failure`, `PropsData.C06_nondegenerate`, `PropsAudit.C06_one_per_variable`, `PropsData.C07_beliefs_labelled`, `PropsData.C07_trust_labelled`, `PropsMatrix.C09_never_multiple`, `PropsMatrix.C09_matrix_dataset`, `PropsMatrix.C09_matrix_accepted`, `PropsMatrix.C10_accepts_iff`, `PropsMatrix.C10_matrix`, `PropsMatrix.C10_cell`, `PropsMatrix.C10_shape`, `PropsMatrix.C10_ragged_iff`, `PropsMatrix.C10_bad_number`, `PropsMatrix.C10_from_csv`, `PropsTight.C10_strip`, `PropsTight.C10_separators`, `PropsMatrix.C11_single_column`, `PropsMatrix.C11_round_trip_iff`, `PropsMatrix.C11_two_columns`, `PropsTight.C11_separators`, `PropsMatrix.C12_supervised_csv`, `PropsMatrix.C12_true_values_once`, `PropsAcc.C13_accuracy`, `PropsAcc.C13_bounds`, `PropsAcc.C13_deterministic`, `PropsAcc.C13_no_true_values`, `PropsAcc.C13_no_choice`, `PropsSynth.C14_errors`, `PropsSynth.C15_complete`, `PropsSynth.C15_true_values`, `PropsSynth.C15_dataset`, `PropsSynth.C16_synthetic_round_trip`, `PropsResult.C17_most_believed`, `PropsResult.C17_most_believed_iff`, `PropsResult.C17_unknown_variable`, `PropsResult.C18_filter`, `PropsResult.C18_filter_order`, `PropsResult.C18_filter_none`, `PropsResult.C18_filter_idempotent`, `PropsResult.C18_filter_commute`, `PropsResult.C19_diff`, `PropsResult.C19_diff_variables`, `PropsResult.C19_diff_keys_once`, `PropsResult.C19_iterations`, `PropsIter.C21_fixed`, `PropsIter.C22_converges`, `PropsIter.C22_fails`, `PropsIter.C22_bounded`, `PropsIter.C22_defaults`, `PropsIter.C24_default`, `PropsRun.C26_empty`, `PropsRun.C27_history_independent`, `PropsRun.C28_fixed`, `PropsRun.C28_convergence`, `PropsRun.C28_scores_of_that_round`, `PropsRun.C28_fixed_returns`, `PropsRun.C28_convergence_ends`, `PropsRun.C29_partial_results`, `PropsRun.C29_crh`, `PropsRun.C29_unbounded_sums`, `PropsRun.C30_no_interference`, `PropsSupport.C42_same_claims_same_trust`, `PropsSupport.C42_same_sources_same_belief`, `PropsClient.C43_accepts_iff`, `PropsClient.C43_refuses`, `PropsClient.C43_bounded`, `PropsClient.C43_ends`, `PropsClient.C44_accepts_iff`, `PropsClient.C44_refuses`, `PropsClient.C44_no_equals_sign`, `PropsTight.C44_separator`, `PropsClient.C45_split`, `PropsClient.C45_parsed_typed`, `PropsClient.C45_constructs`, `PropsTight.C45_name_order`, `PropsTight.C45_message`, `PropsTight.C45_class_names`, `PropsOutput.C46_output`, `PropsClient.C47_labels`, `PropsClient.C47_one_to_one`, `PropsClient.C47_unknown`, `PropsWeb.C48_run`, `PropsWeb.C48_empty_parameters`, `PropsWeb.C48_graph`, `PropsTight.C48_labels`, `PropsTight.C48_sizes`, `PropsTight.C48_booleans`, `PropsCli.C49_run`, `PropsCli.C49_usage_error_first`, `PropsLayout.C50_labels_base`, `PropsLayout.C50_labels_matrix`, `PropsGraph.C51_contents`, `PropsGraph.C51_fails`, `PropsGraph.C51_bad_colour`, `PropsTight.C51_claim_text`, `PropsColour.C53_entity_to_dict`, `PropsColour.C53_recoverable`, `PropsColour.C53_attributes`, `PropsColour.C54_frames`, `PropsColour.C54_rounds`, `PropsColour.C54_rounds_crh`, `PropsGraph.C55_render`, `PropsGraph.C55_render_only`, `PropsGraph.C55_compile_keeps_height`, `PropsMore.C55_first_height`, `PropsCli.C57_graph`, `PropsTight.C57_value_text`, `PropsLocal.C62_part`, `PropsLocal.C62_union`, `PropsStop.C65_stops`, `PropsStop.C65_fails`, `PropsFile.C66_dataset`, `PropsFile.C66_reader_fails`, `PropsFile.C66_abstract`, `PropsFile.C66_values`, `PropsTight.C67_separators`, `PropsFile.C67_lines`, `PropsFile.C67_reads`, `PropsFile.C67_unterminated`, `PropsFile.C67_skips`, `PropsFile.C67_always_loads`, `PropsFile.C67_final_newline_matters`, `PropsFile.C68_clean`, `PropsFile.C68_clean_again`, `PropsFile.C68_sign_lost`, `PropsFile.C68_names`, `PropsFile.C68_names_collide`, `PropsFile.C68_rows`, `PropsFile.C68_short_row`, `PropsFile.C68_loads`, `PropsFile.C68_truth`, `PropsFile.C68_last_row`, `PropsMore.C68_clean_exactly`, `PropsMore.C68_short_truth_row`, `PropsPng.C69_marks`, `PropsPng.C69_graph`, `PropsPng.C69_default_sizes`, `PropsRename.C72_rename`, `PropsRename.C72_rename_accepted`, `PropsRename.C72_repeats`, `PropsRename.C72_repeats_accepted`, `PropsExperiment.C74_callable_type_error`, `PropsExperiment.C74_results`, `PropsExperiment.C74_too_few_values`, `PropsExperiment.C74_new_object`, `PropsExperiment.C74_one_run_per_object`, `PropsExperiment.C74_second_run`, `PropsExperiment.C75_reduced`, `PropsExperiment.C75_timings`, `PropsSeeds.C75_slices`, `PropsDebug.C77_lines`, `PropsDebug.C77_success`, `PropsDebug.C77_failure`, `PropsDebug.C78_columns`, `PropsDebug.C78_fails`, `PropsHome.C79_labels`, `PropsHome.C79_measures`, `PropsArgs.C81_refused`, `PropsArgs.C81_accepted`, `PropsArgs.C81_usage_error_iff`, `PropsArgs.C81_crashes`, `PropsArgs.C82_graph_refused`, `PropsArgs.C82_graph_missing`, `PropsArgs.C82_graph`, `PropsArgs.C82_graph_same_file`, `PropsCopies.C83_copied_sources`, `PropsCopies.C83_copied_variables`, `PropsCopies.C83_separate_copies`, `PropsForm.C85_effect`, `PropsForm.C85_always_a_table`, `PropsForm.C85_offers`, `PropsForm.C86_received`, `PropsForm.C86_one_column`, `PropsForm.C86_one_column_form`, `PropsForm.C86_received_iff`, `PropsForm.C86_run`, `PropsForm.C87_rows`, `PropsForm.C87_load`, `PropsForm.C87_library_text`, `PropsForm.C87_library_text_iff`, `PropsForm.C87_own_text`, `PropsPage.C88_request`, `PropsPage.C88_not_sent`, `PropsPage.C88_negative_threshold`, `PropsPage.C88_voting_warns`, `PropsPage.C88_usums_never`, `PropsPage.C89_kept`, `PropsPage.C89_shown`, `PropsPage.C89_compared`, `PropsPage.C89_not_compared`, `PropsView.C90_player`, `PropsView.C90_right_key`, `PropsView.C90_no_frames`, `PropsView.C90_frames`, `PropsView.C90_displayed`, `PropsView.C90_crh_zero`, `PropsView.C91_marks`, `PropsView.C92_clicks_none`, `PropsView.C92_clicks`, `PropsJson.C97_answer`, `PropsJson.C98_presets`, `PropsJson.C98_standard`, `PropsJson.C98_all_but_one`, `PropsJson.C98_indep_groups`, `PropsJson.C98_no_agreement`, `PropsThreads.C102_own_steps`, `PropsThreads.C102_as_if_alone`, `PropsThreads.C102_all_done`, `PropsThreads.C102_shared_iterator_refuted`, `PropsThreads.C102_shared_iterator_unbounded`, `PropsAnimator.C105_constructor`, `PropsAnimator.C105_frames_do_not_interfere`, `PropsAnimator.C105_animate`, `PropsAnimator.C105_colours_left`, `PropsAnimator.C105_get_frames`, `PropsTabs.C107_measure_names`, `PropsTabs.C107_capital`, `PropsTabs.C107_display`, `PropsTabs.C107_click`, `PropsTabs.C107_stays`, `PropsTabs.C107_sections`, `PropsTabs.C107_rounds_shown`

**classic** (2 theorems): `PropsComp.C08_components`, `PropsPage.C89_no_error`

**sig_forall_dec** (2 theorems): `PropsView.C92_few_names`, `PropsView.C92_many_names`

**functional_extensionality_dep, sig_forall_dec** (7 theorems): `PropsResult.C20_mean_between`, `PropsAlg.C32_priors`, `PropsAlg.C36_conservation`, `PropsView.C92_no_diff`, `PropsView.C92_diff`, `PropsView.C92_big_diff`, `PropsView.C92_diff_class`

**functional_extensionality_dep, sig_forall_dec, sig_not_dec** (1 theorems): `PropsResult.C20_std`

**classic, functional_extensionality_dep, sig_forall_dec, sig_not_dec** (193 theorems): `PropsComp.CompExamples.C08_components_refuted`, `PropsAcc.C13_unit_interval`, `PropsSynth.C14_probabilities`, `PropsSynth.C14_accepts_iff`, `PropsSynth.C14_rejects`, `PropsSynth.C15_trust_one_zero`, `PropsResult.C19_swap_negates`, `PropsResult.C19_self_zero`, `PropsResult.C20_stats`, `PropsResult.C20_empty`, `PropsResult.C20_trust_stats`, `PropsResult.C20_belief_stats`, `PropsIter.C23_values`, `PropsIter.C23_metric`, `PropsIter.C23_cosine`, `PropsIter.C24_ordinal`, `PropsIter.C24_never_fails`, `PropsIter.C25_ranking`, `PropsIter.C25_nan_fails`, `PropsIter.C25_order`, `PropsIter.C25_no_gaps`, `PropsIter.C25_increasing_map`, `PropsAlg.C31_voting`, `PropsAlg.C31_range`, `PropsAlg.C32_priors_reported`, `PropsAlg.C32_bad_prior`, `PropsAlg.C33_sums_recurrence`, `PropsAlg.C33_range`, `PropsAlg.C33_normalise_once`, `PropsFloat.C34_sums_float`, `PropsFloat.C34_sums_float_partial_results`, `PropsFloat.C34_sums_float_returns`, `PropsFloat.C34_voting_float`, `PropsAlg.C35_avlog_recurrence`, `PropsAlg.C35_range`, `PropsAlg.C35_single_claims_nan`, `PropsAlg.C36_investment_recurrence`, `PropsAlg.C36_range`, `PropsAlg.C37_pooled_recurrence`, `PropsAlg.C37_range`, `PropsAlg.C38_truthfinder_recurrence`, `PropsAlg.C38_range`, `PropsAlg.C38_at_least_half`, `PropsAlg.C38_full_initial_trust`, `PropsAlg.C39_crh_recurrence`, `PropsAlg.C39_range`, `PropsAlg.C39_trust_may_exceed_one`, `PropsOrd.C40_same_as_sums`, `PropsOrd.C40_ranks_of_plain_recurrence`, `PropsOrd.C40_needs_ordinal`, `PropsSafe.C40_no_keyerror`, `PropsSym.C41_accepted`, `PropsSym.C41_rename_and_permute`, `PropsSym.C41_rename`, `PropsSym.C41_order_matters_for_repeated_claims`, `PropsSupport.C42_more_support_belief`, `PropsSupport.C42_more_claims_trust`, `PropsSupport.C42_more_support_voting`, `PropsSafe.C48_no_escape`, `PropsSafe.C48_average_log_escapes`, `PropsSafe.C48_usums_escapes`, `PropsSafe.C48_previous_escapes`, `PropsLayout.C50_layout`, `PropsLayout.C51_arrow_head`, `PropsColour.C52_graded`, `PropsColour.C52_label`, `PropsColour.C52_negative`, `PropsColour.C52_not_a_number`, `PropsColour.C52_graded_float`, `PropsColour.C52_node_colours`, `PropsTight.C52_darker`, `PropsTight.C52_ends`, `PropsTight.C52_default_colours`, `PropsSeeds.C52_other_colours`, `PropsColour.C54_progress`, `PropsCli.C56_synth`, `PropsSafe.C58_nonnegative_scores`, `PropsConv.C59_terminates`, `PropsConv.C59_limit_ranking`, `PropsConv.C60_converges`, `PropsConv.C60_terminates`, `PropsMono.C61_new_sources_help`, `PropsMono.C61_monotone_in_initial_trust`, `PropsMono.C61_more_rounds`, `PropsMono.C61_converges`, `PropsMono.C61_terminates`, `PropsLocal.C62_local`, `PropsLocal.C62_same_comparisons`, `PropsLocal.C62_voting`, `PropsNonLocal.C62_crh_not_local`, `PropsVote64.C63_correctly_rounded`, `PropsVote64.C63_no_false_ties`, `PropsVote64.C63_plurality`, `PropsTF64.C64_overshooting_numbers`, `PropsTF64.C64_trust_above_one`, `PropsTF64.C64_nan`, `PropsPng.C69_label_place`, `PropsCRH.C70_trust`, `PropsCRH.C70_beliefs`, `PropsCRH.C70_descends`, `PropsCRH.C70_returns`, `PropsCRH.C70_settles`, `PropsCRH.C70_needs_complete`, `PropsCRHStop.C71_terminates`, `PropsRename.RenameExamples.C72_order_matters_in_floats`, `PropsAccuracy.C73_sums`, `PropsAccuracy.C73_average_log`, `PropsAccuracy.C73_sums_winner`, `PropsAccuracy.C73_sums_exact`, `PropsAccuracy.C73_average_log_winner`, `PropsAccuracy.C73_average_log_exact`, `PropsAccuracy.C73_sums_returns`, `PropsAccuracy.C73_average_log_returns`, `PropsCoherence.C76_claims`, `PropsCoherence.C76_truthfinder`, `PropsCoherence.C76_investment`, `PropsCoherence.C76_sources`, `PropsLaw.C80_claim_law`, `PropsLaw.C80_possible_iff`, `PropsArgs.C82_synth_refused`, `PropsArgs.C82_synth_printed`, `PropsCopies.C83_copies`, `PropsCopies.C83_voting`, `PropsSynth64.C84_accepts_iff`, `PropsSynth64.C84_trust_one_zero`, `PropsSynth64.C84_probabilities`, `PropsPage.C89_safe`, `PropsView.C91_same_as_png`, `PropsView.C92_bold`, `PropsView.C92_sorted`, `PropsAvlog64.C93_avlog_float`, `PropsAvlog64.C93_avlog_float_partial_results`, `PropsAvlog64.C93_avlog_float_returns`, `PropsAvlog64.C93_single_claims`, `PropsCrh64.C94_crh_float`, `PropsCrh64.C94_crh_float_partial_results`, `PropsCrh64.C94_crh_float_returns`, `PropsCrh64.C94_default_eps`, `PropsInvest64.C95_invest_float_partial_results`, `PropsInvest64.C95_invest_float`, `PropsInvestNaN.C96_investment_nan`, `PropsInvestNaN.C96_investment_nan_default`, `PropsInvestNaN.C96_pooled_nan`, `PropsVotes.C99_sums_limit`, `PropsVotes.C99_avlog_ignores`, `PropsVotes64.C99_voting`, `PropsVotes64.C99_pooled_not_monotone`, `PropsUsums64.C100_usums_float`, `PropsUsums64.C100_more_claims_higher`, `PropsTies64.C100_false_ties`, `PropsMore64.C101_more_support_belief`, `PropsMore64.C101_more_claims_trust`, `PropsMore64.C101_same_support_same_belief`, `PropsMore64.C101_unanimous_first`, `PropsMore64.C101_investment_belief`, `PropsTFRange64.C103_safe_numbers`, `PropsTFRange64.C103_tf_float`, `PropsTFRange64.C103_tf_float_partial_results`, `PropsTFRange64.C103_tf_float_returns`, `PropsTFRange64.C103_defaults`, `PropsTFRange64.C103_powers_of_two`, `PropsOrdStop.C104_ordinal_run`, `PropsOrdStop.C104_ordinal_stops`, `PropsOrdStop.C104_nonpositive`, `PropsOrdStop64.C106_ordinal_stops64`, `PropsOrdStop64.C106_ordinal_returns64`, `PropsOrdStop64.C106_sums64`, `PropsOrdStop64b.C106_average_log64`, `PropsOrdStop64b.C106_crh64`, `PropsOrdStop64b.C106_truthfinder64`, `PropsConv64.C108_sums_stops`, `PropsConv64.C108_sums_returns`, `PropsConv64.C108_sums_fails`, `PropsConv64.C108_sums_terminates`, `PropsConv64.C108_average_log_stops`, `PropsConv64.C108_average_log_returns`, `PropsConv64.C108_average_log_fails`, `PropsConv64.C108_average_log_terminates`, `PropsConv64.Conv64Examples.C108_example`, `PropsUsumsStop64.C109_usums_stops64`, `PropsInvestAcc64.C110_investment`, `PropsInvestAcc64.C110_pooled_investment`, `PropsInvestAcc64.C110_investment_winner`, `PropsInvestAcc64.C110_pooled_investment_winner`, `PropsInvestAcc64.C110_investment_returns`, `PropsInvestAcc64.C110_pooled_investment_returns`, `PropsInvestAcc64.C110_investment_exact`, `PropsInvestAcc64.C110_pooled_investment_exact`, `PropsUsumsAcc64.C111_usums_scores`, `PropsUsumsAcc64.C111_usums_order`, `PropsUsumsAcc64.C111_usums_ranks`, `PropsUsumsAcc64.C111_usums_winner`, `PropsUsumsRun64.C112_same_run`

<!-- end assumptions -->
