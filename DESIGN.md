# Formal model of TemplateFitter in Rocq (Coq 8.16.1)

Section 2 was written before the proofs and is updated as the work proceeds; what is proved for each property
and what is missing is in MANIFEST.json (theorems and notes).

## 1. Method

The Python code is transcribed function by function into Gallina (files `rocq/theories/Model_*.v`).
Every definition cites the file and lines it models and says where it simplifies. Exceptions are values (`res`),
mutation is state passing, objects with identity (histograms, templates, channels, numpy buffers, minimizers,
fitters) live in heaps so that sharing one object between several places is visible. Functions which can raise in
the middle of a sequence of assignments return the state reached so far together with the exception, so that
failure atomicity can be stated (and refuted).

* **Numbers.** A Python/numpy float is an extended real `xr = Fin r | PInf | NInf | NaN` over Coq's
  `R`: exact arithmetic with the IEEE rules for infinities and NaN. Not modelled: rounding, overflow,
  signed zeros (every zero is +0), dtypes.
* **External libraries** are either modelled by their documented result (numpy array functions,
  `scipy.stats.binned_statistic` with the half-open bins / closed last bin rule, `functools.lru_cache`
  with its 128 entries and LRU replacement, OrderedDict, matplotlib as the sequence of calls and the histogram, bars or points each shows) or enter as
  universally quantified parameters: the minimizers (Minuit, SLSQP, numdifftools) are arbitrary terminating programs
  (trees which ask for values of the cost function and finally return a result or an exception), so that a theorem
  holds for every behaviour; `poisson.rvs` returns an arbitrary draw at every attempt; `np.linalg.inv` is a parameter
  with the specification that a returned matrix is an inverse and that invertible matrices are not refused;
  `multiprocessing.Pool` is an asynchronous system in which worker processes take tasks and make steps in any order on
  pickled copies of the objects; `scipy.integrate.quad` of the chi2 density is an arbitrary function.
* **Specifications** (`Spec_*.v`) are written over `R`, `nat`-indexed sums and intervals without
  reference to the model's helpers.
* **Property files** (`Prop_*.v`) contain the theorems, non-vacuity `Example`s and `Print Assumptions`.

If a property is false of the code, the theorem is named `..._refuted` and exhibits a witness or proves the failure
for all inputs of a class; the part that does hold is proved as `..._partial`. Such properties have MANIFEST status
`partial` and their note says so ("REFUTED", "False"). A refutation is a theorem about the code as it is: it breaks
if the model is repaired (this is tested, see `seeded/LOG.jsonl`).

## 2. Plan per property

| id | modelled | proof |
|----|----------|-------|
| C01, C02, C03, C05 | Hist1d constructor, fill, binned_statistic (digitize + edge shift + bincount) | induction over fills and events; interval specification |
| C04 | `_init_bin_edges`, linspace, bin_mids, bin_widths | arithmetic over R |
| C06, C07 | Hist2d, projections (row-major arrays) | as C01 for both axes; exchange of sums |
| C08 | fill as state transformer with exceptions | case analysis; witness for the refutation (tuple weights) |
| C09 | from_binned_data | computation |
| C10 | heap of numpy buffers with addresses | frame theorem for constructor histograms, refutation for from_binned_data |
| C11-C14, C16, C17 | utility.py | matrix algebra over R; `ln` inequalities |
| C15 | id_to_index, Parameters lookups | list induction |
| C18-C26 | AbstractTemplate, Template1d, Template2d | algebra; invariants over histories of template operations |
| C27-C35, C40-C42 | Channel, MultiChannelTemplate on the heap `world`; operations `step : world -> op -> world * res out` | invariants over all operation sequences |
| C36-C39 | NegLogLikelihood with the three lru_caches | refinement to the likelihood formula over R; cache coherence invariant |
| C43-C46, C50 | Parameters, IMinuitMinimizer, ScipyMinimizer (closures with late binding) | invariants over call sequences |
| C47-C49, C51-C55 | TemplateFitter with strategies | case analysis / induction over strategies and schedules |
| C56, C57 | ToyStudy with arbitrary outcome streams | induction |
| C58, C59 | stats.py (the statistics; for the p-values see C101) | `ln` inequalities |
| C60, C61 | Channel.propagate_parameter_uncertainties, bin_counts_from_param_values | matrix algebra, refutation |
| C62 | nll.py | extended-real computation |
| C63-C65 | histogram_legacy.py, templates_legacy.py | induction; property self-recursion as fuelled evaluation |

| C66 | as C10 | frame theorem over histories, refutation |
| C67, C68 | ToyStudy, linearity test | induction over experiments and points |
| C69, C70 | legacy Histogram and Hist2d with their caches | invariants over histories |
| C71-C75 | legacy StackedTemplate and its likelihood, nuisance parameters as views into buffers | invariants over histories, refutations |
| C76-C79 | plotting methods of Template1d, Template2d and Channel: the sequence of matplotlib calls with their arguments | what a call shows is defined in Spec_Plot; computation of mids, widths and sums; refutations by runs |
| C80 | process_yield_errors on reachable worlds | induction over the channels |
| C81-C83 | plot_on and dataset generation of legacy templates and containers | expectation as a formula (Spec_LegacyPlot); invariant on the edges of a container |
| C84 | Hist1d.from_binned_data with counts of another length than the edges | refutation by a run, exact condition |
| C85, C86 | dtypes (integers or floats) of the arrays of histograms and templates | refutations for all such arrays, equivalence with the float models otherwise |
| C87 | parameters of templates as references to arrays, with dtypes | refutations by runs, separation invariant over histories |
| C88, C89 | lru_caches with capacity 128 in arbitrary histories | invariant on the cached keys; cached matrices survive; variant of the likelihood formula with the matrices of an earlier state; for 129 channels refutations of C39 and C48 in Prop_Evict (an evaluation evicts a stale entry), by a symbolic run over 128 channels |
| C90 | calculate_hesse_matrix with its class-level cache and returned arrays as objects | invariants over histories of calls, state changes and writes; position of a key in the cache |
| C91 | hist1d fill and np.sum with every operation rounded to binary64 | all partial sums are multiples of 2^e below 2^53 * 2^e, hence doubles; induction over events and fills |
| C92 | the same for arbitrary doubles | relative error of one addition (Flocq), induction over events and fills; refutations by evaluation of the rounding |
| C93 | np.linspace rounded | monotonicity of rounding, error bounds; refutation by evaluation |
| C94 | set_yield / process_yields / get_yield rounded | relative error, induction over channels; refutation by evaluation |
| C95 | scipy's rounding in the comparison with the rightmost edge | bound on the rounding step by the smallest bin width; refutations by evaluation |
| C96 | values of a template, every operation rounded, np.sum in any order | error bound for summation trees by induction, relative errors of product and quotient; refutation by evaluation |
| C97 | sqrt and square of from_binned_data, rounded | relative errors; refutation by evaluation |
| C98 | the compatibility checks with tuples and lists as different values | induction over nested sequences (python's ==) |
| C99 | do_linearity_test (model of toy_study.py) | from C68 and the reset of parameters; relation kept by every step of the test; refuted parts as theorems |
| C100 | values, errors, fractions of templates_legacy.py | the error state kept by every call (invariant), then evaluation of the vector operations; column sums by induction |
| C101 | p-values of stats.py: scipy's chi2 density, quad as improper integral | antiderivative by recursion in dof, Gaussian integral for odd dof, limits, monotonicity from the positive density |
| C102 | several MultiChannelTemplates that share histograms, templates, channels and the class-wide lru_caches (Model_Multi) | coherence of the shared caches kept by every call of a program that completes a channel before using it; frame of every call for the objects of another model; value of the likelihood by the single model theorem on the view of that model |
| C103 | methods of Channel objects called directly | case analysis on the checks with the invariant of the objects; update and likelihood of one channel by the lemmas of C32/C36 in a world with that channel only |
| C104 | what minimize stores of the optimizer's results (Model_Minimizer, optimizers external) | symbolic execution of minimize for every outcome of the optimizer, the Hesse matrix and its inverse |
| C105 | the extended reals of Model_Num against Flocq's binary64 (Model_Ieee) | case analysis on zeros, infinities and NaN; Flocq's correctness theorems for finite operands; sign of an overflowing result |
| C106 | legacy Histogram/Hist1d with array references (Model_LegacyBuf): heap of buffers, setters and from_binned_data share, properties return the buffers | invariant 'no array of k is reachable from elsewhere' (Priv) over all programs; frame per call; general programs for the refutations |
| C107 | functools.lru_cache as used by Channel | recency list of the history: the cache is its first 128 entries; a relation on worlds shows that every history only makes such calls |
| C108 | weights of numpy integer types | `iwrap` keeps the lowest bits of a square; congruence and range of the type determine it; per-cell sums by induction over the events |
| C109 | the chi2 tests on integer arrays | congruences: the wrapped square of a wrapped difference is the wrapped square; sums over bins |
| C110 | post-fit uncertainties after fits with fixed parameters | an inversion lemma for a successful minimize, over every Minuit with the documented contract; then C61's bin counts and the shape check of numpy's matmul |
| C111 | cov2corr and corr2cov in double precision | sums with one non-zero product are exact in any order; products of relative errors (Flocq) |
| C112 | fits of several models and fitters in one process | relational: two processes with the same view of the model and coherent caches give the same answers, whatever the heaps of Parameters are; fits are sequences of calls of Model_Multi (frames) |
| C113 | toy studies of several models in one process | a study of model k is, for the objects, a sequence of calls of Model_Multi on model k (frames of Model_Toy's simulation); then as C112 |
| C114 | results of toy studies in a process with several models | relational: two processes with the same objects and coherent caches, run in lockstep through toy datasets, fits and result queries; for independence of other models the lockstep is up to the numbers of the histograms drawn |
| C115 | toy studies and the data of their model | relational: two worlds with the same templates and any data, run in lockstep; the relation carries the set of channels whose data agree, which a successful add_data of a toy data set makes all of them before the first likelihood is evaluated |

## 3. Trusted base

* Coq's kernel (8.16.1), and the reading of the Python code and of the documented behaviour of numpy, scipy, iminuit,
  functools and multiprocessing that the `Model_*.v` files express.
* Axioms (all from the standard library; `ASSUMPTIONS.md` lists the output of `Print Assumptions` for every theorem of
  MANIFEST.json, and the `Prop_*.v` files print it during the build):
  `ClassicalDedekindReals.sig_forall_dec`, `ClassicalDedekindReals.sig_not_dec` and
  `FunctionalExtensionality.functional_extensionality_dep` (the standard library's real numbers),
  `Classical_Prop.classic` (from lemmas of `Reals` and `Lra`), and, for one theorem,
  `ClassicalEpsilon.constructive_indefinite_description`.
* No axioms of our own, no `Admitted`, no plugins, no modified kernel flags. `Section` variables (the inverse `inv`, the
  optimizers, the draws) are discharged: they are universally quantified in the closed theorems.

## 4. What is modelled

| code | model | specification |
|------|-------|---------------|
| numpy/python primitives | Model_Num; compared with IEEE doubles in Model_Ieee (C105) | - |
| histograms/*.py | Model_Hist (values), Model_HistHeap (buffers) | Spec_Hist, Spec_HistHeap |
| utility.py, stats.py (without p-values) | Model_Utility | Spec_Matrix |
| p-values of stats.py (quad as the exact improper integral, Coquelicot's RInt_gen; quadrature errors and infinite statistics are not modelled) | Model_Stats | Spec_Matrix |
| templates/abstract_template.py, template1d.py, template2d.py | Model_Template | Spec_Template |
| templates/channel.py, multi_channel_template.py, NegLogLikelihood | Model_World | Spec_World, Spec_Nll, Spec_Data, Spec_Stale |
| programs of a user on one MultiChannelTemplate | Model_Ops | Spec_World |
| programs with several MultiChannelTemplates and direct calls of Channel methods | Model_Multi | Spec_Multi |
| minimizer.py | Model_Minimizer, Model_Hesse | Spec_Min, Spec_Hesse |
| fitter.py with the process pool | Model_Fitter | Spec_Fit |
| toy_study.py | Model_Toy | Spec_Toy |
| histogram_legacy.py | Model_LegacyHist | Spec_LegacyHist |
| histogram_legacy.py with array references (float64, one-dimensional; no writes into edges) | Model_LegacyBuf | Spec_LegacyBuf |
| histograms/*.py filled with integer weights, from_binned_data with integer errors (64 bits and fewer) | Model_IntWeights | Spec_IntWeights |
| stats.py on integer arrays (pearson_chi2_test, default_chi2_test) | Model_IntStats | Spec_IntWeights |
| cov2corr, corr2cov in double precision (positive variances) | Model_FloatCorr | Spec_Float, Spec_Matrix |
| fitters of several models in one process: who owns a fitter, all calls of fitters and models in any order, questions and answers | Model_MultiFit | Spec_MultiFit, Spec_Multi |
| ToyStudies of several models in one process: who owns a study, do_experiments and do_linearity_test among all calls of Model_MultiFit | Model_MultiToy | Spec_MultiToy, Spec_MultiFit, Spec_Multi |
| questions to a ToyStudy and its model, answers and exceptions | Model_MultiToyAsk | Spec_MultiToyAsk |
| templates_legacy.py, nll.py | Model_Legacy | Spec_Legacy |
| plotting methods of template1d.py, template2d.py, channel.py | Model_Plot | Spec_Plot |
| process_yield_errors | Model_YieldErr | - |
| plots and generated datasets of templates_legacy.py | Model_LegacyPlot | Spec_LegacyPlot |
| dtypes of arrays in hist1d.py and abstract_template.py | Model_Dtype | Spec_Dtype |
| params setters and reset of abstract_template.py with references to arrays | Model_ParamHeap | Spec_Dtype |
| rounding in hist1d.py fill, from_binned_data and np.linspace, np.sum, set_yield/get_yield, values of templates | Model_Float, Model_FloatTmpl | Spec_Float |
| scipy's binned_statistic at the upper edge | Model_Scipy | Spec_Scipy |
| container types in the compatibility checks of channel.py | Model_Compat | Spec_Compat |

Simplifications that matter for the reading of the theorems:

* programs of one MultiChannelTemplate (Model_Ops), with several fitters and toy studies on it; programs with any number of MultiChannelTemplates and direct calls of Channel methods are in Model_Multi (C102, C103), with fitters of them in Model_MultiFit (C112), with toy studies of them in Model_MultiToy (C113);
* data sets are given as lists/arrays of finite numbers; pandas frames as their columns;
* arguments of types for which the Python code has no meaningful behaviour (broadcasting arrays of length 1, arrays of
  higher rank than documented) are outside of the model and answered with `OutOfModel`, which no theorem counts as
  success;
* all arrays hold float64 numbers (as real numbers without rounding), except in Model_Dtype and Model_ParamHeap, where
  they may hold integers, and in Model_Float and Model_FloatTmpl, where every operation is rounded to IEEE binary64 (without overflow, NaN,
  infinities and signed zeros; the rounding function and its error bounds come from Flocq, which adds no axioms).  Toy datasets hold integers in reality, so a later fill of one raises; the other models treat
  them as floats, and histories that fill a toy dataset are outside of what they describe;
* time, memory and the numerical quality of the optimizers are not modelled.

Not modelled: printing and logging, tqdm, the docs and examples, labels and colours of plots.
