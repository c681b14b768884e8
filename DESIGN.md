# EDAspy: formal model and proofs

## What is verified

`/repo` (EDAspy, pinned commit) is modelled by hand in Rocq (Coq 8.16.1), function by
function, in `rocq/theories`. Nothing is extracted from, or executed against, the
Python source: every definition cites the file and lines it transcribes, and says
where it simplifies. Properties are listed in `properties.jsonl`; their status is in
`MANIFEST.json`.

## Conventions

* **Exceptions are values.** `res A := Ok a | Raise e`. The optimiser loop runs in a
  state-and-exception monad in which the state survives an exception, so "crash
  point" properties can be stated.
* **Floats are IEEE 754 binary64** (Flocq's `BinarySingleNaN`, round to nearest even;
  NaN, infinities and signed zero included) wherever comparison or rounding matters:
  costs, the acceptance test, truncation lengths, clamps. Formulas of the models and
  benchmarks that are claimed only "in exact arithmetic" are over the reals.
* **Randomness and third-party code are oracles**: numpy's generators, pybnesian,
  pgmpy, scipy, scikit-learn and the sort are parameters of the model. Theorems
  quantify over every oracle (with the oracle's specification as a named hypothesis
  when one is needed), hence over every random stream.
* **Ghost trace.** The modelled loop records events (a generation with its costs, a
  selection, the data learned from, a print). Specifications speak about the trace
  and the returned result, never about loop-internal variables.
* **User expectations the code violates** are kept in the property list. They are
  answered by a theorem ending in `_refuted` (a concrete witness run) together with
  the strongest restriction that was proved; the status is `partial`.

## Plan per property

| Property | Model | Proof |
|---|---|---|
| C01-C12, C17, C23 | EDA loop (`eda.py` 80-222) over arbitrary hooks (init, learn, sample, normal, cost, argsort) | invariant over successful loop iterations, trace specification; mixed int and float arrays by following the copies (`SelectAny.v`); runs that raise by a rule over the cut-off iteration (`LoopFail.v`, `FailThms.v`); refutations by evaluating concrete runs |
| C13, C14, C37 | same, plus concrete pm classes | relational (two-run) induction |
| C15, C16 | `utils.py`, `np.apply_along_axis` with its first-result dtype rule | list induction on `array_split` |
| C18, C19 | binary64 product and `int()` | Flocq correctness lemmas |
| C20-C22, C24, C25, C57 | constructors, setters, settings dictionaries | case analysis; witness runs for refutations |
| C26 | `EDACustom` runs for every pair of model and first generation | loop rule with a first generation of another type than the later ones (`CustomAll.v`); witness runs for refutations |
| C27-C32, C51 | UniBin, UniCategorical, `np.random.choice` | binary64 clamp lemmas, list induction, loop invariant |
| C33-C36 | UniGauss, AdaptUniGauss, MultiGauss learn, over reals and binary64 | list sums; order lemmas; 2x2 witness for refutation |
| C38-C44 | GBN over the reals; structure learner is an oracle | induction along the topological order against an unrolled affine-form semantics |
| C45-C47 | SPEDA/KEDA overrides | loop invariant; for C47 also two runs side by side, equal but for the noisy generation (`ArchiveNoise.v`) |
| C48-C54 | initialisers | direct |
| C55, C56 | `tools.py` | direct, arithmetic on div/mod |
| C58-C64 | benchmarks over the reals | real analysis on lists; witness points for refutations |
| C65-C75, C84 | whole stock algorithms, benchmarks as costs | progress invariant of the loop; one-generation lemma for failures |
| C76, C77 | the loop over a memory of shared buffers | simulation of the value model |
| C78, C79 | `np.random.choice` and comparison sampling, binary64 | rounding-error bounds on cumulative sums |
| C44, C80-C82, C99 | network models as wrappers of arbitrary libraries | lists with named columns; witnesses |
| C83 | sample covariance over the reals | sums of squares; elimination in homogeneous systems |
| C85 | two runs of the loop with different cost functions | relation between executions: equal up to costs that compare alike |
| C86 | exceptions of called code | the loop over a world with a notebook; invariant "nothing noted" |
| C87, C88 | runs of the algorithms with library models | the loop rule of LoopInv.v; exceptions allowed: those of the library on data sets of the right shape |
| C89-C91 | Latin hypercube with scipy's `LatinHypercube.random` and `qmc.scale` transcribed | monotonicity of rounding; witness bounds |
| C92 | constructors of the initialisers | case analysis |
| C93 | training history as an inductive relation over the recorded data sets | loop rule; invariant linking model state, trainings and generations |
| C94 | C93 instantiated with the models without library | training determines each model (its earlier state only fixes class and size) |
| C95 | two runs whose costs differ by an exact factor | OrderRel's relation with the acceptance test preserved; rounding commutes with powers of two in the normal range |
| C96 | `EdaResult.__str__` as string concatenation, number printing abstract | split at characters that do not occur in the values |
| C97 | modified Schwefel function against the CEC'14 definition, over the reals | case split on the argument; the errors in closed form |
| C100-C102 | queries to a Gaussian network and the state after failed learning | case analysis over the model's exceptions |
| C103 | rounding errors of learned means, deviations and covariances | one relative error per operation (Flocq), induction over addition trees; `FloatSum.v`, `FloatMean.v`, `FloatCov.v` |
| C104 | UMDAc and PBIL generations stay finite | C103's bounds per cell, strong induction over the generations of the trace; `LoopNoise.v`, `FloatRun.v`; calls of unfinished generations in `CallsEvery.v` |
| C105 | a larger budget only continues the run | the loop as a prefix of the longer loop, state by state; `Budget.v`, `BudgetCost.v` |
| C106 | order of the selected individuals | sums over permutations; sorted tables with the same entries are equal; C103 twice; `OrderLearn.v` |
| C107 | order of the variables | the loop commutes with any map of individuals that the initialiser, the noise, the model and the cost function respect (`LoopMap.v`); the univariate models respect permutations of the columns; `VarOrder.v`, `VarRun.v`, `VarLearn.v` |
| C108 | names of the categories | the loop commutes with the renaming (`LoopMap.v`); counting, sorting and drawing only compare names; `RenameCat.v`, `RenameRun.v` |
| C109 | identical individuals | closed forms of what each model learns; every partial sum of equal multiples of a power of two is exact; `Constant.v` |
| C110 | converged runs | the two selections are prefixes of one index list; invariant: the elite, the generation and all later data only have values of the data learned at iteration k; `Extinct.v` |
| C111 | ignored variables | like C107 for a selection of columns; only successful runs are compared, because a forgotten variable may be the one that makes a draw or a bound fail; `LoopKeep.v`, `VarKeep.v`, `KeepRun.v`, `KeepLearn.v` |
| C112 | units of measurement | exact arithmetic (`R_ops`); rows `a i * v + b i`; refuted for the diagonal of EMNA's matrix; `Units.v` |
| C113 | benchmark functions in binary64 against the real formulas | relative and absolute error calculus over `libm` of accuracy eps; np.pi and np.e bounded in `Consts.v`; `BenchNear.v`, `BenchWave.v` |
| C114 | benchmark functions in binary64 on NaN and infinities | absorption lemmas of the four operations (`BenchNan.v`) |
| C115 | CEC 2014 functions in binary64 at the shift, from below and on numbers that are not finite | zeros of either sign through shift and rotation, then C98 and C114; monotone rounding for Ackley (`CecFloatThms.v`) |
| C116 | error of the CEC 2014 functions in binary64 | rounding errors of shift, factor and product bound the distance of the argument; C113 at the argument computed; adding the bias never overflows (`CecNear.v`) |
| C117 | draws of the random Gaussian initialisers | numbers k/4 below 2^53 are exact under addition and subtraction, so `np.arange` has exactly the points lower + i below the end (`Arange.v`) |
| C118 | random covariance matrix (refuted) | a generator that picks the upper bound once gives an asymmetric matrix, one that picks the lower bound negative variances (`Arange.v`) |
| C119 | get_mu and get_sigma in binary64 | for any arithmetic, every entry is a left-to-right accumulation over the parents of entries that are final (`GbnFloat.v`); a finite accumulation has finite terms and errors as stated |
| C120 | sampling probabilities | `chance P q`: a duplicate-free list of the k in [0, 2^53) whose k/2^53 satisfies P has length q * 2^53 (`Chance.v`); the draws giving a value form an interval between two rounded cumulated probabilities |
| C121 | UMDAd keeps bits alive | C94's description of a generation with the counted probabilities of C120; 0 and 1 - 2^-53 are the extreme draws (`Explore.v`) |
| C122 | array-valued costs (`eda.py` 118-222, `utils.py` 8-44) | second transcription of the loop with arrays as costs (`VecEda.v`); equality with the first one by a commutation rule over sequencing (`VecThms.v`); comparisons need one entry on each side (`VecShape.v`) |
| C123 | maximum likelihood (`univariate_binary.py` 44-53, `univariate_categorical.py` 33-42, `univariate_gaussian.py` 37-48) | ratios of likelihoods factor by factor, `y <= exp (y - 1)`, and the sums of the exponents (`MaxLik.v`); rounding from C33 and C120 |
| C124 | UMDAd finds the optimum (`umda_binary.py`, `univariate_binary.py` 24-53, `eda.py` 186-229) | random values are read off a tape; mean over all tapes of a given length (`Mean.v`); a generation that misses multiplies the probability by at most a constant, for any model and cost function without other randomness (`LoopTape.v`); the constant for bits between bounds (`Found.v`); corollaries with C01, C03 and C16 (`FoundBest.v`, `Answers.v`) |
| C125 | time until UMDAd evaluates a target (as C124) | the tail from C124 with any number of generations, its sum (`FoundTime.v`); no run, failing or not, has more than max(1, max_iter) generations (`GenCount.v`) |
| C126 | UMDAd without bounds loses a bit (as C124, `uni_bin_geninit.py`) | a value missing from the first generation is missing from all, by an invariant over runs that end in any way; the chance that it is missing, variable by variable (`Lost.v`, `LostBits.v`) |
| C127 | UMDAcat loses a value (`umda_categorical.py`, `univariate_categorical.py`, `categorical_geninit.py`) | the values of a generation are those of its training set, so of the first generation, for every run; each variable of the first generation uses its own part of the tape, with the probabilities of C120 (`LostCat.v`) |
| C128 | common random numbers (`eda.py:148-222`) | the state of the generator as a function of the number of trainings, through every path of the loop (`CommonDraws.v`); one step per generation for the models that draw through numpy alone (`CommonStock.v`) |
| C129 | uniform initialisation is uniform (`uniform_geninit.py:42-52`) | error of `l + (h - l) * x` against the real number, hence bounds on the count of draws below a threshold (`UniformChance.v`); the first generation is drawn from the generator the run starts with (`first_from` in `BoxChance.v`, `UniformRun.v`) |
| C130 | random-search guarantee of the first generation | independent tests on consecutive draws (`BoxChance.v`), C129's error bound per side, C03's minimum over all evaluated costs |
| C131 | random-search guarantee for bits and categories | rows of tests for bits; for columns drawn one after the other the expected power of the number of surviving rows (`FirstChance.v`); C124_all conditions C124 on the draws of the first generation (`LoopTape.v`, `Found.v`) |
| C132 | tolerance for costs of any sign | induction over the history with an invariant for each sign of each entry (`FirstTol.v`), then the event "not in the first generation" of C130 and C131 |
| C133 | order of init_data | two runs at a time, first related by "begun" (generations reordered, same elite) up to the first selection, which puts both in the same state because the ordered prefix of distinct costs is unique; then by "near" (equal but for the position of the best one) (`InitOrder.v`) |
| C134 | unit of the variables | binary64 is invariant under powers of two as long as nothing underflows or overflows: numbers are kept on a grid of multiples of 2^-k below 2^u, on which every operation of the two models commutes with the scaling (`UnitFloat`, `UnitStat`); the run is first turned into a run of the program that checks its generations (`Guard`), then compared by the two-run relation of `LoopKeep` (`UnitRun`, `UnitThms`); the noisy selection is compared without bounds until the check of the training set (`Rw` in `LoopKeep`); witnesses for the defaults in `UnitLow` |
| C135 | average cost of a selection | the selection is the sorted beginning of what it is taken from (C10 for runs that may raise); with `m` its dearest cost, everything below `m` is in it, so the sums of `cost - m` compare (`Average.v`); strictly, unless all costs are equal or all are taken (`AverageStrict.v`) |
| C136 | models expect no worse than the generation | sums over individuals and variables are exchanged; per variable the stored probabilities (C123) or means (C103) are the exact ones up to rounding, so the expectation is the average of the training set, which C135 bounds (`Progress.v`, `ProgressBits.v`, `ProgressMulti.v`) |
| C137 | individuals under a cost | the selection is the cheapest part of what it is taken from, so either nothing left out reaches `v` or everything taken does (`Counts.v`) |
| C98 | benchmark functions in binary64, C library abstract | bounds carried through rounding (`FloatLow.v`); tables over the accepted dimensions |

## Trusted base

1. **Coq's kernel** (8.16.1; the compiled files are also accepted by `coqchk`). No plugin, no
   native compilation, no kernel check switched off. `vm_compute` is used for concrete witnesses.
2. **The transcription.** That the definitions of `PyBase, B64, NdArray, Rand, Eda, Models, Inits,
   Stock, Gbn, Tools, Bench, BenchFloat, Alias, Nets, Kde, Lhs, Summary` say what the cited lines of
   `/repo` do. Each definition carries the citation and its simplifications.
3. **Oracle specifications** which appear as named hypotheses of theorems: `unif_ok` (uniform draws
   lie in [0,1)), `gauss_ok` (normal draws are finite), `pick_ok` (integer draws are in range), the
   sort returns a permutation that orders the costs (`argsort_ok`), hill climbing honours its lists
   (`honours`), the pseudo-inverse satisfies the Penrose equations. A theorem without such a
   hypothesis holds for every behaviour of the library concerned.
4. **Axioms.** `Print Assumptions` under every property theorem lists a subset of these four, all
   from Coq's standard library:

   | Axiom | Where it comes from |
   |---|---|
   | `ClassicalDedekindReals.sig_forall_dec` | real numbers (`Reals`, also through Flocq) |
   | `ClassicalDedekindReals.sig_not_dec` | real numbers |
   | `FunctionalExtensionality.functional_extensionality_dep` | real numbers |
   | `Classical_Prop.classic` | `Reals` and Flocq |

   Flocq (installed with Coq) is used as a library of definitions and theorems about binary64; it
   adds no axiom. The table "Assumptions per theorem" at the end of this file is generated from the
   build.

## What is modelled

| Source (EDAspy/...) | Model | Notes |
|---|---|---|
| `optimization/eda.py` | `Eda.v` | constructor, both initialisations, both evaluations, truncation, noise, loop, early stop, printing, result, settings; setters in `Stock.v` |
| the same, with numpy's sharing of buffers | `Alias.v` | views, copies, the caller's `init_data`, cost functions that write into their argument |
| `optimization/eda_result.py` | `Eda.v` (`result`), `Summary.v` (`__str__`) | cpu time is not recorded in the model of a run; `__str__` takes it as an argument; how numbers are written is a parameter |
| `optimization/utils.py` | `Eda.v` (`parallel_rows`) | workers run in copies of the caller's world |
| `optimization/tools.py` | `Tools.v` | drawing reduced to placed nodes and edges; `_noise` is dead code and left out |
| `optimization/univariate/*.py`, `multivariate/*.py` | `Stock.v` | all constructors and overrides (PBIL, UMDAc, UMDAd, UMDAcat, KEDA, EMNA, EGNA, EBNA, BOA, SPEDA, MultivariateKEDA) |
| `optimization/custom/eda_custom.py` | `Stock.v` (`custom_*`, `read_settings`) | |
| `custom/probabilistic_models/univariate_*.py`, `adaptive_*`, `multivariate_gaussian.py` | `Models.v` | binary64 and exact arithmetic |
| `.../gaussian_bayesian_network.py` | `Gbn.v` | means, covariances, inference, sampling with evidence, lists; `GbnQuery.v` for the fitted flag; `logl` (a call of the library) left out |
| `.../gaussian_*`, `semiparametric_*`, `kde_*`, `discrete_bayesian_network.py` | `Nets.v`, `Gbn.v` (`learn_arcs`), `Stock.v` (`MExt`) | `Nets.v`: tables handed over and read back, order of the calls, state after exceptions; the libraries' searches, fits and draws are oracles |
| `.../univariate_kde.py` | `Nets.v` (`kde_learn`), `Kde.v` (when the estimate exists), `Stock.v` (`MExt`) | the kernel itself is an oracle |
| `custom/initialization_models/*.py` | `Inits.v`, `Lhs.v` | Lloyd's algorithm is an oracle |
| `benchmarks/binary.py`, `continuous.py` | `Bench.v`, `SchwefelText.v` (textbook definition), `BenchFloat.v`, `CecFloat.v` (binary64) | data files are arbitrary; in binary64 the C library's functions and the product of a row and a vector are parameters |

## What is not modelled

* numpy's random bit generators, pybnesian, pgmpy, scipy and scikit-learn: oracles, see above.
* A cost function that returns something other than one int or float, or (`VecEda.v`, C122)
  a nonempty one-dimensional array of ints or floats. (A cost function that writes
  into the row it is given is modelled in `Alias.v` only; the value model of the other files applies
  when it does not, by `C76_values`.)
* With `parallelize=True`: cost functions that cannot be pickled (lambdas, local functions), which the
  pool refuses before any call, and pools whose workers are not forked from the caller.
* Integer costs beyond 2^53 (kept as doubles here, as int64 in numpy), int64 overflow in cells.
* A one-dimensional `init_data`; arrays of dtypes other than int64, float64 and object-with-strings.
* The order in which BLAS adds in `np.dot`: sums are arbitrary functions of the list (`o_sum`) where
  theorems are about doubles, and exact where they are about reals. C103 and C104 assume that a sum adds each number
  once, in some order and with some bracketing, and that a dot product rounds each product before adding it
  (a BLAS with fused multiply-add rounds once less).
* CPython's set iteration order: an arbitrary function of the insertion order, and another one for copied sets (`set_order` in `Gbn.v`).
* CPU time, figures, colours, documentation, tests, notebooks, packaging.
* Rounding, overflow and NaN in the benchmark theorems C58-C64, C97 and in the "exact arithmetic" theorems of the
  Gaussian models, which are over the reals by statement (C98, C103, C104, C113 to C117, C119 to C121, C124 to C127 and, but for the Gaussian part, C123 are about binary64).
* `np.cov` and `np.mean` warnings; warnings are not observable in the model.

## Testing the theorems

`seeded/LOG.jsonl` records wrong programs: edits of the model (in a scratch copy) that imitate a
realistic bug, the claim they break, and the property theorems whose proofs then fail. A theorem
that survived although its English claim had become false was tightened, and the entry says how.
Some edits repair a bug of the code; there the `_refuted` theorem is the one that fails.

## Assumptions per theorem

Generated from the output of `Print Assumptions` (420 theorems). F = `sig_forall_dec`, N = `sig_not_dec`,
E = `functional_extensionality_dep`, C = `classic`.

| Axioms | Theorems |
|---|---|
| none (closed under the global context) | `C37_gaussian`, `C53_flag_refuted`, `C21_pm_partial`, `C21_init_partial`, `C21_pm_refuted`, `C21_init_refuted`, `C57_ids_partial`, `C57_ids_refuted`, `C42_fixed`, `C43_labels_partial`, `C43_stable_orders`, `C44_lists`, `C58_one_max`, `C37_networks`, `C80_sampled`, `C80_order`, `C80_names`, `C81_gbn`, `C81_spbn_kdebn`, `C81_bn`, `C81_round_trip`, `C82_exactly`, `C44_learned`, `C99_structure`, `C99_bn`, `C92_lists_partial`, `C96_readable_partial`, `C96_glued`, `C100_means`, `C100_inference`, `C101_values_partial`, `C101_one_value`, `C102_learned_partial`, `C37_kernel` |
| E, F | `C60_exactly`, `C60_partial`, `C60_refuted`, `C83_partial`, `C83_refuted`, `C83_exactly`, `C83_few_rows` |
| E, F, N | `C33_exact`, `C34_rule_partial`, `C34_previous_mean_refuted`, `C35_exact`, `C36_spread_refuted`, `C38_means`, `C38_solvable`, `C39_covariances_partial`, `C39_exactly`, `C39_refuted`, `C40_exact_arithmetic`, `C41_inference_partial`, `C41_refuted`, `C59_schaffer`, `C61_exactly`, `C61_partial`, `C61_refuted`, `C62_exactly`, `C62_formula`, `C62_partial`, `C62_refuted`, `C100_covariances`, `C36_semidefinite_partial`, `C36_converged_refuted`, `C106_unigauss`, `C106_multigauss`, `C106_adapt_refuted`, `C109_unigauss`, `C109_adapt`, `C109_multigauss`, `C112_unigauss`, `C112_adapt`, `C112_multigauss_partial`, `C112_multigauss_refuted` |
| C, E, F, N | `C10_selection_any`, `C17_noise_free_any`, `C17_copy_exact`, `C17_big_int_refuted`, `C10_selection_every`, `C10_training_every`, `C17_noise_free_every`, `C93_chain_every`, `C93_order_every`, `C93_called_every`, `C01_history`, `C02_best_ind_partial`, `C02_best_ind_refuted`, `C03_minimum_partial`, `C03_minimum_refuted`, `C04_nonpositive`, `C04_never_increases`, `C05_drift_bound`, `C06_budget`, `C07_early_stop`, `C08_stagnation_partial`, `C08_positive_plateau`, `C08_stagnation_refuted`, `C09_nfev_partial`, `C09_nfev_error`, `C09_nfev_refuted`, `C10_selection`, `C10_training`, `C13_prior_state`, `C15_parallel_partial`, `C15_parallel_refuted`, `C15_parallel_values_refuted`, `C16_recorded_floats_partial`, `C16_recorded_ints_partial`, `C16_order`, `C16_recorded_refuted`, `C17_noise_free`, `C18_noise_fits_partial`, `C18_noise_does_not_fit`, `C18_noise_refuted`, `C22_display`, `C22_silent`, `C23_nan_first`, `C23_nan_ignored`, `C67_progress`, `C67_reported_best`, `C27_bounds`, `C27_made`, `C27_frequency`, `C27_empty`, `C29_never_frozen`, `C29_draws_exist`, `C30_frequencies`, `C33_deviation`, `C34_deviation`, `C34_too_few`, `C35_covariance`, `C35_one_variable_refuted`, `C37_discrete`, `C51_choice`, `C51_declared`, `C51_learned`, `C51_learned_total`, `C48_uniform`, `C48_half_open_refuted`, `C50_samples_partial`, `C50_thirds_refuted`, `C52_width_partial`, `C52_width_refuted`, `C54_bounds_partial`, `C54_bounds_refuted`, `C13_stock`, `C14_memory_partial`, `C14_memory_refuted`, `C19_lengths`, `C20_base`, `C20_accepted`, `C20_refused`, `C24_settings_partial`, `C24_result`, `C24_settings_refuted`, `C25_round_trip_partial`, `C25_round_trip_refuted`, `C28_binary`, `C31_declared`, `C32_extinct`, `C45_archive`, `C46_bounded_partial`, `C46_bounded_refuted`, `C46_float_refuted`, `C47_noise_refuted`, `C49_bounds_partial`, `C49_bounds_refuted`, `C65_umdac`, `C66_umdad`, `C69_nonstring`, `C70_no_bounds`, `C71_umdacat`, `C72_pbil`, `C73_shapes`, `C74_emna_one`, `C40_symmetric_partial`, `C40_refuted`, `C43_refuted`, `C55_partial`, `C55_any_arcs`, `C55_refuted`, `C55_names_refuted`, `C56_positions`, `C56_empty`, `C75_plot`, `C75_given`, `C59_zeros`, `C59_one_variable_partial`, `C59_elliptic_refuted`, `C63_partial`, `C63_schwefel`, `C63_above`, `C63_off`, `C63_refuted`, `C63_below_refuted`, `C64_partial`, `C64_refuted`, `C76_arrays`, `C76_results`, `C76_values`, `C77_partial`, `C77_refuted`, `C78_learned`, `C78_declared`, `C79_bits`, `C82_partial`, `C82_gaussian_refuted`, `C82_categorical_refuted`, `C82_network_refuted`, `C82_categorical_exactly`, `C84_few_rows`, `C85_order`, `C85_transformed`, `C85_sort`, `C85_tolerance_matters`, `C86_watching`, `C86_exceptions`, `C86_stops`, `C87_float`, `C87_completes`, `C87_categories`, `C88_emna`, `C88_shapes`, `C89_latin`, `C90_bounds_partial`, `C90_order`, `C90_bounds_refuted`, `C91_default_partial`, `C91_default_refuted`, `C92_gauss_partial`, `C92_multigauss_partial`, `C92_categories`, `C92_array_refuted`, `C92_vector_refuted`, `C93_chain`, `C93_order`, `C94_umdac`, `C94_pbil`, `C94_umdad`, `C94_emna`, `C94_umdacat`, `C95_unit`, `C95_exact`, `C95_other_factors`, `C96_set_apart_refuted`, `C97_inside_partial`, `C97_above`, `C97_below`, `C97_penalty_refuted`, `C97_remainder_refuted`, `C98_sign_partial`, `C98_zero_partial`, `C98_ackley`, `C98_happycat_refuted`, `C98_hgbat_refuted`, `C26_combinations_partial`, `C26_combinations_refuted`, `C26_one_variable_refuted`, `C26_others_partial`, `C101_refuted`, `C102_refuted`, `C103_unigauss`, `C103_adapt`, `C103_multigauss`, `C103_range_refuted`, `C105_continues`, `C105_custom`, `C105_no_worse`, `C105_no_worse_refuted`, `C09_sizes`, `C09_exactly`, `C18_needs`, `C18_too_few`, `C15_pool_every`, `C15_needs`, `C135_average`, `C135_elite`, `C135_strict`, `C137_counts`, `C137_rises`, `C137_ranks`, `C136_categories`, `C136_gauss`, `C136_bits`, `C136_multi`, `C106_unibin`, `C106_categories`, `C106_float`, `C106_float_refuted`, `C104_umdac`, `C104_pbil`, `C104_umdac_bounds`, `C104_pbil_bounds`, `C104_range_refuted`, `C68_drawn`, `C107_umdac`, `C107_pbil`, `C107_umdad`, `C107_multigauss`, `C107_categories`, `C108_same_order`, `C108_other_order_refuted`, `C109_unibin`, `C109_categories`, `C109_categories_drawn`, `C109_float`, `C109_float_refuted`, `C47_any_intensity`, `C47_only_draws`, `C110_prefix`, `C110_dies_out`, `C110_converged`, `C111_umdac`, `C111_pbil`, `C111_umdad`, `C111_multigauss`, `C111_categories`, `C113_squares`, `C113_box`, `C113_roots`, `C113_waves`, `C114_nan_partial`, `C114_infinite_partial`, `C114_one_variable_refuted`, `C115_shift_partial`, `C115_shift_refuted`, `C115_below`, `C115_ackley`, `C115_infinite`, `C116_squares`, `C116_box`, `C116_rest`, `C117_unigauss`, `C117_unigauss_every`, `C117_multigauss`, `C117_multigauss_every`, `C118_asymmetric_refuted`, `C118_negative_refuted`, `C118_covariance_partial`, `C119_means`, `C119_covariances`, `C120_counted`, `C120_bits`, `C120_learned_bits`, `C120_choice`, `C120_learned`, `C120_declared`, `C121_chance`, `C121_any`, `C121_lost_refuted`, `C122_boxed`, `C122_returns`, `C122_several`, `C122_paid`, `C123_bits`, `C123_categories`, `C123_gauss`, `C124_rare`, `C124_found`, `C124_best`, `C124_limit`, `C16_answered`, `C125_tail`, `C125_generations`, `C125_individuals`, `C06_every`, `C126_lost`, `C126_default`, `C126_best`, `C127_first`, `C127_lost`, `C127_best`, `C16_recorded_any`, `C17_elite_every`, `C17_best_every`, `C45_every`, `C110_prefix_every`, `C110_dies_out_every`, `C110_converged_every`, `C104_umdac_every`, `C104_pbil_every`, `C104_umdac_bounds_every`, `C104_pbil_bounds_every`, `C68_drawn_every`, `C117_unigauss_pairs`, `C117_unigauss_refused`, `C117_multigauss_refused`, `C128_initial`, `C128_next`, `C128_left`, `C128_umdac`, `C128_pbil`, `C128_umdad`, `C93_asked_every`, `C104_umdac_calls`, `C104_pbil_calls`, `C129_sample`, `C129_first`, `C130_first`, `C130_best`, `C131_bits`, `C131_bits_best`, `C131_default`, `C131_categories`, `C124_all`, `C132_drift`, `C132_box`, `C132_bits`, `C132_categories`, `C132_found`, `C133_refuted`, `C133_partial`, `C55_negative`, `C56_repeated`, `C134_umdac`, `C134_pbil`, `C134_default_deviation_refuted`, `C134_default_noise_refuted`, `C33_new` |
