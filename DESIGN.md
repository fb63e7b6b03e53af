# Formal model of dtw-python in Coq 8.16.1 — design

## 1. What is modelled, and at which level

The model is a shallow, executable Gallina rendering of the Python/Cython/C
sources, function by function, with exceptions (and process exit, undefined
behaviour, divergence) as values of an outcome type.

* **Numbers.** Every function is written once over a record `Num` of the
  floating-point operations the code uses (`+ * / < <= ==`, `isnan`, truncation
  to int, multiply-accumulate).  Three instances are given:
  * `NumF`   – IEEE-754 binary64, round to nearest even (Flocq
    `BinarySingleNaN`, one NaN), `acc += w*l` as two rounded operations;
  * `NumFMA` – the same with `acc += w*l` contracted into one fused operation
    (what a C compiler may do on FMA targets);
  * `NumQ`   – exact rationals with NaN and infinities, for statements that are
    only meant in exact arithmetic (weight sums, averages, homogeneity, ...).
  Theorems about ordering/optimality/paths are proved for *every* instance that
  satisfies a list of laws (`NumLaws`), and the laws are *proved* for all three
  instances; no law is an axiom.
* **Arrays.** numpy 2-D arrays are a record (rows, cols, flat row-major list).
  C memory is a flat list with checked accesses: an access outside the list
  gives the outcome `UB`.
* **Outcomes.** `Ok v | Raise exception | Exit | UB | Diverge`.

## 2. Files (rocq/theories)

*Model* (every definition cites the lines it models):
`Base.v` (outcomes, checked memory, arrays), `Num.v`, `NumF.v`, `NumQ.v` (arithmetic),
`StepPattern.v` (dtw/stepPattern.py, dtw/mvm.py), `Window.v` (dtw/window.py and the lookup in
dtw/dtw.py), `Core.v` (dtw/dtw_core.c, dtw/_dtw_utils.pyx, dtw/_globalCostMatrix.py),
`Backtrack.v` (dtw/_backtrack.py), `Dtw.v` (dtw/dtw.py), `CountPaths.v` (dtw/countPaths.py),
`Warp.v` (dtw/warp.py, dtw/warpArea.py), `Plot.v` (dtw/dtwPlot.py, dtw/__main__.py), `Print.v` (printing and drawing step patterns),
`Heap.v` (object identity: which arrays and dictionaries are created, shared and overwritten),
`Threads.v` (the same programs one operation at a time, threads and schedules).

*Specification vocabulary* (independent of how the code computes; read these to understand the
statements; no proofs in them): `Spec.v` (production rules, walks, cost of a walk), `Api.v`, `Vocab.v`, `Terms.v`, `Tables.v`
(the predefined patterns as lists of productions with fractions as weights), `Textbook.v`
(textbook DTW), `RJSpec.v` (the Rabiner-Juang construction), `CountSpec.v`, `PathSpec.v`, `WarpSpec.v`,
`PlotSpec.v`, `PrintSpec.v`, `SeriesSpec.v`, `HeapSpec.v`, `ThreadSpec.v`, `ArgSpec.v`, `PatSpec.v`, `TieSpec.v`, `NarrowSpec.v`, `SelfSpec.v`, `FactorSpec.v`, `SearchSpec.v`, `PointsSpec.v`, `FormatSpec.v`, `FormSpec.v`, `LabelSpec.v`, `RowSpec.v`, `SumSpec.v`, `HeapGoSpec.v`, `Exact.v` (cost of an alignment in
real arithmetic).  The data of the concrete cases is in `Examples*.v`, `CountEx.v`, `Thm13.v` and `Thm15.v`.

*Statements*: `Properties1.v` ... – only theorem statements, each closed by `exact lemma`,
followed by `Print Assumptions`, with concrete cases (`Example Cnn_case...`) that meet the
hypotheses.  They are generated by `tools/g*.py` from the lemma statements; the generated files
are committed and are what is built.

*Proofs*: everything else (`CoreProof`, `DPProof`, `DtwProof`, `ApiProof`, `ApiThms`, `WalkGeom`,
`Uniq`, `Thm*`, `Derived*`, `Feas`, `Bound*`, `Count*`, `RJ*`, `WarpProof`, `Laws2`, `Laws3`,
`Num?Laws`, `Accuracy*`, `Examples*`).

## 3. Plan per property

| id | modelled | proof |
|----|----------|-------|
| C01 | computeCM on flat memory, wrapper, _globalCostMatrix, dtw | loop invariant => Bellman equation; induction over paths with monotonicity of (rounded) addition |
| C02 | _backtrack with fuel, dtw | induction on the cell, cost re-added along stepsTaken |
| C03 | dtw error branch | from C01 (completeness half) and Bellman (soundness half) |
| C04 | _backtrack | induction on the backtracking |
| C05 | _backtrack (filter, flip, caches) | trace of the rule list equals the returned indices |
| C06 | computeCM | loop invariant; explicit symmetric2 instance |
| C07 | computeCM, dtw | uniqueness of the solution of the Bellman equation |
| C08 | window evaluation | walks only enter admissible cells |
| C09 | same | `_refuted` by vm_compute witness |
| C10 | sakoeChibaWindow | from C08 / C03 / pointwise equality of window matrices |
| C11 | itakuraWindow, slantedBandWindow | arithmetic + C08; refutation witness for slanted band |
| C12 | two runs of dtw | walk inclusion + C01 |
| C13 | open_end branch, nanargmin | argmin lemma, case analysis on hint |
| C14 | open_begin padding | C01 on the padded problem, index shift |
| C15 | dtw | case analysis |
| C16 | dtw, rigid, asymmetric | invariant of walks / witness |
| C17, C18 | dtw | case analysis |
| C19 | predefined tables, exact arithmetic | telescoping weight sums, induction on walks |
| C20 | T(), two runs | walk transposition + optimality both ways |
| C21 | two runs | induction on walks, monotone mul/add |
| C22 | dtw | induction on walks; diagonal walk |
| C23 | two runs, NumQ | induction over cells on Bellman |
| C24 | _backtrack, tables | induction on walks |
| C25 | tables | linear invariant of walks; explicit walk construction for asymmetric |
| C26 | symmetric1/2 | walks = textbook warping paths |
| C27 | mvmStepPattern e | symbolic in e; walks invariant, construction |
| C28 | all tables, _P, rabinerJuangStepPattern | finite: computation |
| C29 | _P | induction over the list of steps |
| C30 | StepPattern.T | structural |
| C31 | countPaths | enumeration of walks, NoDup + completeness + length |
| C32 | countPaths & dtw | walks exist iff count > 0 |
| C33 | countPaths, dtw | witnesses |
| C34, C35 | warp, _solveTies, interp1d at nodes (contract) | sums of monotone lists; witness |
| C36 | warpArea | contract of interp1d + algebra |
| C37 | computeCM | outcome is never UB/Exit under guards; witnesses |
| C38 | _backtrack | measure i+j |
| C39 | wrapper, _get_p | index algebra in the refinement proof |
| C40, C41 | input handling of dtw | case analysis, cdist as a function argument |
| C42 | computeCM | NaN/inf absorption along a walk |
| C43 | name lookup | case analysis on strings |
| C44 | NumF vs R | standard model of rounding, induction on walks |
| C45 | dtwPlotDensity data | algebra |
| C46 | dtwPlotTwoWay, dtwPlotThreeWay: guide positions and segments | linspace arithmetic; positions index the alignment |
| C47 | dtwPlot dispatch | case analysis on strings |
| C48 | series lookup of the plots | case analysis |
| C49 | __main__.py | composition with dtw() |
| C50 | StepPattern.__str__, plot(), DTW.__repr__ (number formatting is a parameter) | text as concatenation of fields; injectivity by parsing back; label positions (`Labels.v`): the midpoints are exact in binary64, all quantities being multiples of 1/2 below 2^53 |
| C51 | computeCM, dtw in exact arithmetic | position dependent monotone map of the recursion |
| C52 | two runs, exact arithmetic | reversed walks have the same cost; optimality both ways |
| C53 | dtw in each arithmetic | a sum of non-negative rounded terms is zero iff the terms are; walks = common stretching |
| C54 | dtw in each arithmetic | monotonicity of rounded accumulation along the optimal walk; the diagonal walk |
| C55 | dtw with a window and without, masked costs | both cost matrices satisfy the same recursion (a NaN charge is not usable), which has one solution; equal backtracking |
| C56 | open_end call and closed calls on leading blocks | the recursion restricted to a block is the block's recursion; choice of jmin |
| C57 | closed-begin call and calls on leading blocks | same, and tracing back from an earlier breakpoint gives a prefix of the trace |
| C58 | two open_end calls | from C56 |
| C59 | countPaths on results of dtw() | counting lemma of C31 specialised to the moves of the pattern, induction on i + j |
| C60 | open_begin call and closed-begin calls on trailing blocks (exact arithmetic) | routes of one problem are shifted routes of the other; least costs are unique |
| C61 | the same integer call in exact, binary64 and fused binary64 arithmetic | simulation of the two recurrences (`Sim.v`): every cell holds the same integer below 2^53, so all comparisons, choices and back-pointers agree |
| C62 | the same binary64 call in `double false` and `double true` | w*x is exact for w in {0,1,2}, so both forms round the same real number (`Fused.v`); simulation of the two recurrences with equality (`SimCalls.v`); a computed counterexample for weights 1/3 |
| C63 | the same binary64 call on costs g and 2^e g (`ScaleSpec.v`) | simulation of the two computations cell by cell (SimCalls), with the invariant that both values are NaN, or finite multiples of 2^-950 bounded by 2^860 times the number of charges and the second is 2^e times the first; rounding commutes with 2^e away from underflow and overflow (Flocq). Computed counterexample for a factor ten (`Scale.v`, `Thm33.v`) |
| C64 | exact arithmetic; two calls whose cost matrices differ by at most e cell by cell (`StableSpec.v`) | closed end, or both ends open: both matrices shifted by a constant K that makes them nonnegative (C51), monotonicity on nonnegative costs (C21), shift back; open end with hint N+M or M: the walk to the old end column costs at most e times its weight more (the weights of a production (di, dj) sum to al di + be dj), normalization at each column, choice of the least column (`Stable.v`) |
| C65 | two calls; the second matrix reads the first through two maps that hold samples (`HoldSpec.v`) | every walk of the longer matrix maps to a walk of the shorter one of no larger cost: a step shortened to nothing is dropped (accumulation of a non-negative cost never decreases, rounding included), a shortened one is a production of no larger weight (`Hold.v`) |
| C66 | three calls; block matrix (`JoinSpec.v`) | optimal walk of the first block, one diagonal production, optimal walk of the second block translated: concatenation lemma for walks, additivity of the charges in exact arithmetic (`Join.v`) |
| C67 | binary64 division of the accumulated cost (`LengthSpec.v`) | C44's bounds composed with one division (relative error plus half the smallest subnormal); open end: the float choice of the column compared with every exact column (`Accuracy4.v`) |
| C68 | three calls (`TriSpec.v`) | the two optimal walks are composed into a walk of the third problem, by induction on both, counting how often a cell of each is revisited (at most the length of the other series); `Tri.v`, `Tri2.v` |
| C69 | the functions once more over a heap of objects (`Heap.v`: arrays, dictionaries, step patterns, results; every allocation, attribute and in-place update of the sources), histories of calls | frame: every program of `Heap.v` only writes to objects it created (`HeapFrame.v`); refinement: `dtw()` on the heap ends as `dtw` of `Dtw.v` on the values (`HeapRefine.v`, `HeapDtw.v`, `HeapMain.v`); induction on the history (`HeapThm.v`) |
| C70 | as C69, histories with in-place changes made by the program | where each attribute of the result refers to (`result_refs`, part of the refinement proof), then the frame theorem object by object; `HeapThm.v` |
| C71 | the programs of `Heap.v` one heap operation at a time (`Threads.v`: a small-step machine, threads over one heap, schedules); `ThreadSpec.v`: client threads and turns | the programs are written once over a `style` with two instances, direct and stepwise; stepwise without interruption = direct; invariant: a thread only writes to objects it created, so two threads have disjoint footprints; induction on the schedule; `ThreadProof.v` |
| C72 | as C71, a run cut off after any number of operations | the same invariant for a prefix of a run, then C69/C70 for what follows; `ThreadProof.v` |
| C73 | binding of keyword arguments (`bind_window` in `Window.v`), lookup of names; `ArgSpec.v`: which dictionaries a window takes | case analysis of the call up to the window matrix; `Thm34.v` |
| C74 | walks of `Spec.v`; `PatSpec.v`: cheaper charges, productions cut into productions, the two lists of named pairs | a walk of the stricter pattern is rewritten production by production into a walk of the looser one with a cost that is not larger in the given arithmetic (monotone accumulation, commutative product), then the optimality theorems; the lists are checked by a verified checker; `Looser.v` |
| C75 | walks of `Spec.v`; `TieSpec.v`: cheapest throughout, comparison of two lists of productions from their ends | back-tracking reads the first minimal production of each cell (`traced`, `bellman`); induction on the competing walk; exact arithmetic: exchange of initial parts shows that an optimal walk is cheapest throughout; `Tie.v` |
| C76 | as C75 | the diagonal walk costs zero, so it is cheapest throughout; nothing comes before production 1; `Tie.v` |
| C77 | walks of `Spec.v`; `NarrowSpec.v`: a window admits an alignment, two cost matrices agree on it | the matrix of the constrained call is nowhere below, and equal along the trace; the first minimal production stays the first minimal one; `Narrow.v` |
| C78 | costMatrix as returned | each charge rounds monotonically, so a step never lowers the accumulated cost; induction on cells and along the trace; `Grow.v` |
| C79 | `default_opts` (signature of dtw()), `Textbook.v` | instance of C26 after resolving the defaults; `Default.v` |
| C80 | `countPaths` of two results (`CountPaths.v`, `CountSpec.v`) | the admitted production sequences of one problem are injected into (or, transposed, put in bijection with) those of the other; C31 turns numbers of sequences into counts (`Count3.v`) |
| C81 | `test_computeCM` (`SelfTest.v`), numbers in `SelfSpec.v` | the run is an instance of the one of C03's core; the closed form satisfies the recursion with the strict inequalities that fix the directions, and the recursion has one solution; integers are exact (`SelfThm.v`) |
| C82 | `times`, `factor_table` (`FactorSpec.v`) | C23's rescaling of the costs, seen as a rescaling of the weights, then C74's comparison; the table is checked by computation (`Factor.v`) |
| C83 | `overlay`, `place`, `occurs` (`SearchSpec.v`): the query laid over the reference | a walk with rigid's one production is a diagonal (`Search.v`); for the occurrence a walk along the diagonal is a witness against which C02's optimum is compared |
| C84 | `no_point_twice`, `advances` (`PointsSpec.v`), `gapless` (`Terms.v`) | induction over the walk of C01: the sum of the coordinates grows from point to point; gapless productions climb by at most one (`Points.v`) |
| C85 | `format_g`, `format_2g`, `main_text` (`Format.v`: Python's format with type g, on binary64); a reader of decimal numbers (`FormatSpec.v`) | the digits are Flocq's rounding to radix 10 (`round radix10 (FLX_exp p) ZnearestE`); reading the text gives them back by induction over the digits (`FormatThm.v`); then C49 and C50 (`Format2.v`) |
| C86 | `same_productions`, `same_starts` (`RowSpec.v`); the model functions that read the table | the C loop fills one candidate per production: rows of other productions do not interfere (induction over the rows, `Reorder.v`); the backtracking, the printed form and countPaths read the table production by production |
| C87 | the productions of `Spec.v` as a set (`incl`, `In`) | an admissible alignment for fewer productions is one for more, through the same points at the same cost; with C01/C03/C13 this fixes the optimum, the end column and the exception (`SameRules.v`) |
| C88 | sums of cost matrices (`SumSpec.v`) | the best alignment of the sum passes no missing cell of either part, so it is admissible in both, with costs that add up to its own; C01 bounds each distance from above (`Sum.v`); weighted sums by C23 (`Mix.v`). Exact arithmetic only: with rounding the sums differ in the last digits |

## 4. How the proofs are organised

1. `CoreProof`: loop invariants over the flat C arrays; `computeCM` ends without UB/Exit and its
   result is the unique solution of the Bellman equation on row/column indices (this is where
   column-major/row-major, the pattern re-layout of `_get_p` and `argmin` are dealt with).
2. `DPProof`: a solution of the Bellman equation bounds the cost of every walk (monotonicity of
   rounded addition) and back-tracking returns a walk attaining it.
3. `DtwProof`, `ApiProof`, `ApiThms`: dtw() as a whole in the vocabulary of `Spec.v`/`Api.v`.
4. `Thm*`, `Derived*`: the individual properties.

## 5. What is modelled and what is not

Modelled: `dtw.py` (input handling, lookup of names, padding, normalization, end point, error
branches, kept fields), `_globalCostMatrix.py`, `_dtw_utils.pyx` (with their `_test_computeCM`), `computeCM`/`argmin` of
`dtw_core.c` with int32 arithmetic and checked accesses, `_backtrack.py`, `stepPattern.py` (class
methods, `_P` builder, `rabinerJuangStepPattern`, all predefined tables, printing), `mvm.py`,
`window.py`, `countPaths.py`, `warp.py`, `warpArea.py`, the data drawn by `dtwPlot.py`,
`__main__.py`.

Not modelled:
* matplotlib itself (colours, labels, layout), argparse, file parsing and numpy's text of the path in
  the command line tool (Python's formatting of numbers is modelled in `Format.v`, and was compared with CPython's on 414 doubles), `dtw_test_data.py` and data files, docs, packaging, the
  `#ifdef DTW_R` and `#ifdef TEST_UNIT` code of `dtw_core.c`;
* scipy's metrics: `cdist` is an argument of the model (any function from two matrices to a
  matrix or an exception);
* stack exhaustion by `alloca` in `dtw_core.c`, running time, memory limits;
* subclasses and duck-typed arguments: a step pattern is an object with a four column `mx` or a
  string, a window is a built-in, a string or a pure user function;
* `numpy.sum` is modelled as numpy's pairwise summation (`np_sum` in `Num.v`); `scipy.interp1d` is
  modelled as in the scipy versions that delegate to `numpy.interp` for 1-D float data, with
  stable sorting of the nodes;
* threads (`Threads.v`): the atomic operation is one creation, read or in-place update of one object
  (coarser than a machine word for arrays: computeCM holds the GIL, `_dtw_utils.pyx` has no `nogil`);
  each thread creates its objects itself and starts from the shared ones, threads pass no references to
  each other while they run, and a process exit in one thread (`error()` of the C code) ends that thread only;
* object identity is modelled for dtw(), T(), countPaths(), warp() and warpArea() (`Heap.v`); arrays
  that are created and dropped inside countPaths, warp and warpArea, and everything matplotlib
  creates, are not represented; x and y are numpy arrays (a list is converted to a new array);
* floating point: round to nearest even, one NaN, no extended precision; fused multiply-add in
  `clist[p] += sc*lm` is covered by the instance `NumFMA`.

## 6. Trusted base

* Coq 8.16.1's kernel (including its `vm_compute` reduction), the parser/pretty printer.
* The standard library axioms of section 7, which come in through Flocq/Reals only; every theorem
  about an arbitrary arithmetic `N` is closed under the global context and is *instantiated* by
  `laws_binary64`, `laws_binary64_fma`, `laws_exact`.
* The hand translation of the sources into the model, function by function (comments give the
  lines), and the contracts of numpy/scipy functions listed in section 5.
* Flocq's definition of binary64 arithmetic as the meaning of C/numpy doubles.

No axiom, `Admitted`, functor, module type, plugin or kernel switch is used.

## 7. Print Assumptions

<!-- assumptions -->
* **Closed under the global context (no axioms):** C01_distance_optimal, C01_every_path, C02_alignment_attains_distance, C02_alignment_attains_distance_open_begin, C03_found_iff_exists, C03_found_iff_exists_open_end, C04_anchored_monotone, C04_monotone_open_begin, C04_leaves_row_predefined, C05_steps_follow_table, C05_steps_follow_table_open_begin, C05_refined, C05_refined_open_begin, C06_cost_matrix, C06_cost_matrix_open_begin, C06_symmetric2, C07_prefix_matrices, C07_prefix_distance, C07_windows, C08_window_respected, C08_window_respected_open_begin, C10_sakoe_chiba_points_open_begin, C10_sakoe_chiba_points, C10_sakoe_chiba_too_narrow, C10_sakoe_chiba_wide, C11_itakura_corner, C11_itakura_excluded, C11_itakura_points, C11_slanted_corner, C11_slanted_excluded, C11_slanted_excluded_any, C12_wider_window, C12_wider_window_open_end, C13_last_row, C13_open_end_choice, C13_open_end_below_closed, C14_open_begin_optimal, C14_open_begin_found_iff, C15_open_begin_needs_N, C15_open_end_needs_normalization, C15_open_end_needs_normalization_msg, C15_normalized_distance, C16_asymmetric_starts_anywhere, C16_rigid_never_first, C16_rigid_equal_lengths_raise, C16_advancing_never_first, C16_advancing_patterns, C17_distance_only, C17_distance_only_open_begin, C17_distance_only_open_begin_never, C18_keep_internals, C18_kept_fields, C19_total_weight, C19_distance_bounds, C19_average_N, C19_constant_cost, C20_transposed, C20_symmetric_patterns, C20_symmetric_general, C20_sakoe_chiba_symmetric, C21_raised_costs, C21_raised_costs_open_end, C22_nonnegative_matrix, C22_nonnegative, C22_nonnegative_named, C22_identity, C22_identity_named, C23_scaled, C24_one_per_query, C24_one_per_query_mvm, C25_limits_respected, C25_limits_exceeded, C25_limits_sufficient_exact, C25_unlimited_exact, C25_every_pattern, C26_symmetric1_textbook, C26_symmetric2_textbook, C26_always_found_exact, C27_mvm_alignment, C27_mvm_limits, C27_mvm_feasible_exact, C28_construction, C28_predefined, C28_names_cover, C28_order_irrelevant, C29_builder, C29_weight_sum, C29_weight_totals, C29_unsupported_subtype, C29_unsupported_weighting, C29_unsupported_type, C30_involution, C30_rows, C30_hints, C31_every_cell, C31_closed, C31_open_end, C31_counts_fit, C31_named_patterns, C32_found_iff_exact, C32_count_positive, C33_window_args, C33_weight_marker_exact, C33_open_begin, C34_means, C34_usable, C34_named, C34_single_valued, C34_row_by_row, C34_open_begin, C34_needs_alignment, C36_open_begin, C36_sum, C36_exact, C36_row_by_row, C36_nonneg, C36_identity, C37_no_fault, C37_outcome, C37_bad_id_exits, C37_oversized, C38_terminates, C39_convention_open_begin, C39_convention, C40_two_arguments, C40_too_many_dimensions, C40_not_a_matrix, C41_never, C41_message, C42_obstacles_open_begin, C42_obstacles, C43_window_by_name, C43_window_omitted, C43_pattern_by_name, C43_unknown_window, C43_unknown_pattern, C45_density, C45_plain, C45_rejects, C46_twoway, C46_twoway_given, C46_threeway, C46_negative, C46_outside_twoway, C46_outside_threeway, C47_types, C47_alignment, C47_need_alignment, C48_required, C48_matrix_call, C48_lone_series, C48_vectors, C48_multivariate, C49_cli, C50_text, C50_text_injective, C50_plot, C51_distance, C51_normalized, C51_failures, C52_closed, C52_closed_failures, C52_open, C52_series, C52_costs, C52_patterns, C52_patterns_mvm, C52_patterns_open, C52_no_window, C52_sakoe_chiba, C52_symmetric2_differs, C54_upper, C54_lower_patterns, C54_lower_mvm, C54_upper_patterns, C55_mask, C55_patterns, C55_patterns_mvm, C56_prefix, C57_passes, C58_longer, C59_delannoy, C59_trinomial, C60_suffix, C64_distance, C64_normalized, C66_joined_named, C66_joined, C68_weak_triangle, C68_weak_triangle_series, C68_windows_none, C68_windows_sakoe, C69_import, C69_calls_change_nothing, C69_call_outcome, C69_call_after_calls, C69_call_with_defaults, C69_results_stay, C69_import_stays, C69_transposed_is_new, C69_countPaths_reads, C69_warpArea_reads, C69_warp_reads, C69_history_goes_on, C69_after_exception, C70_what_results_share, C70_own_memory, C70_shared_objects, C70_results_disjoint, C71_threads_independent, C71_threads_dtw, C71_uninterrupted, C71_runs_end, C72_interrupted, C72_call_after, C72_results_after, C73_needed, C73_rejected, C73_unknown_window, C73_unknown_pattern, C73_ignored, C75_first, C75_first_exact, C76_identity, C76_identity_named, C76_identity_mvm, C77_narrower_window, C77_wide_enough_band, C77_raised_elsewhere, C79_default_call, C80_costs_irrelevant, C80_more_admitted, C80_wider_band, C80_larger_elasticity, C80_transposed, C81_empty, C82_factor_closed_end, C82_factor_open_end, C82_factor_named, C82_factor_named_open, C83_search, C83_closed_end, C83_found, C83_found_named, C83_found_mvm, C83_exact, C84_length, C84_length_named, C84_length_mvm, C84_all_matched, C84_all_matched_named, C85_special, C85_width, C86_result, C86_text, C86_T, C86_count, C87_more_closed_end, C87_more_open_end, C87_same, C87_same_raise, C88_sum, C88_sum_named, C88_mixture, C87_any_order.
* **`ClassicalDedekindReals.sig_forall_dec`, `FunctionalExtensionality.functional_extensionality_dep`:** C85_zero_text.
* **`ClassicalDedekindReals.sig_forall_dec`, `ClassicalDedekindReals.sig_not_dec`, `Classical_Prop.classic`, `FunctionalExtensionality.functional_extensionality_dep`:** C09_inner_point_outside_window, C09_first_point_outside_window, C11_slanted_2_5, C25_limits_sufficient_binary64, C25_limits_sufficient_fma, C25_unlimited_binary64, C25_unlimited_fma, C26_always_found_binary64, C26_always_found_fma, C27_mvm_feasible_binary64, C32_found_iff_binary64, C32_found_iff_fma, C33_weight_marker_binary64, C33_weight_marker_fma, C33_open_begin_differs, C33_open_begin_window, C35_refuted, C36_arithmetic, C37_negative_step, C37_descending_ids, C37_zero_id, C44_double, C44_accuracy, C44_accuracy_fractions, C44_accuracy_open, C44_accuracy_alignment, C46_arithmetic, C50_labels, C53_zero, C54_lower, C55_inner_points_differ, C61_integers_exact_named, C61_integers_exact, C61_integer_series, C62_fused_same_named, C62_fused_same, C62_fused_series, C62_thirds_differ, C63_unit_named, C63_unit, C63_ten_differs, C65_held_named, C65_held, C67_normalized, C67_open_end, C67_open_end_exists, C67_end_column, C74_closed_end, C74_open_end, C74_named, C74_mvm, C78_earlier_rows, C78_abandon, C78_abandon_named, C78_along, C78_along_named, C79_default_found, C79_default_found_fma, C81_self_test, C83_zero_occurs, C85_value, C85_close, C85_order, C85_exact, C85_zero, C85_command_line, C85_patterns, C85_layout, C85_same.
<!-- /assumptions -->

## 8. Findings about the code

Each of these is a theorem or a checked example (property in brackets).

* The cell (0,0) and the intermediate points of multi-step productions are not tested against the
  window (C09).  The slanted band can exclude the corner whatever the window size >= 0 (C11).
* `rigid` (and every pattern advancing the reference in each production) with `open_begin` can
  never start at reference index 0 (C16).
* `open_begin` with `distance_only` always ends in `AttributeError` (C17).
* With `open_begin` the window is evaluated on the padded problem (row shifted by one); countPaths
  evaluates it on the unpadded one (C33).  `window_args` without a window: dtw() works, countPaths
  raises `TypeError` (C33).  `_symmetricVelichkoZagoruyko` has the weight -1.001, which countPaths
  truncates to the marker -1 and then raises (C33).
* For hint 'N+M' and 'M' the normalized distance is not an average (C19).
* Candidates equal to +inf or NaN are never chosen, so a closed alignment of infinite cost is
  reported as missing except for N=M=1 (C03).
* An integer or transposed (Fortran-ordered) local cost matrix is rejected by the native wrapper
  with a `ValueError` about buffers (C41).
* A pattern id out of range ends the process; negative displacements or descending ids read and
  write out of bounds; N*M >= 2^31 overflows a C int (C37).
* The number of productions is read off the last row of the table: if the rows of a valid pattern are
  listed with another production last, the native code writes outside its candidate array (C86).
* warp() across a gap computes 0/0 and casts NaN to int64 (C35).  warpArea's result on alignments
  with repeated query indices depends on which duplicate node interp1d picks (C36; with
  numpy.interp the docstring example gives 4.0 rather than 8.0).
* An unknown window name is called as a function: `TypeError` (C43).  An invalid Rabiner-Juang
  type raises `TypeError` where `ValueError` was meant (C29).
* dtwPlotTwoWay with one-dimensional xts/yts raises `IndexError`; giving only one of them discards
  it; abbreviated plot types, which the documentation allows, raise (C47, C48).  Guide positions
  computed in binary64 can be one below the exact floor (C46); one guide is always the first match.
* All calls without `window_args` share one dictionary, and it is the `windowArgs` of their results:
  a program that changes it changes what later calls do.  `stepPattern`, `query` and `reference`
  of a result are likewise the caller's objects, not copies (C70).
* The command line tool prints "Normalized distance: nan" for patterns without normalization (C49).

## 9. Testing the theorems against wrong programs

`seeded/LOG.jsonl` has one line per attempt (edit of the model, claim broken, theorems that failed,
theorems tightened).  The driver copies the development, applies one edit, rebuilds every file that
still can be built and records which property theorems no longer check.
