{"id": "C01", "title": "distance is optimal", "statement": "With both ends closed, the `distance` returned by dtw() is less than or equal to the cumulative cost of every alignment path the step pattern and the window admit from (0,0) to (N-1,M-1), where a path's cost is the local cost of the first cell plus, for each step, the weighted local costs listed by the production rule, added left to right in binary64 arithmetic.", "quantifier": "every local cost matrix (any size, any double entries including NaN and infinities), every well-formed step pattern, every window, every admissible path", "why_tests_cant": "the number of paths is exponential in N+M and the property must hold for each of them, for every matrix and for rounding too", "anchors": ["dtw/dtw.py:dtw", "dtw/dtw_core.c:computeCM", "dtw/dtw_core.c:argmin", "dtw/_globalCostMatrix.py:_globalCostMatrix"]}
{"id": "C02", "title": "the returned alignment attains the distance", "statement": "Re-adding the weighted local costs along the returned `stepsTaken` sequence (in order, in the same arithmetic) from the first to the last cell gives exactly `distance`.", "quantifier": "every call of dtw() that returns an alignment", "why_tests_cant": "a wrong direction matrix can give the right distance and a slightly suboptimal path on inputs no test contains", "anchors": ["dtw/_backtrack.py:_backtrack", "dtw/dtw_core.c:computeCM"]}
{"id": "C03", "title": "an alignment is found exactly when one exists", "statement": "dtw() raises ValueError('No warping path found compatible with the local constraints') exactly when no admissible path between the two corners has a cost below +infinity; otherwise it returns.", "quantifier": "every local cost matrix, well-formed step pattern and window, closed ends", "why_tests_cant": "both the presence and the absence of a path quantify over all paths", "anchors": ["dtw/dtw.py:dtw", "dtw/dtw_core.c:computeCM"]}
{"id": "C04", "title": "anchored, in-range, monotone alignment", "statement": "index1/index2 (and index1s/index2s) have equal lengths, start at (0,0), end at (N-1, jmin), stay within 0..N-1 and 0..M-1 and never decrease.", "quantifier": "every successful closed-begin call with a well-formed step pattern, any window, open or closed end", "why_tests_cant": "needs to hold for every matrix and user-defined pattern", "anchors": ["dtw/_backtrack.py:_backtrack", "dtw/dtw.py:dtw"]}
{"id": "C05", "title": "every step of the alignment is a production of the step pattern", "statement": "Consecutive points of (index1s,index2s) differ by the total displacement of the production named at the same position in stepsTaken, and (index1,index2) is the same path refined with exactly the intermediate points that production lists.", "quantifier": "every successful call", "why_tests_cant": "depends on the interplay of direction matrix, row filtering and reversal for every pattern, including user-defined ones", "anchors": ["dtw/_backtrack.py:_backtrack", "dtw/stepPattern.py:StepPattern"]}
{"id": "C06", "title": "costMatrix satisfies the printed recursion", "statement": "With keep_internals, at each non-initial in-window cell costMatrix[i,j] is the minimum over the productions of the predecessor's cumulative cost plus weighted local costs (NaN if no candidate is below +infinity), directionMatrix[i,j] is the first production attaining that minimum, and cells outside the window stay NaN. For symmetric2 this is g[i,j]=min(g[i-1,j-1]+2d, g[i,j-1]+d, g[i-1,j]+d).", "quantifier": "every cell of every matrix, every well-formed pattern, every window", "why_tests_cant": "tests compare a few small matrices", "anchors": ["dtw/dtw_core.c:computeCM", "dtw/dtw_core.c:argmin", "dtw/stepPattern.py:StepPattern.__str__"]}
{"id": "C07", "title": "costMatrix[i,j] is the DTW distance of the prefixes", "statement": "Without a window (or with a window that ignores the sizes, such as Sakoe-Chiba), the cost matrix of dtw() on the leading n' x m' block of the local cost matrix is the leading block of the full cost matrix; hence costMatrix[i,j] is the distance between query[:i+1] and reference[:j+1].", "quantifier": "all matrices, all n'<=N, m'<=M, all well-formed patterns", "why_tests_cant": "quantifies over all pairs of prefixes", "anchors": ["dtw/dtw.py:dtw", "dtw/dtw_core.c:computeCM"]}
{"id": "C08", "title": "the window constrains the alignment", "statement": "Every point of (index1s,index2s) except the first satisfies the windowing function, for built-in and user-defined windows (closed begin).", "quantifier": "every window function, pattern and matrix", "why_tests_cant": "user windows are arbitrary predicates", "anchors": ["dtw/window.py", "dtw/_globalCostMatrix.py:_globalCostMatrix", "dtw/dtw_core.c:computeCM"]}
{"id": "C09", "title": "window exemption of the first and of intermediate points", "statement": "Documentation says coordinates outside the window are not allowed for warping paths. The first cell (0,0) and the intermediate points of multi-step productions are not checked: there are inputs where the returned index1/index2 contain points the window rejects.", "quantifier": "existence of a matrix, pattern and window (refutation of the unrestricted claim)", "why_tests_cant": "tests only look at plots", "anchors": ["dtw/window.py:itakuraWindow", "dtw/dtw_core.c:computeCM"]}
{"id": "C10", "title": "Sakoe-Chiba band", "statement": "With window_type='sakoechiba' and window_size >= 0 every point of index1s/index2s satisfies |index2s-index1s| <= window_size (with open_begin: |index2s-(index1s+1)| <= window_size, since the code pads the query); if |M-N| > window_size the closed-end call always raises; and a band with window_size >= max(N,M) gives the same result as no window.", "quantifier": "all matrices, patterns, sizes and window sizes", "why_tests_cant": "unbounded sizes; failure must happen for all inputs", "anchors": ["dtw/window.py:sakoeChibaWindow", "dtw/dtw.py:_canonicalizeWindowFunction"]}
{"id": "C11", "title": "Itakura and slanted-band corner behaviour", "statement": "The Itakura window admits the final corner only if M-1 < 2(N-1) and N-1 <= 2(M-1); otherwise every closed-end call raises (unless N=M=1). The slanted band, documented as joining element [1,1] to [query_size,reference_size], admits the final corner only if |M/N-1| <= window_size, so some calls with window_size >= 0 always raise.", "quantifier": "all sizes, matrices, patterns", "why_tests_cant": "quantifies over all inputs for fixed sizes", "anchors": ["dtw/window.py:itakuraWindow", "dtw/window.py:slantedBandWindow"]}
{"id": "C12", "title": "relaxing the window never increases the distance", "statement": "If window A admits a subset of the cells of window B and dtw() succeeds with A, then it succeeds with B and returns a distance that is no larger.", "quantifier": "all pairs of windows, all matrices and patterns", "why_tests_cant": "relational property over two runs", "anchors": ["dtw/dtw.py:dtw", "dtw/window.py"]}
{"id": "C13", "title": "open_end chooses the best normalized end point", "statement": "With open_end, jmin is the first index minimizing the normalized last row of the cumulative cost matrix, distance and normalizedDistance are the values at that index, the alignment ends at (N-1,jmin), and normalizedDistance never exceeds the closed-end one.", "quantifier": "all matrices, normalizable patterns, windows", "why_tests_cant": "argmin must be right for every row of doubles with NaNs", "anchors": ["dtw/dtw.py:dtw"]}
{"id": "C14", "title": "open_begin is optimal over all starting positions", "statement": "With open_begin the distance is the minimum over all reference positions of the cost of a path starting there at no cost from a virtual row before the query, and the returned indices are those of such an optimal path with the virtual first point removed and query indices shifted back.", "quantifier": "all matrices, patterns with 'N' normalization, windows", "why_tests_cant": "quantifies over every starting point and path", "anchors": ["dtw/dtw.py:dtw", "dtw/_globalCostMatrix.py:_globalCostMatrix"]}
{"id": "C15", "title": "normalization requirements are enforced", "statement": "open_begin with a pattern whose hint is not 'N', and open_end with a pattern whose hint is 'NA', always raise ValueError; otherwise the normalized distance is distance divided by N+jmin+1, N or jmin+1 according to the hint, and NaN for 'NA'.", "quantifier": "all inputs", "why_tests_cant": "must hold for all patterns, including user-defined hints", "anchors": ["dtw/dtw.py:dtw"]}
{"id": "C16", "title": "reference start reachable in open-begin alignments", "statement": "With asymmetric and open_begin an alignment may start at any reference index, including 0. For `rigid` (documented for gapless subsequence search) an alignment can never start at reference index 0, so an exact gapless match at the start of the reference is missed and a query as long as the reference always raises.", "quantifier": "all matrices (asymmetric: positive part; rigid: impossibility)", "why_tests_cant": "an impossibility statement over all inputs", "anchors": ["dtw/dtw.py:dtw", "dtw/stepPattern.py:rigid", "dtw/stepPattern.py:asymmetric"]}
{"id": "C17", "title": "distance_only changes nothing but the missing fields", "statement": "With open_begin=False, distance_only=True succeeds and fails on the same inputs and gives the same distance, normalizedDistance and jmin. With open_begin=True it always ends in an exception (AttributeError) whenever the distance itself could be computed.", "quantifier": "all inputs", "why_tests_cant": "relational, over all inputs", "anchors": ["dtw/dtw.py:dtw"]}
{"id": "C18", "title": "keep_internals changes nothing but the kept fields", "statement": "keep_internals only adds costMatrix, directionMatrix, localCostMatrix (the unpadded local cost), and query/reference for two-argument calls; matrices have shape N x M; all other fields are unchanged.", "quantifier": "all inputs", "why_tests_cant": "relational, over all inputs", "anchors": ["dtw/dtw.py:dtw"]}
{"id": "C19", "title": "normalization is the total weight of any path", "statement": "For every predefined pattern with hint 'N' the weights along any admissible closed path add up to N, and for hint 'N+M' to N+M-1, independently of the path. Hence (exact arithmetic) normalizedDistance lies between the least and greatest local cost for hint 'N' (README: exact average distance per step), while for 'N+M' and for mori2006 ('M') it is not the average: a constant local cost c yields c(N+M-1)/(N+M), resp. c(3M-2)/M.", "quantifier": "all paths, sizes, predefined patterns", "why_tests_cant": "all paths of all lengths", "anchors": ["dtw/stepPattern.py", "dtw/dtw.py:dtw", "README.rst"]}
{"id": "C20", "title": "transposition symmetry", "statement": "Transposing the local cost matrix, the window and the step pattern (StepPattern.T) gives the same distance and the transposed cumulative cost matrix; in particular symmetric1/symmetric2/symmetricPx distances are symmetric in query and reference.", "quantifier": "all matrices, well-formed patterns, windows", "why_tests_cant": "relational over two runs; evaluation order differs between the two", "anchors": ["dtw/stepPattern.py:StepPattern.T", "dtw/dtw.py:dtw"]}
{"id": "C21", "title": "distance is monotone in the local cost", "statement": "If every local cost is raised (non-negative costs and weights), the distance does not decrease, and a call that fails still fails.", "quantifier": "all pairs of matrices of equal size", "why_tests_cant": "relational over two runs, with rounding", "anchors": ["dtw/dtw.py:dtw", "dtw/dtw_core.c:computeCM"]}
{"id": "C22", "title": "non-negativity and identity", "statement": "For non-negative local costs and patterns with non-negative weights all cumulative costs and the distance are >= 0; if moreover the diagonal costs are 0, N=M and the pattern has the (1,1) production (no window), the distance is 0: dtw(x,x).distance==0.", "quantifier": "all non-negative matrices", "why_tests_cant": "all sizes", "anchors": ["dtw/dtw.py:dtw"]}
{"id": "C23", "title": "homogeneity", "statement": "In exact arithmetic, multiplying the local cost matrix by a constant c>0 multiplies distance, normalizedDistance and the cost matrix by c and leaves the alignment unchanged.", "quantifier": "all matrices, all positive factors", "why_tests_cant": "relational over two runs", "anchors": ["dtw/dtw.py:dtw"]}
{"id": "C24", "title": "asymmetric matches every query element exactly once", "statement": "With asymmetric, rigid or mvmStepPattern, index1 of a successful closed-begin call is exactly 0,1,...,N-1, so index2 is a function of index1.", "quantifier": "all matrices, windows", "why_tests_cant": "all sizes", "anchors": ["dtw/stepPattern.py:asymmetric", "dtw/mvm.py:mvmStepPattern", "dtw/_backtrack.py:_backtrack"]}
{"id": "C25", "title": "global slope limits of slope-constrained patterns", "statement": "For each predefined slope-constrained pattern the closed-end alignment can exist only if the lengths satisfy the slope bounds (e.g. M-1 <= 2(N-1) for asymmetric; (N-1) <= 2(M-1) and (M-1) <= 2(N-1) for symmetricP1, typeI*, typeII*); outside them every call raises. Without a window the bounds are also sufficient (finite costs in exact arithmetic, costs up to 2^960 in binary64), and the remaining predefined patterns align series of any lengths.", "quantifier": "all matrices and all sizes", "why_tests_cant": "infinitely many sizes; failure claim over all inputs", "anchors": ["dtw/stepPattern.py", "tests/test_dtw_s.py:test_impossible"]}
{"id": "C26", "title": "symmetric1/symmetric2 are the textbook DTW", "statement": "The distance with symmetric1 (symmetric2) is the minimum, over all sequences of cells from (0,0) to (N-1,M-1) whose consecutive differences are (0,1), (1,0) or (1,1), of the sum of local costs (with diagonal steps counted twice); index1/index2 is such a sequence, touches every query and every reference index, and has between max(N,M) and N+M-1 points. For costs that do not overflow a path always exists.", "quantifier": "all matrices, all warping paths", "why_tests_cant": "exponentially many paths", "anchors": ["dtw/stepPattern.py:symmetric1", "dtw/stepPattern.py:symmetric2", "dtw/dtw.py:dtw"]}
{"id": "C27", "title": "minimum variance matching", "statement": "With mvmStepPattern(e), e>=1: every query element is matched, index2 strictly increases by at most e per query element, starting at 0 and ending at M-1; a closed alignment can exist only if N-1 <= M-1 <= e(N-1), and (finite costs, exact arithmetic) then does.", "quantifier": "all e, sizes, matrices", "why_tests_cant": "parametric pattern family", "anchors": ["dtw/mvm.py:mvmStepPattern"]}
{"id": "C28", "title": "predefined tables agree with the Rabiner-Juang constructor", "statement": "The hand-typed Myers/Rabiner tables typeI*, typeII*, typeIIIc, typeIVc, the Sakoe-Chiba tables and the well-known ones contain, up to numbering of productions, the same productions, weights and hints as the systematic construction from elementary steps with weighting (a)-(d) and smoothing.", "quantifier": "every predefined pattern, every row (finite)", "why_tests_cant": "tables are 'mostly unchecked' according to the source; no test looks at them", "anchors": ["dtw/stepPattern.py:rabinerJuangStepPattern", "dtw/stepPattern.py:_P", "dtw/stepPattern.py"]}
{"id": "C29", "title": "step pattern builder", "statement": "For any sequence of elementary steps with non-negative displacements, the constructed production has displacements equal to the remaining distance to the end point, starts with marker -1 and carries, in exact arithmetic, weights summing to the total di (c), di+dj (d), whether or not smoothing is on; unsupported subtypes and types are rejected.", "quantifier": "all step sequences, subtypes and smoothing flags", "why_tests_cant": "unbounded step sequences", "anchors": ["dtw/stepPattern.py:_P", "dtw/stepPattern.py:rabinerJuangStepPattern"]}
{"id": "C30", "title": "StepPattern.T is an involution", "statement": "p.T().T() equals p (matrix and hint), T swaps the two displacement columns of each row, keeps ids and weights, and exchanges the hints N and M only.", "quantifier": "all step patterns", "why_tests_cant": "arbitrary user patterns", "anchors": ["dtw/stepPattern.py:StepPattern.T"]}
{"id": "C31", "title": "countPaths counts admissible paths", "statement": "For closed-begin problems countPaths(d) is the number of distinct admissible production sequences from (0,0) to the end cell (closed end), or to any cell of the last row (open end); the double computation is exact as long as the counts stay below 2**53.", "quantifier": "all sizes, patterns, windows", "why_tests_cant": "counts grow exponentially", "anchors": ["dtw/countPaths.py:countPaths", "dtw/stepPattern.py:StepPattern._mkDirDeltas"]}
{"id": "C32", "title": "countPaths positive iff feasible", "statement": "For closed ends and finite local costs (exact arithmetic), dtw() succeeds if and only if the path count is positive.", "quantifier": "all finite matrices, patterns, windows", "why_tests_cant": "links two independent programs over all inputs", "anchors": ["dtw/countPaths.py:countPaths", "dtw/dtw.py:dtw"]}
{"id": "C33", "title": "countPaths on results of dtw() (known mismatches)", "statement": "countPaths re-evaluates the window on the unpadded problem with the stored window arguments: there are successful dtw() calls for which it raises TypeError (window_args given, no window), for which the count disagrees with the open-begin problem solved (shifted window), and a named pattern with weight -1.001 for which it raises.", "quantifier": "existence of inputs (refutation of 'works on any DTW object')", "why_tests_cant": "tests cover only default options", "anchors": ["dtw/countPaths.py:countPaths", "dtw/dtw.py:dtw", "dtw/_globalCostMatrix.py"]}
{"id": "C34", "title": "warp returns a usable index vector", "statement": "For a closed-begin alignment, warp() returns one integer per target index up to the last matched; entry k is the mean, rounded down, of the source indices matched to k. When the target indices have no gaps (all predefined patterns that cannot skip), every entry is a valid source index and the vector is non-decreasing; for single-valued alignments it is the correspondence itself. With an open begin, entries before the first match hold the first source index.", "quantifier": "all alignments returned by dtw()", "why_tests_cant": "all alignments", "anchors": ["dtw/warp.py:warp", "dtw/warp.py:_solveTies"]}
{"id": "C35", "title": "warp across gaps", "statement": "The documentation says gaps in the index sequence are filled by linear interpolation. The code divides 0 by 0 at a gap and converts NaN to int: there is a dtw() result for which warp() returns an invalid (minimum int64) index.", "quantifier": "existence of an input (refutation)", "why_tests_cant": "tests only warp gapless alignments", "anchors": ["dtw/warp.py:_solveTies", "dtw/warp.py:warp"]}
{"id": "C36", "title": "warpArea", "statement": "For closed-begin alignments, and for open-begin alignments that match query sample 0, warpArea is the sum over query indices of the distance between the warping curve and the straight diagonal: it is >= 0, 0 for the identity alignment of equal lengths and, for single-valued alignments (asymmetric), it is exactly the sum of |index2[i] - i(M-1)/(N-1)|; for an open-begin alignment that leaves query sample 0 unmatched it raises ValueError.", "quantifier": "all alignments", "why_tests_cant": "all alignments", "anchors": ["dtw/warpArea.py:warpArea"]}
{"id": "C37", "title": "memory safety of the native core", "statement": "For every well-formed step pattern and every matrix with N*M < 2**31 the native code neither reads nor writes outside its arrays nor overflows an index, and does not terminate the process. Pattern ids out of range terminate the process; negative displacements and non-ascending ids lead to out-of-bounds accesses.", "quantifier": "all sizes and well-formed patterns; existence for the malformed ones", "why_tests_cant": "out-of-bounds accesses are silent", "anchors": ["dtw/dtw_core.c:computeCM", "dtw/_dtw_utils.pyx:_computeCM_wrapper"]}
{"id": "C38", "title": "backtracking terminates", "statement": "The backtracking loop always terminates for a well-formed pattern, after at most N+M-1 steps.", "quantifier": "all inputs", "why_tests_cant": "termination", "anchors": ["dtw/_backtrack.py:_backtrack"]}
{"id": "C39", "title": "row/column convention is preserved across the native interface", "statement": "The transposition between the row-major Python arrays and the column-major native code cancels out: the first displacement column of the pattern always moves along the query (rows), the second along the reference (columns), for non-square problems too.", "quantifier": "all shapes and patterns", "why_tests_cant": "a transposition error is invisible on square or symmetric examples", "anchors": ["dtw/_dtw_utils.pyx:_computeCM_wrapper", "dtw/stepPattern.py:StepPattern._get_p", "dtw/dtw_core.c:computeCM"]}
{"id": "C40", "title": "two-argument call equals cost-matrix call", "statement": "dtw(x,y,dist_method=m) gives the same alignment and distances as dtw(cdist(x,y,m)), 1-D inputs being treated as column vectors; inputs of more than two dimensions and one-argument inputs that are not 2-D raise ValueError.", "quantifier": "all series and metrics", "why_tests_cant": "all inputs", "anchors": ["dtw/dtw.py:dtw"]}
{"id": "C41", "title": "local cost matrices are accepted only as C-ordered doubles", "statement": "The documentation accepts any local-distance matrix. A one-argument closed-begin call whose array is not double or not C-contiguous (e.g. integers, or the transpose of a matrix) raises ValueError in the native wrapper, whatever its contents.", "quantifier": "all such matrices", "why_tests_cant": "tests always pass C-ordered doubles", "anchors": ["dtw/dtw.py:dtw", "dtw/_dtw_utils.pyx:_computeCM_wrapper"]}
{"id": "C42", "title": "cells with NaN or infinite local cost are obstacles", "statement": "For patterns with non-negative weights, no point of the returned alignment that contributes a weighted local cost has a NaN or +infinity local cost.", "quantifier": "all matrices with NaN/inf entries", "why_tests_cant": "arbitrary positions of missing data", "anchors": ["dtw/dtw_core.c:argmin", "dtw/dtw_core.c:computeCM"]}
{"id": "C43", "title": "names resolve to the documented objects", "statement": "Passing a window or step pattern by name is the same as passing the corresponding object; omitted window means no window; an unknown name never yields an alignment.", "quantifier": "all names and all inputs", "why_tests_cant": "all strings", "anchors": ["dtw/dtw.py:_canonicalizeWindowFunction", "dtw/dtw.py:_canonicalizeStepPattern"]}
{"id": "C44", "title": "numerical accuracy", "statement": "For finite non-negative local costs and a finite distance, the binary64 distance differs from the least cost of an alignment computed in exact real arithmetic by a relative error of at most (1+2^-53)^(N+M-2)-1 for the predefined patterns with weights 0, 1, 2, and (1+2^-53)^(N+M)-1 for all predefined patterns with non-negative weights when no cost is between 0 and 2^-1020; with open ends the same holds (exponent N+jmin+2) against the best alignment to the same reference column; the returned alignment, costed exactly, is nearly optimal in the same sense.", "quantifier": "all finite non-negative local cost matrices, patterns, windows, open ends, with and without fused multiply-add", "why_tests_cant": "bounds on rounding for all inputs", "anchors": ["dtw/dtw_core.c:computeCM"]}
{"id": "C45", "title": "density plot normalization agrees with normalizedDistance", "statement": "dtwPlotDensity(normalize=True) shows in every cell the cumulative cost normalized as for an alignment ending there, and at the end point of the alignment exactly normalizedDistance (open-begin results included); it rejects patterns without normalization and objects without internals.", "quantifier": "all results with keep_internals", "why_tests_cant": "all inputs", "anchors": ["dtw/dtwPlot.py:dtwPlotDensity", "dtw/dtw.py:dtw"]}
{"id": "C46", "title": "match guides of the two-way and three-way plots", "statement": "The two-way and three-way plots of a two-argument call with keep_internals succeed for every servable guide request and draw the two series (the reference shifted by offset) and guides that join only matched pairs (index1[i], index2[i]), with both ends on the drawn curves. With an integer match_indices k exactly k guides are drawn, in order along the curve, including the first match (k>=1) and the last (k>=2), each at most one position below the evenly spaced one; the two-way plot draws 50 by default, the three-way plot none. With a list, one guide per entry is drawn, negative entries counting from the end of the curve, and an entry outside the curve raises IndexError.", "quantifier": "all alignments and guide counts", "why_tests_cant": "rounding of linspace for every length", "anchors": ["dtw/dtwPlot.py:dtwPlotTwoWay", "dtw/dtwPlot.py:dtwPlotThreeWay"]}
{"id": "C47", "title": "plot type dispatch", "statement": "dtwPlot/DTW.plot accept exactly the types alignment, twoway, threeway and density, each drawing what the corresponding function draws; every other string (including abbreviations, which the documentation allows) raises ValueError naming it. The alignment plot is the list of matched pairs. A distance_only result is never drawn.", "quantifier": "all results, all type strings, all plot arguments", "why_tests_cant": "all strings and results", "anchors": ["dtw/dtwPlot.py:dtwPlot", "dtw/dtwPlot.py:dtwPlotAlignment", "dtw/dtw.py:DTW.plot"]}
{"id": "C48", "title": "series needed by the plots", "statement": "Two-way and three-way plots use the series passed, or those kept by a two-argument call with keep_internals; otherwise they raise ValueError. A cost-matrix call never keeps series. A series passed alone is ignored. The two-way plot rejects multivariate series with ValueError and one-dimensional vectors with IndexError.", "quantifier": "all results and arguments", "why_tests_cant": "all calls", "anchors": ["dtw/dtwPlot.py:dtwPlotTwoWay", "dtw/dtwPlot.py:dtwPlotThreeWay", "dtw/dtw.py:dtw"]}
{"id": "C49", "title": "command line tool agrees with the API", "statement": "The command line tool prints exactly the normalized distance, distance and warping path of dtw(query, reference, step_pattern) with default options, and prints nothing when that call fails.", "quantifier": "all inputs and pattern names", "why_tests_cant": "all inputs", "anchors": ["dtw/__main__.py:main2"]}
{"id": "C50", "title": "printed and drawn step patterns", "statement": "print(step_pattern) writes every production in order with its start, charged points and weights, and the normalization hint; two patterns that print the same have the same productions and hint up to weights formatted alike. step_pattern.plot() draws one curve per production through exactly its points, labelled by its weights, each label in the middle of its segment, and dots at its starts.", "quantifier": "all well-formed step patterns, any formatter of weights", "why_tests_cant": "all user-defined patterns", "anchors": ["dtw/stepPattern.py:StepPattern.__str__", "dtw/stepPattern.py:StepPattern.plot", "dtw/dtw.py:DTW.__repr__"]}
{"id": "C51", "title": "adding a constant to all local costs", "statement": "In exact arithmetic, for every predefined normalizable pattern, raising every local cost by the same constant c (of either sign) leaves the alignment, direction matrix and end column unchanged and raises the distance by c times the pattern's total weight; for patterns normalized by the query length the normalized distance rises by exactly c, also with open ends. Calls that fail keep failing the same way. It does not hold for symmetric1, which cannot be normalized.", "quantifier": "all cost matrices, constants, predefined normalizable patterns, windows and options", "why_tests_cant": "all inputs", "anchors": ["dtw/dtw.py:dtw", "dtw/dtw_core.c:computeCM", "dtw/stepPattern.py"]}
{"id": "C52", "title": "time reversal", "statement": "In exact arithmetic, for step patterns that charge each cell they enter with weight one (symmetric1, asymmetric, typeIIa, rigid, mvm) and a window that reads the same backwards, aligning both series read backwards gives the same distance and normalized distance, and fails exactly when the forward call fails; for asymmetric (no window), open_end forwards equals open_begin backwards and conversely. symmetric2 does not have this property because it pays the first cell once.", "quantifier": "all pairs of series, distance functions comparing samples, cost matrices of any size", "why_tests_cant": "two runs on all inputs", "anchors": ["dtw/dtw.py:dtw", "dtw/dtw_core.c:computeCM", "dtw/stepPattern.py"]}
{"id": "C53", "title": "zero distance", "statement": "With symmetric1 or symmetric2, no window and closed ends, if local costs are non-negative and zero exactly for equal samples, then distance == 0 exactly when the two series are one common series with samples repeated (in particular the distance is zero for unequal series, and rounding never produces a spurious zero).", "quantifier": "all series of any length, all non-negative costs, exact and binary64 arithmetic", "why_tests_cant": "all inputs, including denormal costs", "anchors": ["dtw/dtw.py:dtw", "dtw/dtw_core.c:computeCM"]}
{"id": "C54", "title": "cheap bounds", "statement": "For patterns that charge the entered cell once or twice and move by at most one query sample (symmetric1, symmetric2, asymmetric, rigid, mvm), summing for every query sample any lower bound of its costs inside the window (as LB_Keogh does) gives a floating-point number not above distance; for series of equal length whose diagonal is inside the window, distance is not above the weighted lock-step sum.", "quantifier": "all cost matrices, windows, bounds; exact and binary64 arithmetic; open or closed end for the lower bound", "why_tests_cant": "all inputs and rounding patterns", "anchors": ["dtw/dtw.py:dtw", "dtw/dtw_core.c:computeCM", "dtw/window.py"]}
{"id": "C55", "title": "a window is a mask of missing local costs", "statement": "For step patterns that charge only the cell they enter (symmetric1, symmetric2, symmetricP0, asymmetric, asymmetricP0, typeIIa-d, rigid, mvm), calling dtw() with a window gives the same distance, normalizedDistance, alignment, matrices or exception as calling it without window on the cost matrix with NaN outside the window. Patterns with inner points (typeIIIc) do not have this property.", "quantifier": "all cost matrices, windows, open or closed ends, exact and binary64 arithmetic", "why_tests_cant": "two runs on all inputs and window functions", "anchors": ["dtw/dtw.py:dtw", "dtw/dtw_core.c:computeCM", "dtw/window.py"]}
{"id": "C56", "title": "an open-end result is the result for the cut reference", "statement": "With open_end, distance, normalizedDistance and alignment are those of the closed-end call on the reference cut after sample jmin; no other cut has a smaller normalizedDistance, and every earlier cut has a larger one (window not depending on the series lengths).", "quantifier": "all cost matrices, step patterns with a normalization hint, both settings of open_begin, exact and binary64 arithmetic", "why_tests_cant": "relates one run to the runs on all prefixes", "anchors": ["dtw/dtw.py:dtw", "dtw/_globalCostMatrix.py:_globalCostMatrix"]}
{"id": "C57", "title": "results are consistent under cutting", "statement": "For a closed-begin result and any breakpoint (index1s[q], index2s[q]) of it, dtw() on the two series cut after that point returns exactly the alignment up to that point, and its distance is the entry of costMatrix there.", "quantifier": "all cost matrices, step patterns, breakpoints, exact and binary64 arithmetic", "why_tests_cant": "all inputs and all breakpoints; includes how ties are resolved", "anchors": ["dtw/dtw.py:dtw", "dtw/_backtrack.py:_backtrack", "dtw/dtw_core.c:computeCM"]}
{"id": "C58", "title": "a longer reference never increases the open-end normalized distance", "statement": "With open_end and a window not depending on the series lengths, appending samples to the reference preserves success and can only lower normalizedDistance.", "quantifier": "all cost matrices and all extensions of the reference, exact and binary64 arithmetic", "why_tests_cant": "two runs on all inputs", "anchors": ["dtw/dtw.py:dtw"]}
{"id": "C59", "title": "closed forms of countPaths", "statement": "Without window and with closed ends, countPaths returns the Delannoy number D(N-1,M-1) for symmetric1, symmetric2 and symmetricP0, and the trinomial coefficient of x^(M-1) in (1+x+x^2)^(N-1) for asymmetric, as long as the counts fit in 53 bits.", "quantifier": "all results of such calls, any lengths", "why_tests_cant": "counts grow exponentially", "anchors": ["dtw/countPaths.py:countPaths"]}
{"id": "C60", "title": "open_begin finds the best suffix of the reference", "statement": "In exact arithmetic, with asymmetric and no window, the open-begin distance and normalizedDistance equal those of the closed-begin call on the reference from its first matched sample index2[0] on; no other suffix gives a smaller distance; the call fails only if it fails for every suffix.", "quantifier": "all cost matrices with at least two query samples, open or closed end", "why_tests_cant": "relates one run to the runs on all suffixes", "anchors": ["dtw/dtw.py:dtw", "dtw/_globalCostMatrix.py:_globalCostMatrix"]}
{"id": "C61", "title": "integer local costs are computed exactly", "statement": "If all local costs are integers (or NaN) of magnitude at most c and the pattern's weights are whole numbers (23 of the predefined patterns), a call on an n by m problem with c*(n+m) <= 2^53 (twice that for mori2006; for open_end c*(n+m)^2 < 2^52) succeeds in binary64, with or without fused multiply-add, exactly when it succeeds in exact arithmetic, and then returns the same alignment, jmin and directionMatrix; distance and costMatrix are the exact integers, and normalizedDistance is the correctly rounded quotient of the exact distance and the normalization length.", "quantifier": "all integer cost matrices, sizes, whole-weight patterns, windows (none, Itakura, Sakoe-Chiba, user), open ends, and all pairs of arithmetics", "why_tests_cant": "compares double arithmetic with exact arithmetic for all matrices and sizes below the bound, including every tie", "anchors": ["dtw/dtw_core.c:computeCM", "dtw/dtw.py:dtw", "dtw/_backtrack.py:_backtrack"]}
{"id": "C62", "title": "fused multiply-add does not change results", "statement": "For non-negative local costs (NaN and infinity allowed) and patterns whose weights are 0, 1 or 2 (21 of the predefined patterns), a call gives bit-identical results whether or not the C compiler contracts the accumulation a + w*x into a fused multiply-add: same success, alignment, jmin, distance, normalizedDistance, costMatrix and directionMatrix. With weights 1/3 (asymmetricP05) the distance can differ.", "quantifier": "all cost matrices of doubles >= 0 or NaN, sizes, patterns with weights 0, 1, 2, built-in and user windows, open ends", "why_tests_cant": "compares two compilations on all inputs, including every rounding and overflow; a test runs one build on a few inputs", "anchors": ["dtw/dtw_core.c:computeCM", "dtw/dtw.py:dtw"]}
{"id": "C63", "title": "A change of unit by a power of two is exact in binary64", "statement": "With real binary64 arithmetic (contracted multiply-add or not), multiplying every local cost by the same power of two - of any sign of exponent, with all finite costs 0 or of magnitude between 2^-800 and 2^800 before and after, NaN cells staying NaN - makes dtw() succeed on the new costs whenever it did on the old, with exactly the same alignment (index1, index2, index1s, index2s, stepsTaken), the same jmin and directionMatrix, and with distance, normalizedDistance and every cell of costMatrix multiplied by exactly that power of two, whatever the window, the step pattern (weights that round, such as 1/3, included) and the open-begin/open-end flags. Multiplying by another factor, such as ten, can change the alignment.", "quantifier": "all step patterns (predefined, or well-formed with at most 2^20 table rows), windows, flags, exponents, and all local cost matrices of moderate magnitude, of every size the C kernel accepts", "why_tests_cant": "rounding, tie-breaking and normalization must commute with the scaling at every cell of every matrix; a test only sees some matrices, and for most factors the property fails on rare inputs only", "anchors": ["dtw/dtw_core.c: computeCM", "dtw/_globalCostMatrix.py: _globalCostMatrix", "dtw/dtw.py: dtw (normalizedDistance, jmin)", "dtw/_backtrack.py: _backtrack"]}
{"id": "C64", "title": "The distance depends continuously on the local costs", "statement": "In exact arithmetic, if every local cost changes by at most e (NaN and infinite cells staying as they are), then dtw() with a predefined step pattern that has a normalization succeeds on the new costs whenever it did on the old, and with a closed end the distance changes by at most e times the weight of the normalization (N for open begin; 1 + (N-1) for hint N, 1 + (N-1) + (M-1) for hint N+M, 1 + 3(M-1) for hint M), and normalizedDistance changes by at most e (3e for hint M), open-begin and open-end alignments, whose end point may move, included; for every window.", "quantifier": "all pairs of local cost matrices (signed costs included) that differ by at most e cell by cell, of every size, all predefined patterns with a normalization hint, windows and flags, all e >= 0", "why_tests_cant": "the optimal path, the end column and the tie-breaking may all change under an arbitrarily small change of the costs; the bound is about every pair of matrices", "anchors": ["dtw/dtw.py: dtw (distance, normalizedDistance, jmin)", "dtw/dtw_core.c: computeCM", "dtw/stepPattern.py: predefined patterns and hints"]}
{"id": "C65", "title": "Holding samples never brings series closer", "statement": "Repeating samples of the query and/or of the reference in place (a slower recording of the same signal) never decreases the symmetric1 or symmetric2 distance, and repeating reference samples never decreases the asymmetric distance: if dtw() succeeds on the series with held samples, it succeeds on the original series, with a distance that is no larger - in floating point as well, fused multiply-add or not, with NaN and infinite cells as obstacles. The same holds for any step pattern whose steps can be shortened, and for any window of the original series that contains the image of the window used for the longer ones.", "quantifier": "all non-negative local cost matrices, all ways of repeating samples, all sizes, closed ends; exact and binary64 arithmetic", "why_tests_cant": "the statement compares the optimum over exponentially many paths of two matrices of different sizes, for every way of repeating samples, under rounding", "anchors": ["dtw/dtw.py: dtw", "dtw/dtw_core.c: computeCM", "dtw/stepPattern.py: symmetric1, symmetric2, asymmetric"]}
{"id": "C66", "title": "Joined series: the distance is at most the sum", "statement": "In exact arithmetic, without window and with closed ends, for every predefined step pattern with non-negative weights: if query1 aligns with reference1 at finite distance v1 and query2 with reference2 at finite distance v2, then dtw() on query1+query2 against reference1+reference2 finds an alignment, at a distance of at most v1 + v2 + (w-1)*s, where s is the local cost between the first samples of query2 and reference2 and w the weight of the pattern's diagonal step (1, 2 or 3); the costs between query1 and reference2 and between query2 and reference1 do not matter. The bound is attained.", "quantifier": "all pairs of local cost matrices of every size (signed costs, missing cells), all predefined patterns but _symmetricVelichkoZagoruyko, and any well-formed pattern with a diagonal production", "why_tests_cant": "ranges over all cost matrices and all ways of splitting them; a slope constraint that were tracked across the joint, or a wrong start charge, shows on rare inputs only", "anchors": ["dtw/dtw.py: dtw", "dtw/dtw_core.c: computeCM", "dtw/stepPattern.py: predefined patterns"]}
{"id": "C67", "title": "numerical accuracy of the normalized distance and of the open-end choice", "statement": "For finite non-negative local costs and a finite distance, the binary64 normalizedDistance differs from the least exact cost of an alignment to the same end column, divided exactly by the length the pattern's hint names (N, N+M or M), by at most ((1+2^-53)^(N+jmin+3)-1) times that value plus 2^-1075. With open end the same holds (exponent N+M+2) against the least exact normalized cost over all reference columns, provided the cost to the best column does not overflow: rounding may make dtw() choose another column than exact arithmetic would, but never one that is noticeably worse.", "quantifier": "all finite non-negative local cost matrices, all predefined patterns with a hint and non-negative weights, windows, open ends, with and without fused multiply-add", "why_tests_cant": "an error bound over all matrices and all alignments, in real arithmetic; tests compare against another rounded computation on a few inputs", "anchors": ["dtw/dtw.py: dtw, normalizedDistance, jmin", "dtw/dtw_core.c: computeCM"]}
{"id": "C68", "title": "Weak triangle inequality", "statement": "In exact arithmetic, with symmetric1, symmetric2 or symmetricP0 and closed ends: if the local costs between the samples of x, y and z are finite, non-negative and obey the triangle inequality (as any metric passed as dist_method does), then DTW(x,z) <= len(z)*DTW(x,y) + len(x)*DTW(y,z), and dtw(x,z) finds an alignment whenever the two other calls do. Windows are allowed if every cell reached through the first two windows is in the third (none; Sakoe-Chiba bands whose widths add). The plain triangle inequality is false: DTW is not a metric, so pruning or indexing that relies on it is wrong.", "quantifier": "all triples of series of every length and dimension, all local costs that obey the triangle inequality, windows that compose", "why_tests_cant": "compares the optima over exponentially many paths of three matrices of different sizes, for every metric", "anchors": ["dtw/dtw.py: dtw", "dtw/dtw_core.c: computeCM", "dtw/stepPattern.py: symmetric1, symmetric2, symmetricP0", "dtw/window.py: noWindow, sakoeChibaWindow"]}
{"id": "C69", "title": "Calls leave nothing behind", "statement": "dtw() (whether it returns or raises), StepPattern.T(), countPaths(), warp() and warpArea() change no object that existed before the call: not the series or local cost matrix, not the window_args dictionary (given or default), not the step pattern (given or predefined), not an earlier result. dtw() creates a new result object; its outcome (result or exception) is a function of the values the arguments have at the time of the call, so any sequence of earlier calls, including failed ones, makes no difference, and the attributes of earlier results are the same after any further calls. T() returns a new step pattern with an array of its own. A call that raises does not end the history: any sequence of calls on existing objects, each of which returns or raises, runs to its end.", "quantifier": "all histories of calls and object creations from any state of the program's objects, all arguments", "why_tests_cant": "a statement about every history of calls and every object reachable by the program; interference through shared mutable defaults, module-level step patterns or in-place writes of the native code shows only in particular orders of calls", "anchors": ["dtw/dtw.py: dtw", "dtw/_globalCostMatrix.py: _globalCostMatrix", "dtw/_dtw_utils.pyx: _computeCM_wrapper", "dtw/dtw_core.c: computeCM", "dtw/stepPattern.py: StepPattern.T", "dtw/countPaths.py: countPaths", "dtw/warp.py: warp", "dtw/warpArea.py: warpArea"]}
{"id": "C70", "title": "What a result shares with its arguments", "statement": "The cost, direction and local cost matrices and the index vectors of a result occupy memory allocated by that call: whatever later calls do and whatever the program changes in place elsewhere (the series, the local cost matrix passed as x, the window_args dictionary, the step pattern), they and the distances stay what they were, and two results have no such memory in common. The result's stepPattern and windowArgs are the objects the call used (the dictionary shared by all calls without window_args), and with keep_internals query and reference are the arrays given, vectors seen as columns: in-place changes of those objects show in the result.", "quantifier": "all calls, all later histories of calls and in-place changes of other objects", "why_tests_cant": "aliasing is a property of all later histories; a test observes one mutation of one object", "anchors": ["dtw/dtw.py: dtw", "dtw/_globalCostMatrix.py: _globalCostMatrix", "dtw/_dtw_utils.pyx: _computeCM_wrapper"]}
{"id": "C71", "title": "Concurrent calls do not interfere", "statement": "When any number of threads call dtw(), StepPattern.T(), countPaths(), warp() and warpArea() at the same time on shared series, step patterns and window_args dictionaries, then under every schedule no shared object changes, every thread ends after finitely many of its own operations, and each call has the outcome (result or exception) it has when it runs alone on the values of its arguments.", "quantifier": "any number of threads, every interleaving of their operations, all arguments, all initial states", "why_tests_cant": "the schedules cannot be enumerated, and a race (a write to a shared buffer or default argument) shows only in some of them", "anchors": ["dtw/dtw.py: dtw", "dtw/_globalCostMatrix.py: _globalCostMatrix", "dtw/_dtw_utils.pyx: _computeCM_wrapper", "dtw/dtw_core.c: computeCM", "dtw/stepPattern.py: StepPattern.T", "dtw/countPaths.py: countPaths", "dtw/warp.py: warp", "dtw/warpArea.py: warpArea"]}
{"id": "C72", "title": "An interrupted call leaves no trace", "statement": "If a call of dtw(), T(), countPaths(), warp() or warpArea() is interrupted after any number of its operations (KeyboardInterrupt, MemoryError, a killed thread), every object that existed before the call is as it was: later calls return what they would have returned without the interrupted one, and earlier results keep their values.", "quantifier": "all interruption points of all calls, all arguments, all histories before and after", "why_tests_cant": "every point between two operations is a possible interruption point, and the harm would show only in later calls", "anchors": ["dtw/dtw.py: dtw", "dtw/_globalCostMatrix.py: _globalCostMatrix", "dtw/_dtw_utils.pyx: _computeCM_wrapper", "dtw/stepPattern.py: StepPattern.T", "dtw/countPaths.py: countPaths", "dtw/warp.py: warp", "dtw/warpArea.py: warpArea"]}
{"id": "C73", "title": "Window arguments and unknown names", "statement": "A window takes exactly the window_args it declares (window_size for sakoechiba and slantedband, nothing for itakura): a call with other arguments (misspelt, missing, superfluous) never returns and raises TypeError. Without a window, window_args are ignored, whatever they are. An unknown window name raises TypeError (not the intended message: the fallback function takes no arguments), an unknown step pattern name AttributeError.", "quantifier": "all calls, windows, dictionaries and names", "why_tests_cant": "ranges over all argument dictionaries and names in combination with all other options; a window that silently accepted an argument would return a plausible alignment", "anchors": ["dtw/window.py: sakoeChibaWindow, itakuraWindow, slantedBandWindow, noWindow", "dtw/_globalCostMatrix.py: _globalCostMatrix", "dtw/dtw.py: _canonicalizeWindowFunction, _canonicalizeStepPattern"]}
{"id": "C74", "title": "Looser step patterns never increase the distance", "statement": "For non-negative local costs: if every production of a step pattern has a counterpart in another one with the same displacement and charges that are a part of its own with no larger weights, then (with any window) the other pattern finds an alignment whenever the first does and its distance is not larger; without a window it is enough that every production can be cut into productions of the other pattern that together charge no more. So symmetric1 <= symmetric2 <= symmetricP05 <= symmetricP1 <= symmetricP2, typeIa <= typeIb <= typeId, asymmetric <= typeIIIc, and so on for about 200 pairs of predefined patterns, and mvmStepPattern(e) gives no larger distance for larger e. With open_end the same holds of normalizedDistance if the normalization is the same. A window can break the second comparison.", "quantifier": "all local costs, sizes and options; all pairs of patterns in the relation; exact and binary64 arithmetic, contracted or not", "why_tests_cant": "an inequality between two optimizations over all inputs, exact also in rounded arithmetic", "anchors": ["dtw/dtw.py: dtw", "dtw/stepPattern.py: predefined step patterns", "dtw/mvm.py: mvmStepPattern", "dtw/dtw_core.c: computeCM"]}
{"id": "C75", "title": "which of several optimal alignments is returned", "statement": "When several alignments have the same least cost, dtw() returns a determined one: compare stepsTaken with any other optimal alignment from the last step backwards; at the first difference the returned alignment uses the production that comes first in the step pattern. In exact arithmetic this holds against every alignment to the same end point of the same cost; with rounding, against every alignment all of whose initial parts are cheapest ways to the point they reach (the returned one is such an alignment).", "quantifier": "all local cost matrices, step patterns, windows, open or closed begin and end", "why_tests_cant": "ties are between exponentially many alignments of every input; a test sees one choice on one input", "anchors": ["dtw/dtw_core.c: argmin, computeCM", "dtw/_backtrack.py: _backtrack", "dtw/dtw.py: dtw"]}
{"id": "C76", "title": "aligning a series with itself returns the identity", "statement": "If all local costs are non-negative and zero on the diagonal (for example dtw(x,x)), both ends are closed, the window contains the diagonal and the first production of the step pattern is the (1,1) step (symmetric1, symmetric2, symmetricP0, typeIIa-d, typeIVc, rigid, mvmStepPattern), then index1 = index2 = index1s = index2s = 0..n-1, even if other alignments also cost zero (repeated samples).", "quantifier": "all lengths, all non-negative local costs with zero diagonal, all windows containing the diagonal, every modelled arithmetic", "why_tests_cant": "depends on tie breaking against every other zero-cost alignment for all inputs", "anchors": ["dtw/dtw_core.c: argmin, computeCM", "dtw/_backtrack.py: _backtrack", "dtw/stepPattern.py: tables", "dtw/mvm.py: mvmStepPattern"]}
{"id": "C77", "title": "what lies off the returned alignment does not matter", "statement": "If dtw() returns an alignment, then any narrower window that still admits the points of that alignment gives the same alignment, distance and normalizedDistance; in particular a Sakoe-Chiba band as wide as the largest |index2s - index1s| of the alignment found without a window loses nothing. Likewise raising local costs at points the alignment does not visit (step patterns with non-negative weights, non-negative costs) changes neither the alignment nor its cost.", "quantifier": "all local cost matrices, step patterns, windows contained in the first one, open or closed ends, every modelled arithmetic; with open begin the window is that of the query with one more sample in front", "why_tests_cant": "compares two runs over all inputs and all pairs of windows; includes tie breaking against every other alignment", "anchors": ["dtw/dtw_core.c: computeCM, argmin", "dtw/_backtrack.py: _backtrack", "dtw/window.py: sakoeChibaWindow", "dtw/dtw.py: dtw"]}
{"id": "C78", "title": "accumulated costs never decrease (early abandoning)", "statement": "With non-negative local costs and step pattern weights every accumulated cost in costMatrix is at least some accumulated cost among the h rows just before any earlier row, h being the largest number of query samples one step spans; hence if a whole row (h rows) of costMatrix exceeds a bound, so does the distance, and computing can be abandoned. Along the returned alignment (index1s, index2s) the entries of costMatrix never decrease and stay at most the distance, also with rounding.", "quantifier": "all non-negative local costs, windows, step patterns with finite non-negative weights, open or closed ends; exact arithmetic, binary64 and fused multiply-add", "why_tests_cant": "an order property of all cells of every matrix, and rounding could break it on rare inputs", "anchors": ["dtw/dtw_core.c: computeCM", "dtw/dtw.py: dtw", "dtw/_globalCostMatrix.py: _globalCostMatrix", "dtw/stepPattern.py: tables"]}
{"id": "C79", "title": "the default call", "statement": "dtw(x, y) with all other arguments left out is textbook DTW: closed ends, no window, symmetric2; the distance is the least sum of local costs over all warping paths with diagonal steps counted twice, normalizedDistance is the distance divided by N+M, the alignment is present and no matrices are kept. On finite costs (up to 2^960) it never fails.", "quantifier": "all series or local cost matrices with at least one query sample", "why_tests_cant": "optimality over all warping paths of every input; absence of failure on every input", "anchors": ["dtw/dtw.py: dtw (signature defaults)", "dtw/stepPattern.py: symmetric2"]}
{"id": "C80", "title": "how the number of alignments changes with the problem", "statement": "For closed-end closed-begin results: countPaths() depends on the sizes, the step pattern and the window only, not on the costs (two calls with the same options on cost matrices of the same size give results with the same count); a window that admits at least the same cells (a wider Sakoe-Chiba band) or a step pattern with the same productions followed by further ones (a larger elasticity of mvmStepPattern()) never makes the count smaller; and transposing the problem (query and reference exchanged, step_pattern.T, window transposed) leaves the count unchanged. (As long as the larger count is at most 2^53, beyond which binary64 cannot hold it.)", "quantifier": "all pairs of successful calls, cost matrices, step patterns, windows, sizes", "why_tests_cant": "relates the counts of two runs over all sizes, patterns and windows", "anchors": ["dtw/countPaths.py: countPaths", "dtw/mvm.py: mvmStepPattern", "dtw/stepPattern.py: StepPattern.T", "dtw/window.py: sakoeChibaWindow"]}
{"id": "C81", "title": "What the built-in check of the native core returns", "statement": "_test_computeCM(TS) (and _test_computeCM2(TS)) computes the cumulative costs of the TS x TS multiplication table with the productions symmetric1 in the order row, diagonal, column. For every TS from 1 to 46340 it succeeds; the entry of costMatrix in row i+1, column j+1 is the sum of the table entries met when going from (1,1) straight along the border and then diagonally to that cell, and directionMatrix holds 2 off the border, 1 and 3 on the two borders and INT_MIN in the corner. All values are exact in binary64. TS=0 raises IndexError.", "quantifier": "all TS (at least 1, TS*TS within int) and all cells; exact and binary64 arithmetic, contracted or not", "why_tests_cant": "a closed form for every size; the built-in check itself only prints one case", "anchors": ["dtw/_dtw_utils.pyx: _test_computeCM", "dtw/_globalCostMatrix.py: _test_computeCM2", "dtw/dtw_core.c: computeCM"]}
{"id": "C82", "title": "A step pattern's distance is at most a multiple of another's", "statement": "In exact arithmetic and for non-negative local costs: if a step pattern becomes at least as expensive as another one (in the sense of C74) when its weights are multiplied by k >= 1, the other one finds an alignment whenever it does, and the other's distance is at most k times its distance (with an open end and the same normalization: the normalized distance). So the distance with symmetric2 is at most twice the one with symmetric1 under every window (and this factor is attained), symmetricP05 at most 6 times asymmetricP05, typeIds at most 2 times symmetricP1, and so on for the listed pairs of predefined patterns.", "quantifier": "all local costs, sizes, windows and options; all pairs of patterns in the relation", "why_tests_cant": "an inequality between two optimizations over all inputs", "anchors": ["dtw/dtw.py: dtw", "dtw/stepPattern.py: predefined step patterns", "dtw/dtw_core.c: computeCM"]}
{"id": "C83", "title": "Finding the query in the reference", "statement": "With the step pattern rigid and both ends open, dtw() lays the query over the reference at every position s >= 1 (never on the very first reference sample, see C16) where it fits and all its points are in the window; the cost of a position is the sum of its local costs, added from the left; the returned alignment is the first position with the least normalized cost, its distance is that cost, and the call raises 'All-NaN slice encountered' exactly when no position has a usable cost. With only the begin open the query is compared with the end of the reference alone. If the query occurs in the reference at s (all local costs on that diagonal are zero; s >= 0 with asymmetric, s >= 1 with rigid and mvmStepPattern) and costs are non-negative, the call succeeds, its normalized distance is zero and it ends no later than that occurrence; conversely a zero distance with rigid means that the query occurs where index2 starts. In exact arithmetic a zero normalized distance is a zero distance.", "quantifier": "all local cost matrices, sizes, windows and options; every arithmetic of the model", "why_tests_cant": "the result is compared with every position of every reference, for all costs and sizes", "anchors": ["dtw/dtw.py: dtw", "dtw/stepPattern.py: rigid, asymmetric, mvmStepPattern", "dtw/dtw_core.c: computeCM"]}
{"id": "C84", "title": "How many points an alignment has", "statement": "Every point of a returned alignment is strictly later than the one before it (index1 + index2 grows), for every predefined step pattern, mvmStepPattern(e) and every custom pattern that lists no point of a production twice; so an alignment never repeats a point, has at least as many points as steps and at most N + jmin points (N query samples, jmin the last matched reference index; in particular at most N + M - 1). With a pattern whose productions leave out no query sample (26 of the predefined ones) every query sample is matched, so the alignment has at least N points; with one that leaves out no reference sample (22 of them) every reference sample from the first matched one (0 unless the begin is open) to jmin is matched, so it has at least jmin + 1 - index2[0] points.", "quantifier": "all local cost matrices, sizes, windows, options and step patterns of the stated kinds; every arithmetic of the model", "why_tests_cant": "bounds on the output for all inputs and step patterns", "anchors": ["dtw/_backtrack.py: _backtrack", "dtw/dtw.py: dtw", "dtw/stepPattern.py: predefined step patterns"]}
{"id": "C85", "title": "Printed numbers are the computed ones, rounded", "statement": "The texts made by the package show numbers with p significant digits (four in the output of the command line tool, two in printed step patterns and their plots): the text, read as a decimal number, is exactly the p-digit decimal nearest to the binary64 value, ties to even; so it is within half a unit of the last digit (for the command line: within 1/2000 of distance and normalizedDistance), printed values are never in the wrong order, numbers with at most p digits are printed exactly, only zero is printed as 0, and NaN and infinities are printed as nan, inf, -inf. The digits carry no superfluous zeros and are laid out positionally between 0.0001 and 10^p and otherwise with a signed exponent of at least two digits; two numbers have the same text exactly if they round to the same number (zeros: and have the same sign); weights in printed patterns are padded to two characters. The command line tool's output consists of the normalized distance, the distance and the path of the same call of dtw(). Two step patterns whose printed forms are equal have the same productions and hint, and weights with the same two leading digits.", "quantifier": "all doubles, all precisions p >= 1; all series, step patterns and outputs", "why_tests_cant": "ranges over all 2^64 doubles and all step patterns", "anchors": ["dtw/__main__.py: main2", "dtw/stepPattern.py: StepPattern.__str__", "dtw/stepPattern.py: StepPattern.plot"]}
{"id": "C86", "title": "The order of the rows of a step pattern does not matter", "statement": "Two tables that list the same productions, the rows of each production in the same order and the last row belonging to the same production, but with the rows of different productions interleaved in any order, are interchangeable: dtw() with one returns the same result (distance, alignment, matrices; only the stepPattern attribute differs) or raises the same exception as with the other, the printed form is the same, the transposes are rearrangements of each other, and if the starting rows come in the same order countPaths() gives the same number. (If the last row belongs to another production, the number of productions is misread and the native code writes outside its arrays.)", "quantifier": "all well-formed step patterns and all such rearrangements of their rows; all inputs and options; every arithmetic of the model", "why_tests_cant": "ranges over all step patterns and all interleavings of their rows", "anchors": ["dtw/dtw_core.c: computeCM", "dtw/_backtrack.py: _backtrack", "dtw/stepPattern.py: StepPattern", "dtw/countPaths.py: countPaths"]}
{"id": "C87", "title": "The set of productions determines the distance", "statement": "A step pattern with more productions finds an alignment whenever one with fewer productions does, and its distance (with open end: its normalized distance, for patterns with the same normalization) is not larger, whatever the signs of costs and weights. So two patterns with the same productions, listed and numbered in any order and possibly repeated, give the same distance, normalized distance and end column, and raise the same exception on inputs without an alignment; only the numbers in stepsTaken and the choice among alignments of equal cost depend on the order. Every order of the productions of a pattern is a valid pattern.", "quantifier": "all local cost matrices (also with negative costs), windows, options and pairs of well-formed step patterns; every arithmetic of the model", "why_tests_cant": "ranges over all pairs of step patterns and all inputs", "anchors": ["dtw/dtw_core.c: computeCM", "dtw/dtw.py: dtw", "dtw/stepPattern.py: StepPattern"]}
{"id": "C88", "title": "Distance for summed local costs", "statement": "If every local cost is the sum of two costs (for instance multichannel series compared by summing a cost per channel: \"dependent\" DTW), then each of the two cost matrices has an alignment under the same options, and the distance for the sum is at least the sum of the two distances (\"independent\" DTW); without open end this holds for the distance, and in all cases for normalized distances when the pattern has a normalization. More generally, for local costs p*a + q*b with p, q > 0 the distance is at least p times the distance for a plus q times that for b (the distance is a concave function of the local costs). Missing costs are allowed: the sum is missing where a part is. Signs of costs and weights do not matter. With open end the unnormalized distances need not compare.", "quantifier": "all pairs of cost matrices of numbers and missing values, all well-formed step patterns with finite weights, all windows and options; exact arithmetic", "why_tests_cant": "ranges over all pairs of cost matrices, patterns and windows", "anchors": ["dtw/dtw.py: dtw", "dtw/dtw_core.c: computeCM"]}
