{"id": "C01", "title": "reduce_vals returns the weighted central moments", "statement": "In exact arithmetic, reduce_vals(x, weight=w, mom=n) returns the array [W, mean, c2, ..., cn] with W=sum(w), mean=sum(w*x)/W and c_k=sum(w*(x-mean)**k)/W, whenever no running weight total becomes zero at a nonzero weight; samples of weight zero are ignored; with no nonzero weight the result is all zeros.", "quantifier": "every sample list, every weight list, every order n between 1 and the size of the binomial table", "why_tests_cant": "The update is a streaming recurrence with binomial sums, running products and an in-place descending loop; a test checks a few lengths and orders.", "anchors": ["src/cmomy/_lib/_push.py:push_val", "src/cmomy/_lib/push.py:reduce_vals", "src/cmomy/reduction.py:_reduce_vals"]}
{"id": "C02", "title": "reduce_vals of pairs returns the weighted central comoments", "statement": "In exact arithmetic reduce_vals(x, y, weight=w, mom=(n0,n1)) returns the matrix with W at (0,0), mean of x at (1,0), mean of y at (0,1), and sum(w*(x-mx)**i*(y-my)**j)/W at every other (i,j), under the same guard as the one-variable case.", "quantifier": "every list of weighted pairs, every pair of orders (n0,n1) from (1,1) up", "why_tests_cant": "Two nested descending in-place loops over a matrix; errors for mixed high orders or unequal orders need not show at (2,2) or (3,3).", "anchors": ["src/cmomy/_lib/_push_cov.py:push_val", "src/cmomy/_lib/push_cov.py:reduce_vals"]}
{"id": "C03", "title": "reduce_data merges chunks exactly", "statement": "Reducing a sample list chunk by chunk with reduce_vals and then combining the chunk results with reduce_data gives exactly the result of reducing the whole list at once, for both one-variable and two-variable moments.", "quantifier": "every sample list with nonnegative weights (or any weights for which no partial total vanishes), every partition into chunks, every order", "why_tests_cant": "The number of partitions is unbounded; the merge formula is different code from the per-sample formula.", "anchors": ["src/cmomy/_lib/_push.py:push_data", "src/cmomy/_lib/_push_cov.py:push_data", "src/cmomy/_lib/push.py:reduce_data", "src/cmomy/reduction.py:reduce_data"]}
{"id": "C04", "title": "Reduction does not depend on sample order", "statement": "Permuting the samples (with their weights), or permuting the rows given to reduce_data, does not change the result of reduce_vals / reduce_data.", "quantifier": "every permutation of every list of samples or moment rows with nonnegative weights", "why_tests_cant": "n! orders; the recurrence is order dependent step by step and only the final state is invariant.", "anchors": ["src/cmomy/_lib/push.py:reduce_vals", "src/cmomy/_lib/push.py:reduce_data"]}
{"id": "C05", "title": "Any history of pushes equals one reduction", "statement": "Starting from zeros, any interleaving of push_val, push_vals, push_data, push_datas on an accumulator leaves it in exactly the state given by one reduction over everything pushed so far.", "quantifier": "every finite sequence of push operations with nonnegative weights, every order", "why_tests_cant": "Histories are unbounded sequences of four operations.", "anchors": ["src/cmomy/wrapper/wrap_abc.py:CentralMomentsABC.push_data", "src/cmomy/wrapper/wrap_abc.py:CentralMomentsABC.push_vals", "src/cmomy/_lib/push.py"]}
{"id": "C06", "title": "Addition of accumulators is commutative, associative and has zeros as identity", "statement": "For accumulators a, b, c of the same moment shape with positive weights (or nonnegative, well-formed), a+b=b+a, (a+b)+c=a+(b+c), a+zeros=a and zeros+a=a, entry for entry.", "quantifier": "every pair / triple of moment arrays (not only those obtained from samples), every order, both one and two variable", "why_tests_cant": "Algebraic identities over all states; testing with tolerances on random input cannot show an exact identity.", "anchors": ["src/cmomy/wrapper/wrap_abc.py:CentralMomentsABC.__add__", "src/cmomy/_lib/_push.py:push_data", "src/cmomy/_lib/_push_cov.py:push_data"]}
{"id": "C07", "title": "Subtraction undoes addition", "statement": "(a+b)-b returns a exactly whenever weight(a), weight(a)+weight(b) are nonzero; a-a is not representable: it divides by a zero total weight.", "quantifier": "every pair of moment arrays, every order", "why_tests_cant": "Cancellation through alpha=w/total with negative w, for every order; the failing corner is one point of the input space.", "anchors": ["src/cmomy/wrapper/wrap_abc.py:CentralMomentsABC.__sub__", "src/cmomy/_lib/_push.py:push_data_scale", "src/cmomy/_lib/_push_cov.py:push_data_scale"]}
{"id": "C08", "title": "Zero weight samples have no effect", "statement": "A sample or moment row with weight zero leaves the accumulator unchanged in every entry whatever its value (it may be any number) and never causes an error; removing all zero-weight entries from the input does not change reduce_vals, reduce_data, or grouped reduction.", "quantifier": "every accumulator, every value, every position of zero weights in the input", "why_tests_cant": "Quantifies over all values and positions; the early return must come before every read and write.", "anchors": ["src/cmomy/_lib/_push.py", "src/cmomy/_lib/_push_cov.py", "src/cmomy/rolling.py:_optional_zero_missing_weight"]}
{"id": "C09", "title": "Scaling all weights only scales the total weight", "statement": "Multiplying every weight by the same nonzero factor s multiplies entry 0 of the result by s and changes nothing else; the * operator on an accumulator does the same.", "quantifier": "every sample list, every nonzero factor, every order, one and two variables", "why_tests_cant": "Homogeneity over all factors and inputs.", "anchors": ["src/cmomy/_lib/push.py:reduce_vals", "src/cmomy/wrapper/wrap_abc.py:CentralMomentsABC.__mul__"]}
{"id": "C10", "title": "An integer weight is the same as repeating the sample", "statement": "Pushing a row with scale k (a positive integer) equals pushing it k times; reducing a sample of weight k*w equals reducing k copies of weight w.", "quantifier": "every count k, every row of positive weight, every accumulator of nonnegative weight", "why_tests_cant": "Unbounded k.", "anchors": ["src/cmomy/_lib/_push.py:push_data_scale", "src/cmomy/_lib/resample.py:resample_data_fromzero"]}
{"id": "C11", "title": "vals_to_data followed by reduce_data is reduce_vals", "statement": "Converting samples to moment rows with vals_to_data (weight, value, zeros) and reducing these rows gives the same array as reduce_vals on the samples, including the error cases.", "quantifier": "every sample and weight list, every order, one and two variables", "why_tests_cant": "Connects two different kernels for all inputs.", "anchors": ["src/cmomy/utils.py:vals_to_data", "src/cmomy/_lib/push.py:reduce_data", "src/cmomy/_lib/push.py:reduce_vals"]}
{"id": "C12", "title": "Shift and scale covariance", "statement": "Replacing every x by a*x+b maps mean to a*mean+b and c_k to a**k * c_k and leaves the weight unchanged.", "quantifier": "every sample list, all rationals a and b, all orders", "why_tests_cant": "Two real parameters and all inputs.", "anchors": ["src/cmomy/_lib/push.py:reduce_vals"]}
{"id": "C13", "title": "Lower order results are prefixes of higher order results", "statement": "reduce_vals with order n returns the first n+1 entries of reduce_vals with any order m>=n, and for comoments the top-left block.", "quantifier": "every pair of orders n<=m, every input", "why_tests_cant": "All pairs of orders; special cases order==1 and order==2 in the code are separate branches.", "anchors": ["src/cmomy/_lib/_push.py", "src/cmomy/_lib/_push_cov.py"]}
{"id": "C14", "title": "Comoment marginals and transposition", "statement": "The first column and the first row of the comoment matrix are exactly the one-variable moments of x and of y; swapping x and y (and the orders) transposes the matrix.", "quantifier": "every list of weighted pairs, all orders", "why_tests_cant": "Relates three different kernels for all inputs.", "anchors": ["src/cmomy/_lib/_push_cov.py", "src/cmomy/_lib/_push.py"]}
{"id": "C15", "title": "moments_to_comoments agrees with comoments of (x,x)", "statement": "moments_to_comoments(reduce_vals(x, mom=n), mom=(m0,m1)) with m0+m1<=n equals reduce_vals(x, x, mom=(m0,m1)), and entry (1,1) is the variance.", "quantifier": "every sample list, all orders with m0+m1<=n", "why_tests_cant": "All order pairs; conversion goes through raw moments.", "anchors": ["src/cmomy/convert.py:moments_to_comoments"]}
{"id": "C16", "title": "Raw and central moments convert back and forth", "statement": "moments_type(moments_type(a, to='raw'), to='central') = a and moments_type(moments_type(a, to='central'), to='raw') = a for one-variable arrays.", "quantifier": "every moment array of every length >= 2 (any weight, no positivity needed)", "why_tests_cant": "Binomial inversion for all orders.", "anchors": ["src/cmomy/_lib/convert.py:central_to_raw", "src/cmomy/_lib/convert.py:raw_to_central", "src/cmomy/convert.py:moments_type"]}
{"id": "C17", "title": "Raw and central comoments convert back and forth", "statement": "The same two round trips for two-variable moment matrices.", "quantifier": "every moment matrix of every shape >= (2,2)", "why_tests_cant": "Double binomial inversion for all orders with special handling of three entries.", "anchors": ["src/cmomy/_lib/convert_cov.py:central_to_raw", "src/cmomy/_lib/convert_cov.py:raw_to_central"]}
{"id": "C18", "title": "Raw moments are weighted power means", "statement": "Converting the reduction of samples to raw gives sum(w*x**k)/W in entry k (k>=1) and W in entry 0.", "quantifier": "every sample list and order", "why_tests_cant": "All inputs and orders.", "anchors": ["src/cmomy/_lib/convert.py:central_to_raw", "src/cmomy/convert.py:moments_type", "src/cmomy/wrapper/wrap_abc.py:CentralMomentsABC.rmom"]}
{"id": "C19", "title": "comoments_to_moments inverts moments_to_comoments", "statement": "comoments_to_moments(moments_to_comoments(a, mom=(m0,m1))) returns the first m0+m1+1 entries of a; a negative entry in mom is resolved to the largest order allowed and mom orders that do not fit raise ValueError.", "quantifier": "every moment array, every mom pair including one negative entry", "why_tests_cant": "All order pairs and branch combinations.", "anchors": ["src/cmomy/convert.py:moments_to_comoments", "src/cmomy/convert.py:comoments_to_moments", "src/cmomy/convert.py:_validate_mom_moments_to_comoments"]}
{"id": "C20", "title": "cumulative row i is the reduction of the first i+1 rows", "statement": "cumulative(data)[i] equals reduce_data(data[:i+1]) for every i.", "quantifier": "every nonempty list of rows with nonnegative weights (first row well formed), every i, every order", "why_tests_cant": "All prefixes of all inputs, in-place accumulation where each row reads its predecessor after update.", "anchors": ["src/cmomy/_lib/push.py:cumulative", "src/cmomy/convert.py:cumulative"]}
{"id": "C21", "title": "Inverse cumulative restores the original rows", "statement": "cumulative(cumulative(data), inverse=True) = data whenever every row has positive weight. It is not true when a later row has zero weight or the running total returns to zero.", "quantifier": "every list of rows with positive weights; explicit counterexamples outside", "why_tests_cant": "All inputs; the failing inputs are special.", "anchors": ["src/cmomy/_lib/push.py:cumulative_inverse", "src/cmomy/convert.py:cumulative"]}
{"id": "C22", "title": "Resampled data equals reduction weighted by the frequency table", "statement": "Row r of resample_data(data, freq) equals the reduction of data with row j pushed freq[r,j] times (weight multiplied by freq[r,j]), for every r, provided some selected row has nonzero weight; a frequency row of zeros gives zeros.", "quantifier": "every data list with nonnegative weights, every frequency table with nonnegative entries", "why_tests_cant": "All tables; the code takes the first nonzero frequency through a different path (copy and scale).", "anchors": ["src/cmomy/_lib/resample.py:resample_data_fromzero", "src/cmomy/resample/resample.py:resample_data"]}
{"id": "C23", "title": "Resampling when every selected weight is zero", "statement": "When all rows selected by a frequency row have zero weight, resample_data returns the mean and moments of the first selected row with weight zero, while reduce_data over the same rows returns zeros: the two do not agree.", "quantifier": "existence of an input; plus agreement for all inputs in which a nonzero weight is selected", "why_tests_cant": "Corner case of a for-all law.", "anchors": ["src/cmomy/_lib/resample.py:resample_data_fromzero", "src/cmomy/_lib/indexed.py:reduce_data_indexed_fromzero", "src/cmomy/_lib/push.py:reduce_data"]}
{"id": "C24", "title": "resample_vals equals resampling rows made from values", "statement": "resample_vals(x, weight=w, freq) row r is the weighted central moments of the multiset in which sample j occurs freq[r,j] times.", "quantifier": "every sample list, weight list and frequency table with nonnegative weights", "why_tests_cant": "All tables.", "anchors": ["src/cmomy/_lib/resample.py:resample_vals", "src/cmomy/resample/resample.py:resample_vals"]}
{"id": "C25", "title": "indices and frequency tables describe the same bootstrap", "statement": "Resampling with freq=indices_to_freq(indices) equals reducing the rows picked by indices in the order given, for any indices in range.", "quantifier": "every table of in-range indices (repeats allowed), every data list", "why_tests_cant": "All index tables; order of picks is lost in the table and must not matter.", "anchors": ["src/cmomy/_lib/resample.py:indices_to_freq", "src/cmomy/resample/sampler.py:indices_to_freq", "src/cmomy/_lib/resample.py:resample_data_fromzero"]}
{"id": "C26", "title": "indices_to_freq counts occurrences; freq_to_indices inverts it", "statement": "indices_to_freq(idx, ndat)[r,j] is the number of occurrences of j in row r, each row sums to nsamp; freq_to_indices of a table with constant row sums returns sorted rows whose counts are the table; indices_to_freq(freq_to_indices(f)) = f and freq_to_indices(indices_to_freq(idx)) = sorted idx. freq_to_indices raises ValueError when row sums differ, indices_to_freq raises when an index is >= ndat.", "quantifier": "every index table and every frequency table", "why_tests_cant": "All tables and all sizes.", "anchors": ["src/cmomy/_lib/resample.py:freq_to_indices", "src/cmomy/_lib/resample.py:indices_to_freq", "src/cmomy/resample/sampler.py:freq_to_indices", "src/cmomy/resample/sampler.py:indices_to_freq"]}
{"id": "C27", "title": "Negative indices are silently accepted by indices_to_freq", "statement": "indices_to_freq only tests max(indices) >= ndat: a negative index passes the check and is counted at position ndat+index (wrap around) instead of raising.", "quantifier": "existence of an input accepted by the check; and for all inputs with indices in range the check is exact", "why_tests_cant": "Guard completeness is a statement about all inputs.", "anchors": ["src/cmomy/resample/sampler.py:indices_to_freq", "src/cmomy/_lib/resample.py:indices_to_freq"]}
{"id": "C28", "title": "jackknife_data row i is the reduction of all rows except row i", "statement": "jackknife_data(data)[i] equals reduce_data(data without row i) whenever the remaining weight is nonzero; equal to resample_data with freq=jackknife_freq(ndat); with nothing left (single row, or all the weight in row i) the code divides by zero.", "quantifier": "every list of rows with nonnegative weights, every i, every order", "why_tests_cant": "All inputs; implemented by subtraction from the total rather than by re-reduction.", "anchors": ["src/cmomy/_lib/resample.py:jackknife_data_fromzero", "src/cmomy/resample/resample.py:jackknife_data", "src/cmomy/resample/sampler.py:jackknife_freq"]}
{"id": "C29", "title": "jackknife_vals row i is the moments of all samples except i", "statement": "jackknife_vals(x, weight=w)[i] equals reduce_vals of the samples without sample i whenever the remaining weight is nonzero.", "quantifier": "every sample list with nonnegative weights, every i, every order", "why_tests_cant": "All inputs; subtracts a sample with weight -w.", "anchors": ["src/cmomy/_lib/resample.py:jackknife_vals_fromzero", "src/cmomy/resample/resample.py:jackknife_vals"]}
{"id": "C30", "title": "Grouped reduction reduces each group", "statement": "reduce_data_grouped(data, by) has max(by)+1 rows; row g is reduce_data of the rows with by==g, rows with by<0 are ignored, and a group with no rows gives zeros.", "quantifier": "every list of rows and every list of group codes of the same length", "why_tests_cant": "All assignments of rows to groups.", "anchors": ["src/cmomy/_lib/indexed.py:reduce_data_grouped", "src/cmomy/reduction.py:_reduce_data_grouped"]}
{"id": "C31", "title": "Indexed reduction equals grouped reduction", "statement": "With index, group_start, group_end from factor_by_to_index(by), reduce_data_indexed(data, ...) gives the same rows as reduce_data_grouped with the codes of by, when every group has a nonzero weight; scale multiplies the weight of each selected row.", "quantifier": "every list of rows with nonnegative weights and every list of group labels", "why_tests_cant": "All group label lists; stable sorting and run boundaries must be right for all.", "anchors": ["src/cmomy/_lib/indexed.py:reduce_data_indexed_fromzero", "src/cmomy/reduction.py:factor_by_to_index", "src/cmomy/reduction.py:reduce_data_indexed"]}
{"id": "C32", "title": "factor_by_to_index partitions the non-negative labels", "statement": "factor_by_to_index(by) returns the groups, and index/start/end such that the slices index[start_g:end_g] are consecutive, disjoint, contain exactly the positions with label g (in increasing order when the sort is stable; the default quicksort promises no order), and cover every non-missing position exactly once.", "quantifier": "every label list", "why_tests_cant": "All label lists.", "anchors": ["src/cmomy/reduction.py:factor_by_to_index", "src/cmomy/reduction.py:factor_by"]}
{"id": "C33", "title": "factor_by codes and groups are consistent", "statement": "factor_by(by) returns groups without duplicates (sorted, or in order of first appearance) and codes with groups[codes[i]]=by[i] for labels >= 0 and code -1 for negative or missing labels; every group is used.", "quantifier": "every label list, both sort settings", "why_tests_cant": "All label lists.", "anchors": ["src/cmomy/reduction.py:factor_by"]}
{"id": "C34", "title": "Merging the groups gives the total", "statement": "Reducing the result of a grouped reduction over all groups equals the reduction of all rows that have a group.", "quantifier": "every grouping of every list of rows with nonnegative weights", "why_tests_cant": "All groupings.", "anchors": ["src/cmomy/_lib/indexed.py:reduce_data_grouped", "src/cmomy/_lib/push.py:reduce_data"]}
{"id": "C35", "title": "block_by produces consecutive equal blocks", "statement": "block_by(ndat, block, mode) returns ndat codes; for 0<block<=ndat every block id 0..ndat//block-1 occurs in consecutive positions, each exactly block times (except that the expand modes lengthen the first or last block by ndat%block), drop modes mark exactly ndat%block first or last entries with -1; block>ndat raises; block<=0 gives a single block.", "quantifier": "every ndat, every block size, all four modes", "why_tests_cant": "All pairs of integers.", "anchors": ["src/cmomy/reduction.py:block_by"]}
{"id": "C36", "title": "block_by does not validate mode on the early return", "statement": "An unknown mode raises ValueError exactly when 0 < block < ndat; when block<=0 or block==ndat it is silently accepted.", "quantifier": "every ndat, block and mode string", "why_tests_cant": "Guard completeness over all inputs.", "anchors": ["src/cmomy/reduction.py:block_by"]}
{"id": "C37", "title": "Frequency tables turn into index/start/end/scales that reproduce them", "statement": "The conversion of a nonnegative frequency table to index, group start, group end and scales lists, for each replicate, exactly the positions with positive count and these counts as scales, so that indexed reduction with them equals resampling with the table.", "quantifier": "every nonnegative integer table", "why_tests_cant": "All tables, including zero rows and columns.", "anchors": ["src/cmomy/_lib/utils.py:freq_to_index_start_end_scales", "src/cmomy/reduction.py:resample_data_indexed"]}
{"id": "C38", "title": "An all-zero last replicate is rejected by index validation", "statement": "If the last replicate of a frequency table is all zeros then the derived group start equals the index length and the index validation raises ValueError, although such tables are accepted by resample_data.", "quantifier": "every table whose last row is zero and which is not all zero; witness given", "why_tests_cant": "Relates two components' guards over all inputs.", "anchors": ["src/cmomy/_lib/utils.py:freq_to_index_start_end_scales", "src/cmomy/reduction.py:_validate_index"]}
{"id": "C39", "title": "_validate_index accepts only safe index arrays", "statement": "When validation of index, group_start, group_end (and scale) succeeds, every read done by the indexed kernel is inside the data and inside index.", "quantifier": "every index/start/end/scale array and data length", "why_tests_cant": "Memory safety for all inputs (numba code does no bounds checks).", "anchors": ["src/cmomy/reduction.py:_validate_index", "src/cmomy/_lib/indexed.py:reduce_data_indexed_fromzero"]}
{"id": "C40", "title": "Rolling reduction equals the reduction of each window", "statement": "rolling_data(data, window, min_periods) row i is reduce_data of rows max(0,i-window+1)..i when at least max(min_periods,1) rows in this window have nonzero weight, and missing (NaN) otherwise.", "quantifier": "every list of rows with nonnegative weights, every window >= 1, every min_periods, every position, every order", "why_tests_cant": "Sliding update with removal by negative weights and a reset branch; invariant over an unbounded run.", "anchors": ["src/cmomy/_lib/_rolling.py:rolling_data", "src/cmomy/_lib/rolling.py:rolling_data", "src/cmomy/rolling.py:rolling_data"]}
{"id": "C41", "title": "Rolling of values equals the moments of each window", "statement": "rolling_vals(x, weight, window, min_periods) row i is reduce_vals of the samples in the window under the same rule.", "quantifier": "every weighted sample list with nonnegative weights, every window, every position", "why_tests_cant": "As for rolling_data, separate kernel.", "anchors": ["src/cmomy/_lib/_rolling.py:rolling_vals", "src/cmomy/_lib/_rolling_cov.py:rolling_vals"]}
{"id": "C42", "title": "The rolling reset branch is wrong for negative weights", "statement": "There are inputs with negative weights where the rolling result differs from the window reduction although no total weight is zero.", "quantifier": "existence", "why_tests_cant": "The law holds for all nonnegative weights and fails for some other weights; tests with positive weights do not find it.", "anchors": ["src/cmomy/_lib/_rolling.py:rolling_data"]}
{"id": "C43", "title": "Centered rolling is trailing rolling shifted by (window-1)//2", "statement": "With center=True row i of the result is the trailing window ending at i+(window-1)//2, with positions past the end contributing nothing; the number of rows is unchanged.", "quantifier": "every input length, every window >= 1 (even and odd), every position", "why_tests_cant": "All window/length combinations, including window larger than the data.", "anchors": ["src/cmomy/rolling.py:rolling_data", "src/cmomy/rolling.py:rolling_vals", "src/cmomy/rolling.py:_pad_along_axis"]}
{"id": "C44", "title": "Exponential rolling has exponentially decaying weights", "statement": "rolling_exp_data with adjust=True gives at row i the reduction of rows j<=i with weight multiplied by prod_{j<l<=i}(1-alpha_l); with adjust=False, row i is the reduction with these factors times alpha_j, normalised by the sum of factors after each nonzero row; missing where fewer than min_periods nonzero rows have been seen.", "quantifier": "every list of rows with nonnegative weights, every alpha sequence in (0,1), every position, both adjust settings", "why_tests_cant": "Recurrence over unbounded time with renormalisation.", "anchors": ["src/cmomy/_lib/_rolling.py:rolling_exp_data", "src/cmomy/_lib/_rolling.py:rolling_exp_vals", "src/cmomy/rolling.py:rolling_exp_data"]}
{"id": "C45", "title": "moveaxis_order is the permutation of numpy.moveaxis", "statement": "moveaxis_order(ndim, source, destination) returns a permutation of 0..ndim-1 which puts axis source[k] at position destination[k] for each k and keeps the remaining axes in their original order; invalid or repeated axes raise.", "quantifier": "every ndim, every source and destination tuples (negative axes allowed)", "why_tests_cant": "All permutations of all sizes.", "anchors": ["src/cmomy/core/array_utils.py:moveaxis_order", "src/cmomy/utils.py:moveaxis_order"]}
{"id": "C46", "title": "Axis normalisation", "statement": "normalize_axis_tuple maps each axis a in [-ndim, ndim) to the same axis in [0, ndim), raises on any other and on repeated axes; the complex form ('axis relative to the non moment part') maps negative indices to positions before the moment axes; normalising twice is the same as normalising once; positive_to_negative_index is inverse.", "quantifier": "every axis tuple, every ndim and moment axes", "why_tests_cant": "All tuples.", "anchors": ["src/cmomy/core/array_utils.py:normalize_axis_index", "src/cmomy/core/array_utils.py:normalize_axis_tuple", "src/cmomy/core/moment_params.py:MomParamsArray"]}
{"id": "C47", "title": "Reducing several axes at once equals reducing over the product index set, in any grouping", "statement": "reduce_data over axes (a,b) equals reducing over a and then over b, or b and then a; axis=None reduces over all axes other than the moment axes.", "quantifier": "every array shape and every set of reduction axes", "why_tests_cant": "Shapes and axis tuples are unbounded.", "anchors": ["src/cmomy/reduction.py:_reduce_data"]}
{"id": "C48", "title": "Moment axis position does not matter", "statement": "reduce_data with mom_axes at arbitrary positions gives the same values as moving the moment axes to the end first, with the moment axes at the stated position of the result; keepdims inserts axes of length one; axes_to_end puts the moment axes last.", "quantifier": "every ndim, every moment axes, every set of reduction axes, keepdims and axes_to_end flags", "why_tests_cant": "All axis combinations.", "anchors": ["src/cmomy/reduction.py:_reduce_data", "src/cmomy/core/array_utils.py:optional_keepdims", "src/cmomy/core/moment_params.py:MomParamsArray"]}
{"id": "C49", "title": "Option contexts restore the previous options", "statement": "After leaving a set_options(...) context the options equal those before it was created, whatever properly nested set_options contexts (also ones that fail) happened inside; contexts left in another order than LIFO do not restore.", "quantifier": "every option map, every properly nested sequence of contexts", "why_tests_cant": "Nesting histories are unbounded.", "anchors": ["src/cmomy/options.py:set_options"]}
{"id": "C50", "title": "A rejected set_options call changes nothing", "statement": "set_options(**kw) with any unknown key or any value of the wrong type raises ValueError and leaves every option unchanged, wherever the bad key stands; an accepted call changes exactly the given keys to the given values.", "quantifier": "every option map and every keyword map", "why_tests_cant": "All key orders.", "anchors": ["src/cmomy/options.py:set_options"]}
{"id": "C51", "title": "Shared random generator", "statement": "default_rng() returns one shared generator per process until it is replaced; default_rng(seed) replaces it; a generator passed by the caller is never replaced nor copied, and get_internal_rng fails exactly before the first use.", "quantifier": "every sequence of default_rng / validate_rng / set_internal_rng / get_internal_rng calls", "why_tests_cant": "Histories of calls with hidden global state.", "anchors": ["src/cmomy/random.py"]}
{"id": "C52", "title": "Parallel kernels give the same result for every schedule", "statement": "The loops over replicates / outer positions write disjoint rows and read only inputs, so running iterations in any order or interleaving gives the sequential result.", "quantifier": "every schedule (interleaving) of the iterations", "why_tests_cant": "Schedules cannot be enumerated.", "anchors": ["src/cmomy/_lib/resample_parallel.py", "src/cmomy/_lib/push_parallel.py", "src/cmomy/_lib/resample.py:freq_to_indices", "src/cmomy/_lib/resample.py:indices_to_freq"]}
{"id": "C53", "title": "Parallel selection", "statement": "parallel is only used when the threading layer supports it; the explicit flag wins over the size heuristic; the first answer of the thread check is remembered for the process lifetime even if later calls come from another thread.", "quantifier": "every call history from main and worker threads", "why_tests_cant": "Histories; the cache makes the answer depend on the first caller.", "anchors": ["src/cmomy/factory.py:_safe_threadpool", "src/cmomy/factory.py:supports_parallel", "src/cmomy/factory.py:parallel_heuristic"]}
{"id": "C54", "title": "dtype selection precedence", "statement": "select_dtype returns the out array's dtype when out is given, else the given dtype, else the input dtype, and raises for anything other than float32/float64.", "quantifier": "every combination of out, dtype, input dtype", "why_tests_cant": "Total function over all combinations including invalid.", "anchors": ["src/cmomy/core/array_utils.py:select_dtype"]}
{"id": "C55", "title": "assign_moment and select_moment are a lens", "statement": "select(assign(a, name, v), name) = v, assign(a, name, select(a, name)) = a, assigning twice keeps the last, assignment of one name changes no entry outside the entries of this name, and names with disjoint entries commute; copy=True leaves the input unchanged; unknown names raise.", "quantifier": "every array, every moment name, every value", "why_tests_cant": "Laws over all arrays and name pairs.", "anchors": ["src/cmomy/utils.py:select_moment", "src/cmomy/utils.py:assign_moment", "src/cmomy/utils.py:moment_indexer"]}
{"id": "C56", "title": "assign_moment applies overlapping names in the order given", "statement": "When names overlap (for example all and weight) the later name in the keyword order wins and swapping them changes the result.", "quantifier": "every array; witness for the order dependence", "why_tests_cant": "Order dependence for all inputs.", "anchors": ["src/cmomy/utils.py:assign_moment"]}
{"id": "C57", "title": "cmom, rmom and mean/var/std accessors agree with the data", "statement": "cmom() has 1 at entry 0, 0 at the mean and the central moments elsewhere; rmom() has 1 at entry 0 and the raw moments elsewhere; multiplying cmom/rmom by nothing else changes the object (no mutation).", "quantifier": "every accumulator and order", "why_tests_cant": "All states.", "anchors": ["src/cmomy/wrapper/wrap_abc.py:CentralMomentsABC.cmom", "src/cmomy/wrapper/wrap_abc.py:CentralMomentsABC.rmom", "src/cmomy/wrapper/wrap_abc.py:CentralMomentsABC.to_raw"]}
{"id": "C58", "title": "Operators do not mutate, in-place operators and pushes do", "statement": "a+b, a-b, a*s leave the arrays of a and b unchanged, even when they share memory; a+=b, a-=b, push_* change exactly the array of a; objects sharing the array of a (created with copy=False) observe the change.", "quantifier": "every heap and every sequence of operations over aliased objects", "why_tests_cant": "Aliasing histories are unbounded.", "anchors": ["src/cmomy/wrapper/wrap_abc.py:CentralMomentsABC.__add__", "src/cmomy/wrapper/wrap_abc.py:CentralMomentsABC.__iadd__", "src/cmomy/wrapper/wrap_np.py:CentralMomentsArray.new_like"]}
{"id": "C59", "title": "Indexing keeps moment axes only if moment shape alone is a sufficient check", "statement": "CentralMomentsArray.__getitem__ accepts an indexing result when its trailing shape equals the moment shape; for some arrays the moment axis is removed and another axis takes its place without an error.", "quantifier": "existence; and for all basic indexings touching only non-moment axes the result is the expected sub-array", "why_tests_cant": "A guard which is not complete; needs axes with coinciding lengths.", "anchors": ["src/cmomy/wrapper/wrap_np.py:CentralMomentsArray.__getitem__"]}
{"id": "C60", "title": "to_array and concat of labelled objects assume moment dimensions last", "statement": "CentralMomentsData.to_array and concat rebuild the object from the last axes; if the moment dimensions are not last a different axis silently becomes the moment axis.", "quantifier": "existence of a witness; correctness for all objects whose moment dimensions are last", "why_tests_cant": "All dimension orders.", "anchors": ["src/cmomy/wrapper/wrap_xr.py:CentralMomentsData.to_array", "src/cmomy/convert.py:concat"]}
{"id": "C61", "title": "Moment parameter factory and explicit axes", "statement": "Building moment parameters from an existing parameter object ignores axes given explicitly at the same time.", "quantifier": "existence of a witness; and for all calls without a parameter object explicit axes are used", "why_tests_cant": "Combination of optional arguments.", "anchors": ["src/cmomy/core/moment_params.py:MomParamsArray.factory", "src/cmomy/core/moment_params.py:MomParamsXArray.factory"]}
{"id": "C62", "title": "Bootstrap confidence interval: percentile and basic", "statement": "The percentile interval contains two order statistics' interpolations in nondecreasing order for alpha<=1/2 levels, lies within [min,max] of the bootstrap distribution, and the basic interval is the reflection 2*theta-(high,low) of the percentile interval.", "quantifier": "every nonempty bootstrap sample, every alpha in (0,1), every theta", "why_tests_cant": "All samples and levels.", "anchors": ["src/cmomy/confidence_interval.py:_bootstrap_confidence_interval", "src/cmomy/confidence_interval.py:_quantile_along_axis"]}
{"id": "C63", "title": "Sampler factory: precedence, sizes and forwarding of options", "statement": "factory_sampler builds the sampler from freq, else indices, else random draws with the given nrep and nsamp; the option replace/shuffle is not forwarded on some paths.", "quantifier": "every combination of arguments", "why_tests_cant": "Combinations of optional arguments.", "anchors": ["src/cmomy/resample/sampler.py:factory_sampler", "src/cmomy/resample/sampler.py:IndexSampler.from_data"]}
{"id": "C64", "title": "Moment argument validation", "statement": "validate_mom accepts exactly a positive integer or a tuple of one or two positive integers (normalised to a tuple); validate_mom_ndim accepts exactly 1 and 2; mom and mom_shape are inverse (shape = mom+1).", "quantifier": "every integer tuple", "why_tests_cant": "All tuples.", "anchors": ["src/cmomy/core/validate.py"]}
{"id": "C65", "title": "Binomial table", "statement": "Entry (n,k) of the precomputed table is the binomial coefficient C(n,k), zero for k>n; all kernels read only entries within the moment order, so they are correct for order <= nmax and read outside the table for order > nmax.", "quantifier": "every nmax, n, k", "why_tests_cant": "All sizes; out of bounds reads are unchecked in compiled code.", "anchors": ["src/cmomy/_lib/_binomial.py", "src/cmomy/_lib/_push.py", "src/cmomy/_lib/convert.py"]}
{"id": "C66", "title": "Variance is nonnegative and the covariance obeys Cauchy-Schwarz", "statement": "For nonnegative weights with positive total, every even central moment is >= 0 and cov**2 <= var_x*var_y; the mean lies between the minimum and maximum of samples with positive weight.", "quantifier": "every sample list with nonnegative weights", "why_tests_cant": "Inequalities over all inputs.", "anchors": ["src/cmomy/_lib/_push.py", "src/cmomy/_lib/_push_cov.py"]}
{"id": "C67", "title": "Combined mean and variance (law of total variance)", "statement": "reduce_data of rows gives mean = sum(w_i m_i)/W and variance = sum(w_i v_i)/W + sum(w_i (m_i - mean)**2)/W; every higher moment is the binomially shifted weighted average.", "quantifier": "every list of rows with nonnegative weights, every order", "why_tests_cant": "Closed form over all inputs.", "anchors": ["src/cmomy/_lib/push.py:reduce_data"]}
{"id": "C68", "title": "A frequency table of ones is a plain reduction", "statement": "resample_data with all-ones frequency equals reduce_data; a permuted index row gives the same.", "quantifier": "every list of rows, every permutation", "why_tests_cant": "All inputs.", "anchors": ["src/cmomy/_lib/resample.py:resample_data_fromzero"]}
{"id": "C69", "title": "Variance bias correction of exponential rolling", "statement": "rolling_exp_var_bias_correction returns at row i the factor V1^2/(V1^2-V2) with V1=sum(w*a) and V2=sum(w*a^2), a the exponentially decayed (adjust=True) or normalised (adjust=False) coefficients, and missing exactly where V1^2-V2 is not positive.", "quantifier": "every weight and alpha sequence, every position", "why_tests_cant": "Recurrences for sum of weights and of squared weights over unbounded time.", "anchors": ["src/cmomy/_lib/rolling.py:rolling_exp_var_bias_correction"]}
{"id": "C70", "title": "A negative frequency leaves uninitialised index entries", "statement": "The conversion of a table with negative counts allocates one entry per nonzero count but writes only the positive ones, so index and scales end with one unwritten element per negative count: their value is whatever the memory held. No error is raised by the conversion.", "quantifier": "every integer table; witness given", "why_tests_cant": "Uninitialised memory often happens to hold harmless values.", "anchors": ["src/cmomy/_lib/utils.py:freq_to_index_start_end_scales"]}
{"id": "C71", "title": "An accumulator added to itself in place", "statement": "x += x (data and out are the same memory) doubles every weight and keeps all other moments; x -= x raises ZeroDivisionError as soon as one weight is nonzero.", "quantifier": "every array of one- and two-variable accumulators of every order, every history of operations before", "why_tests_cant": "The kernel reads data while it writes out; correctness depends on the order of its stores for every order.", "anchors": ["src/cmomy/_lib/_push.py:push_data", "src/cmomy/_lib/_push_cov.py:push_data", "src/cmomy/wrapper/wrap_abc.py:CentralMomentsABC.__iadd__"]}
{"id": "C72", "title": "In-place combination of overlapping views", "statement": "x += y gives the position by position combination of the old values whenever no row of y overlaps a different row of x; for views that overlap shifted by one row (x[1:] += x[:-1]) later rows are combined with already updated rows.", "quantifier": "every memory layout of the two arrays; witness for the overlapping case", "why_tests_cant": "All aliasing patterns of two arrays.", "anchors": ["src/cmomy/wrapper/wrap_np.py:CentralMomentsArray.push_data", "src/cmomy/_lib/_push.py:push_data"]}
{"id": "C73", "title": "State after a push that raised", "statement": "If a push raises ZeroDivisionError at outer position k, the positions before k are combined, the position k has weight zero and its other moments unchanged, the positions after k are untouched; the operation is not all-or-nothing.", "quantifier": "every array, every failing position", "why_tests_cant": "State after an exception at an arbitrary position of a compiled loop.", "anchors": ["src/cmomy/_lib/_push.py:push_data", "src/cmomy/wrapper/wrap_np.py:CentralMomentsArray.push_data"]}
{"id": "C74", "title": "Memory is shared only along views", "statement": "Two objects share memory only if they come from the same array by new_like(copy=False), slices or assign_moment(copy=False); in-place operations on one owner never change the value of objects of another owner, however long the program.", "quantifier": "every program over any number of objects", "why_tests_cant": "All histories of aliasing.", "anchors": ["src/cmomy/wrapper/wrap_np.py:CentralMomentsArray.new_like", "src/cmomy/wrapper/wrap_abc.py:CentralMomentsABC.assign_moment"]}
{"id": "C75", "title": "BCa interval: finite bounds lie in the range of the bootstrap values", "statement": "With method bca the result either is nan for every level, or every bound is a number between the smallest and the largest bootstrap value. If theta_hat lies outside the bootstrap values every bound is nan.", "quantifier": "every bootstrap sample, estimate, jackknife sample and list of levels; every distribution function with values in [0,1]", "why_tests_cant": "Infinite and nan intermediate values arise for special combinations of bias and acceleration.", "anchors": ["src/cmomy/confidence_interval.py:_bootstrap_confidence_interval", "src/cmomy/confidence_interval.py:_quantile_along_axis", "src/cmomy/confidence_interval.py:_compute_z0"]}
{"id": "C76", "title": "BCa interval: equivariance", "statement": "Shifting and scaling (by a positive factor) bootstrap values, estimate and jackknife values shifts and scales the interval; negating them and complementing the levels negates the interval; without bias and acceleration the interval is the percentile interval. Equal jackknife values give acceleration nan.", "quantifier": "every sample, factor and shift", "why_tests_cant": "All affine transformations of all samples.", "anchors": ["src/cmomy/confidence_interval.py:_compute_a", "src/cmomy/confidence_interval.py:_compute_z0", "src/cmomy/core/prob.py:ndtri"]}
{"id": "C77", "title": "Inverse normal distribution: symmetry and undefined range", "statement": "ndtri(1-p) = -ndtri(p) and ndtri(1/2) = 0 for the rational approximations used; outside [0,1] the result is uninitialised memory, hence the BCa interval accepts levels outside [0,1] and returns values made from it, while percentile and basic raise ValueError.", "quantifier": "every p; every content of memory", "why_tests_cant": "Uninitialised memory; symmetry of three branches with floating constants.", "anchors": ["src/cmomy/core/prob.py:ndtri", "src/cmomy/confidence_interval.py:_bootstrap_confidence_interval"]}
{"id": "C78", "title": "Method names of confidence intervals", "statement": "Any method name other than basic and bca (case ignored) gives the percentile interval without an error. For labelled data the case is not ignored when arguments are selected: an upper case name raises where the array function succeeds. A missing estimate or jackknife sample that the method needs is a ValueError for arrays and a TypeError for labelled data.", "quantifier": "every method string", "why_tests_cant": "All strings.", "anchors": ["src/cmomy/confidence_interval.py:bootstrap_confidence_interval", "src/cmomy/confidence_interval.py:_bootstrap_confidence_interval"]}
{"id": "C79", "title": "Order of levels in the basic interval", "statement": "The basic interval returns 2*theta - quantile of the reversed list of levels. Entry i belongs to level i, i.e. equals 2*theta - quantile(1-alpha_i), if the levels are symmetric around one half; for other levels it does not. A two-sided level alpha > 1 gives a lower bound above the upper bound.", "quantifier": "every list of levels; witnesses", "why_tests_cant": "All lists of levels.", "anchors": ["src/cmomy/confidence_interval.py:_bootstrap_confidence_interval"]}
{"id": "C80", "title": "Selecting one axis or dimension of labelled data", "statement": "select_axis_dim returns (a, d) exactly when d is the name of axis a, the axis or name given denotes it and it is not a moment dimension (unless allowed); giving both, neither, or None is an error. A complex axis counts the value dimensions when the moment dimensions are last; when they are not last it denotes another dimension.", "quantifier": "every list of distinct dimension names, every parameter object, every axis or name", "why_tests_cant": "All dimension orders and all ways of giving an axis.", "anchors": ["src/cmomy/core/moment_params.py:MomParamsXArray.select_axis_dim", "src/cmomy/core/validate.py:validate_axis"]}
{"id": "C81", "title": "Selecting several dimensions of labelled data", "statement": "select_axis_dim_mult returns exactly the named dimensions with their axes. dim=None selects all dimensions that are not moment dimensions; axis=None does the same if the moment dimensions are last; otherwise it may raise. Repeated names are accepted.", "quantifier": "every list of distinct dimension names, every list of names or axes", "why_tests_cant": "All combinations of names and axes.", "anchors": ["src/cmomy/core/moment_params.py:MomParamsXArray.select_axis_dim_mult"]}
{"id": "C82", "title": "Labelled and positional moment parameters agree on shapes", "statement": "For labelled data the moment shape, orders and value shape obtained from names equal those obtained from the positional parameters made from names and data. Positional parameters made without data agree when the moment dimensions are last; otherwise they may denote other axes.", "quantifier": "every list of distinct names, every shape", "why_tests_cant": "All dimension orders.", "anchors": ["src/cmomy/core/moment_params.py:MomParamsXArray.to_array", "src/cmomy/core/moment_params.py:MomParamsArray.get_mom_shape", "src/cmomy/core/moment_params.py:MomParamsXArray.get_val_shape"]}
{"id": "C83", "title": "Random index and frequency tables", "statement": "random_indices gives nrep rows of nsamp (default ndat) entries in range(ndat); random_freq gives nrep rows of length ndat with sum nsamp. replace=False forbids repeated entries in the whole table, not per replicate: with the default nsamp it succeeds only for at most one replicate.", "quantifier": "every nrep, ndat, nsamp, replace and every generator satisfying numpy's contract of choice", "why_tests_cant": "All sizes and all random streams.", "anchors": ["src/cmomy/resample/sampler.py:random_indices", "src/cmomy/resample/sampler.py:random_freq"]}
{"id": "C84", "title": "Attributes of IndexSampler do not depend on the order of access", "statement": "freq, indices, ndat and nrep of a sampler are computed on first access and cached; whatever is read in whatever order and how often, the values are those of a fresh sampler. With shuffle, indices are drawn once and then stay; reading freq, ndat, nrep uses no random numbers. If the sampler was made from one table, freq and indices always describe the same replicates; if made from both nothing is compared.", "quantifier": "every sampler, every program reading attributes, every random stream", "why_tests_cant": "All orders of access to lazily computed attributes.", "anchors": ["src/cmomy/resample/sampler.py:IndexSampler.freq", "src/cmomy/resample/sampler.py:IndexSampler.indices", "src/cmomy/resample/sampler.py:IndexSampler.ndat", "src/cmomy/resample/sampler.py:IndexSampler.nrep"]}
{"id": "C85", "title": "Seeded samplers are reproducible; unpaired Datasets draw once per variable", "statement": "A sampler made with an integer seed does not depend on anything drawn before. Arrays, DataArrays and paired Datasets of the same size get the same table. With paired=False every variable having the dimensions gets the next draw of the same generator, in order.", "quantifier": "every state of the random generators, every list of variables", "why_tests_cant": "All histories of random number use.", "anchors": ["src/cmomy/resample/sampler.py:IndexSampler.from_data", "src/cmomy/resample/sampler.py:_randsamp_indices_dataarray_or_dataset", "src/cmomy/random.py:validate_rng"]}
{"id": "C86", "title": "select_ndat for arrays and labelled data", "statement": "select_ndat returns the length of the axis named, provided it is not a moment axis. Labelled data give the same result as the array behind them, by axis or by name; repeated moment axes are refused for arrays only.", "quantifier": "every shape, axis, number and position of moment axes", "why_tests_cant": "All shapes and ways of giving axes.", "anchors": ["src/cmomy/resample/sampler.py:select_ndat"]}
{"id": "C87", "title": "Construction moves the moment axes to the end and keeps every moment", "statement": "CentralMomentsArray(obj, mom_axes=...) holds obj with the named axes moved to the end in the given order, the others in their order; it raises ValueError unless there are one or two distinct axes of length at least two. CentralMomentsData keeps the labelled array as it is and needs the named dimensions to be there with length at least two.", "quantifier": "every array, every choice of axes or dimensions", "why_tests_cant": "All shapes and axis positions.", "anchors": ["src/cmomy/wrapper/wrap_np.py:CentralMomentsArray.__init__", "src/cmomy/wrapper/wrap_xr.py:CentralMomentsData.__init__"]}
{"id": "C88", "title": "reshape and moveaxis keep moment arrays whole", "statement": "reshape rearranges the moment arrays in C order of the value axes without touching the moments, also with one inferred length; it raises ValueError when the sizes do not fit. moveaxis permutes value axes only. new_like and pipe accept an array exactly when its trailing shape is the moment shape (and, with verify, the whole shape).", "quantifier": "every object, shape and permutation", "why_tests_cant": "All shapes.", "anchors": ["src/cmomy/wrapper/wrap_np.py:CentralMomentsArray.reshape", "src/cmomy/wrapper/wrap_abc.py:CentralMomentsABC.moveaxis", "src/cmomy/wrapper/wrap_np.py:CentralMomentsArray.new_like", "src/cmomy/wrapper/wrap_abc.py:CentralMomentsABC.pipe"]}
{"id": "C89", "title": "CentralMomentsArray.resample takes whole moment arrays, except with its default axis", "statement": "resample(indices, axis) along a value axis gives the moment arrays at the given positions (ValueError or IndexError otherwise). The default axis=-1 is the last moment axis: for moment arrays the default call picks moments instead of samples, or raises.", "quantifier": "every object, axis and index array", "why_tests_cant": "Which axis is meant depends on the shape; with indices within the moment axis there is no error.", "anchors": ["src/cmomy/wrapper/wrap_np.py:CentralMomentsArray.resample"]}
{"id": "C90", "title": "concat joins moment arrays; reducing before or after is the same", "statement": "concat along a value axis puts the moment arrays of the objects one after another; reducing each object and merging the results gives the reduction of the concatenation. A moment axis is not refused: then rows of moments are joined. Objects without value axes are joined along their moments by default.", "quantifier": "every list of objects of fitting shapes", "why_tests_cant": "All shapes and numbers of objects.", "anchors": ["src/cmomy/convert.py:concat"]}
{"id": "C91", "title": "Dimension order of labelled objects is immaterial", "statement": "transpose puts the moment dimensions last whatever is asked for and keeps every entry by name; pipe with reordering likewise. Indexing by position that leaves the moment dimensions alone gives the moment arrays at these positions; dropping or shortening a moment dimension is a ValueError. Iteration runs over the first dimension, ValueError if that is a moment dimension. Renaming other dimensions keeps entries; renaming a moment dimension leaves the stored name behind.", "quantifier": "every labelled array, every order of dimensions, every key", "why_tests_cant": "All dimension orders.", "anchors": ["src/cmomy/wrapper/wrap_xr.py:CentralMomentsData.transpose", "src/cmomy/wrapper/wrap_xr.py:CentralMomentsData.__getitem__", "src/cmomy/wrapper/wrap_xr.py:CentralMomentsData.iter", "src/cmomy/wrapper/wrap_xr.py:CentralMomentsData.rename", "src/cmomy/wrapper/wrap_abc.py:CentralMomentsABC.pipe"]}
{"id": "C92", "title": "Functions along one axis of an array act column by column", "statement": "cumulative, resample_data, reduce_data_grouped, reduce_data_indexed, jackknife_data, rolling_data and rolling_exp_data of an array with any number of axes, the moment axes anywhere and the axis given from the front, from the end or as a multiple of 1j, give at every position of the remaining axes what the one-column function gives for the moments along that axis there. The result has the axis replaced by its new length, in place, or behind the other axes in front of the moments with axes_to_end; nothing else changes, and the call raises exactly when some column does.", "quantifier": "every number of axes, shape, axis, position of the moment axes, axes_to_end", "why_tests_cant": "All shapes and positions of axes.", "anchors": ["src/cmomy/convert.py:_cumulative", "src/cmomy/resample/resample.py:_resample_data", "src/cmomy/reduction.py:_reduce_data_grouped", "src/cmomy/reduction.py:_reduce_data_indexed", "src/cmomy/resample/resample.py:_jackknife_data", "src/cmomy/rolling.py:_rolling_data", "src/cmomy/rolling.py:_rolling_exp_data", "src/cmomy/core/prepare.py:prepare_data_for_reduction"]}
{"id": "C93", "title": "Entries of arrays of moments with nonnegative weights", "statement": "For arrays of moments with nonnegative weights these calls succeed, and each entry is the entry of one combination of moments: of the rows up to the index (cumulative), of the rows with the label (grouped), of the rows with weights times their frequency (resample), of all other rows (jackknife), of the rows in the window (rolling; nan or weight zero when too few of them have weight), of the rows with decayed weights (rolling_exp). cumulative followed by its inverse gives the array back when the weights are positive.", "quantifier": "every array of moments with nonnegative weights", "why_tests_cant": "All shapes and weights.", "anchors": ["src/cmomy/convert.py:cumulative", "src/cmomy/resample/resample.py:resample_data", "src/cmomy/reduction.py:reduce_data_grouped", "src/cmomy/resample/resample.py:jackknife_data", "src/cmomy/rolling.py:rolling_data", "src/cmomy/rolling.py:rolling_exp_data"]}
{"id": "C94", "title": "Arrays that accompany the data are broadcast like numpy does", "statement": "Shapes are combined from the last axis, lengths 1 are stretched, and a ValueError is raised exactly when two lengths differ and neither is 1. data_reduced of jackknife_data and alpha of rolling_exp_data line up with the last of the remaining axes of the data; a number or one-axis alpha is used for every column. Lengths that do not match the axis are a ValueError.", "quantifier": "every list of shapes, every data_reduced and alpha that lines up with the data", "why_tests_cant": "All combinations of shapes.", "anchors": ["src/cmomy/resample/resample.py:_jackknife_data", "src/cmomy/rolling.py:_prepare_alpha_array", "src/cmomy/rolling.py:_rolling_exp_data"]}
{"id": "C95", "title": "A moment axis is never taken for a data axis", "statement": "When the axis does not exist, is one of the moment axes, or the moment axes do not exist or repeat, all functions along one axis of an array raise ValueError.", "quantifier": "every array and every combination of axis and mom_axes without a reading as distinct axes", "why_tests_cant": "All wrong arguments.", "anchors": ["src/cmomy/core/prepare.py:prepare_data_for_reduction", "src/cmomy/core/array_utils.py:normalize_axis_index"]}
{"id": "C96", "title": "The inverse normal distribution is strictly increasing", "statement": "ndtri(p) on [0, 1] is the published rational approximation (Acklam) with break point 0.02425; a larger probability gives a strictly larger value, from -inf at 0 to +inf at 1, also across the two break points where the pieces do not meet exactly.", "quantifier": "every pair of probabilities in [0, 1]; sqrt(-2 log p) any decreasing function with its value at the break point bounded below by 2.727393869", "why_tests_cant": "All pairs of probabilities: pieces of degree five and two gaps; a wrong digit shows at few places only.", "anchors": ["src/cmomy/core/prob.py:ndtri"]}
{"id": "C97", "title": "BCa end points come in the order of the levels", "statement": "The acceleration of jackknife values is at most 1/6 in absolute value. Hence, as long as the bias-corrected scores stay within (-6, 6), the BCa interval has finite entries and a larger level gives an entry that is not smaller.", "quantifier": "all bootstrap and jackknife samples and levels; ndtr any monotone function", "why_tests_cant": "All samples; an interval with swapped end points would need an extreme sample.", "anchors": ["src/cmomy/confidence_interval.py:_bootstrap_confidence_interval", "src/cmomy/confidence_interval.py:_compute_a"]}
{"id": "C98", "title": "cmom and to_raw give new objects", "statement": "cmom() gives an object with its own memory holding weight 1, zeros for the first moments and every other entry unchanged; to_raw(weight) gives an object with its own memory holding the converted entries, the weight replaced if one is given. The original keeps its value.", "quantifier": "every program and every object", "why_tests_cant": "All programs before the call.", "anchors": ["src/cmomy/wrapper/wrap_abc.py:CentralMomentsABC.cmom", "src/cmomy/wrapper/wrap_abc.py:CentralMomentsABC.to_raw", "src/cmomy/wrapper/wrap_abc.py:CentralMomentsABC.rmom"]}
{"id": "C99", "title": "Threads used by a parallel kernel", "statement": "A kernel runs on several threads if and only if the parallel version is selected for the call and the thread that first obtained a parallel function of the same kernel module was a safe one.  Factories sharing a module (factory_pusher, factory_reduce_vals, factory_reduce_data and factory_cumulative share push) share this answer, for the life of the process.", "quantifier": "every history of public calls, heuristic calls, direct factory calls and changes of the option, from safe and unsafe threads", "why_tests_cant": "The target is fixed when a module is first imported; which thread that was depends on the whole history.", "anchors": ["src/cmomy/_lib/decorators.py:_get_target", "src/cmomy/factory.py:factory_pusher", "src/cmomy/factory.py:factory_cumulative"]}
{"id": "C100", "title": "Functions of arrays of values act position by position", "statement": "reduce_vals, resample_vals, jackknife_vals, rolling_vals and rolling_exp_vals take x, weight and y (and alpha) of any shapes that fit: numbers, one value per sample, or arrays with the samples at the same axis counted from the end, further axes broadcast like numpy does. The result has the broadcast shape of the arrays with more than one axis, the sample axis removed (reduce_vals) or replaced by samples or replicates (in place, or last before the moments with axes_to_end) and the moments behind. At every position it holds what the one-column function gives for the samples read there, and the call raises exactly when some position does.", "quantifier": "every number of axes, axis, axes_to_end and combination of shapes of x, weight, y, alpha", "why_tests_cant": "All combinations of shapes.", "anchors": ["src/cmomy/reduction.py:_reduce_vals", "src/cmomy/resample/resample.py:_resample_vals", "src/cmomy/resample/resample.py:_jackknife_vals", "src/cmomy/rolling.py:_rolling_vals", "src/cmomy/rolling.py:_rolling_exp_vals", "src/cmomy/core/prepare.py:prepare_values_for_reduction", "src/cmomy/core/prepare.py:prepare_out_from_values"]}
{"id": "C101", "title": "Entries computed from arrays of values with nonnegative weights", "statement": "With nonnegative weights reduce_vals succeeds and holds the total weight, the weighted means and the weighted central (co)moments of the samples of each position, zeros where all weights are zero. resample_vals holds the moments of the samples with weights times their frequency, jackknife_vals those of all other samples, rolling_vals those of the samples in the window (nan, or weight zero, when too few have weight), rolling_exp_vals those of the samples with decayed weights.", "quantifier": "all arrays of values with nonnegative weights", "why_tests_cant": "All shapes, values and weights.", "anchors": ["src/cmomy/reduction.py:reduce_vals", "src/cmomy/resample/resample.py:resample_vals", "src/cmomy/resample/resample.py:jackknife_vals", "src/cmomy/rolling.py:rolling_vals", "src/cmomy/rolling.py:rolling_exp_vals"]}
{"id": "C102", "title": "Arrays of values that do not fit are refused, except a wide alpha", "statement": "A wrong number of arrays, an axis x does not have, an array without that axis or with another number of samples is a ValueError or IndexError in all functions of values; shapes without a common shape are a ValueError. An alpha of rolling_exp_vals with axes the values do not have is not refused: the result silently is that of the last row of alpha.", "quantifier": "all arguments that do not fit", "why_tests_cant": "All wrong combinations of shapes.", "anchors": ["src/cmomy/core/prepare.py:prepare_values_for_reduction", "src/cmomy/core/prepare.py:prepare_secondary_value_for_reduction", "src/cmomy/core/prepare.py:prepare_out_from_values", "src/cmomy/rolling.py:_rolling_exp_vals"]}
{"id": "C103", "title": "Functions of labelled arrays act by name", "statement": "For a DataArray with moment dimensions mom_dims anywhere, cumulative, rolling_data, reduce_data_grouped and reduce_data_indexed over a dimension chosen by dim= or axis= give an array with the same dimension names (the chosen one kept, or renamed to group_dim), the chosen dimension in its place or, with axes_to_end, last before the moments. At every setting of the other names it holds the one-column result for the rows read at that setting, and the call raises exactly when some setting does, when the names collide or when dim names a moment dimension or no dimension.", "quantifier": "all labelled arrays, orders of dimensions, choices of axis or dim", "why_tests_cant": "All orders and numbers of named dimensions.", "anchors": ["src/cmomy/convert.py:cumulative", "src/cmomy/rolling.py:rolling_data", "src/cmomy/reduction.py:reduce_data_grouped", "src/cmomy/reduction.py:reduce_data_indexed", "src/cmomy/core/xr_utils.py:select_axis_dim"]}
{"id": "C104", "title": "reduce_data of a labelled array combines by name", "statement": "reduce_data of a DataArray over one or more dimensions (by name, by axis, or all of them) holds at every setting of the remaining names the moments of all rows read at that setting, in any order; keepdims keeps the names with size one.", "quantifier": "all labelled arrays and sets of dimensions", "why_tests_cant": "All sets and orders of names.", "anchors": ["src/cmomy/reduction.py:reduce_data"]}
{"id": "C105", "title": "Labelled second arguments are matched by name", "statement": "resample_data with a labelled table of counts reads it by the names rep_dim and dim whatever its order, with a plain table by position. jackknife_data with given total moments reads them by name if labelled, and by position from the end if plain (moment axes moved behind with mom_axes_reduced); without them it computes the totals of every position. rolling_exp_data reads alpha as a number, as one value per sample, by position from the end, or by name. Sizes that differ, names the data do not have and an alpha without the sample dimension are a ValueError.", "quantifier": "all labelled arrays, tables, total moments and decays", "why_tests_cant": "All combinations of labelled and plain arguments.", "anchors": ["src/cmomy/resample/resample.py:resample_data", "src/cmomy/resample/resample.py:jackknife_data", "src/cmomy/rolling.py:rolling_exp_data"]}
{"id": "C106", "title": "The order of the dimensions of a labelled array does not matter", "statement": "For two DataArrays with the same entries by name but their dimensions in different orders, cumulative, reduce_data, reduce_data_grouped, reduce_data_indexed, resample_data, jackknife_data, rolling_data and rolling_exp_data over the same dimension give results with the same entries by name, or both raise, provided the dimensions involved are not empty.", "quantifier": "all pairs of labelled arrays that differ by a transposition", "why_tests_cant": "All permutations of all arrays.", "anchors": ["src/cmomy/reduction.py:reduce_data", "src/cmomy/convert.py:cumulative", "src/cmomy/rolling.py:rolling_data", "src/cmomy/resample/resample.py:resample_data"]}
{"id": "C107", "title": "Labelled arrays and plain arrays give the same numbers", "statement": "cumulative, rolling_data, jackknife_data, reduce_data_grouped and reduce_data_indexed of a DataArray hold the same entries in the same order as the same function of its numpy array with axis and mom_axes at the positions of dim and mom_dims, or both raise (the dimension not empty).", "quantifier": "all labelled arrays, moments anywhere", "why_tests_cant": "All shapes and axes.", "anchors": ["src/cmomy/convert.py:cumulative", "src/cmomy/rolling.py:rolling_data", "src/cmomy/resample/resample.py:jackknife_data", "src/cmomy/reduction.py:reduce_data_grouped", "src/cmomy/reduction.py:reduce_data_indexed"]}
{"id": "C108", "title": "Functions of labelled arrays of values act by name", "statement": "reduce_vals, resample_vals, jackknife_vals, rolling_vals and rolling_exp_vals of a DataArray x with weight and y (and alpha) that are DataArrays having the dimension, numbers, or plain arrays lined up from the end, give an array over all names of the labelled arguments and the moments. At every setting of the other names it holds the one-column result for the samples read at that setting, and the call raises exactly when some setting does. Names x does not have come first, the dimension keeps its place or is renamed to rep_dim, the moments are last; reduce_vals and axes_to_end list the names in order of first appearance. A labelled array that lacks names of the others is repeated along them.", "quantifier": "all labelled and plain arguments, names, choices of axis or dim", "why_tests_cant": "All combinations of named dimensions of all arguments.", "anchors": ["src/cmomy/reduction.py:reduce_vals", "src/cmomy/resample/resample.py:resample_vals", "src/cmomy/resample/resample.py:jackknife_vals", "src/cmomy/rolling.py:rolling_vals", "src/cmomy/rolling.py:rolling_exp_vals", "src/cmomy/core/prepare.py:xprepare_values_for_reduction"]}
{"id": "C109", "title": "The order of the dimensions of labelled values does not matter", "statement": "If x, weight, y and alpha are replaced by DataArrays with the same entries by name but their dimensions in other orders, reduce_vals, resample_vals, jackknife_vals, rolling_vals and rolling_exp_vals over the same dimension give results with the same entries by name, or both raise, provided the dimension is not empty.", "quantifier": "all tuples of labelled arguments and their transpositions", "why_tests_cant": "All permutations of all arguments.", "anchors": ["src/cmomy/reduction.py:reduce_vals", "src/cmomy/resample/resample.py:resample_vals", "src/cmomy/rolling.py:rolling_vals"]}
{"id": "C110", "title": "Labelled values that do not fit are refused", "statement": "A wrong number of arrays, a labelled argument without the dimension, two labelled arguments that disagree in the size of a name, a moment dimension that is the name of a data dimension, a plain argument with another number of samples or without the sample axis, and for resample_vals a rep_dim that is the name of another dimension are a ValueError or IndexError in all functions of labelled values; an axis or dimension that x does not have is a ValueError. No array is returned.", "quantifier": "all arguments that do not fit", "why_tests_cant": "All wrong combinations of names and shapes.", "anchors": ["src/cmomy/core/prepare.py:xprepare_values_for_reduction", "src/cmomy/reduction.py:reduce_vals", "src/cmomy/resample/resample.py:resample_vals", "src/cmomy/resample/resample.py:jackknife_vals", "src/cmomy/rolling.py:rolling_vals", "src/cmomy/rolling.py:rolling_exp_vals"]}
{"id": "C111", "title": "One push call acts position by position", "statement": "push_data (with or without scale), push_datas, push_val and push_vals on a CentralMomentsArray of value shape s: when the arguments fit, i.e. their moment and sample axes have the right lengths and the rest broadcasts together with s, the object afterwards has the same shape, and the moment array at each position is the result of pushing onto it, one after the other, the moment arrays or samples whose position in the loop is broadcast onto it. The call raises ZeroDivisionError exactly when that happens at some position.", "quantifier": "all objects, call arguments, shapes that broadcast, one or two variables", "why_tests_cant": "Shapes and ranks are unbounded.", "anchors": ["src/cmomy/wrapper/wrap_np.py:CentralMomentsArray.push_data", "src/cmomy/wrapper/wrap_np.py:CentralMomentsArray.push_datas", "src/cmomy/wrapper/wrap_np.py:CentralMomentsArray.push_val", "src/cmomy/wrapper/wrap_np.py:CentralMomentsArray.push_vals"]}
{"id": "C112", "title": "An object holds the moments of everything pushed onto it", "statement": "After any sequence of push calls that fit, each position of a CentralMomentsArray is what the operations that fell on it give in order. If the object started as CentralMomentsArray.zeros and all weights were nonnegative, each position holds the moments of all samples that fell on it, however they were spread over calls, single values, arrays of values and arrays of moments of parts of them.", "quantifier": "all histories of push calls", "why_tests_cant": "Histories are unbounded and calls differ in shape.", "anchors": ["src/cmomy/wrapper/wrap_np.py:CentralMomentsArray.zeros", "src/cmomy/wrapper/wrap_np.py:CentralMomentsArray.push_vals", "src/cmomy/wrapper/wrap_np.py:CentralMomentsArray.push_datas"]}
{"id": "C113", "title": "push_vals onto zeros is reduce_vals", "statement": "CentralMomentsArray.zeros of the value shape without the sample axis, followed by push_vals(x, *y, weight=w, axis=a), holds exactly the array reduce_vals(x, *y, weight=w, axis=a) returns, or both raise ZeroDivisionError.", "quantifier": "all values, weights, axes, shapes that fit", "why_tests_cant": "All shapes.", "anchors": ["src/cmomy/wrapper/wrap_np.py:CentralMomentsArray.push_vals", "src/cmomy/reduction.py:reduce_vals"]}
{"id": "C114", "title": "Push calls that do not fit are refused", "statement": "A call of push_data, push_datas, push_val or push_vals whose arguments do not fit the object (wrong moment shape, wrong number of samples, no such axis, an axis that is a moment axis, a wrong number of arrays, shapes that do not broadcast with the object, or, if the object's array may not be stretched, to more than its shape) raises ValueError, TypeError or IndexError; no object is returned. push_datas with its default axis and mom_axes always raises ValueError, because the last axis is a moment axis.", "quantifier": "all arguments that do not fit", "why_tests_cant": "All wrong combinations of shapes and axes.", "anchors": ["src/cmomy/wrapper/wrap_np.py:CentralMomentsArray.push_data", "src/cmomy/wrapper/wrap_np.py:CentralMomentsArray.push_datas", "src/cmomy/wrapper/wrap_np.py:CentralMomentsArray.push_val", "src/cmomy/wrapper/wrap_np.py:CentralMomentsArray.push_vals"]}
{"id": "C115", "title": "Sums of objects", "statement": "c + o acts at each position, o stretched to the value shape of c; for objects of one shape + is commutative and associative (weights that do not cancel, no leftovers in weightless entries), (c + o) - o is c where c has weight, and zeros is neutral. For objects of different value shapes c + o and o + c differ: one has the larger shape, the other raises ValueError or keeps the smaller shape.", "quantifier": "all objects, positions", "why_tests_cant": "All shapes and contents.", "anchors": ["src/cmomy/wrapper/wrap_abc.py:CentralMomentsABC.__add__", "src/cmomy/wrapper/wrap_abc.py:CentralMomentsABC.__sub__", "src/cmomy/wrapper/wrap_np.py:CentralMomentsArray.zeros"]}
{"id": "C116", "title": "Multiples of objects", "statement": "k * c multiplies the weight at every position and nothing else, c + c is 2 * c, c - o is c + (-1) * o, k * c + k * o is k * (c + o) for nonzero k, (c * k) * k' is c * (k k'), c * 1 is c; + and - of objects with other moment shapes raise ValueError.", "quantifier": "all objects, numbers", "why_tests_cant": "All shapes and contents.", "anchors": ["src/cmomy/wrapper/wrap_abc.py:CentralMomentsABC.__mul__", "src/cmomy/wrapper/wrap_abc.py:CentralMomentsABC.__add__", "src/cmomy/wrapper/wrap_abc.py:CentralMomentsABC.__sub__", "src/cmomy/wrapper/wrap_abc.py:CentralMomentsABC._check_other"]}
{"id": "C117", "title": "reduce of an object over value axes", "statement": "CentralMomentsArray.reduce over one, several or all value axes gives an object whose moment array at each position is the reduction of the moment arrays along these axes; its value shape lacks them or, with keepdims, has length 1 there. It raises only ZeroDivisionError, and none if no weight is negative. axes_to_end has no effect without groups. Without an axis the call is a TypeError.", "quantifier": "all objects, axes, flags", "why_tests_cant": "All shapes and sets of axes.", "anchors": ["src/cmomy/wrapper/wrap_np.py:CentralMomentsArray.reduce", "src/cmomy/reduction.py:reduce_data"]}
{"id": "C118", "title": "reduce of an object by groups and blocks", "statement": "CentralMomentsArray.reduce with by= holds at index g along the axis the reduction of the moment arrays with label g; block and keepdims have no effect then. With block=b (0 < b <= length) it holds at index g the reduction of moment arrays b*g to b*g+b-1 and drops the remainder; b <= 0 or b equal to the length gives one group; b larger than the length is a ValueError; axis=None is a TypeError. axes_to_end moves the axis behind the other value axes.", "quantifier": "all objects, labels, block lengths, axes", "why_tests_cant": "All shapes and labels.", "anchors": ["src/cmomy/wrapper/wrap_np.py:CentralMomentsArray.reduce", "src/cmomy/wrapper/wrap_abc.py:CentralMomentsABC._block_by", "src/cmomy/reduction.py:block_by"]}
{"id": "C119", "title": "Resampling, jackknife and running totals of an object", "statement": "resample_and_reduce, jackknife_and_reduce and cumulative of a CentralMomentsArray along a value axis hold at each position the reweighted, leave-one-out and prefix reductions of the moment arrays along it, the new axis in place or, with axes_to_end, behind the other value axes. An axis that is no value axis is a ValueError; in particular resample_and_reduce and jackknife_and_reduce without axis always raise, since their default -1 is a moment axis.", "quantifier": "all objects, tables, axes", "why_tests_cant": "All shapes.", "anchors": ["src/cmomy/wrapper/wrap_abc.py:CentralMomentsABC.resample_and_reduce", "src/cmomy/wrapper/wrap_abc.py:CentralMomentsABC.jackknife_and_reduce", "src/cmomy/wrapper/wrap_abc.py:CentralMomentsABC.cumulative"]}
{"id": "C120", "title": "Conversion of moments of arrays", "statement": "moments_type of an array with moment axes anywhere holds at each position of the other axes the raw moments of its central moments, or the reverse, by the binomial sums; weight and averages are kept. With axes_to_end the moments come last. Raw then central (or the reverse) gives the array back. Any value of to other than 'central' acts as 'raw'. order= with axes_to_end raises ValueError whenever the move changes the shape. Moment axes that do not exist or repeat are a ValueError.", "quantifier": "all arrays, positions of the moment axes, orders within the table of binomials", "why_tests_cant": "All shapes, axes and contents; memory outside the table is read for larger orders.", "anchors": ["src/cmomy/convert.py:moments_type", "src/cmomy/_lib/convert.py:central_to_raw", "src/cmomy/_lib/convert_cov.py:central_to_raw"]}
{"id": "C121", "title": "Comoments of arrays", "statement": "moments_to_comoments puts moment i + j of the array at entry (i, j), moments last, at each position; a negative order stands for what remains; orders that do not fit raise ValueError. comoments_to_moments takes for order k the entry (i, j) with i + j = k and the smallest i. One after the other gives the moments up to the sum of the orders. Of an array with a moment axis of length 0 comoments_to_moments returns uninitialised memory.", "quantifier": "all arrays, axes, orders", "why_tests_cant": "All shapes and orders.", "anchors": ["src/cmomy/convert.py:moments_to_comoments", "src/cmomy/convert.py:comoments_to_moments"]}
{"id": "C122", "title": "Selection of moments by name", "statement": "select_moment returns, at each position of the axes that are not moment axes, the moments the name stands for, with the documented shape for squeeze; a moment the array does not hold is an IndexError, a name that is unknown for the number of variables a ValueError.", "quantifier": "all arrays, names, positions of the moment axes", "why_tests_cant": "All shapes and axes.", "anchors": ["src/cmomy/utils.py:select_moment", "src/cmomy/utils.py:moment_indexer"]}
{"id": "C123", "title": "Assignment of moments by name", "statement": "assign_moment writes the value, broadcast over the positions, to the moments the name stands for and changes nothing else; shape and place of the moment axes stay. Several names are assigned one after the other, in order. What was assigned is selected by the same name; assigning what was selected changes nothing. A value that does not broadcast is a ValueError, a missing moment an IndexError, an unknown name a ValueError.", "quantifier": "all arrays, names, values, positions of the moment axes", "why_tests_cant": "All shapes and axes.", "anchors": ["src/cmomy/utils.py:assign_moment", "src/cmomy/utils.py:moment_indexer"]}
{"id": "C124", "title": "Arrays of values as arrays of moments", "statement": "vals_to_data broadcasts the values and weights against each other and holds at each position the weight, the values as averages and zeros. Pushing the result with push_data is push_val of the values; reducing it along the sample axis with reduce_data is reduce_vals. Values that do not broadcast or a wrong number of them are a ValueError. mom_params with axes other than the last ones does not work: the same call raises ValueError or writes to other places.", "quantifier": "all arrays of values and weights, orders, axes", "why_tests_cant": "All shapes.", "anchors": ["src/cmomy/utils.py:vals_to_data", "src/cmomy/utils.py:_vals_to_data", "src/cmomy/reduction.py:reduce_vals", "src/cmomy/wrapper/wrap_np.py:CentralMomentsArray.push_val"]}
{"id": "C125", "title": "Arrays of rolling windows", "statement": "construct_rolling_window_array puts in place j of the window at position i the entry i - (window - 1) + j of the data, or i - window // 2 + j with center, and fill_value where there is none; with stride it keeps every stride-th position, from the last one on if stride is negative. Several dimensions are windowed at once, each with its own window, center and stride; the window dimensions come first, in the order asked for. Lists of the wrong length, windows that are not positive, stride 0, an empty dimension and a repeated window name are a ValueError. Arrays without names behave the same by axis. mom_params of an array is not looked at.", "quantifier": "all arrays, labelled or not, dimensions, windows, strides, centers, fill values", "why_tests_cant": "All shapes and combinations of arguments.", "anchors": ["src/cmomy/rolling.py:construct_rolling_window_array"]}
{"id": "C126", "title": "Rolling is the reduction of the windows", "statement": "reduce_data over the first axis of construct_rolling_window_array(x, window, axis, center, fill_value=0) is rolling_data(x, window, axis, center) at every position whose window holds at least min_periods rows with a weight, for every min_periods; elsewhere rolling_data holds nan.", "quantifier": "all arrays with nonnegative weights, moment axes anywhere, windows, min_periods, center", "why_tests_cant": "All lengths, windows and contents.", "anchors": ["src/cmomy/rolling.py:construct_rolling_window_array", "src/cmomy/rolling.py:rolling_data", "src/cmomy/reduction.py:reduce_data"]}
{"id": "C127", "title": "Statistics read from an object", "statement": "For every object of class CentralMomentsArray, weight, mean, var, cov and select_moment give at each position the entry of that name, an IndexError if the array does not reach it and a ValueError for an unknown name; assign_moment gives an object with only the named entries changed; cmom, to_raw and rmom are the central moments (1, 0, ...), the raw moments with the weight, or a given weight, in front, and the raw moments with 1 in front, at every position; c * k assigns the weight times k.", "quantifier": "all objects, orders, shapes, positions, names, values", "why_tests_cant": "All contents and shapes; the conversion formula has to hold at each entry.", "anchors": ["src/cmomy/wrapper/wrap_abc.py:CentralMomentsABC.select_moment", "src/cmomy/wrapper/wrap_abc.py:CentralMomentsABC.assign_moment", "src/cmomy/wrapper/wrap_abc.py:CentralMomentsABC.cmom", "src/cmomy/wrapper/wrap_abc.py:CentralMomentsABC.to_raw", "src/cmomy/wrapper/wrap_abc.py:CentralMomentsABC.rmom"]}
{"id": "C128", "title": "wrap and wrap_raw", "statement": "wrap is the constructor. wrap_raw turns raw moments into central ones at every position: wrap_raw(c.to_raw()) is c, wrap_raw(raw).to_raw() is raw, and a weight given to to_raw becomes the weight of the object. With moment axes that are not last the object keeps them in place where wrap moves them to the end, and adding it to itself no longer doubles its weights.", "quantifier": "all arrays, orders, axes", "why_tests_cant": "All contents; the object with axes in place looks right until it is pushed to.", "anchors": ["src/cmomy/wrapper/constructors.py:wrap", "src/cmomy/wrapper/constructors.py:wrap_raw", "src/cmomy/wrapper/wrap_abc.py:CentralMomentsABC.to_raw"]}
{"id": "C129", "title": "Statistics of samples", "statement": "If the moment arrays of an object are those of samples, then at every position with a weight: weight is the sum of weights, mean the weighted mean, var the weighted variance, cov the weighted covariance (the variance for one variable), cmom the weighted central moments about the mean from 1, 0 on, rmom the weighted mean powers of the values, to_raw the same with the weight in front.", "quantifier": "all objects, lists of weighted samples and pairs, orders", "why_tests_cant": "Algebraic identities over all sample lists.", "anchors": ["src/cmomy/wrapper/wrap_abc.py:CentralMomentsABC.mean", "src/cmomy/wrapper/wrap_abc.py:CentralMomentsABC.var", "src/cmomy/wrapper/wrap_abc.py:CentralMomentsABC.cov", "src/cmomy/wrapper/wrap_abc.py:CentralMomentsABC.rmom", "src/cmomy/wrapper/wrap_abc.py:CentralMomentsABC.cmom"]}
{"id": "C130", "title": "Objects made from values", "statement": "wrap_reduce_vals(x, *y, mom, axis, weight) is the object obtained by pushing the values onto zeros of the remaining shape, and holds at each position the moments of the samples there. wrap_resample_vals holds at each position and replicate the moments of the samples with their weights multiplied by the counts of the replicate; the replicates take the place of the sample axis, or come after the other axes with axes_to_end. Orders that are not one or two positive integers are refused.", "quantifier": "all arrays of values and weights, orders, axes, tables of counts", "why_tests_cant": "All shapes and sample lists.", "anchors": ["src/cmomy/wrapper/constructors.py:wrap_reduce_vals", "src/cmomy/wrapper/constructors.py:wrap_resample_vals", "src/cmomy/wrapper/wrap_np.py:CentralMomentsArray.push_vals"]}
{"id": "C131", "title": "zeros_like, fill and comoments of an object", "statement": "zeros_like(c), c.zero() and zeros of the shape and orders of c are the same object. c.moments_to_comoments(mom) has at (i, j) the entry i + j of c; of the moments of values it gives the comoments of each value with itself. Objects of two variables and orders that do not fit are a ValueError.", "quantifier": "all objects, orders", "why_tests_cant": "All contents and orders.", "anchors": ["src/cmomy/wrapper/constructors.py:zeros_like", "src/cmomy/wrapper/wrap_np.py:CentralMomentsArray.fill", "src/cmomy/wrapper/wrap_np.py:CentralMomentsArray.zero", "src/cmomy/wrapper/wrap_abc.py:CentralMomentsABC.moments_to_comoments"]}
{"id": "C132", "title": "to_dataarray", "statement": "to_dataarray names the value axes by dims (dim_0, dim_1, ... by default) and the moment axes by mom_dims (mom_0, ...); names for all axes may be given at once, the last ones then name the moments. The default names are distinct. Entries stay where they are, and to_array gives the object back. Another number of names is a ValueError. With template= the names are those of the template, an array of another shape is a ValueError; to_array followed by to_dataarray with the object as template is the identity if the moment dimensions are last.", "quantifier": "all objects, names, templates", "why_tests_cant": "All shapes and lists of names.", "anchors": ["src/cmomy/wrapper/wrap_np.py:CentralMomentsArray.to_dataarray", "src/cmomy/wrapper/wrap_xr.py:CentralMomentsData.to_array"]}
{"id": "C133", "title": "Pushing onto a labelled object", "statement": "push_data, push_datas, push_val and push_vals of CentralMomentsData read labelled arguments by the names of their dimensions, in whatever order those are, and plain arguments from the last value dimension: at every position of the value dimensions the object gets what the operation on single moment arrays gives there. Missing value dimensions are repeated. The result has the dimensions of the object with the moments last and the same sizes. It fails only where some position fails (total weight 0), and then with ZeroDivisionError.", "quantifier": "all objects, orders of dimensions, calls whose arguments fit", "why_tests_cant": "All shapes, names and orders; tests try a few.", "anchors": ["src/cmomy/wrapper/wrap_xr.py:CentralMomentsData.push_data", "src/cmomy/wrapper/wrap_xr.py:CentralMomentsData.push_datas", "src/cmomy/wrapper/wrap_xr.py:CentralMomentsData.push_val", "src/cmomy/wrapper/wrap_xr.py:CentralMomentsData.push_vals"]}
{"id": "C134", "title": "Histories of labelled pushes", "statement": "Any sequence of pushes onto a labelled object does at every position what the same sequence of operations does to the moment array there; dimensions, sizes and moment dimensions stay those of the object.", "quantifier": "all objects and finite sequences of fitting calls", "why_tests_cant": "Induction over the sequence.", "anchors": ["src/cmomy/wrapper/wrap_xr.py:CentralMomentsData.push_data", "src/cmomy/wrapper/wrap_xr.py:CentralMomentsData.push_datas", "src/cmomy/wrapper/wrap_xr.py:CentralMomentsData.push_val", "src/cmomy/wrapper/wrap_xr.py:CentralMomentsData.push_vals"]}
{"id": "C135", "title": "A labelled object holds all samples pushed", "statement": "An object made by zeros with any names, filled by any mix of pushes of single values, arrays of values, moments and arrays of moments of samples, holds at every position exactly the moments of all samples pushed there; no call fails when weights are nonnegative.", "quantifier": "all shapes, names, calls, nonnegative weights", "why_tests_cant": "Unbounded number of calls and samples.", "anchors": ["src/cmomy/wrapper/wrap_xr.py:CentralMomentsData.zeros", "src/cmomy/wrapper/wrap_xr.py:CentralMomentsData.push_vals", "src/cmomy/wrapper/wrap_xr.py:CentralMomentsData.push_datas"]}
{"id": "C136", "title": "Labelled arguments that do not fit are refused", "statement": "A push or sum is never carried out when a labelled argument lacks a dimension it must have, has a moment dimension it must not have, disagrees with the object about the size of a common dimension, or has a dimension of length other than 1 that the object lacks; nor when the dimension of the samples is one of the object.", "quantifier": "all objects, calls, arguments of these kinds", "why_tests_cant": "All sizes and names; a silent broadcast would change what the numbers mean.", "anchors": ["src/cmomy/wrapper/wrap_xr.py:CentralMomentsData.push_data", "src/cmomy/wrapper/wrap_xr.py:CentralMomentsData.push_datas", "src/cmomy/wrapper/wrap_xr.py:CentralMomentsData.push_val", "src/cmomy/wrapper/wrap_xr.py:CentralMomentsData.push_vals", "src/cmomy/wrapper/wrap_xr.py:CentralMomentsData.__add__"]}
{"id": "C137", "title": "Sums of labelled objects", "statement": "a + b and a - b of labelled objects act position by position, aligned by name; b may lack value dimensions of a. Sums of objects with the same dimensions in any order commute up to the order of the dimensions (clean moments), and (a + b) - b gives a back where the weights allow. Another moment shape is a ValueError.", "quantifier": "all pairs of objects", "why_tests_cant": "All shapes, names, orders of dimensions and contents.", "anchors": ["src/cmomy/wrapper/wrap_xr.py:CentralMomentsData.__add__", "src/cmomy/wrapper/wrap_xr.py:CentralMomentsData.__sub__"]}
{"id": "C138", "title": "reduce of a labelled object", "statement": "reduce(dim=...) or reduce(axis=...) of CentralMomentsData gives an object without those dimensions (or of length 1 with keepdims) whose moments at every position are those of all moment arrays along the dimensions; it fails with ZeroDivisionError exactly if a reduction fails there.", "quantifier": "all objects, sets of value dimensions given by name or number", "why_tests_cant": "All shapes, names and orders.", "anchors": ["src/cmomy/wrapper/wrap_xr.py:CentralMomentsData.reduce"]}
{"id": "C139", "title": "reduce of a labelled object by labels", "statement": "reduce(by=labels) gives one row for each label: with coords_policy='group' row k holds the moments with label k, for k up to the largest label; with 'first' or 'last' the rows are the labels that occur and are not negative, in order. Each row is the reduction of the moment arrays with that label. So the number of rows depends on coords_policy, and for the default is not that of CentralMomentsArray.reduce if a label is missing (refuted).", "quantifier": "all objects, integer labels of the right number, nonnegative weights", "why_tests_cant": "All labelings, and any sort used by argsort.", "anchors": ["src/cmomy/wrapper/wrap_xr.py:CentralMomentsData.reduce", "src/cmomy/reduction.py:reduce_data_indexed"]}
{"id": "C140", "title": "reduce of a labelled object by blocks", "statement": "reduce(block=n) gives one row for each n consecutive moment arrays along the dimension, what is left over is dropped; for every coords_policy.", "quantifier": "all objects, block sizes, nonnegative weights", "why_tests_cant": "All lengths and block sizes.", "anchors": ["src/cmomy/wrapper/wrap_xr.py:CentralMomentsData.reduce", "src/cmomy/reduction.py:block_by"]}
{"id": "C141", "title": "Resampling, jackknife and cumulation of a labelled object", "statement": "resample_and_reduce gives a row for each replicate, the reduction of the moment arrays with weights multiplied by the counts; jackknife_and_reduce a row for each moment array left out; cumulative a row for each prefix. The new dimension takes the place of the old one, or is put before the moments with axes_to_end.", "quantifier": "all objects, tables of counts, names, nonnegative weights", "why_tests_cant": "All shapes, names, tables.", "anchors": ["src/cmomy/wrapper/wrap_xr.py:CentralMomentsData.resample_and_reduce", "src/cmomy/wrapper/wrap_xr.py:CentralMomentsData.jackknife_and_reduce", "src/cmomy/wrapper/wrap_xr.py:CentralMomentsData.cumulative"]}
{"id": "C142", "title": "Central and raw moments of labelled arrays", "statement": "moments_type of a DataArray converts at every position of the other dimensions, wherever the moment dimensions are; the dimensions keep their order, or the moments come last with axes_to_end. Converting there and back gives the array. A missing moment dimension is a ValueError.", "quantifier": "all DataArrays with one or two moment dimensions, both directions", "why_tests_cant": "All shapes, names, orders of dimensions and contents.", "anchors": ["src/cmomy/convert.py:moments_type"]}
{"id": "C143", "title": "Moments and comoments of labelled arrays", "statement": "moments_to_comoments replaces the moment dimension by two new ones, last, with entry (i, j) the moment of order i + j; comoments_to_moments goes back; doing both gives the moments of the orders kept. New names may repeat the old one. A name of a dimension that stays, wrong orders, or a missing dimension raise. A name is also refused, without being in use, when '_tmp_' + the old name is (witness).", "quantifier": "all DataArrays, orders and names", "why_tests_cant": "All shapes, names, orders.", "anchors": ["src/cmomy/convert.py:moments_to_comoments", "src/cmomy/convert.py:comoments_to_moments"]}
{"id": "C144", "title": "Selecting moments of labelled arrays", "statement": "select_moment of a DataArray gives the named moments at every position of the other dimensions: without the moment dimensions, with dim_combined for averages and variances of two variables, with the other moment dimension for xmom/ymom. Orders that do not exist are an IndexError; unknown names, wrong numbers of coordinates, a dim_combined in use are ValueErrors.", "quantifier": "all DataArrays, names of moments, dim_combined", "why_tests_cant": "All shapes, names, orders of dimensions.", "anchors": ["src/cmomy/utils.py:select_moment"]}
{"id": "C145", "title": "Assigning moments of labelled arrays", "statement": "assign_moment of a DataArray sets the named moments, one name after the other, from numbers, arrays, or DataArrays aligned by name, and leaves all others; assigning what was selected, with the same dim_combined, changes no entry. Values that do not fit, unknown names and missing orders raise.", "quantifier": "all DataArrays, lists of names and values", "why_tests_cant": "All lists, shapes, names and contents.", "anchors": ["src/cmomy/utils.py:assign_moment"]}
{"id": "C146", "title": "Assigning averages of two variables by name", "statement": "REFUTED in three ways: without dim_combined= a DataArray given for 'ave' that has only the value dimensions is lined up by position, its last dimension counting as that of the variables; assigning what select_moment gave, both with the defaults, raises; assigning what is there already reorders the dimensions.", "quantifier": "there is a DataArray and a value", "why_tests_cant": "Needs sizes that happen to agree.", "anchors": ["src/cmomy/utils.py:assign_moment", "src/cmomy/utils.py:select_moment"]}
{"id": "C147", "title": "Moments of single labelled samples", "statement": "vals_to_data of DataArrays gives, at every position of the dimensions met in x, weight and y, the moments of one sample: weight, values, zeros; the moment dimensions come last. Another number of values than moments, a moment dimension in use, or a dimension with two sizes raise.", "quantifier": "all orders, names, labelled or plain operands that line up", "why_tests_cant": "All combinations of operands and names.", "anchors": ["src/cmomy/utils.py:vals_to_data"]}
{"id": "C148", "title": "Statistics of labelled objects", "statement": "weight, mean, var, cov of CentralMomentsData are the moments of those orders at every position; cmom has weight 1 and averages 0; to_raw and rmom are the raw moments (with the given weight, or 1); wrap_raw(c.to_raw()) is c and wrap_raw(raw).to_raw() is raw. mean and var of two variables raise for an object with a value dimension called 'variable' (witness).", "quantifier": "all labelled objects", "why_tests_cant": "All shapes, names, orders of dimensions and contents.", "anchors": ["src/cmomy/wrapper/wrap_abc.py:mean", "src/cmomy/wrapper/wrap_abc.py:cmom", "src/cmomy/wrapper/wrap_abc.py:to_raw", "src/cmomy/wrapper/constructors.py:wrap_raw"]}
{"id": "C149", "title": "Results written to out=", "statement": "For DataArrays of moments, with out= an array of the shape of the result, cumulative, resample_data, reduce_data (along dimensions), reduce_data_grouped, reduce_data_indexed, jackknife_data, rolling_data (center=False), rolling_exp_data and moments_type leave in it exactly the entries of the result without out=, each at its place, for axes_to_end True or False; an array of another shape is a ValueError. Only reduce_data_grouped takes the number of groups from out: further groups are filled with zeros, and too few are an AssertionError.", "quantifier": "all DataArrays, places of the dimensions, arguments whose further arrays have no other dimensions", "why_tests_cant": "All shapes and orders of dimensions; a view with its axes in a wrong order is not seen when sizes agree.", "anchors": ["src/cmomy/core/prepare.py:xprepare_out_for_resample_data", "src/cmomy/core/prepare.py:xprepare_out_for_reduce_data", "src/cmomy/core/prepare.py:xprepare_out_for_transform"]}
{"id": "C150", "title": "Results of values written to out=", "statement": "The same for DataArrays of values: reduce_vals, resample_vals, jackknife_vals, rolling_vals (center=False) and rolling_exp_vals fill an array of the shape of the result with the result, and refuse others. All but jackknife_vals take the order of the moments from the sizes of out, not from mom=.", "quantifier": "all DataArrays of values, weights and further variables without other dimensions", "why_tests_cant": "All shapes and orders of dimensions.", "anchors": ["src/cmomy/core/prepare.py:xprepare_out_for_resample_vals", "src/cmomy/reduction.py:reduce_vals"]}
{"id": "C151", "title": "Any out= of the right shape is filled", "statement": "REFUTED in three ways: with axis=() or dim=() reduce_data returns the data and does not touch out; rolling_data with center=True refuses an array of the shape of the result (the array has to have the length of the padded data); rolling_exp_data with an alpha that has a further dimension writes the entries at wrong places when the sizes agree.", "quantifier": "there are data and arguments", "why_tests_cant": "Needs sizes that happen to agree, or an option never combined with out=.", "anchors": ["src/cmomy/core/prepare.py:xprepare_out_for_resample_data", "src/cmomy/rolling.py:_rolling_data", "src/cmomy/reduction.py:_reduce_data"]}
{"id": "C152", "title": "Functions of a Dataset act on each variable by itself", "statement": "cumulative, rolling_data, rolling_exp_data, resample_data, reduce_data (over one dimension), reduce_data_grouped, reduce_data_indexed and jackknife_data of a Dataset return a Dataset with the same names in the same order. A variable with the dimension and all moment dimensions holds what the function returns for this DataArray alone (with its own part of a Dataset given as frequencies, decay factors or reduced moments, or with the whole array given); any other variable keeps its entries, its dimensions in the order the function uses for results, renamed like those of results. If there is no result, one of the variables raises the error. reduce_data raises ValueError if a dimension is in no variable.", "quantifier": "all Datasets (any number of variables, any dimensions), all moment arrays, all options", "why_tests_cant": "All combinations of variables with and without the dimensions; a test uses one Dataset whose variables are alike.", "anchors": ["src/cmomy/convert.py:cumulative", "src/cmomy/rolling.py:rolling_data", "src/cmomy/rolling.py:rolling_exp_data", "src/cmomy/resample/resample.py:resample_data", "src/cmomy/resample/resample.py:jackknife_data", "src/cmomy/reduction.py:reduce_data", "src/cmomy/reduction.py:reduce_data_grouped", "src/cmomy/reduction.py:reduce_data_indexed", "src/cmomy/core/xr_utils.py:transpose_like"]}
{"id": "C153", "title": "Functions of a Dataset of values act on each variable by itself", "statement": "The same for reduce_vals, rolling_vals, rolling_exp_vals, resample_vals and jackknife_vals of a Dataset of values: a variable is processed if it, its weights and the further values given for it all have the dimension (plain arrays with at most one axis count as having it), and holds what the function returns for the DataArray; the others keep their entries.", "quantifier": "all Datasets, weights and further values (numbers, plain arrays with one axis, DataArrays, Datasets with the same names)", "why_tests_cant": "All mixtures of arguments and variables.", "anchors": ["src/cmomy/reduction.py:reduce_vals", "src/cmomy/rolling.py:rolling_vals", "src/cmomy/rolling.py:rolling_exp_vals", "src/cmomy/resample/resample.py:resample_vals", "src/cmomy/resample/resample.py:jackknife_vals", "src/cmomy/core/prepare.py:xprepare_values_for_reduction"]}
{"id": "C154", "title": "Reduction of a Dataset over several dimensions", "statement": "reduce_data of a Dataset over several dimensions (or over all, dim=None) reduces each variable that has the moment dimensions over those of the dimensions that it has, and leaves the rest as it is; with use_map=False only variables with all the dimensions are reduced. A dimension in no variable is refused with ValueError.", "quantifier": "all Datasets, all sets of dimensions", "why_tests_cant": "All subsets of dimensions of all variables.", "anchors": ["src/cmomy/reduction.py:_reduce_data", "src/cmomy/core/xr_utils.py:select_axis_dim_mult"]}
{"id": "C155", "title": "Variables without moments never make a function of a Dataset fail", "statement": "REFUTED: reduce_data_grouped and reduce_data_indexed raise as soon as a variable without moments has the dimension and its size is not the number of groups, although the moments alone can be grouped; the same for reduce_data with keepdims=True and a size other than 1. They succeed if there is no such variable.", "quantifier": "all Datasets (both directions)", "why_tests_cant": "Needs a Dataset with a variable that has the dimension of the samples and no moments.", "anchors": ["src/cmomy/reduction.py:reduce_data_grouped", "src/cmomy/reduction.py:reduce_data_indexed", "src/cmomy/reduction.py:_reduce_data"]}
{"id": "C156", "title": "Resampling the variables of a Dataset with tables of their own", "statement": "With a sampler made with paired=False, resample_data uses a table of its own for each variable with the dimensions if all variables have them or only one has. REFUTED otherwise: if none or several have the dimensions and some do not, ValueError is raised; so is a Dataset of tables with other names than the data.", "quantifier": "all Datasets, all tables", "why_tests_cant": "All mixtures of variables.", "anchors": ["src/cmomy/resample/sampler.py:_randsamp_indices_dataarray_or_dataset", "src/cmomy/resample/resample.py:resample_data"]}
{"id": "C157", "title": "A Dataset of one variable is treated like the DataArray", "statement": "REFUTED in two ways: weights (or frequencies, decay factors, reduced moments) given as a DataArray without the dimension are refused for a DataArray, while the Dataset is returned with the variable not reduced; plain weights with two axes are read along axis 0 for a Dataset and along the axis of the dimension for a DataArray, with different results when the sizes agree.", "quantifier": "there are data and weights", "why_tests_cant": "Silent: no error and the shape may be right.", "anchors": ["src/cmomy/core/prepare.py:xprepare_values_for_reduction", "src/cmomy/reduction.py:reduce_vals"]}
{"id": "C158", "title": "Arguments that do not fit a Dataset are refused", "statement": "When a further argument (frequencies, decay factors, reduced moments, weights, values) has a dimension with another size than a variable of the Dataset or than another argument, or is a Dataset whose variables have other names than the data, then the resampling, rolling exponential and jackknife functions of moments raise ValueError and reduce_vals, rolling_vals, rolling_exp_vals, resample_vals and jackknife_vals raise an error, also when every single variable could be handled.", "quantifier": "all Datasets, all arguments, all parameters", "why_tests_cant": "All ways not to fit, among all mixtures of variables and arguments.", "anchors": ["src/cmomy/resample/resample.py:resample_data", "src/cmomy/rolling.py:rolling_exp_data", "src/cmomy/reduction.py:reduce_vals", "src/cmomy/core/prepare.py:xprepare_values_for_reduction"]}
{"id": "C159", "title": "Stacking and unstacking dimensions", "statement": "stack of dimensions that are not moment dimensions to a new one gives an object with the moments last, whose entries along the new dimension run through the places of the old ones with the last one fastest; every other request (unknown, repeated or moment dimensions, a name in use) is refused. unstack puts every entry at the place that the index of its position names, so unstack after stack, also with the positions reordered in between, is the same object up to the order of dimensions. Reducing along the stacked dimension is reducing along the old ones.", "quantifier": "all objects that hold a DataArray, all lists of dimensions, all orders of positions", "why_tests_cant": "All shapes and orders of dimensions; the order of places shows only with unequal sizes.", "anchors": ["src/cmomy/wrapper/wrap_xr.py:CentralMomentsData.stack", "src/cmomy/wrapper/wrap_xr.py:CentralMomentsData.unstack"]}
{"id": "C160", "title": "Selecting positions of a labelled object", "statement": "isel takes, for each dimension, the named position, list of positions or slice, and everything of the other dimensions; it is accepted exactly if the positions exist and the moment dimensions stay and keep their lengths. If neither the dimension worked along nor the moment dimensions are selected from, selecting from the result of cumulative, rolling_data, rolling_exp_data, resample_data, reduce_data_grouped, reduce_data_indexed, jackknife_data or reduce_data is the same as selecting first.", "quantifier": "all objects that hold a DataArray, all indexers, all parameters of the functions", "why_tests_cant": "Commuting diagrams over all selections.", "anchors": ["src/cmomy/wrapper/wrap_xr.py:CentralMomentsData.isel", "src/cmomy/reduction.py:reduce_data", "src/cmomy/resample/resample.py:resample_data", "src/cmomy/rolling.py:rolling_data"]}
{"id": "C161", "title": "Converting an object to a Dataset and back", "statement": "to_dataset(dim) gives a variable for each position along dim with the entries there and the moments last; an unknown dimension, a moment dimension or one without positions is refused. to_dataarray puts the variables along a new dimension, each repeated along the dimensions it lacks, the moments last. to_dataarray after to_dataset along the same dimension is the same object up to the order of dimensions.", "quantifier": "all objects that hold a DataArray, all Datasets, all dimensions, distinct labels", "why_tests_cant": "All shapes; entry by entry over all orders of dimensions.", "anchors": ["src/cmomy/wrapper/wrap_xr.py:CentralMomentsData.to_dataset", "src/cmomy/wrapper/wrap_xr.py:CentralMomentsData.to_dataarray"]}
{"id": "C162", "title": "Changes of the dimensions leave moments what they are", "statement": "REFUTED in two ways: isel along the moment dimension with a reversed slice (or any indexer that keeps the length) is accepted and the object then takes the average for the weight; to_dataarray of a Dataset with a variable without the moment dimensions repeats its values along them, so they become weights and averages.", "quantifier": "there are objects, indexers and Datasets", "why_tests_cant": "Silent: the shapes are right.", "anchors": ["src/cmomy/wrapper/wrap_xr.py:CentralMomentsData.isel", "src/cmomy/wrapper/wrap_xr.py:CentralMomentsData.to_dataarray", "src/cmomy/wrapper/wrap_abc.py:CentralMomentsABC.pipe"]}
{"id": "C163", "title": "Pushes to an object that holds a Dataset", "statement": "push_data, push_datas, push_val and push_vals of an object that holds a Dataset give, for every variable with the moment dimensions whose arguments have their dimensions, what the same call gives for an object that holds this variable alone, with the argument that belongs to it (the variable of the same name of a Dataset, otherwise the whole argument); all other variables stay as they were, and names and parameters stay. The call raises only an error that it raises for one of these variables. For arguments that line up, the moments at every position of every variable are those of the push at that position, and the result takes further pushes.", "quantifier": "all Datasets (variables with different dimensions, also without moments), all arguments that fit (Datasets, DataArrays, plain arrays), all dimensions of samples, any order of moments", "why_tests_cant": "All mixtures of variables and arguments; entry by entry.", "anchors": ["src/cmomy/wrapper/wrap_xr.py:CentralMomentsData.push_data", "src/cmomy/wrapper/wrap_xr.py:CentralMomentsData.push_datas", "src/cmomy/wrapper/wrap_xr.py:CentralMomentsData.push_val", "src/cmomy/wrapper/wrap_xr.py:CentralMomentsData.push_vals"]}
{"id": "C164", "title": "The dict view of an object that holds a Dataset", "statement": "as_dict has exactly the variables with the moment dimensions, in their order; each is a valid object, and obj[name] gives the same object; obj[name] raises ValueError for a variable without moments and KeyError for an unknown name. When every variable with moments has its arguments, the dict view after a push is the dict view before with every entry pushed, and the variables without moments are unchanged.", "quantifier": "all objects that hold a Dataset, all names, all pushes", "why_tests_cant": "Two views of one object have to stay the same under every call.", "anchors": ["src/cmomy/wrapper/wrap_xr.py:CentralMomentsData.as_dict", "src/cmomy/wrapper/wrap_xr.py:CentralMomentsData.__getitem__"]}
{"id": "C165", "title": "Sums and differences of objects that hold Datasets", "statement": "a + b and a - b of objects with the same names and sizes are the sums and differences of the variables that both have with moments; every other variable is that of a. The order of variables and dimensions of b does not matter.", "quantifier": "all pairs of objects with variables of the same names", "why_tests_cant": "All mixtures of variables, any order.", "anchors": ["src/cmomy/wrapper/wrap_abc.py:CentralMomentsABC.__add__", "src/cmomy/wrapper/wrap_abc.py:CentralMomentsABC.__sub__"]}
{"id": "C166", "title": "Reductions of an object that holds a Dataset", "statement": "reduce (along named dimensions, by labels or blocks, with either coords_policy), cumulative, resample_and_reduce and jackknife_and_reduce give for every variable with the named and the moment dimensions what the method of an object that holds this variable alone gives; other variables keep their entries.", "quantifier": "all objects that hold a Dataset, all dimensions, labels, block sizes and tables", "why_tests_cant": "All mixtures of variables; block sizes have to lead to the same labels for all variables.", "anchors": ["src/cmomy/wrapper/wrap_xr.py:CentralMomentsData.reduce", "src/cmomy/wrapper/wrap_abc.py:CentralMomentsABC.cumulative", "src/cmomy/wrapper/wrap_abc.py:CentralMomentsABC.resample_and_reduce", "src/cmomy/wrapper/wrap_abc.py:CentralMomentsABC.jackknife_and_reduce"]}
{"id": "C167", "title": "A failed push leaves an object that holds a Dataset as it was", "statement": "REFUTED: the variables are updated in place one after another, so when the argument does not fit a later variable the call raises ValueError although the earlier variables already contain the new data. Calling again with a corrected argument counts them twice.", "quantifier": "there are objects and arguments", "why_tests_cant": "The state after an exception is rarely looked at.", "anchors": ["src/cmomy/wrapper/wrap_xr.py:CentralMomentsData.push_data"]}
{"id": "C168", "title": "An object that holds a Dataset refuses what its variables refuse", "statement": "REFUTED: data without the moment dimensions is refused by an object that holds a DataArray, but an object that holds a Dataset accepts it and nothing changes (on_missing_core_dim is copy).", "quantifier": "there are objects and arguments", "why_tests_cant": "Silent: no error and no effect.", "anchors": ["src/cmomy/wrapper/wrap_xr.py:CentralMomentsData.push_data", "src/cmomy/core/xr_utils.py:factory_apply_ufunc_kwargs"]}
{"id": "C169", "title": "out= of another size is refused", "statement": "REFUTED in two ways: reduce_vals (and resample_vals, rolling_vals, rolling_exp_vals) with an out= that has room for another order than mom= returns moments of the order of out, without an error; reduce_data_grouped with an out= with more groups than by= has returns empty groups.", "quantifier": "there are data, orders, groups and arrays", "why_tests_cant": "Needs an out= that does not go with the other arguments.", "anchors": ["src/cmomy/core/prepare.py:prepare_out_from_values", "src/cmomy/reduction.py:_reduce_data_grouped"]}
{"id": "C170", "title": "An object that holds a Dataset after push_data raised", "statement": "When c.push_data raises, there is one variable whose own push raises this exception. The variables before it hold what the push gives for them alone, with their dimensions in the old order; this variable and those after it are unchanged, and so are the names. A Dataset with other names is refused and changes nothing. (Unless the exception is inside the calculation for that variable, whose entries are then not claimed.)", "quantifier": "all objects that hold a Dataset, all data, scale, moment kernels", "why_tests_cant": "Any number of variables, dimensions and any variable that fails.", "anchors": ["src/cmomy/wrapper/wrap_xr.py:push_data"]}
{"id": "C171", "title": "Selections and sums of objects that hold a Dataset", "statement": "c[[names]] holds the variables of these names in this order and is again such an object when one of them has the moments; a name that there is not is a KeyError. Sums and differences of objects whose moments have other sizes are a ValueError.", "quantifier": "all objects that hold a Dataset, all lists of names", "why_tests_cant": "Any number of variables and names.", "anchors": ["src/cmomy/wrapper/wrap_xr.py:__getitem__", "src/cmomy/wrapper/wrap_abc.py:_check_other"]}
{"id": "C172", "title": "coords_policy='first' and 'last' of reduce_data_indexed", "statement": "The result has the same values as without coordinates, and all coordinates of the input: those along the dimension are taken at the first (last) position of index in each group, the others are unchanged; group_dim= renames them. (Groups are not empty.)", "quantifier": "all DataArrays, coordinates along any dimensions with labels of any type, indices, groups, scales, axes, moment kernels", "why_tests_cant": "Any number of coordinates and groups.", "anchors": ["src/cmomy/core/xr_utils.py:replace_coords_from_isel", "src/cmomy/reduction.py:reduce_data_indexed"]}
{"id": "C173", "title": "Which coordinates results have", "statement": "reduce_data, resample_data, reduce_data_grouped and reduce_data_indexed with coords_policy None drop exactly the coordinates along the dimensions that are reduced; cumulative and rolling_data keep all; jackknife_data keeps all and rep_dim renames them. groups= adds a coordinate with these labels; another number of labels is refused. The values are those without coordinates.", "quantifier": "all DataArrays and coordinates, all arguments, moment kernels", "why_tests_cant": "Any number of coordinates, dimensions and groups.", "anchors": ["src/cmomy/reduction.py:reduce_data_grouped", "src/cmomy/reduction.py:reduce_data", "src/cmomy/resample/resample.py:jackknife_data", "src/cmomy/convert.py:cumulative"]}
{"id": "C174", "title": "Coordinates of c.reduce(by=integers)", "statement": "With the default coords_policy='first', or 'last', the row of the k-th different label has the coordinates of a row of the input with this label; of the first (last) such row if np.argsort is stable.", "quantifier": "all objects, labels, coordinates, moment kernels, argsort functions that sort", "why_tests_cant": "Any labels in any order and any sorting algorithm.", "anchors": ["src/cmomy/wrapper/wrap_xr.py:CentralMomentsData.reduce", "src/cmomy/reduction.py:factor_by_to_index"]}
{"id": "C175", "title": "c.reduce(by=name of a coordinate)", "statement": "Is c.reduce by the positions of the labels among the sorted different labels; the coordinate of the result reads these labels ('group', None), or the coordinates are those of a row with this label ('first', 'last'). A dimension without a coordinate has the labels 0, 1, ... A name that there is not is a KeyError. groups= replaces the labels.", "quantifier": "all objects, coordinates with labels of any totally ordered type, moment kernels", "why_tests_cant": "Any labels, some of which are skipped.", "anchors": ["src/cmomy/wrapper/wrap_xr.py:CentralMomentsData.reduce", "src/cmomy/reduction.py:factor_by"]}
{"id": "C176", "title": "Coordinates of c.reduce(block=) and of c.reduce(dim=)", "statement": "Block k has the coordinates of a row of this block; of row block*k ('first') or block*k+block-1 ('last') if np.argsort is stable; with 'group' and None it is labelled k, or by groups=. Without groups exactly the coordinates along the reduced dimensions are dropped.", "quantifier": "all objects, block sizes, coordinates, moment kernels", "why_tests_cant": "Any lengths, blocks that do not divide them.", "anchors": ["src/cmomy/wrapper/wrap_xr.py:CentralMomentsData.reduce", "src/cmomy/wrapper/wrap_abc.py:CentralMomentsABC._block_by"]}
{"id": "C177", "title": "c.sel is c.isel at the positions of the labels", "statement": "For one label or a list of labels of an index with different labels; a label that there is not is a KeyError.", "quantifier": "all objects, indices, labels", "why_tests_cant": "Any labels.", "anchors": ["src/cmomy/wrapper/wrap_xr.py:CentralMomentsData.sel"]}
{"id": "C178", "title": "Coordinates of empty groups", "statement": "REFUTED: that the coordinate of a group is that of one of its rows. A group without rows (start = end) gets the coordinate of a row of another group.", "quantifier": "there are data and groups", "why_tests_cant": "Needs an empty group and a look at its label.", "anchors": ["src/cmomy/reduction.py:reduce_data_indexed"]}
{"id": "C179", "title": "Empty index and coordinates", "statement": "REFUTED: that reduce_data_indexed of a DataArray raises only if that of its values does. With an index without positions, which the functions of arrays accept (all groups empty), coords_policy='first' raises IndexError.", "quantifier": "there are data and groups", "why_tests_cant": "Needs an empty index.", "anchors": ["src/cmomy/reduction.py:reduce_data_indexed"]}
{"id": "C180", "title": "coords_policy='first' is the first row of the group", "statement": "REFUTED for sorting functions that do not keep the order of equal codes, such as the default of np.argsort: the coordinates can be those of any row of the group.", "quantifier": "there are sorting functions, objects and labels", "why_tests_cant": "The default algorithm keeps the order for short arrays.", "anchors": ["src/cmomy/reduction.py:factor_by_to_index"]}
{"id": "C181", "title": "Labels that differ are refused", "statement": "push_data, push_datas, push_val, push_vals of a labelled object, c + d, and reduce_vals raise ValueError if two of their labelled arguments have unequal labels along a dimension of both; nothing is aligned by label and no rows are dropped.", "quantifier": "all objects, arguments, coordinates of any type with equality, moment kernels, numbers of arguments", "why_tests_cant": "Any number of arguments and any of them with other labels.", "anchors": ["src/cmomy/wrapper/wrap_xr.py:CentralMomentsData.push_data", "src/cmomy/wrapper/wrap_xr.py:CentralMomentsData.push_vals", "src/cmomy/reduction.py:reduce_vals"]}
{"id": "C182", "title": "Coordinates after a push", "statement": "If the labels agree then the values are those without coordinates. The object has the index of every dimension, every coordinate that only one argument has, and every coordinate that all arguments that have it agree on after broadcasting; a coordinate that two arguments disagree on is dropped; coordinates along the pushed dimension are dropped. Arrays leave the coordinates as they are. Coordinates that fit the object still do.", "quantifier": "all objects, arguments, coordinates of any type with equality, moment kernels, numbers of arguments", "why_tests_cant": "Coordinates with any dimensions, which broadcast against each other.", "anchors": ["src/cmomy/wrapper/wrap_xr.py:CentralMomentsData.push_data", "src/cmomy/wrapper/wrap_xr.py:CentralMomentsData.push_datas", "src/cmomy/wrapper/wrap_xr.py:CentralMomentsData.push_val", "src/cmomy/wrapper/wrap_xr.py:CentralMomentsData.push_vals", "src/cmomy/reduction.py:reduce_vals"]}
{"id": "C183", "title": "Coordinates of c + d and d + c", "statement": "Have the same names, dimensions (in some order) and labels at every position; so do the coordinates of any number of arguments in any order.", "quantifier": "all objects, coordinates of any type with equality", "why_tests_cant": "Any coordinates on both sides.", "anchors": ["src/cmomy/wrapper/wrap_abc.py:CentralMomentsABC.__add__"]}
{"id": "C184", "title": "Pushes and the coordinates of the object", "statement": "REFUTED: that c.push_data(data) leaves the coordinates of c as they are. It drops a coordinate that data has with another value, and adds coordinates of data.", "quantifier": "there are objects and data", "why_tests_cant": "Needs coordinates on both sides.", "anchors": ["src/cmomy/wrapper/wrap_xr.py:CentralMomentsData.push_data"]}
{"id": "C185", "title": "Selecting moments from a Dataset", "statement": "cmomy.select_moment of a Dataset gives, under the same names, the selection from every variable that has the moment dimensions and the other variables as they are; it raises only if a selection does or two results do not go into one Dataset. coords_combined of another length than the moment dimensions is a ValueError, whatever the variables are.", "quantifier": "all Datasets, one or two moment dimensions, names of moments, squeeze, dim_combined, coords_combined", "why_tests_cant": "Any number of variables with any dimensions.", "anchors": ["src/cmomy/utils.py:select_moment"]}
{"id": "C186", "title": "Assigning moments of a Dataset", "statement": "cmomy.assign_moment of a Dataset gives the assignment for every variable that has the moment dimensions and for which the values have the dimensions they need; a value that is a Dataset counts with its variable of the same name, any other value counts for all variables. The other variables stay as they are.", "quantifier": "all Datasets, one or two moment dimensions, lists of names and values (numbers, arrays, DataArrays, Datasets) that fit", "why_tests_cant": "Any number of variables and of values of several kinds.", "anchors": ["src/cmomy/utils.py:assign_moment"]}
{"id": "C187", "title": "Converting the moments of a Dataset", "statement": "moments_type of a Dataset converts every variable that has the moment dimensions and leaves the others as they are, with moment dimensions moved to the end or not.", "quantifier": "all Datasets, moment dimensions, to, mom_dims order, memory order", "why_tests_cant": "Any number of variables with any dimensions.", "anchors": ["src/cmomy/convert.py:moments_type"]}
{"id": "C188", "title": "Statistics of objects that hold a Dataset", "statement": "weight(), mean(), var(), cov(), cmom(), to_raw() and rmom() of a CentralMomentsData with a Dataset are those of the variables with the moment dimensions; the other variables are in the result unchanged. rmom() does not raise for orders up to the largest one supported.", "quantifier": "all Datasets, one or two moment dimensions, squeeze", "why_tests_cant": "Any number of variables with any dimensions.", "anchors": ["src/cmomy/wrapper/wrap_abc.py:CentralMomentsABC.mean", "src/cmomy/wrapper/wrap_abc.py:CentralMomentsABC.cmom", "src/cmomy/wrapper/wrap_abc.py:CentralMomentsABC.rmom"]}
{"id": "C189", "title": "Multiples of labelled objects", "statement": "c * k of an object with a DataArray has the weight of c times k at every position and all other moments of c, with the moment dimensions last; for a Dataset this holds for every variable with the moment dimensions, the others are unchanged, and nothing raises. c * 1 has the moments of c, (c * a) * b is c * (a b).", "quantifier": "all DataArrays and Datasets with nonempty moment dimensions, all numbers", "why_tests_cant": "Any number of variables with any dimensions.", "anchors": ["src/cmomy/wrapper/wrap_abc.py:CentralMomentsABC.__mul__"]}
{"id": "C190", "title": "mean() of a Dataset and that of its variables", "statement": "REFUTED: that mean() of an object with a Dataset raises only if mean() of one of its variables does. A variable without moments that has a dimension called 'variable' of another size makes it raise ValueError.", "quantifier": "there are Datasets", "why_tests_cant": "Needs a dimension with the default name of dim_combined.", "anchors": ["src/cmomy/wrapper/wrap_abc.py:CentralMomentsABC.mean", "src/cmomy/utils.py:select_moment"]}
{"id": "C191", "title": "Order of dimensions of multiples", "statement": "REFUTED: that c * k of a labelled object keeps the order of dimensions. Moment dimensions that do not stand last are moved there.", "quantifier": "there are objects", "why_tests_cant": "Needs moment dimensions that are not last.", "anchors": ["src/cmomy/wrapper/wrap_abc.py:CentralMomentsABC.__mul__", "src/cmomy/utils.py:assign_moment"]}
{"id": "C192", "title": "Arithmetic of labelled objects follows the laws of samples", "statement": "For objects of central moments over xarray data: c + c agrees with c * 2 (for a DataArray and, variable by variable, for a Dataset); c - o agrees with c + (o * -1), and one raises exactly when the other does; for k not 0, c * k + o * k agrees with (c + o) * k, and one raises exactly when the other does; with weights that are not negative, (a + b) + c agrees with a + (b + c). Agreement means: the same dimension names, sizes and value at each named position.", "quantifier": "All DataArrays and Datasets with moment dimensions of the object's order, whatever the order of the dimensions in each operand, all scales, one or two sets of moments.", "why_tests_cant": "Identities between composed operations over all data and all orders of dimensions; tests compare with allclose for fixed shapes.", "anchors": ["src/cmomy/wrapper/wrap_abc.py:CentralMomentsABC.__add__", "src/cmomy/wrapper/wrap_abc.py:CentralMomentsABC.__sub__", "src/cmomy/wrapper/wrap_abc.py:CentralMomentsABC.__mul__"]}
{"id": "C193", "title": "order= and the position of the axes never change the shape of a result", "statement": "The array that the library allocates for a result has exactly the shape of the data with the new size along the axis (functions of moments), or the common shape of the values with the new size along the axis followed by the moments (functions of values), whether order= is None, C, F, A or K, and whether or not the moment axes come last: when the array is made in the order of the calculation first, moving its axes back gives this shape.", "quantifier": "All shapes, axes given by positive or negative numbers, one or two moment axes anywhere, all new sizes, all values of order=; for functions of moments the axis that reaches the allocation is not -1, which holds as it is made positive before, or is in front of the moments.", "why_tests_cant": "Depends on the arithmetic of axes for all ranks and positions; tests use a few layouts.", "anchors": ["src/cmomy/core/prepare.py:prepare_out_for_reduce_data_grouped", "src/cmomy/core/prepare.py:prepare_out_from_values", "src/cmomy/core/prepare.py:optional_prepare_out_for_resample_data"]}
{"id": "C194", "title": "reduce_data_grouped gives the same for every order=", "statement": "reduce_data(by=...) / reduce_data_grouped, writing into the array it allocates, gives for every position and group the combination of the samples of the group, and the result (values, shape and errors) is the same for every order=.", "quantifier": "All arrays of moments, all moment axes and axes, axes_to_end or not, all by including negative codes, all values of order=.", "why_tests_cant": "The memory layout decides which of three branches allocates the array; tests look at one branch per shape.", "anchors": ["src/cmomy/reduction.py:_reduce_data_grouped", "src/cmomy/core/prepare.py:prepare_out_for_reduce_data_grouped"]}
{"id": "C195", "title": "Arithmetic of objects that hold a Dataset follows the laws of samples", "statement": "For objects of central moments over a Dataset: c - o and c + (o * -1) have the same variables with the same values at named positions, and one raises exactly when the other does; the same for c * k + o * k and (c + o) * k when k is not 0; with weights that are not negative, all four sums exist and (a + b) + c has the same variables and values as a + (b + c). Variables without moments come out as in the left operand.", "quantifier": "All Datasets with the same variable names in any order, any order of dimensions in each variable, variables with and without moments (for associativity the same variables have moments in all three), all scales, one or two sets of moments.", "why_tests_cant": "Identities between composed operations over all Datasets; tests compare a few Datasets with allclose.", "anchors": ["src/cmomy/wrapper/wrap_abc.py:CentralMomentsABC.__add__", "src/cmomy/wrapper/wrap_abc.py:CentralMomentsABC.__sub__", "src/cmomy/wrapper/wrap_abc.py:CentralMomentsABC.__mul__"]}
{"id": "C196", "title": "swap_dims keeps values and puts moments last", "statement": "swap_dims of an object over a DataArray gives every dimension its new name, keeps its size and every value at named positions, and puts the moment dimensions last. It is a ValueError exactly if a name is no dimension, two dimensions would get the same name, or the array has then no dimensions with the names of the moments and their sizes; so giving a moment dimension a name while no other dimension takes over its own is a ValueError.", "quantifier": "All DataArrays without coordinates, moment dimensions at any position, all dictionaries of names, including names that are traded.", "why_tests_cant": "All orders of dimensions and all dictionaries; tests swap one dimension.", "anchors": ["src/cmomy/wrapper/wrap_xr.py:CentralMomentsData.swap_dims", "src/cmomy/wrapper/wrap_abc.py:CentralMomentsABC.pipe"]}
{"id": "C197", "title": "swap_dims of a moment dimension is an error", "statement": "REFUTED: that swap_dims with a moment dimension among the old names raises. If a dimension of the same size takes over its name, the result is accepted, and the values along that dimension are read as moments.", "quantifier": "there are objects", "why_tests_cant": "Needs two dimensions of one size that trade names.", "anchors": ["src/cmomy/wrapper/wrap_xr.py:CentralMomentsData.swap_dims", "src/cmomy/wrapper/wrap_xr.py:CentralMomentsData.new_like"]}
{"id": "C198", "title": "rename keeps values and the order of dimensions", "statement": "rename of dimensions of an object over a DataArray gives every dimension its new name in its place and keeps sizes and values at named positions; if no moment dimension is renamed the result is an object with the same moment dimensions. It is a ValueError exactly if a name is no dimension or two dimensions would get the same name.", "quantifier": "All DataArrays without coordinates, all dictionaries of names.", "why_tests_cant": "All orders of dimensions and all dictionaries.", "anchors": ["src/cmomy/wrapper/wrap_xr.py:CentralMomentsData.rename", "src/cmomy/wrapper/wrap_abc.py:CentralMomentsABC._new_like"]}
{"id": "C199", "title": "rename of a moment dimension", "statement": "REFUTED: that rename of a moment dimension raises or gives an object with its moments. The result is accepted without a check and still looks for the old name: mom_shape of it raises.", "quantifier": "there are objects", "why_tests_cant": "The failure only shows when the object is used later.", "anchors": ["src/cmomy/wrapper/wrap_xr.py:CentralMomentsData.rename", "src/cmomy/wrapper/wrap_abc.py:CentralMomentsABC._new_like"]}
{"id": "C200", "title": "Reductions do not depend on what dimensions are called", "statement": "reduce_data along dimensions ds of an object over a DataArray, and reduce_data along the new names of ds after swap_dims of dimensions of values, give the same result up to the names: every dimension of the first has its new name in the second, with the same size and the same value at corresponding positions; both raise ZeroDivisionError or neither raises.", "quantifier": "All DataArrays without coordinates, moment dimensions at any position, all dictionaries that keep the moment dimensions and leave names distinct, including traded names, all sets of dimensions, keepdims and axes_to_end.", "why_tests_cant": "A law for all names and orders of dimensions; the code compares names with each other and with those of moments in many places.", "anchors": ["src/cmomy/wrapper/wrap_xr.py:CentralMomentsData.swap_dims", "src/cmomy/reduction.py:reduce_data"]}
{"id": "C201", "title": "Functions along a dimension do not depend on what dimensions are called", "statement": "cumulative and its inverse, rolling_data and reduce_data_grouped along a dimension d of an object over a DataArray, and the same along the new name of d after swap_dims of dimensions of values, give the same result up to the names: every dimension of the first has its new name in the second, with the same size and the same value (or nan) at corresponding positions; both raise or neither raises.", "quantifier": "All DataArrays without coordinates with at least one entry along d, moment dimensions at any position, all dictionaries that keep the moment dimensions and leave names distinct, including traded names, all windows of length 0 or more, min_periods, center and zero_missing_weights, all lists of groups whose largest number is not -1, axes_to_end.", "why_tests_cant": "A law for all names and orders of dimensions; where samples lie and where the result goes is found by comparing names in many places.", "anchors": ["src/cmomy/wrapper/wrap_xr.py:CentralMomentsData.swap_dims", "src/cmomy/convert.py:cumulative", "src/cmomy/rolling.py:rolling_data", "src/cmomy/reduction.py:reduce_data_grouped"]}
{"id": "C202", "title": "Dimensions and shapes an object tells", "statement": "For an object over a DataArray, dims are those of the array and shape is their sizes in that order; val_dims are the names of dims that are no moment dimensions, in the order of the array, and val_dims with mom_dims are a rearrangement of dims; val_shape and mom_shape are the sizes of val_dims and mom_dims in their orders, together a rearrangement of shape; val_ndim is the number of val_dims; sizes of a name that is no dimension is a KeyError. After swap_dims of dimensions of values, val_dims are the new names in the same order, dims are these followed by mom_dims, and val_shape, mom_shape and val_ndim are unchanged.", "quantifier": "All DataArrays without coordinates, one or two moment dimensions at any position and in any order, all dictionaries that keep the moment dimensions and leave names distinct.", "why_tests_cant": "The properties are computed apart from each other, by names or by counts; that they agree is a law for all positions of the moments.", "anchors": ["src/cmomy/wrapper/wrap_xr.py:CentralMomentsData.val_dims", "src/cmomy/wrapper/wrap_abc.py:CentralMomentsABC.val_shape", "src/cmomy/core/moment_params.py:MomParamsXArray.get_val_shape"]}
{"id": "C203", "title": "swap_dims is undone by the dictionary read the other way", "statement": "swap_dims of dimensions of values of an object over a DataArray, followed by swap_dims with every pair of the dictionary reversed, succeeds and gives the first object up to the order of dimensions: the same names, sizes, values at every position and moment parameters. The moment dimensions are last then, the others in their first order.", "quantifier": "All DataArrays without coordinates, moment dimensions at any position, all dictionaries that keep the moment dimensions and leave names distinct, including traded names and chains (x to y and y to z).", "why_tests_cant": "A law for all dictionaries, names and sizes; renaming pair by pair instead of all at once agrees with it on dictionaries of one pair.", "anchors": ["src/cmomy/wrapper/wrap_xr.py:CentralMomentsData.swap_dims"]}
