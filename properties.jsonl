{"id": "C01", "title": "Integer Uniform axis: index is the exact partition", "statement": "For an integer coordinate type, Uniform::with_step_size(num, low, step) with num >= 1, step > 0 and an axis range that fits the type yields an axis whose index(x) is 0 exactly when x < low, num+1 exactly when x >= low+num*step, and otherwise the unique k in 1..=num with low+(k-1)*step <= x < low+k*step; it never panics and never returns None. In a build without overflow checks, for every axis the constructor accepts - even one whose range does not fit - index(x) is given exactly: the distance to the lower edge is taken modulo the type, so with a range that does not fit an in-range coordinate may be put in the overflow bin or beyond the last bin (witnesses).", "quantifier": "every integer type (any width, signed or not), num, low, step whose range fits, every coordinate, overflow checks on or off", "why_tests_cant": "the coordinate and parameter spaces are 2^8..2^128 wide; tests sample a few edges", "anchors": ["ndhistogram/src/axis/uniform.rs:with_step_size", "ndhistogram/src/axis/uniform.rs:index"]}
{"id": "C02", "title": "Integer Uniform axis: bin() and index() describe the same intervals", "statement": "On such an axis bin(0) is the underflow below low, bin(num+1) the overflow from high, bin(i) is None for i >= num_bins, and for 1 <= i <= num bin(i) is exactly [low+(i-1)*step, low+i*step) if and only if i*(high-low) fits the coordinate type; when it does not fit, bin(i) panics in a checked build and goes through the wrap-around in an unchecked one. When num*(high-low) fits, bin(index(x)) contains x, x is in no other bin, and the start of a finite bin is indexed to that bin. (The unconditional reading - every bin of every accepted axis - is false: C02_bin_overflow_refuted.) On an axis with more bins than T can count (deserialised data), bin answers None for the bins it cannot compute.", "quantifier": "every integer type, every valid axis, every coordinate and every bin number", "why_tests_cant": "needs all (i, num, low, step) combinations, including those whose intermediate product overflows", "anchors": ["ndhistogram/src/axis/uniform.rs:bin", "ndhistogram/src/axis/uniform.rs:index"]}
{"id": "C03", "title": "Float Uniform axis: flow bins and special values", "statement": "For f32/f64: every x < low (including -inf), and nothing else, is in bin 0; every x >= high (including +inf) and NaN are in bin num+1. Bin num+1 can additionally hold only floats below high by less than a relative 4 units of roundoff of the range (C06); that such floats exist - so 'only x >= high is overflow' is false - is shown on Uniform::new(2, -1.1, 8.0).", "quantifier": "every axis, every float including infinities, zeros, subnormals", "why_tests_cant": "the claim is about every one of 2^64 bit patterns and every axis", "anchors": ["ndhistogram/src/axis/uniform.rs:index"]}
{"id": "C04", "title": "Float Uniform axis: index is always a valid bin number", "statement": "For every accepted axis over floats with fewer than 2^(p-1) bins (p = 53 for f64, 24 for f32) and bins of normal width, on every target, index never panics and returns Some(i) with i < num_bins. Without those bounds, index still never panics and returns Some(i) where usize has more than p bits. Outside those bounds (subnormal bin widths, or 2^53 and more bins) an index that is no bin number is possible; on targets where usize has at most p bits (f64 on 32-bit) the index computation itself can overflow: it panics with overflow checks and answers the underflow bin without; witnesses for each.", "quantifier": "every accepted (num, low, high), every float", "why_tests_cant": "rounding of (high-low)/num and (x-low)/step decides it; the failing inputs are rare rounding/subnormal cases", "anchors": ["ndhistogram/src/axis/uniform.rs:new", "ndhistogram/src/axis/uniform.rs:with_step_size", "ndhistogram/src/axis/uniform.rs:index"]}
{"id": "C05", "title": "Float Uniform axis: index is monotone", "statement": "If x <= y (neither NaN) then index(x) <= index(y).", "quantifier": "every float axis with a normal bin width and fewer than 2^(p-1) bins, and every pair of non-NaN floats", "why_tests_cant": "quantifies over pairs of floats and every rounding", "anchors": ["ndhistogram/src/axis/uniform.rs:index"]}
{"id": "C06", "title": "Float Uniform axis: index is accurate to a few ulps", "statement": "If index(x)=k+1 is a finite bin, then x-low lies in the ideal real interval [k*w, (k+1)*w), w=(high-low)/num, up to a relative error of 4 units of roundoff; conversely a float that far inside an ideal bin is indexed to it; and bin(index(x)) contains x up to 18 units of roundoff times the largest magnitude in the range. Exact agreement with bin() is not guaranteed by the code: on Uniform::new(10, 0.0, 1.0) 0.3 is in the bin reported as [0.2, 0.3).", "quantifier": "every float axis with normal bin width and fewer than 2^(p-1) bins, every float in range", "why_tests_cant": "rounding-error bounds hold over all reals; a test can only sample them", "anchors": ["ndhistogram/src/axis/uniform.rs:index", "ndhistogram/src/axis/uniform.rs:bin"]}
{"id": "C07", "title": "Float Uniform axis: bins tile the range in order", "statement": "For every i, bin(i).end == bin(i+1).start bit for bit for consecutive finite bins, edges are non-decreasing, the first finite bin starts at low, every edge k is low+k*w up to 10 units of roundoff times the largest magnitude in the range, hence the last one is that close to the start of the overflow bin. This holds when num times that magnitude is below 2^(emax-3); the last edge need not equal high (Uniform::new(1,-1.0,0.3)), and beyond the bound an inner edge can be infinite (Uniform::new(3, 0.0, 2^1023)).", "quantifier": "every float axis with num*max(|low|,|high|) < 2^(emax-3), every bin number", "why_tests_cant": "each edge is recomputed with rounding; only a proof covers all (num, low, high, i)", "anchors": ["ndhistogram/src/axis/uniform.rs:bin"]}
{"id": "C08", "title": "Uniform constructors accept exactly the valid parameters", "statement": "Uniform::new (floats only) returns InvalidNumberOfBins iff num = 0, InvalidAxisRange iff num > 0 and low == high, and otherwise Ok with low/high swapped when low > high. with_step_size over floats returns InvalidNumberOfBins iff num = 0, InvalidStepSize iff num > 0 and step <= 0, and otherwise Ok with range [low, num*step+low] as rounded. Over integers it returns InvalidNumberOfBins when num = 0 or num does not fit the type, and, when num*step and low+num*step fit, InvalidStepSize iff step <= 0 and otherwise Ok with exactly that range; when they do not fit a checked build panics. What is therefore not validated - a NaN step, a step that leaves an empty range, an integer range that wraps in an unchecked build - is shown by witnesses.", "quantifier": "every num, low, high, step of every numeric type", "why_tests_cant": "all parameter values, including NaN, infinities and overflowing products", "anchors": ["ndhistogram/src/axis/uniform.rs:new", "ndhistogram/src/axis/uniform.rs:with_step_size"]}
{"id": "C09", "title": "UniformNoFlow is Uniform without its flow bins", "statement": "UniformNoFlow has exactly num bins, index(x)=Some(i) iff the corresponding Uniform axis gives i+1 and it is not a flow bin, None otherwise (in particular for NaN and infinities), and bin(i) is the (i+1)th bin of the Uniform axis, None for i >= num.", "quantifier": "every axis of every numeric type, every coordinate and bin number", "why_tests_cant": "all coordinates/axes", "anchors": ["ndhistogram/src/axis/uniformnoflow.rs:index", "ndhistogram/src/axis/uniformnoflow.rs:bin", "ndhistogram/src/axis/uniformnoflow.rs:num_bins"]}
{"id": "C10", "title": "UniformCyclic over integers is total and periodic", "statement": "For an integer type, index(x) is Some(i) with i < num, where i is the bin of the unique representative of x modulo the range in [low, high), hence index(x + k*range) = index(x), whenever x - low fits the type; for x of the type where x - low does not fit, a checked build panics, and an unchecked build returns the bin of x - low wrapped to the type. Unsigned coordinates below low are therefore not wrapped around (two witnesses).", "quantifier": "every signed/unsigned type, every valid axis, every coordinate of the type, both overflow-check settings", "why_tests_cant": "all x and all k", "anchors": ["ndhistogram/src/axis/uniformcyclic.rs:index"]}
{"id": "C11", "title": "UniformCyclic over floats: every finite coordinate is wrapped into a bin", "statement": "For floats, infinities and NaN map to no bin; every coordinate maps to no bin or to a valid bin; a coordinate put in bin j is, up to a whole number of turns, within 16u(|x|+|low|+|high|) of the j-th ideal bin; a coordinate farther than that from the ends of a bin (modulo the range) is put in that bin, and one farther than that from every seam low+m*range is put in some bin. For with_step_size axes (bins step wide, high the computed upper edge) the same with 24u and 32u. The documented 'every finite coordinate is wrapped into a bin' is false at the seam: -2^-70 is in no bin of UniformCyclic::new(4, 0.0, 360.0).", "quantifier": "every float cyclic axis, every float", "why_tests_cant": "a violation needs one particular rounding (x just below a multiple of the range), which tests miss", "anchors": ["ndhistogram/src/axis/uniformcyclic.rs:index"]}
{"id": "C12", "title": "Variable::new sorts and validates its edges", "statement": "Variable::new returns InvalidNumberOfBinEdges iff fewer than two edges are given; otherwise, if all edges are mutually comparable it returns Ok and the axis edges are the sorted permutation of the input; if any edge is NaN it never returns Ok.", "quantifier": "every finite sequence of edges (any length, any order, duplicates, NaN, infinities)", "why_tests_cant": "unbounded edge lists", "anchors": ["ndhistogram/src/axis/variable.rs:new"]}
{"id": "C13", "title": "Variable axis: index is the partition given by the edges", "statement": "On a Variable axis bin(0) ends at the first edge, bin(k) is [e_{k-1}, e_k), bin(n+1) starts at the last edge. For strictly increasing edges and any binary search meeting the documented contract, bin(index(x)) contains x, x is in no other bin, and every bin's start is indexed to that bin. With repeated edges the same containment and uniqueness hold when the search returns the last match (Rust >= 1.82), and can fail with a search that returns another match (Rust 1.80, the crate's minimum version: 1 goes into the empty bin [1,1)).", "quantifier": "every edge list, every comparable coordinate, every binary search meeting the standard library's documented contract", "why_tests_cant": "unbounded edge lists and every search path", "anchors": ["ndhistogram/src/axis/variable.rs:index", "ndhistogram/src/axis/variable.rs:bin"]}
{"id": "C14", "title": "Variable axis: NaN and infinities", "statement": "A NaN coordinate maps to the overflow bin of Variable, to no bin of VariableNoFlow and VariableCyclic; index is always Some(k) with k < num_bins on Variable.", "quantifier": "every axis, every coordinate including incomparable ones", "why_tests_cant": "comparator returns an inconsistent order for NaN; result depends on every search path", "anchors": ["ndhistogram/src/axis/variable.rs:index", "ndhistogram/src/axis/variablenoflow.rs:index", "ndhistogram/src/axis/variablecyclic.rs:index"]}
{"id": "C15", "title": "VariableNoFlow is Variable without its flow bins", "statement": "n edges give n-1 bins; index(x)=Some(i) iff e_i <= x < e_{i+1}; otherwise None; bin(i) is that interval, None for i >= n-1.", "quantifier": "every edge list, every coordinate", "why_tests_cant": "all edge lists", "anchors": ["ndhistogram/src/axis/variablenoflow.rs:index", "ndhistogram/src/axis/variablenoflow.rs:bin", "ndhistogram/src/axis/variablenoflow.rs:num_bins"]}
{"id": "C16", "title": "VariableCyclic over integers is total and periodic", "statement": "For strictly increasing integer edges, index(x) is the bin of the representative of x modulo (high-low) in [low, high), always Some, and index(x+k*(high-low)) = index(x).", "quantifier": "every edge list, coordinate and k for which the code's arithmetic does not overflow", "why_tests_cant": "all x, k and edge lists", "anchors": ["ndhistogram/src/axis/variablecyclic.rs:index"]}
{"id": "C17", "title": "Category axis maps each category to its bin and everything else to overflow", "statement": "For a Category built from values v_0..v_{n-1}: num_bins = n+1; a listed value is mapped to a bin whose interval is exactly that value, every other value to bin n = Overflow; with distinct values index(v_i)=i; bin(i)={v_i} for i<n, Overflow at n, None above.", "quantifier": "every type with decidable equality, every list of values (duplicates included), every coordinate", "why_tests_cant": "unbounded lists; hash-map insertion histories", "anchors": ["ndhistogram/src/axis/category.rs:insert", "ndhistogram/src/axis/category.rs:index", "ndhistogram/src/axis/category.rs:bin"]}
{"id": "C18", "title": "CategoryNoFlow drops uncategorised values", "statement": "Same as Category but with n bins, and index of an unlisted value is None, for every list including the empty one.", "quantifier": "every list of values, every coordinate", "why_tests_cant": "unbounded lists", "anchors": ["ndhistogram/src/axis/categorynoflow.rs:index", "ndhistogram/src/axis/categorynoflow.rs:bin", "ndhistogram/src/axis/categorynoflow.rs:num_bins"]}
{"id": "C19", "title": "Category axes are equal iff built from the same sequence", "statement": "Two Category axes compare equal exactly when they were constructed from the same sequence of categories, so histograms with re-ordered categories are never merged.", "quantifier": "all pairs of lists", "why_tests_cant": "all pairs of lists; needs the two internal maps to be determined by the list", "anchors": ["ndhistogram/src/axis/category.rs:Category (derived PartialEq)"]}
{"id": "C20", "title": "Axis iteration yields every bin once, in order", "statement": "indices() is 0..num_bins; iter() yields (i, bin(i)) for exactly those i in order and never panics on a well-behaved axis, which every built-in axis is, with one exception: an integer uniform axis whose num*(high-low) does not fit the coordinate type panics in builds with overflow checks (and only then); bins() is its second projection.", "quantifier": "every built-in axis and every tuple of axes", "why_tests_cant": "all axis sizes", "anchors": ["ndhistogram/src/axis/mod.rs:indices", "ndhistogram/src/axis/mod.rs:iter", "ndhistogram/src/axis/mod.rs:bins"]}
{"id": "C21", "title": "N-dimensional index is a bijection with the cells", "statement": "For axes with bin counts n_1..n_d whose product fits usize, the tuple's index is in range and equals the mixed radix number i_1 + n_1*(i_2 + n_2*(...)); two coordinates share an index iff they share the bin on every axis; every number below the product is hit by exactly one combination.", "quantifier": "every number of dimensions, every axis list, every coordinate", "why_tests_cant": "21 macro-generated instances with unbounded sizes", "anchors": ["ndhistogram/src/axes.rs:index", "ndhistogram/src/axes.rs:from", "ndhistogram/src/axes.rs:num_bins"]}
{"id": "C22", "title": "N-dimensional index is None iff some axis has no bin", "statement": "index of a coordinate tuple is None exactly when at least one axis maps its component to no bin.", "quantifier": "every axes tuple and coordinate", "why_tests_cant": "all dimensions and axis combinations", "anchors": ["ndhistogram/src/axes.rs:index"]}
{"id": "C23", "title": "N-dimensional bin is the inverse of index", "statement": "bin(index(c)) is the tuple of the per-axis bins bin_k(index_k(c_k)), and for i < num_bins, bin(i) is the tuple of per-axis bins of i's mixed radix digits.", "quantifier": "every axes tuple, coordinate and bin number", "why_tests_cant": "all dimensions and sizes", "anchors": ["ndhistogram/src/axes.rs:bin", "ndhistogram/src/axes.rs:index"]}
{"id": "C24", "title": "N-dimensional bin returns None out of range", "statement": "In one dimension bin(i) passes on the axis' own None for i out of range. With two or more axes that have bins, bin(i) is never None, contrary to the trait documentation: it repeats with period num_bins, bin(i) = bin(i mod num_bins); and a tuple with an axis without bins panics (division by zero).", "quantifier": "every axes tuple of any dimension, every i", "why_tests_cant": "all i", "anchors": ["ndhistogram/src/axes.rs:bin", "ndhistogram/src/axis/mod.rs:bin"]}
{"id": "C25", "title": "Large axes: usize overflow is detected or harmless", "statement": "If some partial product of bin counts exceeds usize, building the axes panics in a build with overflow checks, and only then. In a build without them it always succeeds, and the number of bins and every index are the true ones modulo 2^w (w = 16, 32 or 64, the width of usize), so two cells are aliased exactly when their true indices differ by a multiple of 2^w (witness on a 64-bit target: 2^40 x 2^40 bins).", "quantifier": "every list of bin counts, both overflow-check settings", "why_tests_cant": "needs astronomically large axes; wrap-around cases", "anchors": ["ndhistogram/src/axes.rs:from", "ndhistogram/src/axes.rs:index", "ndhistogram/src/axes.rs:num_bins"]}
{"id": "C26", "title": "VecHistogram always stores exactly num_bins values", "statement": "After VecHistogram::new or from_vec and any sequence of fills, mutations through value_mut / iter_mut / values_mut, merges and scalar operations, the number of stored values equals axes().num_bins() and the axes never change.", "quantifier": "every axis, every finite operation history", "why_tests_cant": "unbounded histories", "anchors": ["ndhistogram/src/histogram/vechistogram.rs:new", "ndhistogram/src/histogram/vechistogram.rs:from_vec", "ndhistogram/src/histogram/histogram.rs:fill"]}
{"id": "C27", "title": "A fill changes exactly one bin", "statement": "fill, fill_with and fill_with_weighted change the value of the bin axes().index(coordinate) by the bin value's own fill operation and leave every other bin and the axes unchanged; an uncovered coordinate changes nothing.", "quantifier": "every histogram state, coordinate and datum", "why_tests_cant": "all states and coordinates", "anchors": ["ndhistogram/src/histogram/histogram.rs:fill", "ndhistogram/src/histogram/histogram.rs:fill_with", "ndhistogram/src/histogram/histogram.rs:fill_with_weighted", "ndhistogram/src/histogram/hashhistogram.rs:fill", "ndhistogram/src/histogram/hashhistogram.rs:fill_with", "ndhistogram/src/histogram/hashhistogram.rs:fill_with_weighted"]}
{"id": "C28", "title": "VecHistogram contents are the tally of its fill history", "statement": "After any sequence of fills, value_at_index(i) is the default value updated, in order, by exactly those fills whose coordinate the axes map to i, and value(c) is the value at index(c).", "quantifier": "every fill history, every bin", "why_tests_cant": "unbounded histories", "anchors": ["ndhistogram/src/histogram/vechistogram.rs:value", "ndhistogram/src/histogram/vechistogram.rs:value_at_index", "ndhistogram/src/histogram/histogram.rs:fill"]}
{"id": "C29", "title": "HashHistogram contents are the tally of its fill history", "statement": "After any sequence of fills, a bin is present iff at least one fill mapped to it, in which case its value is the default updated in order by exactly those fills; all other bins read None.", "quantifier": "every fill history, every bin, every hash iteration order", "why_tests_cant": "unbounded histories", "anchors": ["ndhistogram/src/histogram/hashhistogram.rs:fill", "ndhistogram/src/histogram/hashhistogram.rs:value_at_index"]}
{"id": "C30", "title": "Sparse and dense histograms agree", "statement": "Given the same axes and the same fill history, for every bin the sparse histogram reads the dense histogram's value, or None where the dense histogram holds the untouched default.", "quantifier": "every axis, fill history and bin", "why_tests_cant": "unbounded histories", "anchors": ["ndhistogram/src/histogram/vechistogram.rs:value_at_index", "ndhistogram/src/histogram/hashhistogram.rs:value_at_index"]}
{"id": "C31", "title": "HashHistogram only holds valid bins and its iterators never panic", "statement": "Every bin key of a sparse histogram built by new/from_map and changed by fills and merges is < num_bins; iter() yields each filled bin exactly once with bin(i) and its value, in some order, without panicking.", "quantifier": "every history, every hash iteration order", "why_tests_cant": "unbounded histories and hash orders", "anchors": ["ndhistogram/src/histogram/hashhistogram.rs:iter", "ndhistogram/src/histogram/hashhistogram.rs:from_map", "ndhistogram/src/histogram/hashhistogram.rs:iter_mut"]}
{"id": "C32", "title": "VecHistogram iteration is complete and consistent", "statement": "iter() yields exactly num_bins items in index order, the i-th being (i, axes.bin(i), value_at_index(i)), without panicking; values() is the third projection.", "quantifier": "every well-behaved axis, every reachable histogram", "why_tests_cant": "all sizes and histories", "anchors": ["ndhistogram/src/histogram/vechistogram.rs:iter", "ndhistogram/src/histogram/vechistogram.rs:values"]}
{"id": "C33", "title": "Mutable iteration visits every bin exactly once", "statement": "Applying f through values_mut or iter_mut replaces each bin's value v by f(index, bin, v) exactly once and changes nothing else, for dense and sparse histograms, whatever the hash iteration order.", "quantifier": "every histogram, every f, every hash order", "why_tests_cant": "all functions and sizes", "anchors": ["ndhistogram/src/histogram/vechistogram.rs:iter_mut", "ndhistogram/src/histogram/vechistogram.rs:values_mut", "ndhistogram/src/histogram/hashhistogram.rs:iter_mut", "ndhistogram/src/histogram/hashhistogram.rs:values_mut"]}
{"id": "C34", "title": "Fill order does not matter for commutative fills", "statement": "Calls of fill commute for every value type. If the bin value's updates commute, filling in any permuted order gives the same outcome (result or panic), dense or sparse; integer sums do in unchecked builds and for non-negative weights. For integer sums in checked builds two orders that both return agree, but one order may panic and another not (i8 weights 100, 100, -100).", "quantifier": "every history and every permutation", "why_tests_cant": "n! permutations", "anchors": ["ndhistogram/src/histogram/histogram.rs:fill", "ndhistogram/src/histogram/hashhistogram.rs:fill"]}
{"id": "C35", "title": "No entry is lost", "statement": "On axes that cover every coordinate, the sum of all bin values of a counting histogram equals the number of fills; with uncovered coordinates it equals the number of covered fills. With integer weights the same holds for the total covered weight, exactly in builds with overflow checks and modulo the number of values of the bin type in any build.", "quantifier": "every history", "why_tests_cant": "unbounded histories", "anchors": ["ndhistogram/src/histogram/histogram.rs:fill", "ndhistogram/src/histogram/vechistogram.rs:values"]}
{"id": "C36", "title": "Merging equals filling one histogram with everything", "statement": "If h1 holds history A and h2 holds history B over equal axes, h1 + h2 holds exactly the history A ++ B when the value's addition is associative with zero and fills add their contribution: all integer types in every build, and f64 counts up to 2^53 fills; in all three operator forms, dense and sparse, any hash order. For f64 contents in general equality holds only up to the error bound of C58 (witness past 2^53).", "quantifier": "every pair of histories", "why_tests_cant": "unbounded histories", "anchors": ["ndhistogram/src/histogram/vechistogram.rs:add", "ndhistogram/src/histogram/hashhistogram.rs:add"]}
{"id": "C37", "title": "Binary operators: error iff axes differ, otherwise bin-wise", "statement": "For +,-,*,/ on dense histograms: if axes differ the result is BinaryOperationError (assign forms panic); otherwise every bin of the result is left op right, axes are kept, operands are unchanged; the borrowing, owning and assigning forms give the same result.", "quantifier": "every pair of histograms and each operator", "why_tests_cant": "all states", "anchors": ["ndhistogram/src/histogram/vechistogram.rs:impl_binary_op_with_immutable_borrow", "ndhistogram/src/histogram/vechistogram.rs:impl_binary_op_with_owned", "ndhistogram/src/histogram/vechistogram.rs:impl_binary_op_assign"]}
{"id": "C38", "title": "Sparse operators: borrowing, owning and assigning forms agree", "statement": "For HashHistogram and every operator, each bin present in both operands becomes left op right in all forms; &a op &b holds the union of the bins with the default for a missing side; a op &b and a op= &b give the same histogram, which keeps left bins missing on the right unchanged and inserts default op right for the others; whatever the hash order. So for + and - of integers all three forms agree, while for * and / the borrowing form differs from the other two on bins missing on the right (witnesses). The borrowing form panics exactly when the operation panics on some bin of the union, the others exactly when it panics on some bin the right side holds.", "quantifier": "every pair of sparse histograms, each operator, every hash order", "why_tests_cant": "the forms use different loops; they differ on bins present on one side only", "anchors": ["ndhistogram/src/histogram/hashhistogram.rs:impl_binary_op_with_immutable_borrow", "ndhistogram/src/histogram/hashhistogram.rs:impl_binary_op_with_owned", "ndhistogram/src/histogram/hashhistogram.rs:impl_binary_op_assign"]}
{"id": "C39", "title": "Scalar operators act on every bin", "statement": "hist op &scalar gives the same axes and every bin value op scalar.", "quantifier": "every dense histogram and scalar", "why_tests_cant": "all states", "anchors": ["ndhistogram/src/histogram/vechistogram.rs:impl_binary_op_with_scalar"]}
{"id": "C40", "title": "from_vec / from_map validate and round-trip", "statement": "from_vec succeeds iff the vector has num_bins entries, from_map iff every key is < num_bins (otherwise InvalidNumberOfBins); converting back to Vec/HashMap or as_vec/as_slice/as_map returns exactly what was given.", "quantifier": "every axes, vector and map", "why_tests_cant": "all sizes", "anchors": ["ndhistogram/src/histogram/vechistogram.rs:from_vec", "ndhistogram/src/histogram/hashhistogram.rs:from_map", "ndhistogram/src/histogram/vechistogram.rs:From<VecHistogram>", "ndhistogram/src/histogram/hashhistogram.rs:From<HashHistogram>"]}
{"id": "C41", "title": "Parallel iterators agree with sequential ones under every schedule", "statement": "par_iter/par_values yield the same items as iter/values; par_iter_mut/par_values_mut with any schedule give the same final histogram as the sequential mutable iterators; a parallel reduction with an associative operation equals the sequential fold whatever the split.", "quantifier": "every schedule (permutation of tasks, binary split tree), every histogram", "why_tests_cant": "schedules cannot be enumerated by tests", "anchors": ["ndhistogram/src/histogram/vechistogram.rs:par_iter", "ndhistogram/src/histogram/vechistogram.rs:par_iter_mut", "ndhistogram/src/histogram/vechistogram.rs:par_values", "ndhistogram/src/histogram/hashhistogram.rs:par_iter", "ndhistogram/src/histogram/hashhistogram.rs:par_iter_mut"]}
{"id": "C42", "title": "Sum and WeightedSum accumulate exactly the filled weights", "statement": "After any sequence of fills, Sum is the sum of weights (unit weights for fill) and its variance equals it; WeightedSum's value is the sum of weights and its variance the sum of squared weights.", "quantifier": "every sequence of weights", "why_tests_cant": "unbounded histories", "anchors": ["ndhistogram/src/value/sum.rs:Sum", "ndhistogram/src/value/weightedsum.rs:WeightedSum", "ndhistogram/src/histogram/fill.rs:Fill"]}
{"id": "C43", "title": "Mean computes the sample mean and variance", "statement": "In exact arithmetic, after n>0 fills x_1..x_n, Mean reports n samples, mean = sum/n, variance_of_samples = (1/n) sum (x_i-mean)^2 (so it is non-negative and the abs() is only a rounding guard), and variance_of_mean = variance/n.", "quantifier": "every non-empty sequence of reals", "why_tests_cant": "unbounded sequences; an algebraic identity", "anchors": ["ndhistogram/src/value/mean.rs:Mean"]}
{"id": "C44", "title": "WeightedMean computes the weighted mean and variance", "statement": "In exact arithmetic with non-zero total weight, WeightedMean reports mean = sum(w x)/sum w, variance_of_samples = sum w (x-mean)^2/sum w, variance_of_mean = variance*sum w^2/(sum w)^2, and with unit weights agrees with Mean.", "quantifier": "every sequence of weighted samples with non-zero total weight", "why_tests_cant": "unbounded sequences; an algebraic identity", "anchors": ["ndhistogram/src/value/weightedmean.rs:WeightedMean"]}
{"id": "C45", "title": "Default f64 bin values count exactly up to 2^53 and then stop", "statement": "A default (f64) histogram bin filled n times reads exactly n for n <= 2^53, and reads 2^53 for every n >= 2^53. An f32 bin, dense or sparse, counts exactly up to 2^24 in the same way.", "quantifier": "every number of fills n", "why_tests_cant": "2^53 fills cannot be run", "anchors": ["ndhistogram/src/histogram/fill.rs:Fill", "ndhistogram/src/macros.rs:ndhistogram"]}
{"id": "C46", "title": "Sparse histogram equality ignores insertion order", "statement": "Two HashHistograms are equal iff their axes are equal and they hold the same (bin, value) pairs, regardless of how they were filled or of the hash order.", "quantifier": "every pair of histories and hash orders", "why_tests_cant": "all hash orders", "anchors": ["ndhistogram/src/histogram/hashhistogram.rs:PartialEq"]}
{"id": "C47", "title": "BinInterval conversions round-trip and expose their bounds", "statement": "Range/RangeTo/RangeFrom convert to BinInterval and back unchanged, each BinInterval converts to exactly one of the three range types, start()/end() return the bounds the variant has.", "quantifier": "every interval over every type", "why_tests_cant": "all values", "anchors": ["ndhistogram/src/axis/bininterval/bininterval.rs:From", "ndhistogram/src/axis/bininterval/bininterval.rs:TryFrom", "ndhistogram/src/axis/bininterval/bininterval.rs:start", "ndhistogram/src/axis/bininterval/bininterval.rs:end", "ndhistogram/src/axis/bininterval/singlevaluebininterval.rs:value"]}
{"id": "C48", "title": "Default-constructed axes and histograms are usable", "statement": "Objects from the public derived Default implementations: Category, CategoryNoFlow, Uniform, UniformNoFlow, float UniformCyclic, HashHistogram and the 1-D AxesTuple satisfy the documented invariants (valid bin numbers, iteration does not panic). Integer UniformCyclic (division by zero in index), Variable, VariableNoFlow and VariableCyclic (no edges), multi-dimensional AxesTuple and VecHistogram (no values although the axis has bins) do not, exactly as the theorems state.", "quantifier": "every public type deriving Default", "why_tests_cant": "depends on a state no constructor validates", "anchors": ["ndhistogram/src/axis/variable.rs:Variable (derive Default)", "ndhistogram/src/axes.rs:AxesTuple (derive Default)", "ndhistogram/src/histogram/vechistogram.rs:VecHistogram (derive Default)"]}
{"id": "C49", "title": "Displaying a histogram never panics and bars are at most 50 long", "statement": "Formatting a VecHistogram with Display prints a header (dimension, number of bins, sum) and one row per bin for the first 50 bins in order (a HashHistogram prints only the header); when no bin is NaN and either some bin is positive or none is negative, it does not panic and every bar is at most 50 characters, as long as value/max*50 rounded down. With NaN or only negative values longer bars, and a panic, are possible (witnesses). Errors of the underlying writer in a row are swallowed.", "quantifier": "every histogram content, including negative, NaN and infinite values", "why_tests_cant": "all float contents", "anchors": ["ndhistogram/src/histogram/vechistogram.rs:Display"]}
{"id": "C50", "title": "Serialisation round-trips", "statement": "Deserialising the serialised form of an axis, axes tuple, value or histogram gives back the same object, for every lossless codec of the components, also when the fields arrive in another order. Deserialisation does not re-validate: it accepts axes no constructor returns (witness).", "quantifier": "every histogram, axis and value; a self-describing format", "why_tests_cant": "all values; nested flattening", "anchors": ["ndhistogram/src/histogram/vechistogram.rs:derive Serialize/Deserialize", "ndhistogram/src/axis/uniformcyclic.rs:serde(flatten)", "ndhistogram/src/axes.rs:derive Serialize"]}
{"id": "C51", "title": "Integer bin values: overflow is detected in checked builds", "statement": "Filling an integer-valued bin either yields the exact mathematical sum or panics (overflow checks on); with checks off it is the sum modulo 2^w.", "quantifier": "every fill history of every integer bin type", "why_tests_cant": "needs 2^32+ fills or extreme weights", "anchors": ["ndhistogram/src/histogram/fill.rs:Fill", "ndhistogram/src/histogram/fill.rs:FillWith", "ndhistogram/src/value/mean.rs:fill_with"]}
{"id": "C52", "title": "Axes that compare equal are interchangeable", "statement": "If two axes (or axes tuples) of the same type compare == then they report the same number of bins, give the same bin index to every coordinate and have the same bins (up to the sign of a zero bound for floats).", "quantifier": "every pair of axes of every kind, every coordinate, every bin number", "why_tests_cant": "all pairs of axes; binary histogram operations rely on it", "anchors": ["ndhistogram/src/axis/uniform.rs:derive PartialEq", "ndhistogram/src/axis/variable.rs:derive PartialEq", "ndhistogram/src/axes.rs:derive PartialEq"]}
{"id": "C53", "title": "End to end: iterating a filled histogram gives each bin's interval with the tally of exactly the fills inside it", "statement": "A histogram made with ndhistogram!/sparsehistogram! from any number of axes, after any sequence of fill/fill_with/fill_with_weighted calls, yields from iter() one item per bin (sparse: per bin that was hit), whose value is what exactly the calls whose coordinates lie in the item's interval(s) make of the default value; for the default f64 bins and fill() this is the number of such fills (up to 2^53); f32 bins count up to 2^24, and with integer bins the calls return exactly when every bin's number of fills fits the type and then hold it (without overflow checks: wrapped around). Exact for integer uniform (flow, no-flow, cyclic), strictly increasing variable (flow, no-flow, and cyclic over integers) and distinct category axes; for float uniform axes stated in terms of each axis' own index.", "quantifier": "every number and choice of axes, every fill history, every hash iteration order", "why_tests_cant": "all compositions of axes and all histories", "anchors": ["ndhistogram/src/macros.rs:ndhistogram!", "ndhistogram/src/macros.rs:sparsehistogram!", "ndhistogram/src/axes.rs:AxesTuple", "ndhistogram/src/histogram/vechistogram.rs:VecHistogram", "ndhistogram/src/histogram/hashhistogram.rs:HashHistogram"]}
{"id": "C54", "title": "Printing an axis shows its number of in-range bins and its range", "statement": "Display of the six numeric axes never panics and prints the number of bins between low() and high() (without flow bins), low, high and the class name; the decimal bin count is unambiguous. Category prints its first ten bins, overflow last; CategoryNoFlow prints the same text, including an overflow bin it does not have (witness). A bin prints as an interval, its bounds with the precision asked for, unbounded ends as infinities; two bins print the same only if they are of the same kind with bounds that print the same, except that a bounded bin whose end prints as inf looks like the overflow bin (and a category that prints as overflow like the overflow bin).", "quantifier": "every axis of every kind, every number formatter", "why_tests_cant": "all axes", "anchors": ["ndhistogram/src/axis/uniform.rs:Display", "ndhistogram/src/axis/variable.rs:Display", "ndhistogram/src/axis/category.rs:Display", "ndhistogram/src/axis/categorynoflow.rs:Display"]}
{"id": "C55", "title": "Map-reduce filling equals sequential filling", "statement": "Divide a list of fill calls into pieces, fill each piece into its own fresh histogram over equal axes, and combine the resulting histograms pairwise with +, in any bracketing and with any of the operator forms (&a + &b, a + &b, a += &b): the outcome is the histogram obtained by making all the calls in order on one fresh histogram, whenever the sequential runs of the pieces and sub-totals return. For integer contents in builds that wrap, or with non-negative weights, the calls may also be dealt out to the pieces in any order, and the combination returns whenever the single sequential run does. Holds for dense and sparse histograms, for every hash iteration order. A sparse result stores exactly the bins some entry reaches, whatever the value type.", "quantifier": "all axes with reflexive equality, all value types whose addition agrees with their fill, all call lists, all plans (binary trees of pieces and merges), all operator forms, all hash iteration orders", "why_tests_cant": "the number of ways to split, bracket and order a history is unbounded; a test tries a few", "anchors": ["ndhistogram/src/histogram/vechistogram.rs: impl_binary_op!", "ndhistogram/src/histogram/hashhistogram.rs: impl_binary_op!", "ndhistogram/src/histogram/histogram.rs: Histogram::fill, fill_with, fill_with_weighted"]}
{"id": "C56", "title": "What a panic leaves behind", "statement": "If fill/fill_with/fill_with_weighted panics (arithmetic overflow in a checked build, or in the axis), the histogram's axes, number of bins and every bin other than the coordinate's are unchanged; with number or Sum contents a dense histogram is completely unchanged and a sparse one gains at most that bin with the default value, so a program that catches such panics and carries on ends with exactly the calls that returned. If lhs op= &rhs panics, lhs is unchanged (different axes) or holds the combined values in the bins before the panicking one and the old values elsewhere. These are the strongest guarantees: op= is not atomic, and fills of WeightedSum, Mean and WeightedMean can be left half done.", "quantifier": "every axis, value type, history, crash point (panicking call) and hash iteration order", "why_tests_cant": "a panic can occur at any call of any history and any bin of an operator", "anchors": ["ndhistogram/src/histogram/histogram.rs: Histogram::fill", "ndhistogram/src/histogram/hashhistogram.rs: fill, impl_binary_op_assign!", "ndhistogram/src/histogram/vechistogram.rs: impl_binary_op_assign!", "ndhistogram/src/value/mean.rs: fill_with", "ndhistogram/src/value/weightedsum.rs", "ndhistogram/src/value/weightedmean.rs"]}
{"id": "C57", "title": "VariableCyclic over floats finds the bin of the wrapped coordinate up to rounding at the seams", "statement": "For finite strictly increasing float edges with high-low not overflowing, and every finite x with x-low not overflowing: a bin returned by index(x) contains some representative x-m*(high-low) up to tol = 16u(|x|+|low|+|high|); an x farther than tol from every seam low+m*(high-low) is in some bin; an x lying m turns from the inside of bin k, more than tol from its ends, is in bin k. NaN and infinities are in no bin. The tolerance is needed: a coordinate just below a seam can be in no bin at all (edges 0, 90, 360, x = -2^-70).", "quantifier": "every finite strictly increasing edge list, every coordinate, every covered binary float format (f32, f64)", "why_tests_cant": "rounding of x-low, % and + depends on every bit of x and of the edges", "anchors": ["ndhistogram/src/axis/variablecyclic.rs:index"]}
{"id": "C58", "title": "Floating-point bin contents are accurate whatever the order, split and merging", "statement": "For histograms with float contents (f32, f64): however a multiset of fill/fill_with calls is split into pieces, each filled into a fresh histogram, and the pieces added with &l + &r, l + &r or l += &r in any bracketing, a finite content v of a bin satisfies |v - S| <= ((1+u)^k - 1) * sum|w| where S is the real sum of the amounts w sent to that bin, u the unit roundoff and k the largest number of additions an entry of the bin goes through; so any two orders or distributions of the same calls differ by at most the two bounds. A bin missing from a sparse histogram was sent nothing, and sparse histograms of the same calls store the same bins. Float filling and merging never panics unless the axes do.", "quantifier": "every axis, every history, every split/merge plan, every bin, every float format; every hash iteration order", "why_tests_cant": "rounding errors depend on every weight and every order", "anchors": ["ndhistogram/src/histogram/fill.rs", "ndhistogram/src/histogram/vechistogram.rs", "ndhistogram/src/histogram/hashhistogram.rs"]}
{"id": "C59", "title": "Floating-point bin statistics are accurate up to a stated rounding error", "statement": "For Sum, WeightedSum, Mean and WeightedMean over f32/f64: filling never panics (as long as the sample counter does not overflow); every finite sum, variance, mean, variance of samples and variance of the mean equals the textbook value of the exact samples up to an explicit bound ((1+u)^k - 1) * scale, with u the unit roundoff, k linear in the number of samples and scale the same statistic of the absolute values. WeightedSum::variance and Mean's variance are never negative; WeightedSum's variance and standard deviation are NaN exactly when some weight was NaN; Sum's standard deviation is NaN exactly for a NaN or negative sum; Mean's standard deviation is the correctly rounded root of its variance. Two stronger readings are false (findings): WeightedMean's variance can be negative and its standard deviation NaN for one sample with positive weight, and Mean's variance has no relative accuracy (samples 1e8, 1e8+1 get 0).", "quantifier": "every list of samples, weights and calls, every float format covering f32 and f64", "why_tests_cant": "rounding depends on every bit of every sample and on their order", "anchors": ["ndhistogram/src/value/sum.rs", "ndhistogram/src/value/weightedsum.rs", "ndhistogram/src/value/mean.rs", "ndhistogram/src/value/weightedmean.rs"]}
{"id": "C60", "title": "Means of integers: exact sums, correctly rounded mean, and exactly when they overflow", "statement": "A Mean of integer samples (e.g. Mean<i32>, f64 output, u32 counter) in a checked build returns exactly when the sum of the squared samples fits the sample type and the number of samples fits the counter type, and panics otherwise; in an unchecked build it never panics and reports the statistics of the wrapped sums and counter. Without overflow, in either build, num_samples is the number of samples, the mean is the exact mean correctly rounded to the output type, and the variances are within four/five roundings of the exact ones, however many samples. The same holds for WeightedMean with non-negative weights (six roundings). With float samples only the counter can overflow: a checked build panics exactly when the number of samples exceeds the counter's maximum, an unchecked one reports it modulo the counter's range. Findings: Mean<i32> of the single sample 46341 panics (checked), the variance of the single sample 50000 is 4294967296 (unchecked). With an integer output type (to which sample and counter types convert) nothing computed from an unoverflowed Mean overflows: the mean is the exact one rounded towards zero, the variance is not negative and lies between 1 below and 2|mean| above the true one, and an empty bin panics with a division by zero.", "quantifier": "every list of samples (and weights), every integer sample and counter type that converts exactly to the output float type, both builds", "why_tests_cant": "ranges over all samples, counts up to 2^32 and all integer types", "anchors": ["ndhistogram/src/value/mean.rs", "ndhistogram/src/value/weightedmean.rs"]}
{"id": "C61", "title": "Derived orderings and hashes are lawful, and sorting items sorts by bin number", "statement": "partial_cmp/==/cmp/hash of BinInterval, SingleValueBinInterval, the six numeric axes, Sum/WeightedSum/Mean/WeightedMean, Item, the axes products and VecHistogram obey the documented contracts of PartialEq/PartialOrd/Ord/Hash whenever those of the type parameters do (== agrees with Some(Equal), < and > are dual, < is transitive, equal values compare alike; totally ordered for Ord parameters; equal values hash alike), and == is the equality histogram arithmetic checks. Sorting the items of a sparse histogram gives increasing bin numbers and the same list whatever the hash iteration order. Bins of integer uniform axes and of variable axes compare in axis order with underflow first; the overflow bin does not fit in: it compares less than every finite bin (finding).", "quantifier": "every value of every type, every type parameter with lawful comparisons, every hash iteration order", "why_tests_cant": "algebraic laws over all triples of values of all types", "anchors": ["ndhistogram/src/axis/bininterval/bininterval.rs", "ndhistogram/src/axis/bininterval/singlevaluebininterval.rs", "ndhistogram/src/axis/uniform.rs", "ndhistogram/src/axis/variable.rs", "ndhistogram/src/histogram/histogram.rs Item", "ndhistogram/src/histogram/vechistogram.rs", "ndhistogram/src/axes.rs"]}
{"id": "C62", "title": "Wrapping bins and the algebra of histogram arithmetic", "statement": "With std::num::Wrapping bin values (as in the crate's overflow test) filling never panics because of the bins, in any build, and each bin reads its total modulo 2^w; entries may be dealt out to any number of histograms in any order and merged in any way with the same result; + and - make histograms over equal axes a commutative group ((l+m)+r = l+(m+r), (l+m)-m = l, (l-m)+m = l), sparse ones reading unfilled bins as zero. For any bin type whose operator commutes (+ and * of all integers and floats do, panics, rounding and NaN included), a op b and b op a have the same values, errors and panics.", "quantifier": "every integer width, every axis and build, every history, every pair or triple of histograms", "why_tests_cant": "algebraic laws over all histories and contents", "anchors": ["ndhistogram/src/histogram/fill.rs", "ndhistogram/src/histogram/vechistogram.rs operators", "ndhistogram/src/histogram/hashhistogram.rs operators"]}
{"id": "C63", "title": "Partly consumed iterators: only what is visited is computed or changed", "statement": "The iterators are lazy: iter().take(k) yields the first k items correctly even if a later bin() would panic; a for loop over iter() with any break or panic visits the items in order up to that point and no further; a for loop over iter_mut(), dense or sparse, gives each visited bin its own bin and value, leaves every visited bin with what the body stored and every other bin (and, for sparse histograms, the set of filled bins) untouched, whether the loop ends, breaks or a panic unwinds; if computing a bin itself panics, iter_mut() has yielded the items before it correctly and panics there; zipping the iterators of two histograms with equally many bins pairs equal bin numbers. Consumed to the end they are the iterators of C31-C33.", "quantifier": "every histogram, loop body, break point, panic point and hash iteration order", "why_tests_cant": "ranges over all stopping points and callbacks", "anchors": ["ndhistogram/src/axis/mod.rs iter/bins", "ndhistogram/src/histogram/vechistogram.rs iter/iter_mut", "ndhistogram/src/histogram/hashhistogram.rs iter/iter_mut"]}
{"id": "C64", "title": "A client program cannot tell a dense from a sparse histogram", "statement": "Take any program that creates histograms, fills them in any way, updates all values in place (values_mut, iter_mut) with functions that map the default value to itself, clones them, combines them with operators that map two defaults to the default (+, -, borrowed *; for the owning and assigning forms the default must also be right neutral: + and -), reads bins by index or coordinate with unwrap_or_default, and decides what to do next by the answers. Run with VecHistogram and with HashHistogram it either panics in both cases or returns the same result and leaves histograms that read the same, whatever the hash iteration orders. Not so for == (a bin filled with 0 differs from an unfilled one) nor for owning and assigning * (unfilled right bins leave sparse bins alone).", "quantifier": "every program (unbounded tree of calls branching on answers), axis type, bin type satisfying the stated laws (all integers in all builds, all floats except through negative zero), hash order", "why_tests_cant": "ranges over all client programs and iteration orders", "anchors": ["ndhistogram/src/histogram/vechistogram.rs", "ndhistogram/src/histogram/hashhistogram.rs"]}
{"id": "C65", "title": "Tuples of 1 to 21 axes are all implemented, and all the same way", "statement": "For every number d of axes from 1 to 21 there is exactly one implementation of AxesTuple (one, in the crate's single macro invocation, per dimension, whatever path the recursive macro takes to drop its last parameter), and the one for d >= 2 axes uses each of its d axes exactly once and in order: constructing the tuple, index, num_bins, num_dim and bin give the outcome (value, None or panic) of the general definition the other properties are about, for axes of any types. A 22nd axis would exceed rustc's default macro recursion limit.", "quantifier": "all parameter lists given to the macro, all numbers of axes 1..21, all axis types (user-defined ones included), all coordinates and bin numbers, checked and unchecked builds", "why_tests_cant": "the implementations are written by a recursive macro with shortcut arms; tests build tuples of a few dimensions with a few axis types, and a wrong arm could skip or duplicate a dimension or confuse two fields only for some dimension", "anchors": ["ndhistogram/src/axes.rs: impl_axes!, count_idents!, AxesTuple"]}
{"id": "C66", "title": "Errors: which can occur, what they say, and how ? converts them", "statement": "For every coordinate type, parameters and build: Uniform*::new can only return InvalidNumberOfBins or InvalidAxisRange, Uniform*::with_step_size only InvalidNumberOfBins or InvalidStepSize, Variable*::new only InvalidNumberOfBinEdges or FailedToSortBinEdges, from_vec/from_map only Error::AxisError(InvalidNumberOfBins) (each of the axis errors does occur). A function that chains fallible calls with ? into ndhistogram::Error returns an error iff some call fails, namely the first failing call's error in the variant of its kind. Different errors print different messages, before and after conversion; errors are equal iff identical, totally ordered and hash accordingly.", "quantifier": "all constructor parameters, coordinate types, builds; all finite chains of fallible calls; all pairs of errors", "why_tests_cant": "a test observes the error of particular bad inputs; which errors can never come out of a call, and that the first failure is the one reported for every chain, range over all inputs and programs", "anchors": ["ndhistogram/src/error.rs: Error, AxisError, BinaryOperationError", "ndhistogram/src/axis/*.rs constructors", "ndhistogram/src/histogram/*.rs from_vec, from_map", "ndhistogram/src/axis/bininterval/bininterval.rs: BinIntervalConversionError"]}
{"id": "C67", "title": "Adding up bins: any group of bins, projections, and what sparse histograms store", "statement": "After any sequence of fills of a new histogram, take any set of bins: the values that iteration reports for those bins add up exactly to the total of the fills whose coordinate lies in one of them (integer bins in builds with overflow checks; up to a multiple of 2^w in builds without; f64 bins with up to 2^53 unit fills), for dense and sparse histograms alike. In particular, adding up an N-dimensional histogram over all axes but one gives, bin for bin, the one-dimensional histogram of that axis filled with that component of every covered coordinate (dense and sparse, integer bins in builds with overflow checks). A sparse histogram stores at most one bin per covered fill, however many bins its axes have.", "quantifier": "every build, every integer bin type (or f64 bins), every axis and tuple of axes of any dimension, every set of bins, every choice of the remaining axis, every hash order, every history of fills", "why_tests_cant": "ranges over every fill history, every set of bins and any number and kind of axes; tests check a few sums", "anchors": ["ndhistogram/src/histogram/vechistogram.rs: VecHistogram::fill, fill_with, iter", "ndhistogram/src/histogram/hashhistogram.rs: HashHistogram::fill, fill_with, iter", "ndhistogram/src/axes.rs: AxesTuple::index, bin", "ndhistogram/src/macros.rs: ndhistogram!"]}
{"id": "C68", "title": "Categories under a user-defined equality", "statement": "A category axis over a type whose == is any equivalence (not necessarily identity, e.g. case-insensitive text): every listed value has its bin, in the order given; a coordinate goes into the bin of the last listed value equal to it, otherwise into the overflow bin (CategoryNoFlow: into none); equal coordinates always go into the same bin; two axes compare equal iff their lists are pairwise equal. Where == is identity this is the ordinary category axis.", "quantifier": "every build, every category type with any lawful Eq, every list of categories (any length, with or without equal entries), every coordinate and bin number", "why_tests_cant": "ranges over every equivalence relation, every list and every coordinate; tests use a few strings", "anchors": ["ndhistogram/src/axis/category.rs: Category::insert, get_index, constructor, index, derived PartialEq", "ndhistogram/src/axis/categorynoflow.rs: CategoryNoFlow::new, index, bin"]}
{"id": "C69", "title": "Serialised data moved between targets is intact or refused", "statement": "An axis, tuple of axes or histogram serialised on a target of any usize width (16, 32, 64 bits) and deserialised on a target of any other: if every usize in the data (bin counts, shapes, category indices, numbers of filled bins) is representable on the reader it is read back exactly as it was written (category axes: equal, with the same index and bin functions), otherwise reading fails. Nothing is truncated or wrapped. Variable axes contain no usize and are always read back. A dense histogram is read back with all its bins exactly when its axes are read back.", "quantifier": "every pair of targets, every axis value, every map iteration order, every codec that is lossless for the coordinate/content type", "why_tests_cant": "needs two targets of different width and axes larger than the narrower one; tests run on one target", "anchors": ["ndhistogram/src/axis/uniform.rs:Uniform", "ndhistogram/src/axis/category.rs:Category", "ndhistogram/src/axes.rs:AxesTuple", "ndhistogram/src/histogram/hashhistogram.rs:HashHistogram"]}
{"id": "C70", "title": "num_dim is the number of axes", "statement": "num_dim() is 1 for every one-dimensional axis and n for a tuple of n axes, whatever the axes hold.", "quantifier": "all axis types, all contents, any number of axes in a tuple", "why_tests_cant": "The number type, the contents and the number of axes are unbounded.", "anchors": ["ndhistogram/src/axis/mod.rs: Axis::num_dim", "ndhistogram/src/axes.rs: num_dim"]}
{"id": "C71", "title": "Histograms survive caught panics", "statement": "Whatever a program does with histograms, and however many panics it catches on the way (fills, values_mut and iter_mut loops or op= assignments interrupted half way by overflowing or panicking bin values or closures), a VecHistogram holds exactly one value per bin and a HashHistogram only bins of its axes; both can afterwards be iterated completely without panicking. An interrupted values_mut or iter_mut loop or op= assignment leaves the bins before the one the panic struck (sparse: in hash order) with their new values, that bin with whatever had been stored into it so far, and all later bins untouched.", "quantifier": "all histories of calls including interrupted ones, all bin value types and closures with arbitrary partial effects, all hash orders, all axes", "why_tests_cant": "The panic can strike at any element of any call of an unbounded history.", "anchors": ["ndhistogram/src/histogram/vechistogram.rs: iter_mut, values_mut, impl_binary_op_assign", "ndhistogram/src/histogram/hashhistogram.rs: iter_mut, values_mut, fill, impl_binary_op_assign", "ndhistogram/src/histogram/histogram.rs: fill, fill_with, fill_with_weighted"]}
{"id": "C72", "title": "Threads filling one histogram behind a lock", "statement": "Several threads make fill calls on one shared histogram, one lock acquisition per call. Under every schedule no call is lost, doubled or half made; if the fills commute (counts, sums without mixed-sign checked overflow) the final histogram is the one a single thread gets in any order, and a panic that poisons the lock happens under one schedule only if it happens in every order. Every schedule finishes.", "quantifier": "all numbers of threads, all call lists, all schedules, all axes and bin value types", "why_tests_cant": "Schedules cannot be enumerated or forced by tests.", "anchors": ["ndhistogram/src/histogram/histogram.rs: Histogram::fill, fill_with, fill_with_weighted", "ndhistogram/src/histogram/hashhistogram.rs: fill"]}
{"id": "C73", "title": "What a debug build computes, every build computes", "statement": "If a client program (creating histograms of any axes, filling, updating in place, cloning, combining and reading them, with any control flow depending on the answers) runs to its end without a panic in a build with overflow checks, then the same program runs to its end in every other build for the same or wider pointers, with or without overflow checks, gives the same answers, returns the same result and leaves the same axes and bin values. Uniform axes must have been returned by their constructors with a number of bins at most half of what the narrower usize can count; when the pointers have the same width not even that is needed. After a panic of the checked build nothing is promised: the unchecked one may return wrapped results.", "quantifier": "every program over the histogram API, every axis kind and tuple of axes, every integer and float type, every pair of builds with the first one checked", "why_tests_cant": "tests run one build on some inputs; the claim relates two compilations of every program", "anchors": ["ndhistogram/src/axis/uniform.rs:index", "ndhistogram/src/axis/variable.rs:index", "ndhistogram/src/axis/category.rs:num_bins", "ndhistogram/src/axes.rs:impl_axes", "ndhistogram/src/histogram/vechistogram.rs:VecHistogram", "ndhistogram/src/histogram/hashhistogram.rs:HashHistogram", "ndhistogram/src/histogram/fill.rs:Fill"]}
{"id": "C74", "title": "Replacing axes by equal ones changes nothing in any program", "statement": "If the axes a client program creates its histograms with are replaced by axes that compare == to them, the program behaves the same: it panics in the same runs, operators succeed or fail in the same places, it gets the same answers, returns the same result and leaves the same bin values in all its histograms; == is symmetric and transitive.", "quantifier": "every program over the histogram API, every pair of equal axes of every kind, dense and sparse histograms", "why_tests_cant": "ranges over all programs and all pairs of equal but not identical axes (zeros of opposite sign)", "anchors": ["ndhistogram/src/axis/uniform.rs:derive PartialEq", "ndhistogram/src/axis/variable.rs:derive PartialEq", "ndhistogram/src/axis/category.rs:derive PartialEq", "ndhistogram/src/histogram/vechistogram.rs:impl_binary_op", "ndhistogram/src/histogram/hashhistogram.rs:impl_binary_op"]}
{"id": "C75", "title": "Counts over a floating point uniform axis", "statement": "A default (f64) histogram over Uniform::new(num, low, high) with float bounds, filled once at each coordinate of a list: the bin values sum exactly to the number of coordinates; the underflow bin is exactly the number below low (including -inf); NaN and +inf are counted in overflow; the sum of the bins below the k-th edge is at least the number of coordinates below the ideal k-th edge moved down, and at most the number below it moved up, by 4 units of round-off relative to its distance from low; and each single bin is bracketed in the same way.", "quantifier": "every float format covered (f32 and f64 among them), every bin count, bounds and list of up to 2^53 coordinates including NaN and infinities, dense and sparse histograms, every iteration order of the sparse one", "why_tests_cant": "ranges over all bounds, all bin counts and all lists of floating point coordinates; rounding decides each placement", "anchors": ["ndhistogram/src/axis/uniform.rs:Uniform::new", "ndhistogram/src/axis/uniform.rs:index", "ndhistogram/src/histogram/fill.rs:Fill", "ndhistogram/src/macros.rs:ndhistogram", "ndhistogram/src/macros.rs:sparsehistogram"]}
{"id": "C76", "title": "Bracketed counts in any number of dimensions and for cyclic float axes", "statement": "Call an axis bracketed if every coordinate well inside a bin is put in it and every coordinate put in a bin is inside it or within a tolerance. Tuples of bracketed axes are bracketed cell by cell, and every bin of a default histogram over a bracketed axis, dense or sparse, holds at least the number of coordinates well inside it and at most the number inside or close to it. Every exact axis is bracketed, and so are Uniform and UniformNoFlow (from new or with_step_size), UniformCyclic and VariableCyclic over floats, with the tolerances stated.", "quantifier": "every tuple of axes of any length, each float format, every bounds, bin edges, and every list of up to 2^53 coordinates", "why_tests_cant": "ranges over all numbers of dimensions, all mixtures of axis kinds, and all floating point inputs", "anchors": ["ndhistogram/src/axes.rs", "ndhistogram/src/axis/uniform.rs:index", "ndhistogram/src/axis/uniformnoflow.rs:index", "ndhistogram/src/axis/uniformcyclic.rs:index", "ndhistogram/src/axis/variablecyclic.rs:index", "ndhistogram/src/histogram/vechistogram.rs:fill", "ndhistogram/src/histogram/hashhistogram.rs:fill"]}
{"id": "C77", "title": "Tuples of axes can be nested without changing any bin", "statement": "AxesTuple implements Axis, so a tuple of axes can be one component of another tuple. Grouping neighbouring axes of a tuple into a tuple of their own (anywhere, and so by repetition to any depth) changes nothing but the shape of coordinates and bins: construction succeeds, num_bins is the same, every coordinate gets the same bin number (or none, or the same panic of a component's index), every bin number has the same bin with its parts regrouped (or bin() panics in both, when some axis has no bins). Equality of the nested tuples is equality of the flat ones. Any client program using the nested tuple behaves exactly as the one using the flat tuple. Only num_dim differs: it counts the group as one.", "quantifier": "all lists of axis types before, in and after the group, all axes of them whose numbers of cells fit a usize, all coordinates and bin numbers, all builds, all client programs over dense and sparse histograms, all bin value types", "why_tests_cant": "The claim ranges over all splits of all lists of axis types, all coordinates and all programs; tests can only try a few nestings and points.", "anchors": ["ndhistogram/src/axes.rs: AxesTuple, impl_axes! (From, index, num_bins, num_dim, bin)", "ndhistogram/src/axis/mod.rs: Axis"]}
{"id": "C78", "title": "Flow bins, the order of axes and the order of categories only rename bins", "statement": "Choosing the axis type without flow bins, listing categories in another order, or putting the axes of a tuple in another order changes nothing but which bins exist and how they are numbered. Fill two histograms, dense or sparse, with the same calls (coordinates permuted like the axes): every bin of the histogram without flow bins (on any subset of the axes of a tuple, in any dimension) holds exactly what the bin with the same edges holds in the histogram with flow bins, and if filling the latter does not panic neither does filling the former; with categories or axes reordered the two histograms hold the same contents under a one-to-one renumbering that keeps every bin's edges, and filling one panics exactly when filling the other does. value() finds in the second whatever it finds in the first.", "quantifier": "all integer, float, variable-width and category axes, all tuples of them of any length whose cells fit a usize, all orders of axes and of distinct categories, all fill histories, all bin value types, all builds", "why_tests_cant": "The claim compares two histograms for every fill history, every combination of axes with and without flow bins, and every permutation.", "anchors": ["ndhistogram/src/axis/uniform.rs: Uniform", "ndhistogram/src/axis/uniformnoflow.rs: UniformNoFlow", "ndhistogram/src/axis/variablenoflow.rs: VariableNoFlow", "ndhistogram/src/axis/category.rs: Category", "ndhistogram/src/axis/categorynoflow.rs: CategoryNoFlow", "ndhistogram/src/axes.rs: AxesTuple", "ndhistogram/src/histogram/vechistogram.rs: fill, value", "ndhistogram/src/histogram/hashhistogram.rs: fill, value"]}
{"id": "C79", "title": "Reading and writing single bins", "statement": "value(c) is value_at_index of the bin index(c) finds, None if it finds none, and panics exactly when index does; value_mut(c) likewise in terms of value_at_index_mut. value_at_index_mut(i) gives a reference exactly when value_at_index(i) finds a value, and to that value; writing v through it makes bin i read v, leaves every other bin and the axes as they were, and writing back what was read changes nothing. For sparse histograms value_mut never creates a bin: it returns None for a coordinate whose bin has not been filled.", "quantifier": "every axis, every dense or sparse histogram, every coordinate, every index, every value written", "why_tests_cant": "every bin of every histogram must be unaffected by a write elsewhere; tests look at a few bins", "anchors": ["ndhistogram/src/histogram/histogram.rs: value, value_mut", "ndhistogram/src/histogram/vechistogram.rs: value, value_at_index, value_at_index_mut", "ndhistogram/src/histogram/hashhistogram.rs: value_at_index, value_at_index_mut"]}
{"id": "C80", "title": "Float uniform axes bin data on a grid exactly", "statement": "If the bounds of a float Uniform axis are multiples of some power of two 2^e (integers, halves, 1024ths, ...), its bin width is too, and the range is at most 2^53 (f32: 2^24) of these units, then Uniform::new (bounds in either order) and Uniform::with_step_size accept the parameters and index is exact, without any rounding slack, for every coordinate that is a multiple of 2^e: underflow strictly below low, overflow from high on, and bin i+1 from the exact edge low+i*width (included) to the next (excluded). If num times the range fits as well, bin reports exactly these edges, index and bin agree for all such coordinates (and infinities and NaN) on Uniform, UniformNoFlow and UniformCyclic, and a Hist1D or SparseHist1D of such data holds exact counts, in bins of any float or integer type. UniformCyclic is exactly periodic on the grid. An axis from 0 with a power of two as bin width is exact for every float, on the grid or not.", "quantifier": "every float format covered (f32, f64), every grid exponent, every number of bins, bounds, width and coordinate on the grid; for axes from 0 with a power of two as width: every float; every sequence of fills", "why_tests_cant": "the quotient (x - low)/step is rounded; that no rounding ever crosses a bin edge has to be shown for every coordinate and every axis", "anchors": ["ndhistogram/src/axis/uniform.rs: Uniform::new, with_step_size, index, bin", "ndhistogram/src/axis/uniformnoflow.rs", "ndhistogram/src/axis/uniformcyclic.rs: index"]}
{"id": "C81", "title": "A histogram seen through an accessor of its bin values is a histogram", "statement": "Bin values may be built over any component types that have the required traits, e.g. Sum<Sum<f64>> or a WeightedMean of vectors weighted by scalars, and each field accumulates on its own: a WeightedSum<T> filled with a list of weights holds T filled with these weights and T filled with their squares, a Mean and a WeightedMean hold the running sums of the data, its squares, the products with the weights, the weights, their squares and the count, in call order, and the calls return exactly when all these sums do. Whenever an accessor shows, for each fill call, what another bin type does with a corresponding call, the histogram seen through the accessor is bin by bin the histogram of that other type under the corresponding calls. Hence get of a Sum<T> histogram is the T histogram under the same calls (and one history panics iff the other does), get of a WeightedSum<T> histogram is the T histogram under the same calls, variance the T histogram under the calls with squared weights, and num_samples of a Mean or WeightedMean histogram the counting histogram with one plain fill per call. The number types are an instance.", "quantifier": "every component type with the operators the traits ask for (which may panic), every axis, every list of fill calls, dense and sparse histograms", "why_tests_cant": "the traits are open: users bring their own component types, and the correspondence has to hold for every history", "anchors": ["ndhistogram/src/value/sum.rs: Fill, FillWith", "ndhistogram/src/value/weightedsum.rs: Fill, FillWith, get, variance", "ndhistogram/src/value/mean.rs: FillWith, num_samples", "ndhistogram/src/value/weightedmean.rs: FillWithWeighted, num_samples", "ndhistogram/src/histogram/vechistogram.rs", "ndhistogram/src/histogram/hashhistogram.rs"]}
{"id": "C82", "title": "Changing units by a power of two changes nothing on floating-point axes", "statement": "Multiply the parameters of a Uniform, UniformNoFlow or UniformCyclic axis over f32 or f64 (whichever of new and with_step_size makes it) and every coordinate by the same power of two, exactly. Then both axes are accepted, they have the same number of bins, every coordinate (NaN and the infinities included) falls in the same bin, bin edges are the old ones times that power, and == between axes gives the same answers; a client program written in the other units computes the same results and leaves the same bin values. This holds in spite of rounding, as long as the range does not overflow and bins are not narrower than the smallest normal number in either unit; for cyclic axes also as long as the distance of the coordinate to the lower edge does not overflow. The same holds for Variable, VariableNoFlow and VariableCyclic axes over the same edges in the two units (for the cyclic one: finite ends in order, and ends and coordinates at most a quarter of the format's range).", "quantifier": "every power of two, positive or negative, every pair of parameters and coordinates in the two units, f32 and f64 (and every binary format with 8 to 63 bits of precision), every client program over one-dimensional histograms, every bin value type, dense and sparse", "why_tests_cant": "the computations round, and that the same roundings happen in both units for all parameters and coordinates is a statement about all floating-point numbers", "anchors": ["ndhistogram/src/axis/uniform.rs: new, with_step_size, index, bin", "ndhistogram/src/axis/uniformnoflow.rs", "ndhistogram/src/axis/uniformcyclic.rs: index", "ndhistogram/src/axis/variable.rs: new, index, bin", "ndhistogram/src/axis/variablenoflow.rs", "ndhistogram/src/axis/variablecyclic.rs: index"]}
{"id": "C83", "title": "The coordinate type does not matter, only the order (or equality) of its values", "statement": "A Variable or VariableNoFlow axis only depends on how its edges and the coordinates compare: over edges of another type that compare alike, the constructor panics, reports an error or succeeds alike, coordinates that compare alike fall in the same bin, bins have corresponding edges, == gives the same answers and client programs compute the same. This covers f32 versus f64 (every f32 has its f64), integers versus their floating-point values and changes of units by a power of two. A Category or CategoryNoFlow axis only depends on which values are equal: relabelling categories and coordinates, even into another type, changes nothing. In builds with overflow checks, replacing the integer type of the coordinates or of the bin values by a wider one (i8 by i64, u8 by i16) changes nothing for Uniform, UniformNoFlow, UniformCyclic and the Variable axes, and for numbers, sums, weighted sums and means as bin values, unless the narrow type panics.", "quantifier": "every pair of types and every relation between them under which values compare (or are equal) alike, all edges and coordinates, every pair of integer types of which one contains the other, every client program over one-dimensional histograms with a Variable axis, dense and sparse", "why_tests_cant": "the axes are generic; a test instantiates one type, and the claim is about all types and all orderings of all lists of edges", "anchors": ["ndhistogram/src/axis/variable.rs: new, index, bin", "ndhistogram/src/axis/variablenoflow.rs", "ndhistogram/src/axis/category.rs: new, index, bin", "ndhistogram/src/axis/categorynoflow.rs", "ndhistogram/src/axis/uniform.rs: new, with_step_size, index, bin", "ndhistogram/src/axis/uniformcyclic.rs: index", "ndhistogram/src/axis/variablecyclic.rs: index"]}
{"id": "C84", "title": "An axis is determined by its bins; a Uniform axis is the Variable axis over its edges", "statement": "Two axes of whatever types with the same number of bins that place coordinates exactly, and whose bins contain the same coordinates, give every coordinate the same bin number. In particular Uniform::with_step_size(num, low, step) over integers and Variable::new of low, low+step, ..., low+num*step (in any order) report the same bins and the same number for every coordinate, as do the axes without flow bins and the cyclic axes; they are == alike, and client programs with one in place of the other compute the same. Over floats the same holds for Uniform::new and with_step_size whenever low and width are multiples of a power of two within the mantissa, for every coordinate on that grid and for infinities and NaN; when low is zero and the width a power of two, for every float.", "quantifier": "every pair of exact axes; every integer type, number of bins, low and step accepted without overflow, every order of the edges, every coordinate; every binary float format, grid, low, width and number of bins; every client program over one-dimensional histograms with such an axis, dense and sparse; every sort and binary search meeting the std contract", "why_tests_cant": "Uniform computes the bin by division and Variable by binary search; that they agree for all parameters and all coordinates is not visible from examples", "anchors": ["ndhistogram/src/axis/uniform.rs: new, with_step_size, index, bin", "ndhistogram/src/axis/uniformnoflow.rs", "ndhistogram/src/axis/uniformcyclic.rs: index", "ndhistogram/src/axis/variable.rs: new, index, bin", "ndhistogram/src/axis/variablenoflow.rs", "ndhistogram/src/axis/variablecyclic.rs: index"]}
{"id": "C85", "title": "Uniform::new and Uniform::with_step_size agree up to the rounding of the upper edge", "statement": "Over floats, Uniform::new(num, low, high) and Uniform::with_step_size(num, low, step) with step = (high - low) / num as computed are both accepted, have the same number of bins, and number every coordinate alike except those between the two upper edges, which differ by at most 4u(high - low) + u|high| (u the unit roundoff); if the upper edges are equal the axes are identical. Conversely Uniform::new over the upper edge that with_step_size computed reports exactly the same bins and the same flow bins. When low and step are multiples of a power of two within the mantissa the two axes are == and indistinguishable for every coordinate. In general they are not: 11 bins over 0..100 in f64 put 100.0 in the overflow bin with new and in the last inner bin with with_step_size.", "quantifier": "every binary float format (f32, f64 included), number of bins, low, high and step in the normal range, every coordinate including NaN and infinities; both build profiles and both pointer widths", "why_tests_cant": "whether two differently computed edges agree depends on the rounding of every pair of parameters", "anchors": ["ndhistogram/src/axis/uniform.rs: new, with_step_size, index, bin, PartialEq", "ndhistogram/src/axis/uniformnoflow.rs", "ndhistogram/src/axis/uniformcyclic.rs"]}
{"id": "C86", "title": "Dense histograms and the size limit of Vec", "statement": "VecHistogram::new (and ndhistogram!) succeeds exactly if the number of bins can be computed and the bin values together take at most isize::MAX bytes, and then holds one default value per bin; otherwise it panics, it never makes a shorter histogram. Nothing else runs into the limit: fills, iteration, clone, the operators (with histograms and scalars) on histograms that exist behave as if there were no limit. So a client program that gets an answer gets the one it would get without the limit, and a program that only creates histograms within the limit panics only if it would panic anyway.", "quantifier": "every axis and tuple of axes, every bin value type and size, every target width, every client program", "why_tests_cant": "the limit depends on the target and concerns sizes no test can allocate; the second half is about all programs", "anchors": ["ndhistogram/src/histogram/vechistogram.rs: new, Clone, operators", "ndhistogram/src/macros.rs: ndhistogram!"]}
{"id": "C87", "title": "Rebinning: a coarser histogram holds the sums of the bins of a finer one", "statement": "Call an axis coarser than another if every bin of the fine one lies in one bin of the coarse one. Fill the same coordinates and integer weights into histograms over a fine and a coarse tuple of axes: every bin of the coarse histogram then holds the sum of the values of the fine bins that lie in it (exactly if no sum overflows in a build with overflow checks, modulo the range of the type otherwise; exactly for counts in f64 up to 2^53 fills). Whether an axis that places coordinates exactly is coarser can be read off the bins alone, tuples are coarser if their axes are, and coarsening twice is a coarsening. In particular a Uniform (UniformNoFlow, UniformCyclic) integer axis with num bins of step*k is coarser than the one with num*k bins of step, and a Variable axis over some of the edges of another is coarser than it (without flow bins and cyclic: if the outermost edges are kept). Over floats a Uniform axis with num*2^j bins is refined exactly by powers of two in spite of rounding: Uniform::new(num, low, high) is coarser than new(num*2^j, low, high), and with_step_size(num, low, 2^j*step) than with_step_size(num*2^j, low, step), for every float coordinate (NaN and infinities included), also without flow bins and cyclic. For other factors this fails: in f64, 0.3 is in bin 10 of 30 bins over 0..1 but in bin 3 of 10 bins, not in bin 4. A Category axis is coarser than another along any map f of categories, if each value that f maps to a coarse category is a fine category: each bin goes to the bin of its image, or to overflow (CategoryNoFlow: if f maps every fine category to a coarse one).", "quantifier": "every pair of fine and coarse axes or tuples of axes of any number of dimensions, every list of fills, every integer type, both build profiles, dense and sparse; every num, k, low, step; every list of edges and every choice of edges kept, every sort and binary search meeting the std contract; every binary float format with 8 to 63 bits of precision, every low, high, step in the normal range; every two category types and every map between them", "why_tests_cant": "the claim relates two histograms over different axes for all lists of fills and all parameters; a test can only compare a few", "anchors": ["ndhistogram/src/axis/uniform.rs: index, bin", "ndhistogram/src/axis/uniformnoflow.rs", "ndhistogram/src/axis/uniformcyclic.rs", "ndhistogram/src/axis/variable.rs: index, bin", "ndhistogram/src/axis/variablenoflow.rs", "ndhistogram/src/axis/variablecyclic.rs", "ndhistogram/src/axes.rs: index, bin", "ndhistogram/src/histogram/histogram.rs: fill, fill_with, value", "ndhistogram/src/histogram/vechistogram.rs", "ndhistogram/src/histogram/hashhistogram.rs"]}
{"id": "C88", "title": "Marginals: summing over any of the axes gives the histogram over the others", "statement": "Fill a histogram over any number of axes, and a histogram over any non-empty choice of those axes with the same calls, each with only the chosen components of its coordinate and leaving out the calls that some axis does not cover. Each bin of the second histogram then holds the sum of the values that iterating the first reports for the bins whose interval has that bin's interval in its chosen components: exactly with integer bins in builds with overflow checks (if no call panicked), modulo 2^w in builds without, exactly for f64 counts up to 2^53 fills (where no call panics). Dense and sparse histograms alike; also for the separate implementation of histograms with one axis.", "quantifier": "every tuple of axes, every subset of its axes, every list of fills, every integer type, both build profiles, every hash iteration order", "why_tests_cant": "it relates two histograms over different axes for every tuple, every choice of axes and every history; tests compare a few", "anchors": ["ndhistogram/src/axes.rs: AxesTuple, index, bin, num_bins", "ndhistogram/src/macros.rs: ndhistogram, sparsehistogram", "ndhistogram/src/histogram/vechistogram.rs: fill, iter", "ndhistogram/src/histogram/hashhistogram.rs: fill, iter"]}
{"id": "C89", "title": "Shifting, mirroring, rotating and cutting axes moves bins and changes nothing else", "statement": "Over integers: moving the range of a Uniform or UniformNoFlow axis and every coordinate by the same d gives the same bin numbers, and bins moved by d (a Variable or VariableNoFlow axis with moved edges likewise); mirroring range and coordinates (x becomes c-1-x) numbers the mirrored bins the other way round. Letting a UniformCyclic axis start k bins later, or moving all coordinates by k bin widths, rotates the bins by k; a VariableCyclic axis may start at any of its edges, which only rotates the numbering. Keeping m consecutive bins of a UniformNoFlow axis, or consecutive edges of a VariableNoFlow axis (over any ordered type), gives exactly those bins with the contents they had; cutting a Uniform axis in this way joins all other bins into the flow bins. With C78 and C87 this fixes the contents of every filled histogram, dense or sparse, also with such axes in tuples. In general: if two axes place coordinates exactly and bins i and move(i) always contain corresponding coordinates, one is a renumbering of a part of the other.", "quantifier": "every integer type, number of bins, low, step, shift, mirror point, rotation and cut for which both axes are valid, every coordinate representable before and after; every list of strictly increasing edges, every sort and search meeting the std contract", "why_tests_cant": "tests compare a few pairs of axes; the relation must hold for every axis, every shift and every coordinate", "anchors": ["ndhistogram/src/axis/uniform.rs: index, bin, with_step_size", "ndhistogram/src/axis/uniformnoflow.rs", "ndhistogram/src/axis/uniformcyclic.rs: index", "ndhistogram/src/axis/variablenoflow.rs", "ndhistogram/src/axis/variablecyclic.rs: index"]}
{"id": "C90", "title": "A histogram can be rebuilt, converted and rebinned from its items", "statement": "Take the items that iterating a histogram yields and call fill_with(c, value) once for each, in any order, on a new histogram over the same axes, with c any coordinate in the item's bin. The new histogram is the old one, bin by bin, for every integer bin type in every build and for floats of every format whatever was filled (NaN, infinities and negative zeros included: no list of fills of a new histogram leaves a negative zero in a bin, the one value that this would not reproduce), and for any bin type for which filling the default value with v gives v. Starting from a dense histogram a new sparse one ends up with the same value in every bin; starting from a sparse one a new dense one has its values and the default everywhere else. Refilling the items into coarser axes (C87), each into the bin that its own bin is part of, gives exactly the histogram that the original data would have given, for integer bins, dense and sparse, with overflow checks (if neither panics) and without.", "quantifier": "every axis type and dimension, every histogram over it, every hash iteration order, every choice of the coordinates and order of the calls; every integer type and float format; for rebinning every fine and coarse axis and fill history", "why_tests_cant": "tests rebuild a few small histograms; the claim is about every content, every choice of coordinates and every order, and about wrap-around in builds without overflow checks", "anchors": ["ndhistogram/src/histogram/vechistogram.rs: iter, fill_with", "ndhistogram/src/histogram/hashhistogram.rs: iter, fill_with", "ndhistogram/src/histogram/histogram.rs: Item", "ndhistogram/src/histogram/fill.rs: FillWith"]}
{"id": "C91", "title": "On a grid, a uniform axis counts units: number type and unit do not matter", "statement": "If the lower edge, the bin width and the coordinates of a uniform axis are whole multiples of some unit (1 for integers, any power of two for floats, within the mantissa), the axis does what the integers say: for a coordinate X units large, index is 0 if X < L, num + 1 if X >= L + num*S, and otherwise 1 + floor((X - L)/S); without flow bins None, None and floor((X - L)/S); on the cyclic axis floor(((X - L) mod num*S)/S); and the bins have their edges at L + i*S. So two such axes over different number types (i32, f32, f64, ...) or in different units that have the same L, S and num answer every call alike, == included, and no client program can tell them apart. For any two of them: moving lower edge and data by d units keeps every bin number, mirroring reverses the bin numbers, cyclic axes starting k bins apart are rotated by k, an axis over m of the bins has those bins, and an axis with bins k times as wide has each k bins joined into one.", "quantifier": "every integer type, every covered float format and power of two as unit, both constructors, every number of bins, lower edge, width and coordinate in range; every shift, reflection, rotation, section and factor; every client program", "why_tests_cant": "the claim equates whole families of axes over different number types, for every coordinate on the grid and every program", "anchors": ["ndhistogram/src/axis/uniform.rs: new, with_step_size, index, bin", "ndhistogram/src/axis/uniformnoflow.rs: index, bin", "ndhistogram/src/axis/uniformcyclic.rs: index, bin"]}
{"id": "C92", "title": "Negating, scaling and increasing the data of float histograms", "statement": "Take two runs of the same fill calls on the same axes that differ only in the amounts. If every amount is negated, every bin is negated (zero up to its sign, infinities swapped, NaN stays NaN); in Mean, WeightedMean and WeightedSum bins the sample counts, variances, standard deviations and errors stay the same and means and sums are negated. If every amount is multiplied by 2^k (k >= 0), every bin is exactly 2^k times as large unless it overflows. If no amount gets smaller, no bin gets smaller unless NaN appears. Filling with amounts that are not negative never lowers a bin and never removes one. In each case, if the first run returns so does the second, sparse histograms hold the same bins, and the operators + - * / keep these relations bin by bin where they hold value by value.", "quantifier": "every binary float format (scaling: every format the project uses), every axis type and dimension, every fill history, dense and sparse, every Mean counter type, every build", "why_tests_cant": "relates pairs of arbitrarily long runs, through rounding, overflow and NaN at every step, for all data", "anchors": ["ndhistogram/src/histogram/fill.rs: FillWith", "ndhistogram/src/value/mean.rs: Mean", "ndhistogram/src/value/weightedmean.rs: WeightedMean", "ndhistogram/src/value/weightedsum.rs: WeightedSum", "ndhistogram/src/histogram/vechistogram.rs: fill_with", "ndhistogram/src/histogram/hashhistogram.rs: fill_with"]}
{"id": "C93", "title": "Histograms of means are quotients of histograms", "statement": "A histogram of WeightedMean bins filled with samples d of weight w has in every bin, bit for bit, the mean that dividing two plain float histograms with the / operator gives: the one filled with d*w by the one filled with w. A histogram of Mean bins filled with samples d has the means of the histogram filled with d divided by the histogram filled once per sample; and giving every sample the weight one gives the same means and numbers of samples. An empty bin of a dense histogram is 0/0 = NaN in both; sparse histograms have the same bins, and the borrowed, owned and assigning division agree.", "quantifier": "every binary float format, every axis type and dimension whose axes equal themselves, every list of samples and weights no longer than the counter type (and, unweighted, the float) can count, dense and sparse, every order of the sparse maps, every build", "why_tests_cant": "equates float results after arbitrarily long histories, through rounding, infinities and NaN at every step", "anchors": ["ndhistogram/src/value/mean.rs: Mean, mean, num_samples", "ndhistogram/src/value/weightedmean.rs: WeightedMean, mean, num_samples", "ndhistogram/src/histogram/vechistogram.rs: Div, fill_with, fill_with_weighted", "ndhistogram/src/histogram/hashhistogram.rs: Div, DivAssign, fill_with, fill_with_weighted"]}
{"id": "C94", "title": "Float bins add up weights on a grid exactly", "statement": "If every weight filled into a histogram with float bins (fill counting as 1.0) is a whole multiple of some power of two, and neither the positive nor the negative weights add up to more than 2^p of these units (p the precision: 53 for f64, 24 for f32), then nothing is ever rounded: each bin holds exactly the sum of the weights that reached it, bit for bit the histogram one gets by counting the units in a histogram of integers (of any type large enough, in every build). So the order of the fills does not change a single bit; adding two such histograms with + or += gives bit for bit the histogram filled with the data of both; a coarser histogram holds in each bin exactly the sum of the finer bins (C87), and filling the items of the finer one into the coarser axes (C90), in any order, gives the coarser histogram bit for bit. This holds dense and sparse, without any condition on the order of the hash table.", "quantifier": "every float format with 8 to 63 bits of precision, every grid exponent in range, every axis type and dimension, every list of fills and every order of it, every integer type, both build profiles, every hash iteration order, every pair of fine and coarse axes", "why_tests_cant": "float addition is not associative, so tests on a few orders and weights say nothing about others; the claim is that no rounding occurs for any list of fills within the bound", "anchors": ["ndhistogram/src/histogram/fill.rs: Fill, FillWith", "ndhistogram/src/histogram/histogram.rs: fill, fill_with", "ndhistogram/src/histogram/vechistogram.rs: fill, fill_with, Add, AddAssign, iter", "ndhistogram/src/histogram/hashhistogram.rs: fill, fill_with, Add, AddAssign, iter"]}
{"id": "C95", "title": "Statistics of data on a grid", "statement": "Statistics of data that are whole multiples of a power of two are as exact as the float type allows, however many samples there are. With p the precision of the float type (53 for f64): if the weights filled into a histogram of WeightedSum (fill counting as 1.0) are multiples of 2^e and their squares, counted in units of 2^(2e), add up to at most 2^p, then get() and variance() are exactly the sum of the weights and of their squares and standard_deviation() is the float nearest to the exact square root. If the samples of a histogram of Mean are such multiples, and there are no more of them than the count type holds and 2^p, then get() is the float nearest to the exact mean, num_samples() is exact, and variance_of_samples() is finite, not negative and within four roundings, relative to the mean square plus the squared mean, of the exact variance: the error does not grow with the number of samples. For WeightedMean with samples and weights on grids (weights of either sign), get() is the float nearest to the exact weighted mean whenever the weights of the bin do not add up to zero. The order of the fills does not change a single bit of any bin. All this holds dense and sparse, and a bin without data is absent from a sparse histogram.", "quantifier": "every float format with 8 to 63 bits of precision, all grid exponents in range, every axis type and dimension, every list of fills within the bounds and every order of it, every integer count type, both build profiles", "why_tests_cant": "statistics of a few samples say nothing about rounding in others; the claim bounds the error for every list of fills, of any length within the bound, in every order", "anchors": ["ndhistogram/src/value/weightedsum.rs: get, variance, standard_deviation, Fill, FillWith", "ndhistogram/src/value/mean.rs: get, mean, num_samples, variance_of_samples, FillWith", "ndhistogram/src/value/weightedmean.rs: get, mean, num_samples, FillWithWeighted", "ndhistogram/src/histogram/vechistogram.rs: fill, fill_with, fill_with_weighted", "ndhistogram/src/histogram/hashhistogram.rs: fill, fill_with, fill_with_weighted"]}
{"id": "C96", "title": "Arithmetic of float histograms: background subtraction, ratios, efficiencies", "statement": "Float histograms filled with weights that are whole multiples of a power of two, and that in total make at most 2^p units (p the precision), can be added and subtracted freely: + and - are exact in every bin; (a + b) - b is a again, and so is (a - b) + b, bit for bit; a - b is, bit for bit, the histogram filled with the weights of a and the negated weights of b; + is commutative and associative, bit for bit. (A sparse result also holds a zero where only b has a bin.) Dividing two histograms of whole units gives the float nearest to the exact ratio in every bin, NaN for 0/0 and an infinity of the right sign for x/0. And, with any floats as weights as long as none is negative: dividing the histogram filled with some of the entries by the histogram filled with all of them gives in every bin an efficiency from 0 to 1 in spite of all rounding, exactly 1 where everything passed, NaN only where the total is zero or infinite. All three forms of each operator agree, dense and sparse, in every order of the hash tables.", "quantifier": "every float format with 8 to 63 bits of precision (efficiencies: every format), every grid exponent in range, every axis type and dimension whose axes equal themselves, all lists of fills within the bounds (efficiencies: all lists of fills with weights that are not negative, and every sublist), all iteration orders, both build profiles", "why_tests_cant": "float arithmetic rounds: that a difference or a ratio is exact or stays within 0 and 1 for the weights in a test says nothing about other weights, orders and numbers of fills", "anchors": ["ndhistogram/src/histogram/vechistogram.rs: Add, Sub, Div, AddAssign, SubAssign, DivAssign, fill, fill_with", "ndhistogram/src/histogram/hashhistogram.rs: Add, Sub, Div, AddAssign, SubAssign, DivAssign, fill, fill_with", "ndhistogram/src/histogram/fill.rs: Fill, FillWith"]}
{"id": "C97", "title": "Normalising float histograms and cumulative distributions", "statement": "Dividing every bin of a float histogram by the sum of its bins, added up one after the other in floating point, gives fractions. If no bin is negative, every bin becomes a number from 0 to 1 in spite of all rounding, exactly 1 for a bin equal to the sum, NaN only where the sum is zero or infinite. If moreover the bins are whole multiples of a power of two that make at most 2^p units in total (p the precision), the sum is exact, every bin becomes the float nearest to its exact fraction of the total, and the exact sum of the resulting bins differs from 1 by at most one unit roundoff (2^-53 for f64), however many bins there are. On a dense histogram the scalar operator / and values_mut give the same result; a sparse histogram may be summed and divided in any two orders of its hash table, no bin appears or disappears, and the axes are unchanged. The bins are not negative after any fills with weights that are not negative, so all this applies to such histograms. And the partial sums of values() in floating point, divided by the last one when it is finite and not zero, form a distribution function: they never fall from one bin to the next, lie within 0 and 1, and end at exactly 1.", "quantifier": "every float format (exactness: 8 to 63 bits of precision, every grid exponent in range), every axis type and dimension, every dense or sparse histogram with such bins, all iteration orders, both build profiles", "why_tests_cant": "float sums and quotients round: that the fractions of the bins in a test lie in [0,1] and add up to 1 says nothing about other contents, other numbers of bins and other iteration orders", "anchors": ["ndhistogram/src/histogram/vechistogram.rs: Div<&V> scalar, values_mut, values", "ndhistogram/src/histogram/hashhistogram.rs: values, values_mut", "ndhistogram/src/histogram/histogram.rs: values, values_mut"]}
{"id": "C98", "title": "What == and < of histograms and bin values mean", "statement": "Two dense histograms are == exactly if their axes are == and all their bins are, number by number; a < b exactly if the axes of a are less, or the axes are equal and in the first bin in which they differ a has the smaller value (or has no bin there). Items, bin intervals, single-value bins, Sum, WeightedSum, Mean and WeightedMean are == exactly if all their parts are: index, bin and value; start and end; the accumulated sums and counts; and they are ordered by the first of these parts in which they differ (of different kinds of bins, underflow is less than overflow and both are less than a finite bin). Axes are ordered likewise: uniform axes by number of bins, lower edge, upper edge and step, variable axes by the first differing edge, tuples of any number of axes by the first differing axis. Consequently two filled dense histograms are == exactly if their axes are and each bin has got equal tallies, two filled sparse ones exactly if moreover the same bins have been hit: == of the sparse histograms implies == of the dense ones with the same calls, and the two agree if the same bins have been hit (filling 0 makes a difference in a sparse histogram only). A histogram of floats is == to itself exactly if its axes are and no bin is NaN.", "quantifier": "all axis types with any equality and order, all bin value types with any equality and order, all pairs of histograms, all lists of fills, every float format", "why_tests_cant": "a test compares a few histograms; that no differing pair compares equal, and no equal pair differs, is a statement about all pairs", "anchors": ["ndhistogram/src/histogram/vechistogram.rs: VecHistogram (derive PartialEq, PartialOrd)", "ndhistogram/src/histogram/hashhistogram.rs: impl PartialEq", "ndhistogram/src/histogram/histogram.rs: Item (derive PartialEq)", "ndhistogram/src/axis/bininterval/bininterval.rs: BinInterval", "ndhistogram/src/axis/bininterval/singlevaluebininterval.rs: SingleValueBinInterval", "ndhistogram/src/value/sum.rs: Sum", "ndhistogram/src/value/weightedsum.rs: WeightedSum", "ndhistogram/src/value/mean.rs: Mean", "ndhistogram/src/value/weightedmean.rs: WeightedMean"]}
