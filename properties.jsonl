{"id": "C01", "title": "gcd is the greatest common divisor and terminates", "statement": "MathOperations.gcd(a, b) terminates for every pair of integers and returns a common divisor whose absolute value is the greatest common divisor. Its sign is the sign of min(a, b) when that is nonzero, and it is max(a, b) otherwise; the docstring's claim 'the sign of b' is therefore true when b <= a and false in general when b > a.", "quantifier": "all integers a, b", "why_tests_cant": "infinitely many pairs, including mixed signs and zero; termination cannot be observed by tests", "anchors": ["utils.py:MathOperations.gcd"]}
{"id": "C02", "title": "polynomial substitution", "statement": "MathOperations.subs_in_polynom(coeffs, x) returns coeffs[0] + coeffs[1]*x + coeffs[2]*x^2 + ... exactly for integers; the empty list gives 0.", "quantifier": "all coefficient lists of any length and all integers x", "why_tests_cant": "degree and coefficients are unbounded; a test compares a few polynomials at a few points, which many wrong evaluation orders also get right", "anchors": ["utils.py:MathOperations.subs_in_polynom"]}
{"id": "C03", "title": "stop-watch measures consecutive gaps", "statement": "After start_measure, the k-th call of measure_time returns the time between its own clock reading and the clock reading of the previous call of measure_time (or start_measure); get_last_measured_time repeats the last such value; repeated start_measure calls change nothing; the sum of all measured times is the time from the start to the last measurement.", "quantifier": "all sequences of operations and all clock readings", "why_tests_cant": "histories of any length and any interleaving of repeated starts", "anchors": ["utils.py:MeasureRuntime"]}
{"id": "C04", "title": "grouper partitions an iterable into fixed-length chunks", "statement": "grouper(xs, n, fill) for n >= 1 yields ceil(len(xs)/n) chunks, each of length n, whose concatenation is xs followed by fewer than n copies of fill.", "quantifier": "all lists, all chunk sizes n >= 1, all fill values", "why_tests_cant": "the number of chunks, the padding and the concatenation must be right for every length modulo every chunk size", "anchors": ["utils.py:grouper"]}
{"id": "C05", "title": "seconds split into days, hours, minutes and seconds", "statement": "The progress-bar time split returns (d, h, m, s) with 0 <= h < 24, 0 <= m < 60, 0 <= s < 60 and 86400 d + 3600 h + 60 m + s equal to the (integer) number of seconds; the split is the unique one with these bounds.", "quantifier": "all integers (including negative estimates)", "why_tests_cant": "the number of seconds is unbounded and may be negative (a wrong estimate), where integer division and remainder behave differently; uniqueness is not a statement about single inputs", "anchors": ["utils.py:ProgressBar._secs_to_days_hrs_mins_secs"]}
{"id": "C06", "title": "generated convergent is the nested fraction", "statement": "After ContFrac(a, b) and gen_iterations(n) that does not raise, the exact ratio P/Q held by the object is the n-th convergent a_0 + b_1/(a_1 + b_2/(... + b_n/a_n)) of the interlaced polynomial coefficients, whenever that nested fraction involves no division by zero; get_result is P/Q computed with three roundings of the working precision and so has relative error at most 4*2^-prec.", "quantifier": "all interlaced coefficient lists, all n >= 0, all working precisions >= 3", "why_tests_cant": "unbounded depth, degree and interlace; numeric tests only sample", "anchors": ["cont_fracs.py:ContFrac.gen_iterations", "cont_fracs.py:ContFrac.iteration_algorithm", "cont_fracs.py:ContFrac.finalize_iterations", "basic_representation_types.py:BasicRecursiveConstRepresenter.add_iterations"]}
{"id": "C07", "title": "iterations can be added in any split", "statement": "gen_iterations(n) followed by add_iterations of any list of non-negative counts leaves the object in the same state (results, matrices, iteration count) as one gen_iterations of the total, and raises ZeroB exactly when that would.", "quantifier": "all fractions, all n, all lists of non-negative counts", "why_tests_cant": "the number and order of calls is unbounded; a test follows one split of one count, and whether ZeroB appears depends on where a split falls", "anchors": ["basic_representation_types.py:BasicRecursiveConstRepresenter.gen_iterations", "basic_representation_types.py:BasicRecursiveConstRepresenter.add_iterations"]}
{"id": "C08", "title": "a zero numerator is reported exactly, and atomically", "statement": "With avoid_zero_b, gen_iterations(n) raises ZeroB(i) if and only if b_i = 0 for some 1 <= i <= n, with the least such i; without it, it never raises ZeroB. After a raise from add_iterations (no logging) the object is exactly as before the call.", "quantifier": "all fractions, all n, all prior histories", "why_tests_cant": "the offending index can be arbitrarily deep; state after an exception depends on the history", "anchors": ["cont_fracs.py:ContFrac._default_promo_mat_gen", "cont_fracs.py:ZeroB"]}
{"id": "C09", "title": "determinant identity of consecutive convergents", "statement": "After n >= 0 iterations P_n*Q_(n-1) - P_(n-1)*Q_n = (-1)^(n+1) * b_1*...*b_n; hence if no b_i vanishes P_n and Q_n are never both 0, and get_result is NaN exactly when Q_n = 0.", "quantifier": "all fractions and all n", "why_tests_cant": "an identity between two consecutive convergents for every n and every fraction, from which follows that 0/0 never occurs; a run only shows finitely many n", "anchors": ["cont_fracs.py:ContFrac.iteration_algorithm", "cont_fracs.py:ContFrac.finalize_iterations"]}
{"id": "C10", "title": "get_p_q returns the previous convergent", "statement": "After n+1 iterations get_p_q() returns numerator and denominator of the n-th convergent (and (1, 0) after 0 iterations), not of the latest one as its docstring says.", "quantifier": "all fractions and all n", "why_tests_cant": "an off-by-one that a test at one n with nearly equal convergents does not notice; it has to hold for every n", "anchors": ["cont_fracs.py:ContFrac.get_p_q"]}
{"id": "C11", "title": "logging does not change the result", "statement": "With logging=True and n >= 1 iterations from scratch, get_result, get_p_q and the iteration count are those of logging=False, and the log holds the values after 1, 2, ..., n iterations in order; for n = 0 the two modes differ: logging leaves the initial value 1 as the result instead of a_0.", "quantifier": "all fractions and all n", "why_tests_cant": "compares two modes of the object over all fractions and numbers of iterations; the exception at n = 0 is only visible if someone thinks of trying it", "anchors": ["basic_representation_types.py:BasicRecursiveConstRepresenter.add_iterations"]}
{"id": "C12", "title": "iteration counter and fraction index stay in step", "statement": "For every history of gen/add calls with non-negative counts the object's fraction has been advanced exactly get_num_of_executed_iters() times. A negative count k < 0 moves the counter but not the fraction, and the default estimate_approach_type_and_params() issues such a call for every fraction that keeps being classified 'fast'.", "quantifier": "all histories of calls, all fractions", "why_tests_cant": "an invariant over arbitrary histories of calls, including those with negative counts that the program itself issues", "anchors": ["basic_representation_types.py:BasicRecursiveConstRepresenter.add_iterations", "cont_fracs.py:ContFrac.estimate_approach_type_and_params"]}
{"id": "C13", "title": "negating the partial denominators negates the value", "statement": "Replacing every a polynomial by its negation negates the value computed by eval_dec_contfrac_by_polys and the result of ContFrac exactly, including every rounding, at every precision and depth, and preserves ZeroDivisionError/ZeroB outcomes. (The de-duplication of results relies on this.)", "quantifier": "all interlaced integer polynomials, depths and precisions", "why_tests_cant": "equality after every single rounding at every precision and depth; two floating-point runs that agree are no evidence for the others", "anchors": ["cont_fracs.py:eval_dec_contfrac_by_polys", "cont_fracs.py:ContFrac"]}
{"id": "C14", "title": "eval_contfrac computes the nested fraction", "statement": "When len(a) = len(b)+1, eval_contfrac(a, b) is a[0]+b[0]/(a[1]+b[1]/(...)) in exact arithmetic; it raises ZeroDivisionError exactly when some inner tail is 0, and ValueError exactly when the lengths are neither equal nor differ by one in this direction. With b omitted all numerators are 1.", "quantifier": "all lists a, b of rationals", "why_tests_cant": "the lists are unbounded, and ZeroDivisionError must appear exactly for those with a vanishing inner tail, a set of measure zero that random tests miss", "anchors": ["cont_fracs.py:eval_contfrac"]}
{"id": "C15", "title": "eval_contfrac for equal lengths", "statement": "When len(a) = len(b) eval_contfrac(a, b) is a[0]+b[0]/(a[1]+b[1]/(...+(a[n]+b[n]/1))), not b[0]/(a[0]+b[1]/(...)) as documented.", "quantifier": "all lists of equal length", "why_tests_cant": "documentation and behaviour differ for every list; a single example does not tell which of several nearby formulas is computed", "anchors": ["cont_fracs.py:eval_contfrac"]}
{"id": "C16", "title": "the two continued-fraction engines agree", "statement": "In exact arithmetic eval_dec_contfrac_by_polys(a, b, n+1) succeeds exactly when no inner tail vanishes, and then equals P_n/Q_n of ContFrac(a, b) after n iterations; a depth of 0 yields 1.", "quantifier": "all interlaced polynomials and depths", "why_tests_cant": "relates two different algorithms (matrix product and backward evaluation) at every depth, including which inputs fail", "anchors": ["cont_fracs.py:eval_dec_contfrac_by_polys", "cont_fracs.py:ContFrac.gen_iterations"]}
{"id": "C17", "title": "identical interlaced polynomials may be squeezed", "statement": "Replacing k >= 1 identical interlaced polynomials by a single one changes no coefficient a_i/b_i, hence no result of eval_dec_contfrac_by_polys at any precision and no state of ContFrac.", "quantifier": "all polynomials, interlace lengths, depths and precisions", "why_tests_cant": "must hold for every number of identical interlaced polynomials, every index and every precision", "anchors": ["enum_poly_params.py:BasicEnumPolyParams.polys_generator", "cont_fracs.py:ContFrac._default_promo_mat_gen"]}
{"id": "C18", "title": "is_convergence_fast is history independent and resets the object", "statement": "The answer of is_convergence_fast depends only on the coefficients (not on earlier iterations), and after it returns the object is as after gen_iterations(0).", "quantifier": "all fractions, all earlier histories, all cutoff/step settings >= 5", "why_tests_cant": "the answer must not depend on anything done with the object before; there are infinitely many such histories", "anchors": ["cont_fracs.py:ContFrac.is_convergence_fast"]}
{"id": "C19", "title": "compare_result", "statement": "compare_result returns |result - target| (or the signed difference), prefers the explicit target over the stored one, and raises ValueError if and only if there is neither.", "quantifier": "all results and targets", "why_tests_cant": "all pairs of results and targets, and the exact condition for the exception", "anchors": ["basic_representation_types.py:BasicRecursiveConstRepresenter.compare_result"]}
{"id": "C20", "title": "requested accuracy never increases the work", "statement": "gen_iterations(n, accuracy) executes at most n iterations whatever approach type, parameters and accuracy are set, and exactly n when the approach type is not exponential or accuracy is 0.", "quantifier": "all fractions, all convergence information, all accuracies", "why_tests_cant": "approach information, accuracy and number of iterations are arbitrary; a test sees the iterations of one combination", "anchors": ["basic_representation_types.py:BasicContFracAlgo.gen_iterations"]}
{"id": "C21", "title": "polynomial enumeration is sound and complete", "statement": "BasicEnumPolyParams.polys_generator yields exactly the coefficient tuples of the given ranges (identical interlaces squeezed to one) that pass the integer-root filter and, when requested and not interlaced, the degree filter deg b <= 2 deg a; in lexicographic order.", "quantifier": "all ranges, interlaces and filter settings", "why_tests_cant": "completeness over a product of ranges that grows exponentially with the degree: a test cannot list what is missing", "anchors": ["enum_poly_params.py:BasicEnumPolyParams.polys_generator"]}
{"id": "C22", "title": "polynomial enumeration never repeats", "statement": "The normal enumerator never yields the same (a, b) pair twice.", "quantifier": "all ranges and filter settings", "why_tests_cant": "no repetition in an enumeration of unbounded size and for every combination of filters", "anchors": ["enum_poly_params.py:BasicEnumPolyParams.polys_generator"]}
{"id": "C23", "title": "estimated enumeration length is an over-estimate", "statement": "For ranges with lower <= upper bound the length returned with the generator is at least the number of yielded items for the normal and indexed enumerators, and for the sparse one when nothing is interlaced; with interlaced sparse polynomials it can be too small.", "quantifier": "all ranges", "why_tests_cant": "an inequality between the announced length and the number of items for all ranges; the exceptions are rare combinations of interlaces and sizes", "anchors": ["enum_poly_params.py:_len_decorator", "enum_poly_params.py:SparseParameterEnumPolyParams.__init__"]}
{"id": "C24", "title": "indexed polynomials are expanded correctly", "statement": "The indexed enumerator turns coefficients (c_0..c_n) into the coefficient list of c_0 x^n + c_1 (x+1)^n + ... + c_n (x+n)^n.", "quantifier": "all coefficient lists and all evaluation points", "why_tests_cant": "an identity of polynomials of every degree, not of values at some points", "anchors": ["enum_poly_params.py:IndexedParameterEnumPolyParams.manipulate_poly"]}
{"id": "C25", "title": "sparse polynomials: every placement exactly once", "statement": "The sparse enumerator yields, for k coefficients and size n, every way of placing the coefficients in order at k of the n exponents, for every interlaced polynomial independently, each placement exactly once, and nothing else.", "quantifier": "all n, k, interlace lengths and coefficients", "why_tests_cant": "binomially many placements per polynomial and products over interlaces; both 'each exactly once' and 'nothing else' are statements about the whole list", "anchors": ["enum_poly_params.py:SparseParameterEnumPolyParams.manipulate_poly"]}
{"id": "C26", "title": "polynomial degree", "statement": "_polynom_degree(p) is the largest index of a nonzero coefficient, and -1 for the zero or empty polynomial.", "quantifier": "all coefficient lists", "why_tests_cant": "lists of any length with zeros at any positions", "anchors": ["enum_poly_params.py:BasicEnumPolyParams._polynom_degree"]}
{"id": "C27", "title": "factoring out powers of x", "statement": "_factor_out_polynom(p) returns the first maximal run of nonzero coefficients of p; this is p divided by its largest power of x (the documented result) exactly when p has no inner zero coefficient.", "quantifier": "all coefficient lists", "why_tests_cant": "whether the documented division by a power of x is what happens depends on the position of zeros in arbitrary lists", "anchors": ["enum_poly_params.py:BasicEnumPolyParams._factor_out_polynom"]}
{"id": "C28", "title": "integer-root filter on linear numerators", "statement": "For b(x) = x^k (c_0 + c_1 x) with nonzero c_0, c_1 of absolute value below 2^53 the integer-root test answers True exactly when b has a positive integer root.", "quantifier": "all such polynomials", "why_tests_cant": "about 2^106 pairs of coefficients, and the float division could round to an integer for some of them only", "anchors": ["enum_poly_params.py:BasicEnumPolyParams._does_have_integer_roots"]}
{"id": "C29", "title": "integer-root filter on quadratic numerators", "statement": "For b(x) = c_0 + c_1 x + c_2 x^2 (all nonzero) the test decides whether the reversed polynomial c_2 + c_1 x + c_0 x^2 has an integer root; consequently it both misses quadratics with positive integer roots and rejects quadratics without integer roots.", "quantifier": "all such polynomials with coefficients of absolute value below 2^20", "why_tests_cant": "float square roots over a huge domain; that the reversed polynomial is tested is invisible for many small examples", "anchors": ["enum_poly_params.py:BasicEnumPolyParams._does_have_integer_roots"]}
{"id": "C30", "title": "fixed-accuracy table behaves like a map on truncated keys", "statement": "For any sequence of assignments, look-ups and membership tests with text keys on a table whose accuracy was never changed, every answer is that of a plain map keyed by the first accuracy+2 characters.", "quantifier": "all operation sequences, keys and values", "why_tests_cant": "every sequence of operations must agree with a map; interactions of keys with common prefixes need particular histories", "anchors": ["decimal_hashtable.py:DecimalHashTable"]}
{"id": "C31", "title": "a stored value can be read back at every accuracy history", "statement": "Whatever accuracies were used before, after t[k] = v the look-up t[k] returns v; k in t is true exactly when t[k] succeeds; keys that differ from k at every accuracy used so far are unaffected.", "quantifier": "all tables reachable by any history, all keys", "why_tests_cant": "the table keeps the history of all accuracies; read-back must work after any sequence of changes", "anchors": ["decimal_hashtable.py:DecimalHashTable.__setitem__", "decimal_hashtable.py:DecimalHashTable.__getitem__"]}
{"id": "C32", "title": "accuracy updates can merge and lose entries", "statement": "After update_accuracy to a finer accuracy, assigning a key deletes the entry stored at any earlier accuracy under a common prefix, although the two keys are different numbers; an old coarse entry also shadows every finer one with the same prefix on look-up.", "quantifier": "all tables and keys", "why_tests_cant": "the loss happens only for particular keys after particular accuracy changes, and silently", "anchors": ["decimal_hashtable.py:DecimalHashTable.update_accuracy", "decimal_hashtable.py:DecimalHashTable.__setitem__"]}
{"id": "C33", "title": "del does not delete", "statement": "del t[k] removes the entry only if it was stored at an earlier accuracy; for an entry stored at the current accuracy it succeeds silently and leaves the table unchanged, and for an absent key it raises KeyError.", "quantifier": "all tables and keys", "why_tests_cant": "the effect of del depends on when the entry was stored; del succeeds silently, so a test that only calls it passes", "anchors": ["decimal_hashtable.py:DecimalHashTable.__delitem__"]}
{"id": "C34", "title": "pickling round-trip", "statement": "Serialising and de-serialising a table gives a table with the same accuracy, accuracy history and contents, including order and entries stored under raw keys.", "quantifier": "all tables", "why_tests_cant": "contents, order and accuracy history are arbitrary, including keys that were never truncated", "anchors": ["decimal_hashtable.py:DecimalHashTable.__reduce__", "decimal_hashtable.py:DecimalHashTable.__setstate__"]}
{"id": "C35", "title": "joining tables keeps every entry", "statement": "append_dict refuses tables of different accuracy without changing anything; otherwise the keys are the union, each common key holds the entries of both lists in order, and every other value is unchanged; the appended table is not modified.", "quantifier": "all pairs of tables", "why_tests_cant": "arbitrary pairs of tables with arbitrary overlaps; that the appended one is unchanged needs all aliasing cases", "anchors": ["decimal_hashtable.py:DecimalHashTable.append_dict", "join_hashtables.py:main"]}
{"id": "C36", "title": "entries made by the builder are invisible to look-ups", "statement": "The builder stores entries through get/setdefault under the untruncated number, which membership tests and indexing (that search truncated text) never find; hence find_clicks on a table filled by build_hashtable reports no click, whatever the enumerated left-hand sides.", "quantifier": "all enumerations, all left-hand sides, all renderings of numbers", "why_tests_cant": "a negative statement: no enumeration and no left-hand side whatsoever gives a click", "anchors": ["enum_params.py:MITM._iter2hashtalbe", "enum_params.py:MITM.find_clicks", "decimal_hashtable.py:DecimalHashTable"]}
{"id": "C37", "title": "table look-up and comparison use the same digits", "statement": "Two numbers fall on the same key of a table of accuracy n exactly when compare_dec_with_accuracy(.., n) holds; for Decimal values rendered without exponent, equal keys imply that the values differ by less than 10^-(n+2-d) where d is the number of characters up to and including the decimal point, but values below 10^-6 can share a key while differing by orders of magnitude.", "quantifier": "all decimal values and accuracies", "why_tests_cant": "two different renderings of digits must coincide for every number; the exceptions are numbers below 10^-6", "anchors": ["decimal_hashtable.py:DecimalHashTable._manipulate_key", "enum_params.py:MITM.compare_dec_with_accuracy"]}
{"id": "C38", "title": "ULCD value follows the parameters", "statement": "After any sequence of reinit_params/flip_sign/add_int the value of a ULCD object is (u/x + x/l + c)/d of its current parameters; in exact arithmetic flip_sign negates it and add_int(i) adds i.", "quantifier": "all parameter tuples, constants and operation sequences", "why_tests_cant": "an invariant over all sequences of operations and parameters, and two identities in exact arithmetic", "anchors": ["lhs_evaluators.py:ULCDEvaluator"]}
{"id": "C39", "title": "ULCD enumeration is exact", "statement": "ULCDEnumerator.generator yields exactly the tuples of the ranges with d != 0, l != 0, |c| < |d|, in product order, and len() is at least the number of yields.", "quantifier": "all ranges in all accepted formats", "why_tests_cant": "exactness of an enumeration over arbitrary ranges in each accepted format", "anchors": ["lhs_evaluators.py:ULCDEnumerator"]}
{"id": "C40", "title": "skipping |c| >= |d| loses nothing up to an integer", "statement": "Every tuple skipped because |c| >= |d| has a representative with |c'| < |d| whose value differs from it by an integer; if the c range is an interval containing 0 and the d range is arbitrary, this representative is itself enumerated.", "quantifier": "all tuples, constants and c intervals", "why_tests_cant": "for every skipped tuple the existence of another one that is not skipped, over unbounded ranges", "anchors": ["lhs_evaluators.py:ULCDEnumerator.generator"]}
{"id": "C41", "title": "ULCD equivalence is sound", "statement": "If ULCDEvaluator.is_equiv answers True for two results then their continued fractions are equal up to sign at every depth and their left-hand sides have equal absolute value at every nonzero constant (in exact arithmetic; with parameters below 2^25 also with the float ratio the code uses).", "quantifier": "all pairs of results", "why_tests_cant": "soundness for all pairs of results at every depth and every constant; testing can only compare values at finite precision", "anchors": ["lhs_evaluators.py:ULCDEvaluator.is_equiv"]}
{"id": "C42", "title": "copied left-hand sides are snapshots", "statement": "The enumerator re-uses one ULCD object; each click nevertheless keeps the parameters and value current when it was recorded, whatever the enumerator does later.", "quantifier": "all enumerations", "why_tests_cant": "aliasing: a wrong copy shows only after later steps of the enumeration, for arbitrary such steps", "anchors": ["lhs_evaluators.py:ULCDEnumerator.generator", "lhs_evaluators.py:LHSEvaluator.__init__", "enum_params.py:MITM.find_clicks"]}
{"id": "C43", "title": "rational LHS value follows the parameters", "statement": "After any sequence of flip_sign/add_int/canonalize_params the value of a rational-function object is p(x)/q(x) + added_int of its current parameters; flip_sign negates it and add_int(n) adds n. A call that ends with an exception leaves the value as it was, though possibly not the parameters: after reinit_params with an empty numerator the value is the one of the old parameters.", "quantifier": "all polynomials, constants and operation sequences", "why_tests_cant": "an invariant over all sequences of operations and all polynomials", "anchors": ["lhs_evaluators.py:RationalFuncEvaluator"]}
{"id": "C44", "title": "canonical form preserves the function and is idempotent", "statement": "canonalize_params never changes the rational function p/q + n, reduces p, q to coprime polynomials, leaves the free coefficient of the quotient in (-1, 0], and running it again changes nothing.", "quantifier": "all polynomials with q != 0", "why_tests_cant": "polynomials of any degree; equality as rational functions and idempotence cannot be sampled", "anchors": ["lhs_evaluators.py:RationalFuncEvaluator.canonalize_params"]}
{"id": "C45", "title": "degenerate means constant", "statement": "is_degenerate() of a rational function answers True exactly when p/q is a constant function.", "quantifier": "all polynomials with q != 0", "why_tests_cant": "'constant as a function' quantifies over all x, and the equivalence over all polynomials", "anchors": ["lhs_evaluators.py:RationalFuncEvaluator.is_degenerate"]}
{"id": "C46", "title": "rational enumeration is exact", "statement": "RationalFuncEnumerator.generator yields exactly the coefficient pairs of the ranges with p, q not zero, not both constant, deg p >= deg q if requested, and nonzero values at the constant; len() is at least the number of yields for well-formed ranges.", "quantifier": "all ranges and constants", "why_tests_cant": "exactness of an enumeration over arbitrary ranges, with filters on degrees and values", "anchors": ["lhs_evaluators.py:RationalFuncEnumerator"]}
{"id": "C47", "title": "rational equivalence ignores the denominator", "statement": "If RationalFuncEvaluator.is_equiv answers True for two results with equal canonical denominators (and the same post-processing function) their functions differ by a constant; without equal denominators the answer True is unsound (1/x and 1/(x+1) are 'equivalent').", "quantifier": "all pairs of results", "why_tests_cant": "soundness over all pairs of results; the counterexample needs different denominators", "anchors": ["lhs_evaluators.py:RationalFuncEvaluator.is_equiv"]}
{"id": "C48", "title": "table building records exactly the enumerated values", "statement": "After build_hashtable every entry ((a,b), f) is stored under the fractional part of |f(cf(a,b))| for an enumerated pair, every enumerated pair with a normal value is recorded for every selected post-processing function, no entry is recorded twice under a key, and earlier entries are kept.", "quantifier": "all enumerations, previous tables and function selections", "why_tests_cant": "the whole contents of a table for arbitrary ranges, previous contents and function selections", "anchors": ["enum_params.py:MITM._iter2hashtalbe", "enum_params.py:MITM.build_hashtable"]}
{"id": "C49", "title": "re-building is idempotent", "statement": "Running build_hashtable again over ranges already covered leaves the table unchanged, with or without validate_entry_doesnt_exist (the black-list never skips any work).", "quantifier": "all tables and ranges", "why_tests_cant": "idempotence for every table and every covered range; the useless black-list has no visible effect in one run", "anchors": ["enum_params.py:MITM._iter2hashtalbe"]}
{"id": "C50", "title": "clicks are exactly the table hits", "statement": "find_clicks reports, for every enumerated left-hand side in order that is not degenerate and whose truncated fractional absolute value is a key of the table, one click per entry stored there, and nothing else.", "quantifier": "all tables, left-hand sides and renderings", "why_tests_cant": "completeness of a search over arbitrary tables and left-hand sides: a missing click is not noticed", "anchors": ["enum_params.py:MITM.find_clicks"]}
{"id": "C51", "title": "refinement keeps only matching clicks", "statement": "A refinement round keeps, in order, exactly the clicks whose recomputed right-hand side is normal and agrees with the left-hand side in the requested digits; left-hand sides of survivors get the sign of the right-hand side.", "quantifier": "all click lists, evaluators and accuracies", "why_tests_cant": "kept clicks, dropped clicks and changed signs for arbitrary lists and precisions", "anchors": ["enum_params.py:MITM._refine_clicks"]}
{"id": "C52", "title": "integer adjustment during refinement", "statement": "For a survivor the adjusted left-hand side is within 1 of the right-hand side and differs from the old one (up to sign) by an integer; because the difference is truncated rather than rounded it can be off by one even though the fractional digits agree.", "quantifier": "all survivors", "why_tests_cant": "the off-by-one shows only for values on opposite sides of an integer", "anchors": ["enum_params.py:MITM._refine_clicks"]}
{"id": "C53", "title": "duplicate filtering keeps one representative", "statement": "filter_uniq_params returns a sub-list, in order, in which no later element is equivalent to an earlier one, every dropped element is equivalent to a kept earlier one, and a second application changes nothing.", "quantifier": "all lists and all equivalence tests", "why_tests_cant": "arbitrary lists and arbitrary (not necessarily transitive) equivalence tests", "anchors": ["enum_params.py:MITM.filter_uniq_params"]}
{"id": "C54", "title": "filtering by convergence type", "statement": "filter_clicks_by_approach_type raises ValueError exactly when none or both of the lists are given (empty counts as not given) and otherwise keeps, in order, exactly the clicks whose estimated type is in the white list (not in the black list), annotating them; clicks whose estimation fails are printed and dropped. Only an interrupt, a fraction that cannot be built or a failure of that printing (when the value of the left-hand side has no text) ends the filtering otherwise, and then all clicks stay.", "quantifier": "all lists, all estimates", "why_tests_cant": "all combinations of lists, estimates and failing estimates", "anchors": ["enum_params.py:MITM.filter_clicks_by_approach_type"]}
{"id": "C55", "title": "integer-root filter on results", "statement": "filter_pos_integer_roots_numerators drops a click exactly when some numerically real positive root r of some b has r - round(r) < 0.001; since no absolute value is taken it drops every root with fractional part above 1/2, such as 8/5.", "quantifier": "all root lists", "why_tests_cant": "the error shows only for roots with a fractional part above 1/2, in exactly the direction that a test with integer roots does not see", "anchors": ["enum_params.py:MITM.filter_pos_integer_roots_numerators"]}
{"id": "C56", "title": "splitting a job partitions the search space", "statement": "split_params([a, b], k) either raises ValueError or returns 2^k non-empty jobs whose coefficient tuples partition those of the original ranges: every tuple belongs to exactly one job (bounds below 2^52 in absolute value; beyond, float rounding breaks it).", "quantifier": "all ranges and k", "why_tests_cant": "a partition of a product of unbounded ranges into exponentially many jobs; float rounding matters only for huge bounds", "anchors": ["distribute_run.py:split_params"]}
{"id": "C57", "title": "distributed runs find the same entries", "statement": "Building a table for each job of a split and joining them with append_dict gives, for every key, the same set of entries as one table built over the whole range.", "quantifier": "all ranges and split depths", "why_tests_cant": "the equality of two tables over all ranges and split depths, each of which takes long to compute", "anchors": ["distribute_run.py:split_params", "join_hashtables.py:main", "decimal_hashtable.py:DecimalHashTable.append_dict"]}
{"id": "C58", "title": "table file versions", "statement": "'use'/'expand' choose an existing version whenever one exists; 'generate' chooses a file that does not exist as long as all existing versions have one digit (below 9), but from version 10 on lexicographic order makes it pick an existing file, which is then overwritten.", "quantifier": "all directory listings", "why_tests_cant": "arbitrary directory listings; the overwriting starts with the tenth version", "anchors": ["configfile.py:ConfigParser._gen_hashtable_filename", "main.py:main"]}
{"id": "C59", "title": "post-processing selection survives save and load", "statement": "Writing the post-processing indices to a configuration and reading it back yields the same indices, for every list of valid indices.", "quantifier": "all index lists", "why_tests_cant": "a round trip for every list of indices", "anchors": ["configfile.py:ConfigParser.set", "configfile.py:ConfigParser._gen_postproc_funcs_filter"]}
{"id": "C60", "title": "inverse pairs", "statement": "INVERSE_POSTPROC_PAIRS relates exactly functions 2k and 2k+1 (both ways), and function 2k+1 is the safe inverse of function 2k at every argument.", "quantifier": "all function indices and arguments", "why_tests_cant": "a relation between all pairs of functions at every argument", "anchors": ["postprocfuncs.py:INVERSE_POSTPROC_PAIRS", "postprocfuncs.py:POSTPROC_FUNCS"]}
{"id": "C61", "title": "LaTeX continued fraction denotes the fraction", "statement": "latex_cont_frac(a, b) renders a_0 + b_1/(a_1 + b_2/(... + b_n/(a_n + dots))) for all coefficient lists of equal length >= 1.", "quantifier": "all lists", "why_tests_cant": "what a text denotes, for lists of any length", "anchors": ["latex.py:latex_cont_frac"]}
{"id": "C62", "title": "LaTeX equation of a ULCD left-hand side", "statement": "The LaTeX expression of a ULCD object denotes (u/x + x/l + c)/d for all parameters with l, d nonzero.", "quantifier": "all parameters", "why_tests_cant": "what a text denotes, for all integers and every constant", "anchors": ["lhs_evaluators.py:ULCDEvaluator.get_latex_exp"]}
{"id": "C63", "title": "cleaning a table of integer-root numerators", "statement": "The fix script writes a new file (_fixed before the extension) and never changes the file it reads. For a table with settings and text keys that address themselves, the new table has lost exactly the entries one of whose b polynomials is flagged by the integer-root test, keeps the order of the others, has no empty lists and the same settings; for b polynomials of degree one (times a power of the variable) those are the entries with a positive integer root, for quadratics they are not. A table without settings, and with mpf numbers any table with a numeric key (as every table built by the program has), makes the script raise without writing.", "quantifier": "all tables", "why_tests_cant": "deleting by position while iterating goes wrong only for particular arrangements of flagged entries in arbitrary tables", "anchors": ["fix_hashtable_filter_init_b_root.py:main"]}
{"id": "C64", "title": "indexed constants cannot be generated", "statement": "gen_zeta_consts(i), gen_feig_consts(i) and gen_percolation_consts(i) raise TypeError for every i and change the working precision to i digits when i is not 0.", "quantifier": "all i", "why_tests_cant": "every index fails, and the state of the library changes even though the call fails", "anchors": ["gen_consts.py:set_precision_decor", "gen_consts.py:gen_zeta_consts"]}
{"id": "C65", "title": "reinitialize takes effect at the next gen_iterations", "statement": "After reinitialize(a', b') on an object of any history, gen_iterations(n) behaves exactly like on a fresh object for a', b' (except that the approach information is reset); until gen_iterations is called, add_iterations continues the OLD fraction, so add_iterations right after reinitialize does not yield convergents of the new fraction.", "quantifier": "all coefficient lists, all histories, all n", "why_tests_cant": "an object with an arbitrary past must behave like a new one, for every n", "anchors": ["cont_fracs.py:ContFrac.reinitialize", "basic_representation_types.py:BasicRecursiveConstRepresenter.reinitialize"]}
{"id": "C66", "title": "convergence estimation terminates", "statement": "estimate_approach_type_and_params terminates for every fraction, every argument triple and whatever each sampling pass is classified as; at most log2(initial_cutoff) + 9 sampling rounds are executed in each loop.", "quantifier": "all fractions, all integer arguments, all classification outcomes", "why_tests_cant": "non-termination cannot be observed by tests, and the bound is over all fractions and all outcomes of the classification", "anchors": ["cont_fracs.py:ContFrac.estimate_approach_type_and_params"]}
{"id": "C67", "title": "enumerated fractions do not depend on what was enumerated before", "statement": "With should_gen_contfrac the object yielded with each (a, b) pair is, at that moment, exactly a freshly built fraction of that pair after num_of_iterations iterations, although one object is reused for the whole enumeration; its value approximates the convergent of that pair; the pairs left out (beyond the filters) are exactly those with a zero partial numerator within the iterations when avoid_zero_b is set.", "quantifier": "all ranges, interlaces, settings and precisions", "why_tests_cant": "one object is reused during the whole enumeration; leftovers would depend on everything enumerated before", "anchors": ["enum_poly_params.py:BasicEnumPolyParams.polys_generator", "cont_fracs.py:ContFrac.reinitialize"]}
{"id": "C68", "title": "ULCD equivalence is not symmetric", "statement": "A ULCD result whose parameters are a multiple (ku, l/k, kc, kd) of another one is recognised as equivalent when it comes first; in the opposite order the float ratio makes the test answer False for some multiples (k = 49), so two equal results can both survive duplicate filtering.", "quantifier": "all multiples with parameters below 2^53; a concrete counterexample for the other order", "why_tests_cant": "needs rounding analysis of the float ratio for all parameters", "anchors": ["lhs_evaluators.py:ULCDEvaluator.is_equiv"]}
{"id": "C69", "title": "the ULCD degeneracy flag rejects non-constant expressions", "statement": "No ULCD expression (u/x + x/l + c)/d is constant as a function of x; nevertheless is_degenerate answers True, exactly for (u, l) = (1, -1) or (-1, 1), and such clicks are dropped.", "quantifier": "all parameters", "why_tests_cant": "'not constant as a function' quantifies over all x, and the answer True is wrong for every constant", "anchors": ["lhs_evaluators.py:ULCDEvaluator.is_degenerate", "enum_params.py:MITM.find_clicks"]}
{"id": "C70", "title": "what the fast-convergence test decides", "statement": "is_convergence_fast(iterations, cutoff, step) answers True exactly when, at every sampled position cutoff, cutoff+step, ... (as long as a whole step still fits), the distance between the convergents two apart shrinks by a factor below 16/17, for both the even and the odd subsequence; the answer does not depend on the earlier use of the object. The documented lower limit on the step size is not enforced.", "quantifier": "all fractions, all histories, all cutoffs >= 1 and step sizes >= 5 with non-vanishing denominators", "why_tests_cant": "an equivalence between the answer and a condition on all sampled convergents, for all fractions and histories", "anchors": ["cont_fracs.py:ContFrac.is_convergence_fast"]}
{"id": "C71", "title": "rational left-hand sides need Decimal constants", "statement": "With an mpmath target constant (which is what the constants module supplies) no rational-function object can be constructed (AttributeError), and enumerating rational functions raises AttributeError as soon as one coefficient pair passes the coefficient filters, whatever the constant is.", "quantifier": "all parameters, ranges and constants", "why_tests_cant": "that no object at all can be constructed is a statement about all parameters", "anchors": ["lhs_evaluators.py:RationalFuncEvaluator._calc_val", "lhs_evaluators.py:RationalFuncEnumerator.generator"]}
{"id": "C72", "title": "copies of rational left-hand sides", "statement": "A copy of a rational-function object has the same function and value as the original after any sequence of flip_sign/add_int/canonalize_params; after reinit_params it is made from the outdated parameters.", "quantifier": "all parameters and operation sequences", "why_tests_cant": "arbitrary sequences of operations on original and copy; only one of the operations breaks the copy", "anchors": ["lhs_evaluators.py:LHSEvaluator.__init__", "lhs_evaluators.py:RationalFuncEvaluator.reinit_params"]}
{"id": "C73", "title": "LaTeX of a rational left-hand side", "statement": "The LaTeX text of a rational-function object denotes its function p/q + n when the canonical degrees are at most 9; from degree 10 on the exponent is not braced and the text denotes something else; get_latex_exp raises (IndexError) only when p/q is an integer constant.", "quantifier": "all polynomials, histories and constant names other than '1'", "why_tests_cant": "what a text denotes, for polynomials of any degree; the exponents go wrong from degree 10 on", "anchors": ["lhs_evaluators.py:RationalFuncEvaluator.get_latex_exp"]}
{"id": "C74", "title": "changing the settings of a search object", "statement": "redefine_settings keeps the precision and the table and empties the list of clicks, but it does not always build the enumerator of the requested class: switching back to the normal class from a derived one keeps the old enumerator, and so does changing only the sizes of a sparse enumerator.", "quantifier": "all settings and states", "why_tests_cant": "arbitrary earlier settings and states; the stale enumerator appears for some changes of class only", "anchors": ["enum_params.py:MITM.redefine_settings"]}
{"id": "C75", "title": "an exception of a post-processing function can be masked", "statement": "If a post-processing function raises while the table is built and no earlier key was computed in that call (no validation pass, or an empty table), build_hashtable raises UnboundLocalError instead; otherwise the original exception reaches the caller. Either way the entries written before stay.", "quantifier": "all tables, enumerations and functions", "why_tests_cant": "which exception is seen depends on what was computed before the failing function in the same call", "anchors": ["enum_params.py:MITM.build_hashtable"]}
{"id": "C76", "title": "tables with less than 8 digits cannot be extended", "statement": "With hashtable_prec below 8 the stored 'parameters' entry lives under a truncated key, and a later build over a table that already has one raises ValueError in its validation pass; from 8 digits on the entry is harmless.", "quantifier": "all tables and precisions", "why_tests_cant": "depends on the number of digits and on the table being extended a second time", "anchors": ["enum_params.py:MITM.build_hashtable", "decimal_hashtable.py:DecimalHashTable"]}
{"id": "C77", "title": "the processing stages after the search never invent results", "statement": "Whatever sequence of refinements and filters (uniqueness, exponential convergence, approach type, roots of b) is run after find_clicks, the result is a sub-list of the clicks found, in the same order, with the same fractions and post-processing functions; with exact arithmetic every remaining ULCD left-hand side equals the one found up to sign and an added integer.", "quantifier": "all sequences of stages, all parameters, all click lists", "why_tests_cant": "arbitrary sequences of filters over arbitrary lists of clicks", "anchors": ["enum_params.py:MITM._refine_clicks", "enum_params.py:MITM.filter_uniq_params", "enum_params.py:MITM.filter_only_exp_convergence", "enum_params.py:MITM.filter_clicks_by_approach_type", "enum_params.py:MITM.filter_integer_roots_numerators"]}
{"id": "C78", "title": "the exponential-convergence filter", "statement": "filter_only_exp_convergence keeps exactly the clicks whose freshly built fraction passes the fast-convergence test with 600 iterations, cutoff 200 and step 50; if the test raises for one click (for instance on a zero partial numerator), the exception reaches the caller and no click is removed. Asking for the surprising fractions to be printed gives the same result, unless classifying a fraction that fails the test, or making the text of its left-hand side, raises: then that exception reaches the caller and no click is removed.", "quantifier": "all click lists and precisions", "why_tests_cant": "all fractions, and the whole list must survive a failure in its middle", "anchors": ["enum_params.py:MITM.filter_only_exp_convergence", "cont_fracs.py:ContFrac.is_convergence_fast"]}
{"id": "C79", "title": "which post-processing functions work", "statement": "The trigonometric post-processing functions (numbers 12 to 19) always raise NameError; with mpf values (which is what the fractions produce) exactly the functions number 0, 2, 4, 6, 8 and 10 give a value and all the others raise AttributeError. A table build with a filter containing a function that does not work, such as the default filter (0, 1, 2, 10), raises as soon as a fraction with a non-zero value is enumerated.", "quantifier": "all 24 functions, all values, all searches", "why_tests_cant": "24 functions at every value; 'always raises' is not a finite observation", "anchors": ["postprocfuncs.py:POSTPROC_FUNCS", "postprocfuncs.py:safe_inverse", "enum_params.py:MITM.build_hashtable"]}
{"id": "C80", "title": "results as equations", "statement": "get_results_as_eqns gives one equation per result, in order, leaving out exactly the results whose fraction has a zero partial numerator among the first 400 (when asked to ignore them). Each equation has the LaTeX of the left-hand side on the left and, on the right, the post-processing function applied to the fraction of the first five coefficients; the exceptions are the functions exp and ln (20 and 22), whose equations state something else, and the square roots (10 and 11): one such result makes the whole export raise ValueError. With mpf values every equation that is produced is right.", "quantifier": "all result lists, coefficient lists and constant names", "why_tests_cant": "which results are left out depends on 400 partial numerators of each; what the texts denote is a semantic statement", "anchors": ["enum_params.py:MITM.get_results_as_eqns", "postprocfuncs.py:POSTPROC_FUNCS_LATEX", "latex.py:latex_cont_frac"]}
{"id": "C81", "title": "csv export", "statement": "With mpf values export_to_csv raises AttributeError, before a file is written, for every non-empty list of results. With a number type that has to_eng_string, a written file has one row per result, in order, with its polynomials, function, left-hand side and convergence information, and the value of the function at the 400th convergent.", "quantifier": "all result lists and precisions", "why_tests_cant": "arbitrary result lists and both kinds of number types; the order of failure and writing matters", "anchors": ["enum_params.py:MITM.export_to_csv", "lhs_evaluators.py:LHSEvaluator.__str__"]}
{"id": "C82", "title": "the configuration saved with the results", "statement": "The configuration file written beside the results of a run cannot be loaded again: for every loaded configuration that has a left-hand side type, writing all its settings succeeds and reading them back raises ValueError. Without a left-hand side type, and when the JSON lists hold integers only, everything comes back equal, except that the version of the table file is chosen anew. What is written for the left-hand side is the text that python shows for its two classes. Lists with texts do not come back: the texts are written with apostrophes.", "quantifier": "all configuration files and directory contents", "why_tests_cant": "a round trip over all configuration files", "anchors": ["main.py:main", "configfile.py:ConfigParser.__init__", "configfile.py:ConfigParser.set"]}
{"id": "C83", "title": "loading a configuration", "statement": "A configuration loads only if it gives hashtable_file, hashtable_file_operation (generate, expand or use) and postproc_funcs_filter; the function indices are the positions of the functions named, an unknown name raises; every other missing setting becomes None, so that the defaults declared for the optional ones (i = 0, is_test = False, validate... = True) are never used. Every setting given once is read with its own type: numbers as integers, yes-or-no settings as booleans, polynomial types by name, ranges as lists.", "quantifier": "all configuration files and directory contents", "why_tests_cant": "all texts of all settings, including missing and unknown ones", "anchors": ["configfile.py:ConfigParser.__init__", "configfile.py:ConfigParser._gen_postproc_funcs_filter"]}
{"id": "C84", "title": "which table files a run changes", "statement": "A run changes at most the table file named by its (version-resolved) settings, and none with the operation 'use'. Generating either stops without effect or writes a table whose numeric keys hold exactly the values of the enumerated fractions under the selected functions; expanding keeps everything that was there and adds exactly the new values, computed with the number of iterations stored in the old table. For the normal polynomial class the enumerated fractions are exactly those of the configured ranges that pass the filters.", "quantifier": "all settings, libraries, disks and outcomes", "why_tests_cant": "a frame condition: everything else on an arbitrary disk must be unchanged after any outcome", "anchors": ["main.py:main", "enum_params.py:MITM.build_hashtable"]}
{"id": "C85", "title": "versions of table files in whole runs", "statement": "Expanding never creates a file: it overwrites the version it has loaded, contrary to the comment in the settings file that promises the next version. Generating overwrites an existing version once there are ten of them.", "quantifier": "all runs (expanding); a concrete run (generating)", "why_tests_cant": "the outcome depends on which versions the earlier runs have left", "anchors": ["main.py:main", "configfile.py:ConfigParser._gen_hashtable_filename"]}
{"id": "C86", "title": "the constant of a run", "statement": "A constant that is not in the list is refused with ValueError before anything else happens; feig and percolation are always refused with NameError although they are listed; with zeta a table can be made but no search ever ends without an exception. Results are reported under the configured name, except with 'use', where the stored name and constant count and the configured ones are ignored.", "quantifier": "all settings and disks", "why_tests_cant": "all settings and disks; two of the listed constants never work", "anchors": ["main.py:main", "gen_consts.py"]}
{"id": "C87", "title": "whole histories of runs never report a result", "statement": "Starting from a disk without tables, no sequence of runs whatsoever, with any settings, ever writes a result row or equation, even if the number type had every method the code calls. With mpmath numbers, every search that has at least one left-hand side to try ends with an exception and writes nothing.", "quantifier": "all sequences of runs, all settings, all outcomes", "why_tests_cant": "an invariant over all histories of runs, each of which takes hours", "anchors": ["main.py:main", "enum_params.py:MITM.find_clicks", "decimal_hashtable.py:DecimalHashTable"]}
{"id": "C88", "title": "interrupting the last refinement", "statement": "A keyboard interrupt in the last refinement, after n results have been looked at, keeps the whole list: results that were confirmed have their left-hand side adjusted, results that were found wrong stay unchanged in the list, and so do those that were not reached.", "quantifier": "all result lists, functions, precisions and moments of the interrupt between two results", "why_tests_cant": "the state after an interrupt at any of the possible moments in lists of any length", "anchors": ["main.py:main", "enum_params.py:MITM._refine_clicks"]}
{"id": "C89", "title": "the files of a search", "statement": "A search that ends without an exception creates the directory of its minute and exactly the four files results.csv, results.tex, results.pdf and config.ini, leaving every other file as it was. A second search in the same minute, or one during which the minute changes, writes nothing and raises; but if the directory of the next minute already exists, the results in it are overwritten.", "quantifier": "all runs, disks and clock readings", "why_tests_cant": "depends on the clock during the run; a collision needs two runs in the same minute", "anchors": ["main.py:main", "latex.py:generate_latex"]}
{"id": "C90", "title": "repeating a search from its saved settings", "statement": "No search can be repeated: for every search run that ends without an exception, running the program with the config.ini saved beside its results stops with ValueError and has no effect.", "quantifier": "all successful searches, all later disks", "why_tests_cant": "every successful search with every setting, and all later states of the disk", "anchors": ["main.py:main", "configfile.py:ConfigParser.__init__"]}
{"id": "C91", "title": "runs that only make a table", "statement": "With gen_hashtable_only no results directory or file is made. The setting counts as given for every text except 'false', 'none', an empty text, and 'auto' together with 'use', so that 'no' or '0' also suppress the search.", "quantifier": "all settings files and runs", "why_tests_cant": "every possible text of a setting, most of which nobody tries", "anchors": ["main.py:main", "configfile.py:ConfigParser.__init__"]}
{"id": "C92", "title": "settings without effect", "statement": "validate_hashtable_extend_no_replication and is_test never influence a run; hashtable_num_of_iterations has no influence when a table is expanded; and with 'use' the constant (if it is a working one), its index, the polynomial class, the ranges, the precision and the list of functions have none. Two runs that differ only there have the same outcome, tables, directories and files, apart from the saved settings. The same holds for print_surprising_nonexp_contfracs unless the classification of a fraction to be printed, or the text of a left-hand side, raises: then the run ends with that exception, with the same table and without results.", "quantifier": "all pairs of settings, all disks and libraries", "why_tests_cant": "a relation between two runs, for all settings", "anchors": ["main.py:main", "enum_params.py:MITM.__init__", "enum_params.py:MITM.redefine_settings"]}
{"id": "C93", "title": "generating with functions that do not work", "statement": "If the list of functions contains one that does not work with mpmath numbers (any inverse, trigonometric, exponential or logarithmic one), generating a table raises and writes nothing as soon as the ranges contain one fraction with a value other than zero.", "quantifier": "all settings, ranges and libraries", "why_tests_cant": "all ranges and function lists; the failure comes after the values of hours of work", "anchors": ["main.py:main", "postprocfuncs.py:safe_inverse", "enum_params.py:MITM.build_hashtable"]}
{"id": "C94", "title": "iterating with a progress bar", "statement": "A loop over ProgressBar(items) with a non-zero (estimated) length sees every item, in order (with its position if asked for), and ends normally, whatever the clock shows and however often the display is updated. Outside of this the bar is not transparent: a loop over an empty iterable raises AttributeError instead of ending; a start other than 0 raises AttributeError at the first item; a missing length is reported as UnboundLocalError, never as the documented ValueError; an estimated length of 0 raises ZeroDivisionError when the first update is due, after exactly the items before it.", "quantifier": "all item lists, lengths, update periods and clock readings", "why_tests_cant": "all clock histories, lengths and update periods; the faults appear for empty or zero lengths only", "anchors": ["utils.py:ProgressBar.__new__", "utils.py:ProgressBar.__next__"]}
{"id": "C95", "title": "what a progress bar shows", "statement": "With a clock that does not run backwards and an estimated length that is not too small, exactly one line is printed at the first item, one update at each position where more than the update period has passed since the last one, and one line at the end. Every update shows a percentage from 0 to 99 (the integer part of 100 i / length), a time left that is not negative and the time passed since the first item. The number of updates times the period is at most the time passed.", "quantifier": "all item lists, lengths, update periods and clock histories", "why_tests_cant": "what is displayed depends on the whole history of the clock", "anchors": ["utils.py:ProgressBar.__next__"]}
{"id": "C96", "title": "geometric convergence is recognised", "statement": "If the results of a representation approach a limit geometrically, x_i = L + c (s r)^-i with s = 1 or -1, c not zero and r^2 above the threshold (1.1 as a float), then the estimate from six or more sampled positions is 'exp' with base r and coefficient |c|, in exact arithmetic, wherever the positions are.", "quantifier": "all limits, coefficients, ratios, signs and lists of positions", "why_tests_cant": "infinitely many sequences: all limits, coefficients, ratios and positions, in exact arithmetic", "anchors": ["cont_fracs.py:ContFrac._estimate_approach_type_and_params_inner_alg"]}
{"id": "C97", "title": "how the speed of convergence is decided", "statement": "Let the factor at a position be the distance of the results i and i+2 divided by that of i+2 and i+4. With rounding errors that are small for the number of samples: if all factors lie in an interval [lo, hi] with lo at least 1.2 and hi at most 1.4 lo, the answer is 'exp' with a base whose square is in that interval up to 3 percent; if all factors are at least 2.1 the answer is 'exp' or 'super_exp', without an exception; 'exp' and 'super_exp' are answered only if both subsequences have a factor above 1.08; if the factors of one subsequence are near a value of at least 1.2 and those of the other near one of at most 1.08, the answer is 'mixed'; if all are near one value of at most 1.08 the answer is 'poly' or ValueError; and 'poly' is only answered if all positions are positive and no distance is zero.", "quantifier": "all sequences of results, sampled positions and roundings", "why_tests_cant": "infinitely many sequences and all roundings within a bound; tests see one precision", "anchors": ["cont_fracs.py:ContFrac._estimate_approach_type_and_params_inner_alg"]}
{"id": "C98", "title": "results that stopped changing", "statement": "The answer 'fast' means that fewer than six factors are usable and the last three distances of both subsequences are below the working precision, and conversely these conditions give 'fast'. With fewer than six usable factors there are never parameters, and the answer is None, 'undefined' or 'fast'. If six factors are usable in the even subsequence but none in the odd one, the estimate raises ZeroDivisionError.", "quantifier": "all sequences of results, sampled positions and roundings", "why_tests_cant": "infinitely many sequences, and an equivalence of the answer with a condition on the last samples", "anchors": ["cont_fracs.py:ContFrac._estimate_approach_type_and_params_inner_alg"]}
{"id": "C99", "title": "the estimate of a continued fraction", "statement": "With a step of at least 5 the estimate looks at the convergents number cutoff, cutoff + step, ... up to iters, each with its five successors, whatever was done with the object before; so a fraction whose computed convergents get closer by a steady factor of at least 1.2 is reported as 'exp' with the square root of that factor as base. With a cutoff of 0 polynomial convergence is never reported.", "quantifier": "all fractions, histories of calls, iterations, cutoffs, steps and roundings", "why_tests_cant": "all fractions, histories and parameters of the estimate, and all roundings", "anchors": ["cont_fracs.py:ContFrac.estimate_approach_type_and_params", "cont_fracs.py:ContFrac._estimate_approach_type_and_params_inner_alg"]}
{"id": "C100", "title": "splitting a search into jobs", "statement": "distribute_run on a settings file in the working directory, with a number of parts 2^k that the ranges of the first polynomials allow, creates the directory <name>_dist_<parts> and in it exactly the files <name>_0 ... <name>_<parts-1>, changes nothing else on the disk, and the ranges of the files are a partition of the search space. Every job has the settings of the whole search, except for its ranges and its table file, which gets the suffix _partNN. This holds for settings without a left-hand side; with one, every job file is refused with ValueError. Too many parts raise ValueError after the directory is made but before a file is; a number of parts that is not a power of two raises ValueError without effect. run_distributed_configs starts exactly one run per job file.", "quantifier": "all settings files, ranges, numbers of parts and disks", "why_tests_cant": "all ranges and numbers of parts, and that nothing else on the disk changes", "anchors": ["distribute_run.py:main", "distribute_run.py:split_params", "run_distributed_configs.py:main"]}
{"id": "C101", "title": "splitting a search from another directory", "statement": "distribute_run on a settings file given by a relative path with a directory creates the jobs directory and then always fails without writing a job, unless the directory path happens to exist again inside the jobs directory. Given an absolute path it writes the jobs beside the settings file, not into the jobs directory, which stays empty.", "quantifier": "all paths, settings files and disks", "why_tests_cant": "all paths; the failing and the working form of a path differ only in the directory", "anchors": ["distribute_run.py:main"]}
{"id": "C102", "title": "joining tables from files", "statement": "join_hashtables on a directory with tables of one precision writes a table whose list under every number is the concatenation of the lists in the .pkl files in the order of the listing, and keeps everything else of the first object; other files in the directory are ignored and nothing else on the disk changes. An empty directory raises IndexError and tables of different precisions TypeError, without effect. An existing output file is overwritten although the message says the opposite; if the output lies in the directory itself, joining again doubles every list.", "quantifier": "all directories, tables and listings", "why_tests_cant": "all directories, tables and listings, in particular their order", "anchors": ["join_hashtables.py:main", "decimal_hashtable.py:DecimalHashTable.append_dict"]}
{"id": "C103", "title": "splitting, running and joining equals one run", "statement": "Split a search with distribute_run, run every job once, in any order and each in its own process, and join the tables with join_hashtables: this succeeds, and the joint table holds under every number the same entries as the table of a single run with the original settings; for the normal polynomial class also with the same multiplicities.", "quantifier": "all settings files, ranges, numbers of jobs, orders of the jobs, listings, and all orders of iteration over sets in every process", "why_tests_cant": "a relation between whole executions of several programs", "anchors": ["distribute_run.py:main", "main.py:main", "join_hashtables.py:main"]}
{"id": "C104", "title": "measuring the error of every convergent", "statement": "build_contfrac_errors(cf, n), after any use of cf, returns exactly one pair for each i = 1..n, in order. The second component is what gen_iterations(i) followed by compare_result() gives: the distance of the i-th convergent to the target up to rounding of relative size 4*2^-precision, or NaN where the convergent does not exist. The object is left as after gen_iterations(0). With zero-avoidance ZeroB is raised exactly if some b_i with i <= n is zero, with the first such i.", "quantifier": "all coefficients, targets, histories of calls, precisions and numbers of iterations", "why_tests_cant": "all objects and all previous uses of them; every one of the errors must be that of its own convergent", "anchors": ["gen_errors_for_nips.py:build_contfrac_errors", "process_and_compare.py:build_contfrac_errors"]}
{"id": "C105", "title": "the fraction for 1/(e/2-1) converges super-exponentially", "statement": "The continued fraction of gen_errors_for_nips with a_n = 2+2n, b_n = 4n is computed without an exception for every number n of iterations, and its n-th convergent differs from 1/(e/2-1) by at least 14/(n+4)! and at most 32/(n+4)!. The computed result has this value up to a relative error of 4*2^-precision.", "quantifier": "all numbers of iterations, histories and precisions", "why_tests_cant": "a rate of convergence to a real number, for all n; numerical runs only see rounded values of finitely many", "anchors": ["gen_errors_for_nips.py:cf1", "cont_fracs.py:ContFrac.gen_iterations"]}
{"id": "C106", "title": "the unknown fraction for 4/pi converges exponentially", "statement": "The continued fraction of gen_errors_for_nips with a_n = 1+3n, b_n = n(3-2n) converges to 4/pi from below; with D = (n^2+5n+5)(n^2+3n+1) the error of the n-th convergent is between sqrt(2n+3) 2^-(n+1)/D and 8 sqrt(n+1) 2^-(n+1)/D. It is computed without an exception for every n, up to a relative error of 4*2^-precision.", "quantifier": "all numbers of iterations, histories and precisions", "why_tests_cant": "a rate of convergence to a real number, for all n; numerical runs only see rounded values of finitely many", "anchors": ["gen_errors_for_nips.py:cf2", "cont_fracs.py:ContFrac.gen_iterations"]}
{"id": "C107", "title": "the known fraction for 4/pi converges exponentially", "statement": "The continued fraction of gen_errors_for_nips with a_n = 1+2n, b_n = n^2 converges to 4/pi; the error of the n-th convergent is between (2n+5)/((n+2)(n+3)) (4/25)^(n+1) and 4^-n/(n+2). It is computed without an exception for every n, up to a relative error of 4*2^-precision.", "quantifier": "all numbers of iterations, histories and precisions", "why_tests_cant": "a rate of convergence to a real number, for all n; numerical runs only see rounded values of finitely many", "anchors": ["gen_errors_for_nips.py:cf3", "cont_fracs.py:ContFrac.gen_iterations"]}
{"id": "C108", "title": "the fraction for pi+3 converges polynomially", "statement": "The continued fraction of gen_errors_for_nips with a_n = 6, b_n = (2n-1)^2 converges to pi+3, only with the third power of n: the error of the n-th convergent is between one half of and the whole of 1/((n+1)(n+2)(2n+3)). It is computed without an exception for every n, up to a relative error of 4*2^-precision.", "quantifier": "all numbers of iterations, histories and precisions", "why_tests_cant": "a rate of convergence to a real number, for all n; numerical runs only see rounded values of finitely many", "anchors": ["gen_errors_for_nips.py:cf4", "cont_fracs.py:ContFrac.gen_iterations"]}
{"id": "C109", "title": "evaluating a continued fraction from integer polynomials", "statement": "eval_contfrac_by_polys with integer coefficients of size at most 2^53 gives the result (or ZeroDivisionError) of the backward evaluation in double precision, whatever the working precision is; it is an integer if the depth is 1. So it does not have the accuracy of eval_dec_contfrac_by_polys at the working precision of 150 digits.", "quantifier": "all coefficient lists and depths", "why_tests_cant": "all coefficient lists and depths; that the working precision is ignored shows only at higher precisions than doubles", "anchors": ["cont_fracs.py:eval_contfrac_by_polys", "cont_fracs.py:eval_contfrac"]}
{"id": "C110", "title": "the digits of pi and e", "statement": "gen_pi_const and gen_e_const called with a precision of p digits, or without one while mpmath works with p digits, return pi and e with an error of less than 10^-p, for p from 1 to 150, and leave the working precision at p. The literals are much longer, but they are rounded at import: for every p above 150 the result is not accurate to p digits.", "quantifier": "all precisions, all previous states of mpmath and all digits of the literals after the first 200", "why_tests_cant": "transcendental numbers compared with literals at every precision and after any earlier state of the library", "anchors": ["gen_consts.py:gen_pi_const", "gen_consts.py:gen_e_const", "gen_consts.py:set_precision_decor"]}
{"id": "C111", "title": "the digits of the golden ratio and of the percolation thresholds", "statement": "gen_phi_const(p) is (1+sqrt(5))/2 with an error of less than 10^-p for p up to 103; gen_percolation_consts(p, 0) and (p, 1) are 1-2sin(pi/18) and 2sin(pi/18) with an error of less than 10^-p for p up to 98. With the 150 digits which are set at import none of them is accurate to 108 digits.", "quantifier": "all precisions and states of mpmath", "why_tests_cant": "irrational numbers compared with literals at every precision and after any earlier state of the library", "anchors": ["gen_consts.py:gen_phi_const", "gen_consts.py:gen_percolation_consts"]}
{"id": "C112", "title": "the digits of the zeta values", "statement": "For n from 2 to 20, gen_zeta_consts(p, n) is the sum of 1/k^n over all k >= 1 with an error of less than 10^-p for p up to 97, and gen_apery_const(p) is the one for n = 3 for p up to 106. With the 150 digits which are set at import none of them is accurate to 108 digits.", "quantifier": "all n, precisions and states of mpmath", "why_tests_cant": "infinite sums compared with literals at every precision and after any earlier state of the library", "anchors": ["gen_consts.py:gen_zeta_consts", "gen_consts.py:gen_apery_const"]}
{"id": "C113", "title": "the data of the plots of the four fractions", "statement": "gen_errors_for_nips, at its precision of 100 digits, hands to the regressions for the four fractions every iteration of the windows 31..65, 61..300, 31..130 and 31..130 (none falls under the threshold 1E-100) and to the plots every iteration from 1 to the end of the window, and each of these errors is within a tenth of the true distance between that convergent and the limit. For the third fraction (known fraction of 4/pi) a window ending later, up to 2000, would give the regression the same points.", "quantifier": "all four fractions, all points, all digits of the literals of pi and e after the first 200", "why_tests_cant": "needs the true distances to transcendental limits", "anchors": ["gen_errors_for_nips.py:analyze_contfrac", "gen_errors_for_nips.py:find_linear_fitting", "gen_errors_for_nips.py:plot_errors"]}
{"id": "C114", "title": "converting files of old results to pdf", "statement": "If old_enum_csv_to_pdf returns for a file of old results (a header with known functions and the target pi, e or euler_masch, a row of titles, and one row per result), the equations handed to LaTeX are, in the order of the rows, one per result whose first 400 partial numerators are non-zero, and no others: the left-hand side is an expression whose value is (u/x + x/l + c)/d, and the right-hand side is the power of the continued fraction (with its first coefficients) which the number in the row selects from the functions of the header. It returns for all files whose results use powers only; a result with another function makes the conversion fail.", "quantifier": "all files of that form, all targets and function lists", "why_tests_cant": "what the generated equations denote, for all files of that form and all integers u, l, c, d", "anchors": ["process_and_compare.py:old_enum_csv_to_pdf", "enum_params.py:MITM.get_results_as_eqns"]}
{"id": "C115", "title": "the name of the pdf of old results", "statement": "The pdf of old_enum_csv_to_pdf has the path of the csv file with all characters of the set '.', 'c', 's', 'v' removed at both ends, and nothing else. For STEM.csv this is STEM exactly if STEM neither starts nor ends with one of these characters; result.csv and results.csv are converted to the same pdf.", "quantifier": "all paths and files", "why_tests_cant": "all paths; the names are right for most stems and wrong for those that begin or end with certain letters", "anchors": ["process_and_compare.py:old_enum_csv_to_pdf"]}
{"id": "C116", "title": "the targets of files of old results", "statement": "old_enum_csv_to_pdf converts a file with at least one result only if its target (the argument, else the fourth field of the header, else pi) is e, pi or euler_masch: for every other target it raises an exception. In particular the targets with an index, 'feig, i' and 'percolation, i', are a TypeError for every i; a header with three fields is an IndexError, and a file exported by the current program is a ValueError.", "quantifier": "all targets, headers and files", "why_tests_cant": "all targets and headers; that every other target fails cannot be listed", "anchors": ["process_and_compare.py:old_enum_csv_to_pdf", "gen_consts.py:gen_feig_consts", "gen_consts.py:gen_percolation_consts"]}
{"id": "C117", "title": "loading a file of continued fractions", "statement": "load_cont_fracs returns one fraction per row of the form (numbers in [i, j, k] lists for a, the same for b, a formula starting with a digit, an operator, a bracket, a blank or x which python accepts, and a target pi, e or a decimal number in any case and with blanks around), in the order of the rows, and skips every other row; it fails (IndexError) exactly if some row ends although everything in it is in order, for instance an empty row. Of the lists printed by python only the polynomials with three coefficients are read: a shorter or longer one is dropped without notice, and the rows with tuples, as the enumeration writes them, are skipped.", "quantifier": "all files", "why_tests_cant": "arbitrary texts in all fields, each of which must be accepted or skipped", "anchors": ["process_and_compare.py:load_cont_fracs"]}
{"id": "C118", "title": "what loading a file evaluates", "statement": "Every text that load_cont_fracs hands to eval is 'lambda x: ' followed by the third field of a row, without the blanks around it, and this field starts with a digit, an operator, a bracket or x. Only the first character is checked: whatever follows it is handed to eval too, also if the row is skipped afterwards or the loading fails.", "quantifier": "all files", "why_tests_cant": "a security statement about every text in every row, also in rows that are skipped", "anchors": ["process_and_compare.py:load_cont_fracs"]}
{"id": "C119", "title": "the analysis of a file of continued fractions", "statement": "If analyze_contfracs_csv with the type 'cont_frac' returns, the two lists have one entry for each fraction of the file in order, namely what the estimates report for an object with the coefficients of its row and the value of its formula as target, and for the i-th fraction a figure DIR/NAME-i.png with the title 'NAME - ith row' was made beside the csv file. The number counts the loaded fractions: if rows before it are skipped, it is not the row of the file. With any other type, including the default 'enum_res', it raises an exception.", "quantifier": "all files, paths and types", "why_tests_cant": "arbitrary files and paths; skipped rows shift the numbers of the figures", "anchors": ["process_and_compare.py:analyze_contfracs_csv"]}
{"id": "C120", "title": "the points of the fit in the analysis of a file", "statement": "find_linear_fitting uses the errors from a position on that is found by halving 500 as long as the error there is below 1e-15 (down to 0), and of those the errors above the threshold; with at most 500 errors it is an IndexError. If numbers of mpmath do not compare with Decimals (TypeError), then analyze_contfracs_csv returns only for files without any fraction.", "quantifier": "all lists of errors and files", "why_tests_cant": "all lists of errors, of every length, and the exact condition under which the call fails", "anchors": ["process_and_compare.py:find_linear_fitting", "process_and_compare.py:analyze_contfracs_csv"]}
{"id": "C121", "title": "the older classification of the convergence", "statement": "is_poly_or_exp_approach fails with AttributeError whenever it takes two samples and numbers have no is_zero (as those of mpmath). With an is_zero, and exact arithmetic, results L + c(sr)^-i with r^2 above the threshold are classified 'exp' with the rate r, for every number of samples; 'fast' is answered exactly if no factor of the even results is known and the last three distances of the even and of the odd results are zero (so at least two samples were taken); if no factor of the even results is known and only the even or only the odd ones have settled so, it is 'undefined'; a ZeroDivisionError is raised if a factor of the even results is known and none of the odd ones. If factors of both are known, it is 'undefined' if the mean square deviation of one kind exceeds half its mean; otherwise 'exp' with the smaller root of the two means if both exceed the threshold, 'mixed' if one does, and 'poly2sympoly' if none does, on request with the smaller slope minus 1 and the smaller squared correlation of the regressions of the logarithms of the distances.", "quantifier": "all fractions, histories, sample positions and limits", "why_tests_cant": "all sequences of results and positions; the classification is a case distinction over means and spreads of arbitrary lists", "anchors": ["process_and_compare.py:is_poly_or_exp_approach"]}
{"id": "C122", "title": "what a whole search reports", "statement": "If a run with the operation 'use' and left-hand sides of the type ulcd ends without an exception and is not interrupted, then results.csv lists, in the order of the search, exactly the following: every entry of the table that is found for some enumerated left-hand side and whose fraction agrees with it in all three comparisons (with the numbers of iterations and digits of the settings), whose errors shrink, whose convergence is classified exponential or super-exponential and whose numerators have no positive integer root - unless it is equivalent to another entry that passed the same comparisons. Each entry that is missing fails one of these conditions. No two reported entries are equivalent. Each row shows the fraction, function, convergence and value of its entry, and results.tex has their equations.", "quantifier": "all tables, settings, constants and behaviours of the libraries", "why_tests_cant": "which entries are reported and which are missing, for all tables, settings and constants; a run takes hours", "anchors": ["main.py:main", "enum_params.py:MITM.find_clicks", "enum_params.py:MITM._refine_clicks", "enum_params.py:MITM.filter_clicks_by_approach_type"]}
{"id": "C123", "title": "runs with the configuration files that come with the program", "statement": "With mpmath numbers every run of main.py with one of the shipped configuration files, except config_apery_extend_hashtable.ini, ends with an exception and leaves the disk as it was, whatever table files are there: searches cannot look up their values and the table files of the shipped ranges and functions cannot be made. With any numbers, a search or an extension whose table file is missing or holds no table (as the hashtable_apery_v1.pkl of the repository, a pointer of git LFS) ends with an exception and leaves the disk as it was; in particular the command of the README, python main.py in a fresh checkout. The extension of the table for Apery's constant leaves the results and the list of table files as they are. Hence, from a disk without tables, no sequence of runs with the shipped files changes anything.", "quantifier": "all shipped files, directory listings, disks, orders of sets, times and behaviours of the remaining library calls", "why_tests_cant": "all disks and all sequences of runs; generating a table takes hours before it fails", "anchors": ["main.py:main", "configfile.py:ConfigParser", "config.ini", "README.md"]}
{"id": "C124", "title": "the configuration files for searches for e", "statement": "Each of config_e_search_-4_to_5.ini, config_e_search_inter_cubic.ini and config_e_search_inter_lin.ini does the same as the file of the same search for pi, for every disk: the same outcome, the same tables and the same files of results, except for what the copies of the settings say. The constant is that of the table file, and the files name the tables for pi.", "quantifier": "all disks, directory listings and behaviours of the libraries", "why_tests_cant": "the equality of two runs for every disk and every behaviour of the libraries", "anchors": ["main.py:main", "config_e_search_-4_to_5.ini", "config_e_search_inter_cubic.ini", "config_e_search_inter_lin.ini"]}
{"id": "C125", "title": "Brouncker's fraction for 4/pi+1", "statement": "The continued fraction with a_n = 2 and b_n = (2n-1)^2 is computed without an exception for every number of iterations, by a new object and by one that was used for another fraction and then reinitialized. It converges to 4/pi+1, slowly: the error of the n-th convergent is 4/pi^2 divided by a number from n to n+2, so that the threshold 8E-4 of the test of this fraction holds from 507 iterations on and for none up to 504. The value that the object gives is that convergent up to the working precision.", "quantifier": "all numbers of iterations, precisions and histories of the object", "why_tests_cant": "all numbers of iterations; the limit is a real number", "anchors": ["cont_fracs.py:gen_iterations", "cont_fracs.py:reinitialize", "tests/test_cont_fracs.py"]}
{"id": "C126", "title": "the fraction for e/(e-1)", "statement": "The continued fraction with a_n = 2+n and b_n = -n converges to e/(e-1), the error of the n-th convergent being between 1/3 and 5/4 of 1/(n+2)!; it is computed without an exception for every number of iterations, and the value of the object is the convergent up to the working precision.", "quantifier": "all numbers of iterations, precisions and histories of the object", "why_tests_cant": "all numbers of iterations; the limit is a real number", "anchors": ["cont_fracs.py:gen_iterations", "cont_fracs.py:reinitialize", "tests/test_cont_fracs.py"]}
{"id": "C127", "title": "the fraction for the golden ratio", "statement": "The continued fraction with a_n = b_n = 1 converges to the golden ratio g, the error of the n-th convergent being between g^-(2n+1) and g^-2n; it is computed without an exception for every number of iterations, and the value of the object is the convergent up to the working precision.", "quantifier": "all numbers of iterations, precisions and histories of the object", "why_tests_cant": "all numbers of iterations; the limit is a real number", "anchors": ["cont_fracs.py:gen_iterations", "cont_fracs.py:reinitialize", "tests/test_cont_fracs.py"]}
{"id": "C128", "title": "the interlaced fraction for 2^(1/12)+1", "statement": "The interlaced continued fraction with a_n = 2 and 12n and b_n = 6n-1 and 6n-5 in turn converges to 2^(1/12)+1 exponentially, the error of the n-th convergent being between 8^-n/18 and 4^-n/9; it is computed without an exception for every number of iterations, and the value of the object is the convergent up to the working precision.", "quantifier": "all numbers of iterations, precisions and histories of the object", "why_tests_cant": "all numbers of iterations; the limit is a real number", "anchors": ["cont_fracs.py:gen_iterations", "cont_fracs.py:reinitialize", "tests/test_cont_fracs.py"]}
{"id": "C129", "title": "what the test of the continued fractions checks", "statement": "For each of the six fractions of test_contfrac, with its number of iterations or any larger one, at 53 bits or any higher precision and whatever the object was used for before, the value that the object gives differs from the limit (as a real number) by less than the threshold of the test.", "quantifier": "all numbers of iterations from that of the test on, precisions of at least 53 bits, histories of the object", "why_tests_cant": "the test takes one number of iterations at one precision, and compares with a rounded limit", "anchors": ["cont_fracs.py:gen_iterations", "cont_fracs.py:reinitialize", "tests/test_cont_fracs.py"]}
{"id": "C130", "title": "runs with the configuration files of the tests", "statement": "With mpmath numbers every run of main.py with one of the four configuration files in tests/fixtures (the two sanity checks for Apery's constant, the one for pi, the benchmark) ends with an exception and leaves the disk as it was, whatever is on it: their tables cannot be made, as their functions include inverses. Hence, from a disk without tables, no sequence of runs with these files and the shipped ones in any order changes anything.", "quantifier": "all four files, directory listings, disks, orders of sets and behaviours of the remaining library calls, all sequences of runs", "why_tests_cant": "all disks and all sequences of runs; test_main.py is empty", "anchors": ["main.py:main", "enum_params.py:MITM.build_hashtable", "postprocfuncs.py:safe_inverse", "tests/fixtures/pi_sanitycheck_config.ini", "tests/fixtures/apery_sanitycheck_config.ini"]}
{"id": "C131", "title": "what the sanity checks look for", "statement": "The ranges of the sanity check for pi enumerate the fraction a_n = 1+2n, b_n = n^2 (whose limit is 4/pi) and no other one; those of the sanity check for Apery's constant include a_n = 3n^3+10n^2+8n+2, b_n = 4n^6-2n^5. That fraction is computed without an exception for every number of iterations and converges to 5/(2 zeta(3)), the left-hand side in the file: the error of the n-th convergent is between 3 and 9/2 times (n+2)!^2/((n+2)^3 (2n+4)!), which falls at least by a factor of 4 with each step. The value of the object is the convergent up to the working precision.", "quantifier": "all numbers of iterations, precisions, histories of the object, orders of sets and directory listings", "why_tests_cant": "all numbers of iterations; the limit is a real number", "anchors": ["enum_poly_params.py:SparseParameterEnumPolyParams", "cont_fracs.py:gen_iterations", "tests/fixtures/pi_sanitycheck_config.ini", "tests/fixtures/apery_sanitycheck_config.ini"]}
{"id": "C132", "title": "every answer of the classification with six or more known factors", "statement": "With exact arithmetic, and if at least six factors of the even results and one of the odd ones are known, the classification of the convergence is: 'undefined' if the error of the mean factor of one kind exceeds half the mean and not all factors in the last quarters exceed 2; otherwise 'mixed' if one of the two mean factors exceeds 1.1, exponential or (if a kind has that large error) super-exponential if both do, with the smaller root of the two means as base and the smaller of the two mean values of |distance| b^k/(1-b^-2) as factor, and polynomial if none does. A polynomial answer has the smaller size of the two slopes of the regressions of the logarithms minus 1, the smaller constant and the smaller squared correlation, where the figures of the even results are kept if a number is missing; instead a ValueError is raised if a position is not positive or a distance is 0.0 as a float.", "quantifier": "all results, sample positions and behaviours of the regression", "why_tests_cant": "all sequences of results and positions, and every behaviour of the regression; the boundaries between the answers depend on means and deviations of arbitrary lists", "anchors": ["cont_fracs.py:estimate_approach_type_and_params"]}
{"id": "C133", "title": "the Taylor series for cosine and sine", "statement": "With a context whose precision is at least 1 digit (postprocfuncs.py itself provides none, so that sin, cos and tan of its table fail with NameError), and rounding to the nearest number with the digits of the context, dec_cos and dec_sin end for every finite argument, with one result, and leave the precision of the context as it was. The result after n rounds differs from the cosine (sine) of the argument, as a real number, by at most B^(1-prec) times |cos x| (|sin x|) plus (12n+8)/B^2 e^|x|, where B is the base and 8(3n+1) is at most B^(prec+1). Arguments between -1 and 1 take at most k rounds if (2k)! is at least 30 B^(prec+2) and 16(3k+1) is at most B^(prec+1).", "quantifier": "all arguments, bases, precisions and ways to round ties", "why_tests_cant": "whether a loop that waits for a sum to stay the same ends is a question about all arguments and precisions; the distance to a real number cannot be read off floating-point results", "anchors": ["postprocfuncs.py:dec_cos", "postprocfuncs.py:dec_sin"]}
{"id": "C134", "title": "the stored results are equations", "statement": "Every result in the files results/OldResults/results_*.csv is a true equation: all convergents of the continued fraction with the stored polynomials exist, they converge, and the stored function of their limit is exactly (u/x + x/l + c)/d with the stored u, l, c, d at the constant x that the header names (pi, e, or one of the two percolation constants). In the oldest file, results.csv, this holds for the rows in which l and the first coefficient of a have the same sign; the other six rows give the negative of the value. An object that stands for the fraction of any stored result computes without an exception for every number of iterations, and from some number on its result differs from the limit by at most 5 units of the precision (relative).", "quantifier": "all rows of all stored files; all numbers of iterations, precisions and histories of the object", "why_tests_cant": "the equality of two real numbers, and the limit of infinitely many convergents, cannot be settled by computing digits", "anchors": ["results/OldResults", "cont_fracs.py:gen_iterations", "lhs_evaluators.py:ULCDEvaluator", "postprocfuncs.py"]}
{"id": "C135", "title": "converting the stored results", "statement": "old_enum_csv_to_pdf ends with an exception for every file in results/OldResults that has a result, whatever target the caller names and whatever is in the columns behind the seventh: either the functions of the header are not known any more, or the target is a list of constants, or one of the results is about the inverse of a fraction. Of the files without results, those for the target euler are an UnboundLocalError, the one for percolation, 1 is a ValueError, and from the others there are no equations. The oldest file is a ValueError.", "quantifier": "all stored files, titles, further columns, targets and paths", "why_tests_cant": "all possible targets and further columns; no test converts a stored file", "anchors": ["process_and_compare.py:old_enum_csv_to_pdf", "results/OldResults"]}
{"id": "C136", "title": "what agreeing digits mean", "statement": "If numbers have the texts of Decimals with their values, two numbers below 1 whose texts agree in the first a+2 characters are less than 10^-a apart, or both are below 10^-6. Hence for every row that a whole search over fractional parts writes into its results.csv, the value of its post-processed fraction at the last comparison and the left-hand side of the row agree to within 10^-a, but not better than 10^-6, where a is the third filtering precision, or they are almost 1 apart - up to an explicit bound for the rounding of the left-hand side. Asking for more digits gives no more for small fractional parts: for every a there are Decimals with the same first a+2 characters more than 10^-10 apart. And numbers that are as close as one likes can have different digits from the first on, so that an equation can be missed.", "quantifier": "all Decimals, numbers of digits, working precisions of at least 4 bits, files, tables and behaviours of the library calls", "why_tests_cant": "all numbers and all numbers of digits; the tests compare a few fixed values", "anchors": ["enum_params.py:compare_dec_with_accuracy", "enum_params.py:MITM.refine_clicks", "decimal_hashtable.py", "main.py:main"]}
{"id": "C137", "title": "fractions that differ by a factor", "statement": "Multiplying all coefficients of a by an integer k other than 0 and all of b by its square multiplies every finite fraction exactly by k; one is undefined where the other is. Objects for the two fractions, whatever they were used for, raise the same exception at the same level or none; if k is a power of two the second result is exactly k times the first, and otherwise they are v and k v up to the working precision. The equation that the first fraction is (u/x + x/l + c)/(k d) and the equation that the second is (u/x + x/l + c)/d are the same equation, but unless k is 1 or -1 they are never recognised as equivalent, by neither kind of left-hand side, so that a list with both is kept as it is by filter_uniq_params.", "quantifier": "all coefficients, factors, numbers of iterations, precisions, histories of the objects and left-hand sides", "why_tests_cant": "all factors and numbers of iterations", "anchors": ["cont_fracs.py:gen_iterations", "lhs_evaluators.py:is_equiv", "enum_params.py:MITM.filter_uniq_params"]}
{"id": "C138", "title": "fractions with positive coefficients", "statement": "If all a_i and b_i with i >= 1 are positive, every finite fraction is defined, the even ones lie below the odd ones, and all later ones lie between two consecutive ones. Hence, whatever an object was used for, its results after n and n+1 iterations bound those after any m >= n iterations: they differ from the first by at most the difference of the two, up to the working precision. If c^2 b_(i+1) <= a_i a_(i+1) throughout, each two further iterations divide the difference of consecutive finite fractions by at least 1+2c (exponential convergence). If the polynomials of b have degree at most 2p+2, where p is the least degree of those of a, the finite fractions converge. For higher degrees they need not: with a_n = 1 and b_n = n(n+1)^2(n+2) consecutive ones always differ by at least 1/2.", "quantifier": "all polynomials, interlaced or not, that are positive at the positive integers; all numbers of iterations, precisions and histories of the object", "why_tests_cant": "convergence concerns infinitely many iterations; the bound is for all later numbers of iterations", "anchors": ["cont_fracs.py:gen_iterations", "cont_fracs.py:get_result"]}
{"id": "C139", "title": "fractions whose denominators outweigh their numerators", "statement": "If b_i is not 0 and |a_i| is at least |b_i|+1 for every i >= 1 - with any signs - every finite fraction is defined and within 1 of a_0, and all finite fractions from the n-th on are less than 1/(n+1) from the n-th, so that they converge. Objects for such a fraction, whatever they were used for, compute without an exception, and the results after n and after any m >= n iterations differ by at most 1/(n+1) and the rounding. With |b_i| equal to |a_i| a finite fraction can be undefined.", "quantifier": "all polynomials, interlaced or not, with that property; all numbers of iterations, precisions and histories of the object", "why_tests_cant": "convergence concerns infinitely many iterations; the bound is for all later numbers of iterations", "anchors": ["cont_fracs.py:gen_iterations", "cont_fracs.py:get_result"]}
{"id": "C140", "title": "fractions that are not rational", "statement": "If |a_i| is at least |b_i|+2 and b_i is not 0 for every i >= 1, or if all a_i and b_i with i >= 1 are positive and b_i is at most a_i, the limit of the fraction is not a rational number: for every rational r the finite fractions keep a fixed distance from r from some number of levels on. The results of objects do so too, if the precision and the number of iterations are large enough, so that no equation with a rational left-hand side passes all checks. The two conditions cannot be weakened by 1: 2-1/(2-1/(2-...)) is 1 and 1+2/(1+2/(1+...)) is 2.", "quantifier": "all polynomials, interlaced or not, with that property; all rational numbers; all sufficiently large precisions and numbers of iterations, all histories of the object", "why_tests_cant": "irrationality concerns all rational numbers and the limit of infinitely many iterations", "anchors": ["cont_fracs.py:gen_iterations", "cont_fracs.py:get_result"]}
{"id": "C141", "title": "what an interrupted search reports", "statement": "If the user interrupts the last stage of a search (with left-hand sides of the type ulcd and a table file that is used), the files are written all the same. An interrupt during the last comparison, after n results, leaves the results that passed the first two comparisons and the filters between them: of the first n, those that the last comparison confirmed are adjusted, those that it refuted stay in the list unchanged, and so does everything it did not reach, so that wrong results can be reported. An interrupt later leaves exactly the results that pass all three comparisons, possibly with equivalent ones or with ones whose numerators have positive integer roots, if the step that removes them was not done. Whatever the moment, every reported result has passed the first two comparisons and the filters.", "quantifier": "all tables, settings, constants and behaviours of the libraries; all moments of the interrupt between two results or two steps of the last stage", "why_tests_cant": "the reported list for every possible moment of an interrupt in a run that takes hours", "anchors": ["main.py:main", "enum_params.py:MITM._refine_clicks", "enum_params.py:MITM.filter_uniq_params"]}
{"id": "C142", "title": "configuration files that are written are read back", "statement": "The text written for sections and settings is read as the same sections and settings in the same order, if names and values are good: names of settings in lower case, without equality signs, colons and line ends and not beginning like a comment or a header; values without blanks around, their lines without blanks around and none but the first beginning like a comment. A loaded configuration whose texts are on one line, have no blanks around and no percent signs is saved without an exception, and loading the text of the file has the same result as loading the settings that were saved; the same holds for the files of distribute_run.py. Percent signs break this: a name of a table with a lone percent sign, which a file can give by doubling it, makes saving raise ValueError after the results have been written, and with two of them in a row the file that is saved names another table.", "quantifier": "all sections, settings and values with these properties; all loaded configurations; all directories", "why_tests_cant": "all texts that can be written", "anchors": ["configfile.py:ConfigParser", "main.py:main", "distribute_run.py:main"]}
{"id": "C143", "title": "what a configuration file means", "statement": "A line whose first character other than blanks is a hash or a semicolon says nothing, wherever it stands, even inside a value of several lines. A setting given twice in a section is an error, whatever is between the two. So is a setting before the first section. A semicolon after a value does not begin a comment: it is part of the value. A setting that is indented more than the one before it is part of the value of that one.", "quantifier": "all texts before, between and after these lines", "why_tests_cant": "the text of a configuration file is arbitrary", "anchors": ["configfile.py:ConfigParser"]}
{"id": "C144", "title": "the texts of the configuration files that come with the program", "statement": "Loading the text of each configuration file that comes with the program, and of each of its tests, byte for byte, has the same result as loading the list of settings about which the other claims speak.", "quantifier": "all these files; all directories with tables", "why_tests_cant": "which version of a table is chosen depends on the directory, which is arbitrary", "anchors": ["config.ini", "configfile.py:ConfigParser"]}
{"id": "C145", "title": "csv files that are written are read back", "statement": "Rows of texts written to a csv file are the rows that reading the file gives, whatever commas, quotes and newlines the texts contain, and also if rows are empty or have one empty text. Texts with carriage returns are in their places too, with each line end turned into a newline. So different results give different files, and the file of the results of a search has the name of the target, nine titles and nine fields for each result.", "quantifier": "all lists of lists of texts; all ways in which polynomials, functions and kinds of convergence are printed", "why_tests_cant": "which characters the texts contain is arbitrary", "anchors": ["enum_params.py:MITM.export_to_csv", "process_and_compare.py:old_enum_csv_to_pdf"]}
{"id": "C146", "title": "the texts of the stored results", "statement": "Reading each of the stored files of results, byte for byte, gives the results about which the other claims speak, followed by further columns, after a row with the functions and the target and a row with titles. Converting a stored file that has results is an error, whatever target is given.", "quantifier": "all these files; all targets; all values of the constants", "why_tests_cant": "the conversion is run for arbitrary targets and constants", "anchors": ["process_and_compare.py:old_enum_csv_to_pdf", "results/OldResults/results.csv"]}
{"id": "C147", "title": "the constant that a table is stored with", "statement": "A run that generates or expands a table for one of the constants e, pi, phi and apery stores with the table the name of the constant and a generator whose numbers, for every precision up to 97 digits, have the digits of this constant: of the base of the natural logarithms, of the circle number, of the golden ratio, of the sum of the inverse cubes. This also holds when a table made for another constant is expanded.", "quantifier": "all settings; all contents of the disk; all precisions from 1 to 97 digits", "why_tests_cant": "the statement is about real numbers that are limits", "anchors": ["main.py:main", "gen_consts.py:gen_phi_const", "gen_consts.py:gen_pi_const"]}
{"id": "C148", "title": "what the settings of a configuration file say", "statement": "Loading a configuration file has the result of loading what its settings say: in each section other than DEFAULT its own settings and then the defaults that it does not set, with two percent signs standing for one and %(name)s for what the setting of that name, in any case of letters, says in the same section, its own value before the default. Each value says one thing at most. If a value says nothing - it refers anywhere to a setting that does not exist, has a percent sign that begins neither two percent signs nor a reference, or refers to itself directly or by way of others - loading the file raises an exception. So do eleven references in a row without a circle; ten do not.", "quantifier": "all texts of configuration files; all directories with tables", "why_tests_cant": "the text of a configuration file is arbitrary", "anchors": ["configfile.py:ConfigParser"]}
{"id": "C149", "title": "the texts that the analysis of continued fractions reads", "statement": "Fractions printed as python lists of polynomials with three coefficients, each with a formula without blanks and pi or e, and written as a csv file, are loaded from the text of the file, all of them and in order. The csv file with the results of a search, given to the same analysis, is read without an exception, but whatever the results are, none is analysed: the answer is empty and no figure is made.", "quantifier": "all lists of such fractions; all results of searches, however polynomials are printed; all paths", "why_tests_cant": "the text of a csv file is arbitrary", "anchors": ["process_and_compare.py:load_cont_fracs", "process_and_compare.py:analyze_contfracs_csv", "enum_params.py:MITM.export_to_csv"]}
{"id": "C150", "title": "what a csv file says, whoever wrote it", "statement": "A csv file in which each field stands without quotes, if it has no comma or line end and does not begin with a quote, or in quotes with the quotes inside doubled and possibly with further characters after the closing quote, and whose rows end with a newline, a carriage return or both, is read as these rows and fields; a blank line is a row without fields, and the line end after the last row may be missing. Hence such a text has one reading only.", "quantifier": "all texts of this form, with fields that have no carriage returns", "why_tests_cant": "the text of a csv file is arbitrary", "anchors": ["process_and_compare.py:load_cont_fracs", "process_and_compare.py:old_enum_csv_to_pdf"]}
